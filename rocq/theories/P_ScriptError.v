(** Property theorems, generated from ScriptErrorThm.v by tools/mkp.py. *)

From Coq Require Import ZArith List String.
From Verif Require Import Base PixelBuffer F32 Color Codec Names Image Commands Cli CliSpec PyImage PyColor ReopenSpec EndSpec StepsSpec.
From Verif Require Text.
Import ListNotations.
Open Scope string_scope.

From Verif Require Import ScriptErrorThm.


(** C128: a line that makes an image with at least one pixel grey by an unknown
    name ends the program, whatever lines follow: with an exception that tells
    the name and the type, and with the files and random numbers as they were. *)

Theorem C128_unknown_name_ends_program : forall R (e : env R) name ls s r i line, (forall v, ~ In (name, v) intensity_names) -> data (buffer i) <> [] ->
  In line [LineModColors (ToGray (Some name)); LineMapColors (ToGray (Some name))] ->
  run_lines e (line :: ls) s r i = Ok (s, r, RErr (OSErrorName (mkPEE name "Intensity"))) /\
  forall path, py_open (e_build e) (e_dec e) (e_libm e) s path = Ok (ROk i) -> run_script e path (line :: ls) s r = Ok (s, r, RErr (OSErrorName (mkPEE name "Intensity"))).
Proof. exact unknown_name_ends_program. Qed.
Print Assumptions C128_unknown_name_ends_program.

Example C128_unknown_name_example : forall v, ~ In ("gray", v) intensity_names.
Proof. exact unknown_name_example. Qed.
