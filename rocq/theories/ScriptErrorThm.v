(** Exceptions in Python programs (C128). *)
From Coq Require Import ZArith List String.
From Verif Require Import Base PixelBuffer F32 Color Codec Names Image Commands Cli CliSpec PyImage PyColor ReopenSpec EndSpec StepsSpec.
From Verif Require Text.
Import ListNotations.
Open Scope string_scope.

(* PROPERTIES *)
From Verif Require Import CliThm ScriptErrorProofs.

(** C128: a line that makes an image with at least one pixel grey by an unknown
    name ends the program, whatever lines follow: with an exception that tells
    the name and the type, and with the files and random numbers as they were. *)
Lemma unknown_name_ends_program : forall R (e : env R) name ls s r i line, (forall v, ~ In (name, v) intensity_names) -> data (buffer i) <> [] ->
  In line [LineModColors (ToGray (Some name)); LineMapColors (ToGray (Some name))] ->
  run_lines e (line :: ls) s r i = Ok (s, r, RErr (OSErrorName (mkPEE name "Intensity"))) /\
  forall path, py_open (e_build e) (e_dec e) (e_libm e) s path = Ok (ROk i) -> run_script e path (line :: ls) s r = Ok (s, r, RErr (OSErrorName (mkPEE name "Intensity"))).
Proof.
  intros R e name ls s r i line U N I.
  assert (E : run_lines e (line :: ls) s r i = Ok (s, r, RErr (OSErrorName (mkPEE name "Intensity")))).
  { apply (unknown_line e name); auto. intros c. unfold Text.py_to_gray. destruct names_exact as ((_ & _ & H & _) & _). rewrite (H name U). reflexivity. }
  split; [exact E|]. intros path O. unfold run_script. rewrite O. cbn [bind]. exact E.
Qed.
Example unknown_name_example : forall v, ~ In ("gray", v) intensity_names.
Proof. intros v H. vm_compute in H. intuition congruence. Qed.
