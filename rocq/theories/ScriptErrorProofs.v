(** Exceptions in Python programs (C128). *)
From Coq Require Import ZArith List String.
From Verif Require Import Base PixelBuffer F32 Color Image Commands Cli CliSpec PyImage PyColor ScriptSpec.
From Verif Require Text.
Import ListNotations.

Lemma unknown_line {R} (e : env R) name x ls s r i line : (forall c, Text.py_to_gray c (Some name) = RErr x) -> data (buffer i) <> [] ->
  In line [LineModColors (ToGray (Some name)); LineMapColors (ToGray (Some name))] -> run_lines e (line :: ls) s r i = Ok (s, r, RErr (OSErrorName x)).
Proof.
  intros H N I. destruct (data (buffer i)) as [|c l] eqn:D; [congruence|]. cbn [run_lines].
  destruct I as [<-|[<-|[]]]; unfold run_line; cbv zeta; [unfold py_mod_colors, try_mod_colors|unfold py_map_colors, image_try_map_colors, try_map_colors]; rewrite D;
    cbn [try_mod_list try_map_st bind]; unfold py_method_call; rewrite H; reflexivity.
Qed.
