(** Property theorems, generated from LineThm.v by tools/mkp.py. *)

From Coq Require Import Reals ZArith List String.
From Flocq Require Import IEEE754.BinarySingleNaN.
From Verif Require Import Base PixelBuffer F32 Color ColorSpec MeaningSpec Image Commands Codec CodecSpec Cli CliSpec EndSpec ReopenSpec LineSpec IdealPowf IdealLibm.
Import ListNotations.
Open Scope R_scope.

From Verif Require Import LineThm.


(** C134: any sequence of changes of tone recolours each pixel by the composed formula, with the sum of the rounding errors, and keeps its transparency. *)

Theorem C134_tone_line : forall L cmds F K E, accurate_powf L -> tones cmds F K E ->
  exists g, recolouring L cmds g /\ forall c, in_gamut c -> in_gamut (g c) /\ channelwise E F c (g c).
Proof. exact tone_line. Qed.
Print Assumptions C134_tone_line.


(** C134: the composed formula stays in the range of colours and makes no difference more than [K] times as large. *)

Theorem C134_tone_formula : forall cmds F K E, tones cmds F K E ->
  (forall v, 0 <= v <= 1 -> 0 <= F v <= 1) /\ (forall u v, 0 <= u <= 1 -> 0 <= v <= 1 -> Rabs (F u - F v) <= K * Rabs (u - v)).
Proof. exact tone_formula. Qed.
Print Assumptions C134_tone_formula.


(** C134: from file to file: each stored sample is the byte of the composed formula. *)

Theorem C134_tone_line_program : forall S (e : env S) text number args wo input output w h raw cmds F K E,
  ready e wo input output w h raw -> command_line text number true (tl args) (CmdOpen input :: cmds ++ [CmdSave output]) -> tones cmds F K E ->
  program_recolours e text number args wo w h raw output (each_channel (line_error K E) F).
Proof. exact tone_line_program. Qed.
Print Assumptions C134_tone_line_program.


(** C134: n changes of brightness by k, up or down, are one change by n k. *)

Theorem C134_repeated_brightness : forall S (e : env S) text number args wo input output w h raw k n,
  ready e wo input output w h raw -> moderate k ->
  command_line text number true (tl args) (CmdOpen input :: repeat (CmdBrightness k) n ++ [CmdSave output]) ->
  program_recolours e text number args wo w h raw output (each_channel (line_error 1 (INR n * / 2 ^ 24)) (fun v => limited (v + INR n * B2R k))).
Proof. exact repeated_brightness. Qed.
Print Assumptions C134_repeated_brightness.


(** C134: the order matters: brightness and contrast in the other order make something else of a middle grey. *)

Theorem C134_order_of_tones_matters : exists b k F F' K K' E E', tones [CmdBrightness b; CmdContrast k] F K E /\ tones [CmdContrast k; CmdBrightness b] F' K' E' /\
  F (/ 2) = 1 /\ F' (/ 2) = 3 / 4.
Proof. exact order_of_tones_matters. Qed.
Print Assumptions C134_order_of_tones_matters.

Example C134_tone_line_example : forall S (g : Ops.rng S) s L, let e := mkEnv S (ideal_libm L) Checked g plain_encoders plain_decoders in
  ready e (mkWorld end_fs s []) "in.png" "out.png" 2 1 example_raw /\
  command_line (fun t => t) (fun t => if String.eqb t "2.0" then Some f2 else None) true (tl ["d10"; "in.png"; "-invert"; "-contrast"; "2.0"; "-invert"; "out.png"]%string)
    (CmdOpen "in.png" :: [CmdInvert; CmdContrast f2; CmdInvert] ++ [CmdSave "out.png"]) /\
  exists F K E, tones [CmdInvert; CmdContrast f2; CmdInvert] F K E /\ line_error K E <= / 40 /\
    forall v, 0 <= v <= 1 -> F v = limited ((v - / 2) * 2 + / 2).
Proof. exact tone_line_example. Qed.
