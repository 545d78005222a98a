(** C134: a command line with several changes of tone computes one formula after the other. *)
From Coq Require Import Reals ZArith List String.
From Flocq Require Import IEEE754.BinarySingleNaN.
From Verif Require Import Base PixelBuffer F32 Color ColorSpec MeaningSpec Image Commands Codec CodecSpec Cli CliSpec EndSpec ReopenSpec LineSpec IdealPowf IdealLibm.
Import ListNotations.
Open Scope R_scope.

(* PROPERTIES *)
From Coq Require Import Lia Lra.
From Verif Require Import F32Lemmas Approx HueThm EndProofs EndThm LineProofs.
Open Scope R_scope.

(** C134: any sequence of changes of tone recolours each pixel by the composed formula, with the sum of the rounding errors, and keeps its transparency. *)
Lemma tone_line : forall L cmds F K E, accurate_powf L -> tones cmds F K E ->
  exists g, recolouring L cmds g /\ forall c, in_gamut c -> in_gamut (g c) /\ channelwise E F c (g c).
Proof. intros L cmds F K E A T. destruct (line_of L A cmds F K E T) as (_ & _ & _ & g & R & H). exists g. split; [exact R|exact H]. Qed.
(** C134: the composed formula stays in the range of colours and makes no difference more than [K] times as large. *)
Lemma tone_formula : forall cmds F K E, tones cmds F K E ->
  (forall v, 0 <= v <= 1 -> 0 <= F v <= 1) /\ (forall u v, 0 <= u <= 1 -> 0 <= v <= 1 -> Rabs (F u - F v) <= K * Rabs (u - v)).
Proof. intros cmds F K E T. destruct (line_of (ideal_libm step_powf) ltac:(apply (hue_operations_example step_powf)) cmds F K E T) as (_ & I & LI & _). split; [exact I|exact LI]. Qed.
(** C134: from file to file: each stored sample is the byte of the composed formula. *)
Lemma tone_line_program : forall S (e : env S) text number args wo input output w h raw cmds F K E,
  ready e wo input output w h raw -> command_line text number true (tl args) (CmdOpen input :: cmds ++ [CmdSave output]) -> tones cmds F K E ->
  program_recolours e text number args wo w h raw output (each_channel (line_error K E) F).
Proof. intros S e text number args wo input output w h raw cmds F K E R C T. exact (line_files e text number args wo input output w h raw cmds F K E F R C T (fun v _ => eq_refl)). Qed.
(** C134: n changes of brightness by k, up or down, are one change by n k. *)
Lemma repeated_brightness : forall S (e : env S) text number args wo input output w h raw k n,
  ready e wo input output w h raw -> moderate k ->
  command_line text number true (tl args) (CmdOpen input :: repeat (CmdBrightness k) n ++ [CmdSave output]) ->
  program_recolours e text number args wo w h raw output (each_channel (line_error 1 (INR n * / 2 ^ 24)) (fun v => limited (v + INR n * B2R k))).
Proof.
  intros S e text number args wo input output w h raw k n R M C.
  exact (line_files e text number args wo input output w h raw _ _ _ _ _ R C (brighter_tones k n M) (fun v V => brighter_sum (B2R k) n v V)).
Qed.
(** C134: the order matters: brightness and contrast in the other order make something else of a middle grey. *)
Lemma order_of_tones_matters : exists b k F F' K K' E E', tones [CmdBrightness b; CmdContrast k] F K E /\ tones [CmdContrast k; CmdBrightness b] F' K' E' /\
  F (/ 2) = 1 /\ F' (/ 2) = 3 / 4.
Proof.
  assert (Mb : moderate (dec 1 4)). { split; [reflexivity|]. fval (dec 1 4) Q. rewrite Q. apply Rabs_le_iff. lra. }
  assert (Mk : moderate f2) by apply (hue_operations_example step_powf).
  exists (dec 1 4), f2. do 6 eexists. split; [apply tn_brightness; [exact Mb|]; apply tn_contrast; [exact Mk|]; constructor|].
  split; [apply tn_contrast; [exact Mk|]; apply tn_brightness; [exact Mb|]; constructor|]. cbv beta. fval (dec 1 4) Q. rewrite Q, f2_R. split.
  - unfold limited, Rmin, Rmax. repeat destruct (Rle_dec _ _); lra.
  - unfold limited, Rmin, Rmax. repeat destruct (Rle_dec _ _); lra.
Qed.

Example tone_line_example : forall S (g : Ops.rng S) s L, let e := mkEnv S (ideal_libm L) Checked g plain_encoders plain_decoders in
  ready e (mkWorld end_fs s []) "in.png" "out.png" 2 1 example_raw /\
  command_line (fun t => t) (fun t => if String.eqb t "2.0" then Some f2 else None) true (tl ["d10"; "in.png"; "-invert"; "-contrast"; "2.0"; "-invert"; "out.png"]%string)
    (CmdOpen "in.png" :: [CmdInvert; CmdContrast f2; CmdInvert] ++ [CmdSave "out.png"]) /\
  exists F K E, tones [CmdInvert; CmdContrast f2; CmdInvert] F K E /\ line_error K E <= / 40 /\
    forall v, 0 <= v <= 1 -> F v = limited ((v - / 2) * 2 + / 2).
Proof.
  intros S g s L e. destruct (ready_example S g s L) as (R & FI & FO & _). split; [exact R|]. split.
  { cbn [tl app]. apply cl_first; [exact FI|]. apply (cl_plain _ _ _ _ "invert"); [reflexivity|right; split; reflexivity|].
    apply (cl_with _ _ _ _ "contrast"); [reflexivity|apply opt_contrast; reflexivity|]. apply (cl_plain _ _ _ _ "invert"); [reflexivity|right; split; reflexivity|]. apply cl_later; [exact FO|constructor]. }
  do 3 eexists. split; [apply tn_invert, tn_contrast; [apply (hue_operations_example L)|]; apply tn_invert, tn_nothing|]. rewrite f2_R, (Rabs_right 2) by lra. split.
  - unfold line_error, Rmax. destruct (Rle_dec _ _); lra.
  - intros v V. unfold limited, Rmin, Rmax. repeat destruct (Rle_dec _ _); lra.
Qed.
