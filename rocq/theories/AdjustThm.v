(** C132: neutral settings, repeated adjustments and undoing them. *)
From Coq Require Import Reals ZArith List String.
From Flocq Require Import IEEE754.BinarySingleNaN.
From Verif Require Import Base PixelBuffer F32 Color ColorSpec MeaningSpec DrawSpec LanczosSpec Image Commands PySpec PyColor ScriptSpec Codec CodecSpec Cli CliSpec EndSpec ReopenSpec MethodSpec AdjustSpec IdealPowf IdealLibm.
Import ListNotations.
Open Scope R_scope.

(* PROPERTIES *)
From Coq Require Import Lia Lra.
From Verif Require Import F32Lemmas Approx AdjustProofs MethodProofs HueThm DrawMeanThm EndProofs EndThm.
Open Scope R_scope.

(** C132: a method with neutral settings changes no channel by more than 2^-14, and not the transparency. *)
Lemma neutral_settings : forall L f c, accurate_powf L -> bounded_powf L -> neutral f -> in_gamut c ->
  exists o, py_method_call L f c = ROk o /\ channelwise (/ 2 ^ 14) (fun v => v) c o.
Proof.
  intros L f c A B N G. destruct (method_computes L f c G (neutral_reasonable L f A B N)) as (o & E & F). exists o. split; [exact E|].
  exact (neutral_formula L f c o N G F).
Qed.
(** C132: brightness 0 changes no channel at all. *)
Lemma neutral_brightness : forall c, in_gamut c -> channelwise 0 (fun v => v) c (with_brightness f0 c).
Proof. exact brightness_zero. Qed.
(** C132: vibrance 0 changes no channel of an opaque colour by more than 2^-13. *)
Lemma neutral_vibrance : forall L c, accurate_sine L -> in_gamut c -> d3 c = f1 -> channelwise (/ 2 ^ 13) (fun v => v) c (with_vibrance L f0 c).
Proof. exact vibrance_neutral. Qed.
(** C132: a command with neutral settings keeps size and background colour and changes no channel of no pixel by more than 2^-14. *)
Lemma neutral_commands : forall R (e : env R) cmd f i w, accurate_powf (e_libm e) -> bounded_powf (e_libm e) -> colour_method cmd f -> neutral f ->
  (forall c, In c (data (buffer i)) -> in_gamut c) ->
  exists d, execute_cmd e cmd (Some i) w = Ok (Some (same_with i d), w, ROk tt) /\ Forall2 (channelwise (/ 2 ^ 14) (fun v => v)) (data (buffer i)) d.
Proof. intros R e. exact (neutral_command e). Qed.

(** C132: the program with one such command makes no sample of an 8 bit picture brighter and none darker by more than one step, and keeps its transparency. *)
Lemma neutral_program : forall S (e : env S) text number args wo input output w h raw cmd f,
  ready e wo input output w h raw -> bounded_powf (e_libm e) ->
  command_line text number true (tl args) [CmdOpen input; cmd; CmdSave output] -> colour_method cmd f -> neutral f ->
  program_recolours e text number args wo w h raw output (fun r g b r' g' b' => (r - 1 <= r' <= r)%Z /\ (g - 1 <= g' <= g)%Z /\ (b - 1 <= b' <= b)%Z).
Proof. intros S e. exact (neutral_from_file e). Qed.

(** C132: two changes of brightness add up if the first cuts nothing off. *)
Lemma brightness_adds_up : forall a b c, in_gamut c -> moderate a -> moderate b -> not_cut (fun v => v + B2R a) c ->
  channelwise (/ 2 ^ 24 + / 2 ^ 24) (fun v => limited (v + (B2R a + B2R b))) c (with_brightness b (with_brightness a c)).
Proof. exact two_brightness. Qed.
(** C132: two changes of contrast multiply if the first cuts nothing off. *)
Lemma contrast_multiplies : forall a b c, in_gamut c -> moderate a -> moderate b -> not_cut (fun v => (v - / 2) * B2R a + / 2) c ->
  channelwise ((4 + 4 * Rabs (B2R b)) / 2 ^ 24 + Rabs (B2R b) * ((4 + 4 * Rabs (B2R a)) / 2 ^ 24))
    (fun v => limited ((v - / 2) * (B2R a * B2R b) + / 2)) c (with_contrast b (with_contrast a c)).
Proof. exact two_contrast. Qed.
(** C132: two gamma corrections multiply; the rounding error of the first grows with the second. *)
Lemma gamma_multiplies : forall L a b c, accurate_powf L -> in_gamut c -> usual_gamma a -> usual_gamma b ->
  channelwise (/ 2 ^ 19 + power_error (/ 2 ^ 19) (B2R b)) (gamma_formula (B2R a * B2R b)) c (with_gamma L b (with_gamma L a c)).
Proof. exact two_gamma. Qed.

(** C132: a change of brightness that cuts nothing off is undone by the opposite change. *)
Lemma brightness_undone : forall a b c, in_gamut c -> moderate a -> moderate b -> B2R b = - B2R a -> not_cut (fun v => v + B2R a) c ->
  channelwise (/ 2 ^ 23) (fun v => v) c (with_brightness b (with_brightness a c)).
Proof.
  intros a b c G A B E N. apply (channelwise_id _ _ _ _ _ (two_brightness a b c G A B N) G); [|lra]. intros v V. rewrite E. rewrite limited_id; lra.
Qed.
(** C132: a change of contrast that cuts nothing off is undone by the inverse factor. *)
Lemma contrast_undone : forall a b c, in_gamut c -> moderate a -> moderate b -> B2R a * B2R b = 1 -> not_cut (fun v => (v - / 2) * B2R a + / 2) c ->
  channelwise ((8 + 8 * Rabs (B2R b)) / 2 ^ 24) (fun v => v) c (with_contrast b (with_contrast a c)).
Proof.
  intros a b c G A B E N. apply (channelwise_id _ _ _ _ _ (two_contrast a b c G A B N) G).
  - intros v V. rewrite E. rewrite limited_id; lra.
  - assert (K : Rabs (B2R b) * Rabs (B2R a) = 1) by (rewrite <- Rabs_mult, Rmult_comm, E; apply Rabs_R1). simpl. lra.
Qed.
(** C132: a gamma correction is undone by the inverse one. *)
Lemma gamma_undone : forall L a b c, accurate_powf L -> in_gamut c -> usual_gamma a -> usual_gamma b -> B2R a * B2R b = 1 ->
  channelwise (/ 2 ^ 19 + power_error (/ 2 ^ 19) (B2R b)) (fun v => v) c (with_gamma L b (with_gamma L a c)).
Proof.
  intros L a b c A G Ua Ub E. apply (channelwise_id _ _ _ _ _ (two_gamma L a b c A G Ua Ub) G); [|lra]. intros v V. rewrite E. apply gamma_1. exact V.
Qed.
(** C132: what was cut off is lost: raising and lowering the brightness by one half, or doubling and halving the contrast, changes colours by up to one quarter. *)
Lemma cut_off_is_lost_refuted :
  ~ (forall c, in_gamut c -> channelwise (/ 5) (fun v => v) c (with_brightness (dec (-1) 2) (with_brightness (dec 1 2) c))) /\
  ~ (forall c, in_gamut c -> channelwise (/ 5) (fun v => v) c (with_contrast (dec 1 2) (with_contrast f2 c))).
Proof.
  assert (K : forall o, feq o (dec 1 2) = true -> close (/ 5) (B2R (dec 3 4)) o -> False).
  { intros o E [F A]. apply (feq_R o (dec 1 2) F eq_refl) in E. rewrite E in A. fval (dec 1 2) X. fval (dec 3 4) Y. rewrite X, Y in A. apply Rabs_le_iff in A. lra. }
  assert (K2 : forall o, feq o (dec 3 4) = true -> close (/ 5) (B2R f1) o -> False).
  { intros o E [F A]. apply (feq_R o (dec 3 4) F eq_refl) in E. rewrite E in A. fval (dec 3 4) Y. rewrite Y, f1_R in A. apply Rabs_le_iff in A. lra. }
  split; intros H.
  - destruct (H (mkC (dec 3 4) f0 f0 f1)) as (A & _). { repeat split; reflexivity. }
    assert (E : feq (d0 (with_brightness (dec (-1) 2) (with_brightness (dec 1 2) (mkC (dec 3 4) f0 f0 f1)))) (dec 1 2) = true) by (vm_compute; reflexivity).
    set (o := d0 (with_brightness _ _)) in *. clearbody o. exact (K o E A).
  - destruct (H (mkC f1 f0 f0 f1)) as (A & _). { repeat split; reflexivity. }
    assert (E : feq (d0 (with_contrast (dec 1 2) (with_contrast f2 (mkC f1 f0 f0 f1)))) (dec 3 4) = true) by (vm_compute; reflexivity).
    set (o := d0 (with_contrast _ _)) in *. clearbody o. exact (K2 o E A).
Qed.

Example adjust_example : forall L, let c := mkC (dec 1 4) (dec 1 2) (dec 3 8) (dec 1 2) in
  accurate_powf (ideal_libm L) /\ bounded_powf (ideal_libm L) /\ accurate_sine (full_libm L) /\ in_gamut c /\ neutral (WithHueRotate (ofZ 360)) /\
  colour_method (CmdLevel f0 f1 f1) (WithLevel f0 f1 f1) /\
  not_cut (fun v => v + B2R (dec 1 2)) c /\ B2R (dec (-1) 2) = - B2R (dec 1 2) /\
  not_cut (fun v => (v - / 2) * B2R f2 + / 2) c /\ B2R f2 * B2R (dec 1 2) = 1 /\ usual_gamma f2 /\ usual_gamma (dec 1 2) /\
  power_error (/ 2 ^ 19) (B2R (dec 1 2)) = / 2 ^ 18.
Proof.
  intros L. cbv zeta. fval (dec 1 2) H. fval (dec 1 4) Q. fval (dec 3 8) E. fval (dec (-1) 2) M.
  split; [apply (hue_operations_example L)|]. split; [apply (hue_operations_example L)|]. split; [apply (vibrance_example L)|].
  split; [repeat split; reflexivity|]. split; [constructor; [reflexivity|]; right; left; rewrite ofZ_R by lia; reflexivity|]. split; [constructor|].
  split. { unfold not_cut. cbn [d0 d1 d2]. rewrite H, Q, E. lra. } split. { rewrite H, M, opp_IZR. lra. }
  split. { unfold not_cut. cbn [d0 d1 d2]. rewrite H, Q, E, f2_R. lra. } split. { rewrite H, f2_R. lra. }
  split. { split; [reflexivity|]. rewrite f2_R. lra. } split. { split; [reflexivity|]. rewrite H. lra. }
  unfold power_error. rewrite H. destruct (Rle_dec _ _); [lra|]. simpl. lra.
Qed.

Example neutral_program_example : forall S (g : Ops.rng S) s L, let e := mkEnv S (ideal_libm L) Checked g plain_encoders plain_decoders in
  ready e (mkWorld end_fs s []) "in.png" "out.png" 2 1 example_raw /\ bounded_powf (e_libm e) /\
  command_line (fun t => t) (fun t => if String.eqb t "1.0" then Some f1 else None) true (tl ["d10"; "in.png"; "-contrast"; "1.0"; "out.png"]%string)
    [CmdOpen "in.png"; CmdContrast f1; CmdSave "out.png"] /\
  colour_method (CmdContrast f1) (WithContrast f1) /\ neutral (WithContrast f1).
Proof.
  intros S g s L e. destruct (ready_example S g s L) as (R & FI & FO & _). split; [exact R|]. split; [apply (hue_operations_example L)|].
  split; [|split; constructor].
  apply (option_line (fun t => t) _ "in.png" "-contrast" "contrast" "1.0" (CmdContrast f1) "out.png" FI eq_refl); [|exact FO]. apply opt_contrast. reflexivity.
Qed.
