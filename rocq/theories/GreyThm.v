(** C133: greys. *)
From Coq Require Import Reals ZArith List String.
From Flocq Require Import IEEE754.BinarySingleNaN.
From Verif Require Import Base PixelBuffer F32 Color ColorSpec MeaningSpec LanczosSpec Codec CodecSpec Image Commands Cli CliSpec ReopenSpec EndSpec PyColor ScriptSpec MethodSpec GreySpec IdealPowf IdealLibm.
Import ListNotations.
Open Scope R_scope.

(* PROPERTIES *)
From Coq Require Import Lia Lra.
From Verif Require Import F32Lemmas Approx ColorThm HueThm DrawMeanThm EndProofs EndThm GreyProofs.
Open Scope R_scope.

(** C133: saturation, stretched saturation from 1 up, gamma of the saturation, hue rotation and vibrance leave a grey as it is (vibrance makes it opaque). *)
Lemma greys_have_no_hue : forall L f v a, colour_strength L f -> in01 v -> in01 a -> exists o, py_method_call L f (mkC v v v a) = ROk o /\
  same_color o (mkC v v v (match f with WithVibrance _ => f1 | _ => a end)) /\ grey o.
Proof. exact strength_keeps. Qed.
(** C133: saturation 0 gives the grey of the lightness. *)
Lemma no_saturation : forall c, in_gamut c -> same_color (with_saturation f0 c) (to_gray_with_intensity Lightness c) /\ grey (with_saturation f0 c).
Proof. exact desaturated. Qed.
(** C133: making grey what is grey already changes no channel by more than 2^-21, and nothing at all if a channel, the brightest one or the lightness is taken. *)
Lemma gray_again : forall i c, in_gamut c -> i <> Saturation ->
  let o := to_gray_with_intensity i c in
  channelwise (/ 2 ^ 21) (fun v => v) o (to_gray_with_intensity i o) /\ (picks_channel i -> same_color (to_gray_with_intensity i o) o).
Proof.
  intros i c G N o. split.
  - assert (exists y, gray_formula i 1 1 1 = Some y) as (y & E) by (destruct i; try (eexists; reflexivity); destruct (N eq_refl)). exact (gray_twice i c y G E).
  - intros P. destruct (gray_in_gamut i c G) as [(A & _ & _ & D) _]. exact (gray_of_grey i _ _ A D P).
Qed.
(** C133: but the grey of the saturation, taken again, is black. *)
Lemma saturation_gray_again_refuted : (forall c, in_gamut c -> to_gray_with_intensity Saturation (to_gray_with_intensity Saturation c) = mkC f0 f0 f0 (alpha c)) /\
  ~ (forall c, in_gamut c -> let o := to_gray_with_intensity Saturation c in same_color (to_gray_with_intensity Saturation o) o).
Proof.
  split; [exact saturation_twice|]. intros H. destruct (H (mkC f1 f0 f0 f1)) as (E & _); [repeat split; reflexivity|]. vm_compute in E. discriminate E.
Qed.
(** C133: a stretched saturation below 1 makes greys red, the middle grey most. *)
Lemma weak_stretch_reddens_refuted :
  (forall k v a, in01 v -> in01 a -> is_finite k = true -> 0 <= B2R k <= 1 ->
    let w := (1 - B2R k) / 4 * (1 - Rabs (2 * B2R v - 1)) in
    colour_close ((1 + B2R k) / 2 ^ 17) (B2R v + w) (B2R v - w) (B2R v - w) (stretch_saturation k (mkC v v v a))) /\
  ~ (forall k v a, in01 v -> in01 a -> is_finite k = true -> 0 <= B2R k <= 1 -> same_color (stretch_saturation k (mkC v v v a)) (mkC v v v a)).
Proof.
  split; [exact weak_stretch|]. intros H. destruct (H f0 (dec 1 2) f1) as (E & _); [split; reflexivity|split; reflexivity|reflexivity|rewrite f0_R; lra|].
  vm_compute in E. discriminate E.
Qed.
(** C133: a command line that opens an 8 bit RGBA file, changes colours in any number of steps other than a weak stretch and saves keeps each grey pixel grey. *)
Lemma grey_stays_grey_in_files : forall S (e : env S) text number args wo input output w h raw cmds,
  ready e wo input output w h raw -> command_line text number true (tl args) (CmdOpen input :: cmds ++ [CmdSave output]) -> colour_changes (e_libm e) cmds ->
  program_recolours e text number args wo w h raw output (fun r g b r' g' b' => r = g -> g = b -> r' = g' /\ g' = b').
Proof. intros S e. exact (grey_files e). Qed.

Example grey_example : forall L,
  colour_strength (ideal_libm L) (WithSaturation f2) /\ colour_strength (ideal_libm L) (StretchSaturation f2) /\ colour_strength (ideal_libm L) (WithGammaSaturation f2) /\
  colour_strength (ideal_libm L) (WithHueRotate (ofZ 90)) /\ colour_strength (full_libm L) (WithVibrance (dec 1 2)) /\
  in01 (dec 1 3) /\ in_gamut (mkC f1 (dec 1 4) f0 (dec 1 2)) /\
  feq (d0 (stretch_saturation f0 (mkC (dec 1 2) (dec 1 2) (dec 1 2) f1))) (dec 3 4) = true /\
  colour_changes (ideal_libm L) [CmdSaturation f2; CmdGamma f2; CmdHueRotate (ofZ (-90)); CmdStretchSaturation f2; CmdInvert].
Proof.
  intros L. assert (M2 : moderate f2) by apply (hue_operations_example L). assert (U : usual_gamma f2) by apply (hue_operations_example L).
  assert (A : accurate_powf (ideal_libm L)) by apply (hue_operations_example L).
  assert (D : Rabs (B2R (ofZ (-90))) <= 360) by apply (hue_operations_example L).
  assert (W : 1 <= B2R f2 <= 2 ^ 60). { destruct M2 as [_ M2]. apply Rabs_le_iff in M2. rewrite f2_R in *. lra. }
  split; [constructor; reflexivity|]. split; [constructor; [reflexivity|exact W]|]. split; [constructor; assumption|]. split; [constructor|].
  split; [constructor; [apply (vibrance_example L)|reflexivity]|]. split; [split; reflexivity|]. split; [repeat split; reflexivity|]. split; [vm_compute; reflexivity|].
  repeat (apply Forall_cons; [eexists; split; [constructor|split; [cbn [reasonable]|cbn [no_weak_stretch]]]; try exact I; try exact M2; try (split; assumption); try (split; [reflexivity|exact D]); try apply W|]). apply Forall_nil.
Qed.
