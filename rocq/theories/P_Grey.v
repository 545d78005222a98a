(** Property theorems, generated from GreyThm.v by tools/mkp.py. *)

From Coq Require Import Reals ZArith List String.
From Flocq Require Import IEEE754.BinarySingleNaN.
From Verif Require Import Base PixelBuffer F32 Color ColorSpec MeaningSpec LanczosSpec Codec CodecSpec Image Commands Cli CliSpec ReopenSpec EndSpec PyColor ScriptSpec MethodSpec GreySpec IdealPowf IdealLibm.
Import ListNotations.
Open Scope R_scope.

From Verif Require Import GreyThm.


(** C133: saturation, stretched saturation from 1 up, gamma of the saturation, hue rotation and vibrance leave a grey as it is (vibrance makes it opaque). *)

Theorem C133_greys_have_no_hue : forall L f v a, colour_strength L f -> in01 v -> in01 a -> exists o, py_method_call L f (mkC v v v a) = ROk o /\
  same_color o (mkC v v v (match f with WithVibrance _ => f1 | _ => a end)) /\ grey o.
Proof. exact greys_have_no_hue. Qed.
Print Assumptions C133_greys_have_no_hue.


(** C133: saturation 0 gives the grey of the lightness. *)

Theorem C133_no_saturation : forall c, in_gamut c -> same_color (with_saturation f0 c) (to_gray_with_intensity Lightness c) /\ grey (with_saturation f0 c).
Proof. exact no_saturation. Qed.
Print Assumptions C133_no_saturation.


(** C133: making grey what is grey already changes no channel by more than 2^-21, and nothing at all if a channel, the brightest one or the lightness is taken. *)

Theorem C133_gray_again : forall i c, in_gamut c -> i <> Saturation ->
  let o := to_gray_with_intensity i c in
  channelwise (/ 2 ^ 21) (fun v => v) o (to_gray_with_intensity i o) /\ (picks_channel i -> same_color (to_gray_with_intensity i o) o).
Proof. exact gray_again. Qed.
Print Assumptions C133_gray_again.


(** C133: but the grey of the saturation, taken again, is black. *)

Theorem C133_saturation_gray_again_refuted : (forall c, in_gamut c -> to_gray_with_intensity Saturation (to_gray_with_intensity Saturation c) = mkC f0 f0 f0 (alpha c)) /\
  ~ (forall c, in_gamut c -> let o := to_gray_with_intensity Saturation c in same_color (to_gray_with_intensity Saturation o) o).
Proof. exact saturation_gray_again_refuted. Qed.
Print Assumptions C133_saturation_gray_again_refuted.


(** C133: a stretched saturation below 1 makes greys red, the middle grey most. *)

Theorem C133_weak_stretch_reddens_refuted :
  (forall k v a, in01 v -> in01 a -> is_finite k = true -> 0 <= B2R k <= 1 ->
    let w := (1 - B2R k) / 4 * (1 - Rabs (2 * B2R v - 1)) in
    colour_close ((1 + B2R k) / 2 ^ 17) (B2R v + w) (B2R v - w) (B2R v - w) (stretch_saturation k (mkC v v v a))) /\
  ~ (forall k v a, in01 v -> in01 a -> is_finite k = true -> 0 <= B2R k <= 1 -> same_color (stretch_saturation k (mkC v v v a)) (mkC v v v a)).
Proof. exact weak_stretch_reddens_refuted. Qed.
Print Assumptions C133_weak_stretch_reddens_refuted.


(** C133: a command line that opens an 8 bit RGBA file, changes colours in any number of steps other than a weak stretch and saves keeps each grey pixel grey. *)

Theorem C133_grey_stays_grey_in_files : forall S (e : env S) text number args wo input output w h raw cmds,
  ready e wo input output w h raw -> command_line text number true (tl args) (CmdOpen input :: cmds ++ [CmdSave output]) -> colour_changes (e_libm e) cmds ->
  program_recolours e text number args wo w h raw output (fun r g b r' g' b' => r = g -> g = b -> r' = g' /\ g' = b').
Proof. exact grey_stays_grey_in_files. Qed.
Print Assumptions C133_grey_stays_grey_in_files.

Example C133_grey_example : forall L,
  colour_strength (ideal_libm L) (WithSaturation f2) /\ colour_strength (ideal_libm L) (StretchSaturation f2) /\ colour_strength (ideal_libm L) (WithGammaSaturation f2) /\
  colour_strength (ideal_libm L) (WithHueRotate (ofZ 90)) /\ colour_strength (full_libm L) (WithVibrance (dec 1 2)) /\
  in01 (dec 1 3) /\ in_gamut (mkC f1 (dec 1 4) f0 (dec 1 2)) /\
  feq (d0 (stretch_saturation f0 (mkC (dec 1 2) (dec 1 2) (dec 1 2) f1))) (dec 3 4) = true /\
  colour_changes (ideal_libm L) [CmdSaturation f2; CmdGamma f2; CmdHueRotate (ofZ (-90)); CmdStretchSaturation f2; CmdInvert].
Proof. exact grey_example. Qed.
