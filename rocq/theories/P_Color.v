(** Property theorems, generated from ColorThm.v by tools/mkp.py. *)

From Coq Require Import ZArith Reals List Bool.
From Flocq Require Import Core.Raux IEEE754.BinarySingleNaN.
From Verif Require Import Base F32 Color ColorSpec PixelBuffer F32Lemmas ColorProofs.
Import ListNotations.
Open Scope Z_scope.

From Verif Require Import ColorThm.


(** C25: the constructors clamp every channel; NaN stays NaN. *)

Theorem C25_constructors_clamp : forall r g b a : f32,
  (let c := rgb_new r g b in
   clamped r (d0 c) /\ clamped g (d1 c) /\ clamped b (d2 c) /\ d3 c = f1) /\
  (let c := rgb_new_with_alpha r g b a in
   clamped r (d0 c) /\ clamped g (d1 c) /\ clamped b (d2 c) /\ clamped a (d3 c)).
Proof. exact constructors_clamp. Qed.
Print Assumptions C25_constructors_clamp.


(** C25: every clamping operation returns channels in range, or NaN. *)

Theorem C25_operations_clamp : forall L f c, clamping_operation L f ->
  in01_or_nan (d0 (f c)) /\ in01_or_nan (d1 (f c)) /\ in01_or_nan (d2 (f c)).
Proof. exact operations_clamp. Qed.
Print Assumptions C25_operations_clamp.


(** C25: conversion from any colour type to Srgb, and from Srgb, Hsl, Yuv,
    Xyz, Lab and Lch to Rgb, gives channels in range, or NaN. *)

Theorem C25_conversions_clamp : forall L k c,
  (k <> KSrgb -> let r := to_srgb L k c in
   in01_or_nan (d0 r) /\ in01_or_nan (d1 r) /\ in01_or_nan (d2 r)) /\
  (k <> KRgb -> k <> KHsv -> let r := to_rgb L k c in
   in01_or_nan (d0 r) /\ in01_or_nan (d1 r) /\ in01_or_nan (d2 r)).
Proof. exact conversions_clamp. Qed.
Print Assumptions C25_conversions_clamp.

Example C25_clamp_example : let c := rgb_new (ofZ 7) (dec (-1) 2) fnan in
  d0 c = f1 /\ d1 c = f0 /\ is_nan (d2 c) = true /\
  d0 (with_brightness f1 (mkC f1 f0 f0 f1)) = f1.
Proof. exact clamp_example. Qed.


(** C26: colour operations keep the alpha channel. *)

Theorem C26_operations_keep_alpha : forall L f c, rgb_operation L f -> in01 (alpha c) ->
  alpha (f c) = alpha c.
Proof. exact operations_keep_alpha. Qed.
Print Assumptions C26_operations_keep_alpha.

Example C26_operations_keep_alpha_example : forall L, let c := mkC (dec 3 4) (dec 1 2) (dec 1 4) (dec 1 2) in
  in01 (alpha c) /\ rgb_operation L (with_saturation f2) /\ d0 (with_saturation f2 c) <> d0 c.
Proof. exact operations_keep_alpha_example. Qed.


(** C27: vibrance returns an opaque colour whatever the transparency was. *)

Theorem C27_vibrance_is_opaque : forall L f c, alpha (with_vibrance L f c) = f1.
Proof. exact vibrance_is_opaque. Qed.
Print Assumptions C27_vibrance_is_opaque.


(** C27: so does difference. *)

Theorem C27_difference_is_opaque : forall a b, alpha (difference a b) = f1.
Proof. exact difference_is_opaque. Qed.
Print Assumptions C27_difference_is_opaque.


(** C27: hence both lose the transparency of a half transparent colour. *)

Theorem C27_vibrance_alpha_refuted : exists c, in_gamut c /\
  (forall L f, ~ same (alpha (with_vibrance L f c)) (alpha c)) /\
  (forall o, ~ same (alpha (difference c o)) (alpha c)).
Proof. exact vibrance_alpha_refuted. Qed.
Print Assumptions C27_vibrance_alpha_refuted.


(** C28: conversions between all colour types keep alpha. *)

Theorem C28_conversions_keep_alpha : forall L from to c, in01 (alpha c) ->
  alpha (convert_color L from to c) = alpha c.
Proof. exact conversions_keep_alpha. Qed.
Print Assumptions C28_conversions_keep_alpha.


(** C28: converting a buffer keeps its size and the alpha of every pixel. *)

Theorem C28_buffer_conversion_keeps_alpha : forall L from to (b : PixelBuffer col),
  Forall (fun c => in01 (alpha c)) (data b) ->
  let r := convert (convert_color L from to) b in
  width r = width b /\ height r = height b /\ map alpha (data r) = map alpha (data b).
Proof. exact buffer_conversion_keeps_alpha. Qed.
Print Assumptions C28_buffer_conversion_keeps_alpha.

Example C28_conversions_keep_alpha_example : in01 (alpha (mkC f1 (dec 1 4) f0 (dec 1 2))) /\
  alpha (convert_color example_libm KHsl (KLch D50 O10) (mkC f1 (dec 1 4) f0 (dec 1 2))) = dec 1 2.
Proof. exact conversions_keep_alpha_example. Qed.


(** C29: colour equality is reflexive and symmetric, NaN and infinities included. *)

Theorem C29_equality_reflexive_symmetric : forall a b : col,
  color_eq a a = true /\ (color_eq a b = true -> color_eq b a = true).
Proof. exact equality_reflexive_symmetric. Qed.
Print Assumptions C29_equality_reflexive_symmetric.

Example C29_equality_example : color_eq (mkC f1 f0 f0 f1) (mkC f0 f1 f0 f1) = false /\
  color_eq (mkC f1 f0 f0 f1) (mkC (dec 99999 100000) f0 f0 f1) = true.
Proof. exact equality_example. Qed.


(** C30: colour equality is not transitive. *)

Theorem C30_equality_transitive_refuted : exists a b c, in_gamut a /\ in_gamut b /\ in_gamut c /\
  color_eq a b = true /\ color_eq b c = true /\ color_eq a c = false.
Proof. exact equality_transitive_refuted. Qed.
Print Assumptions C30_equality_transitive_refuted.


(** C30: a colour of NaNs equals every colour. *)

Theorem C30_nan_equality_refuted : exists n, is_nan (d0 n) = true /\ forall c, color_eq n c = true.
Proof. exact nan_equality_refuted. Qed.
Print Assumptions C30_nan_equality_refuted.


(** C30: for colours in gamut, equality says the channels differ by at most
    2^-15, up to one rounding error of 2^-38. *)

Theorem C30_equality_is_closeness : forall a b, in_gamut a -> in_gamut b ->
  let close (e : R) := forall f, In f [d0; d1; d2; d3] -> (Rabs (B2R (f a) - B2R (f b)) <= e)%R in
  (close (/ 32768)%R -> color_eq a b = true) /\
  (color_eq a b = true -> close (/ 32768 + / 274877906944)%R).
Proof. exact equality_is_closeness. Qed.
Print Assumptions C30_equality_is_closeness.


(** C31: greyscale results have three identical channels and the alpha of the
    input, and a finite one is recognised as grey. *)

Theorem C31_gray_is_grey : forall i c, let g := to_gray_with_intensity i c in
  d0 g = d1 g /\ d1 g = d2 g /\ alpha g = alpha c /\
  (is_finite (d0 g) = true -> is_grayscale g = true).
Proof. exact gray_is_grey. Qed.
Print Assumptions C31_gray_is_grey.


(** C31: the grey of an in-gamut colour is in gamut, so it is always recognised. *)

Theorem C31_gray_in_gamut : forall i c, in_gamut c ->
  in_gamut (to_gray_with_intensity i c) /\ is_grayscale (to_gray_with_intensity i c) = true.
Proof. exact gray_in_gamut. Qed.
Print Assumptions C31_gray_in_gamut.


(** C31: a grey colour is unchanged by the channel intensities. *)

Theorem C31_gray_of_grey : forall i v a, in01 v -> in01 a -> picks_channel i ->
  same_color (to_gray_with_intensity i (mkC v v v a)) (mkC v v v a).
Proof. exact gray_of_grey. Qed.
Print Assumptions C31_gray_of_grey.

Example C31_gray_example : in_gamut (mkC f1 (dec 1 4) f0 f1) /\ is_grayscale (mkC f1 (dec 1 4) f0 f1) = false /\
  is_grayscale (to_gray (mkC f1 (dec 1 4) f0 f1)) = true.
Proof. exact gray_example. Qed.


(** C32: inverting keeps in-gamut colours in gamut. *)

Theorem C32_invert_in_gamut : forall c, in_gamut c -> in_gamut (invert c).
Proof. exact invert_in_gamut. Qed.
Print Assumptions C32_invert_in_gamut.


(** C32: inverting twice gives an equal colour. *)

Theorem C32_invert_twice : forall c, in_gamut c -> color_eq (invert (invert c)) c = true.
Proof. exact invert_twice. Qed.
Print Assumptions C32_invert_twice.

Example C32_invert_example : let c := mkC (dec 1 3) f0 f1 (dec 1 2) in in_gamut c /\ color_eq (invert c) c = false.
Proof. exact invert_example. Qed.


(** C33: HSL of an in-gamut colour is in range. *)

Theorem C33_hsl_in_range : forall c, in_gamut c -> in_gamut (rgb_to_hsl c).
Proof. exact hsl_in_range. Qed.
Print Assumptions C33_hsl_in_range.

Example C33_hsl_example : let c := mkC (dec 1 4) f0 f1 f1 in in_gamut c /\ flt f0 (d1 (rgb_to_hsl c)) = true.
Proof. exact hsl_example. Qed.


(** C34: HSV of a colour whose channels are not all equal is in range. *)

Theorem C34_hsv_in_range : forall c, in_gamut c ->
  flt (rgb_min c) (rgb_max c) = true \/ flt (rgb_max c) EPSILON = true -> in_gamut (rgb_to_hsv c).
Proof. exact hsv_in_range. Qed.
Print Assumptions C34_hsv_in_range.


(** C34: the hue of every grey level from 2^-15 up is NaN. *)

Theorem C34_hsv_of_grey_is_nan : forall v a, in01 v -> fle EPSILON v = true ->
  is_nan (d0 (rgb_to_hsv (mkC v v v a))) = true.
Proof. exact hsv_of_grey_is_nan. Qed.
Print Assumptions C34_hsv_of_grey_is_nan.


(** C34: so to_hsv leaves the range, for example for white. *)

Theorem C34_hsv_in_range_refuted : exists c, in_gamut c /\ ~ in01 (d0 (rgb_to_hsv c)).
Proof. exact hsv_in_range_refuted. Qed.
Print Assumptions C34_hsv_in_range_refuted.

Example C34_hsv_example : let c := mkC (dec 1 4) f0 f1 f1 in
  in_gamut c /\ flt (rgb_min c) (rgb_max c) = true /\ flt f0 (d0 (rgb_to_hsv c)) = true.
Proof. exact hsv_example. Qed.


(** C35: grey colours survive HSL and HSV round trips exactly. *)

Theorem C35_grey_round_trips : forall L v a, in01 v -> in01 a ->
  let c := mkC v v v a in
  same_color (to_rgb L KHsl (to_hsl L KRgb c)) c /\ same_color (to_rgb L KHsv (to_hsv L KRgb c)) c.
Proof. exact grey_round_trips. Qed.
Print Assumptions C35_grey_round_trips.

Example C35_grey_example : in01 (dec 1 3) /\ in01 (dec 1 7).
Proof. exact grey_example. Qed.


(** C36: HSL colours in range, whatever their hue, convert to in-gamut RGB. *)

Theorem C36_hsl_to_rgb_in_gamut : forall L c, hue_number (d0 c) -> in01 (d1 c) -> in01 (d2 c) -> in01 (d3 c) ->
  in_gamut (to_rgb L KHsl c).
Proof. exact hsl_to_rgb_in_gamut. Qed.
Print Assumptions C36_hsl_to_rgb_in_gamut.


(** C36: HSV colours in range convert to in-gamut RGB. *)

Theorem C36_hsv_to_rgb_in_gamut : forall L c, in_gamut c -> in_gamut (to_rgb L KHsv c).
Proof. exact hsv_to_rgb_in_gamut. Qed.
Print Assumptions C36_hsv_to_rgb_in_gamut.

Example C36_hsl_to_rgb_example : hue_number (dec 7 3) /\ hue_number (dec (-7) 3).
Proof. exact hsl_to_rgb_example. Qed.


(** C37: blending an opaque colour gives that colour. *)

Theorem C37_blend_opaque : forall c o, in_gamut c -> in_gamut o -> same (alpha o) f1 ->
  same_color (alpha_blend c o) o.
Proof. exact blend_opaque. Qed.
Print Assumptions C37_blend_opaque.


(** C37: blending a fully transparent colour changes nothing. *)

Theorem C37_blend_transparent : forall c o, in_gamut c -> in_gamut o -> same (alpha o) f0 ->
  same_color (alpha_blend c o) c.
Proof. exact blend_transparent. Qed.
Print Assumptions C37_blend_transparent.


(** C37: a blend is in gamut and at least as opaque as both inputs. *)

Theorem C37_blend_in_gamut : forall c o, in_gamut c -> in_gamut o ->
  in_gamut (alpha_blend c o) /\
  fle (alpha c) (alpha (alpha_blend c o)) = true /\ fle (alpha o) (alpha (alpha_blend c o)) = true.
Proof. exact blend_in_gamut. Qed.
Print Assumptions C37_blend_in_gamut.

Example C37_blend_example : let c := mkC f1 f0 f0 (dec 1 2) in let o := mkC f0 (dec 1 3) f1 (dec 1 4) in
  in_gamut c /\ in_gamut o /\ color_eq (alpha_blend c o) c = false.
Proof. exact blend_example. Qed.
