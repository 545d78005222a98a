(** Colour properties (C25-C37). *)
From Coq Require Import ZArith Reals List Bool.
From Flocq Require Import Core.Raux IEEE754.BinarySingleNaN.
From Verif Require Import Base F32 Color ColorSpec PixelBuffer F32Lemmas ColorProofs.
Import ListNotations.
Open Scope Z_scope.

(* PROPERTIES *)

(** C25: the constructors clamp every channel; NaN stays NaN. *)
Lemma constructors_clamp : forall r g b a : f32,
  (let c := rgb_new r g b in
   clamped r (d0 c) /\ clamped g (d1 c) /\ clamped b (d2 c) /\ d3 c = f1) /\
  (let c := rgb_new_with_alpha r g b a in
   clamped r (d0 c) /\ clamped g (d1 c) /\ clamped b (d2 c) /\ clamped a (d3 c)).
Proof. intros r g b a. cbn. auto with col. Qed.

(** C25: every clamping operation returns channels in range, or NaN. *)
Lemma operations_clamp : forall L f c, clamping_operation L f ->
  in01_or_nan (d0 (f c)) /\ in01_or_nan (d1 (f c)) /\ in01_or_nan (d2 (f c)).
Proof. intros L f c. exact (op_clamps L f c). Qed.

(** C25: conversion from any colour type to Srgb, and from Srgb, Hsl, Yuv,
    Xyz, Lab and Lch to Rgb, gives channels in range, or NaN. *)
Lemma conversions_clamp : forall L k c,
  (k <> KSrgb -> let r := to_srgb L k c in
   in01_or_nan (d0 r) /\ in01_or_nan (d1 r) /\ in01_or_nan (d2 r)) /\
  (k <> KRgb -> k <> KHsv -> let r := to_rgb L k c in
   in01_or_nan (d0 r) /\ in01_or_nan (d1 r) /\ in01_or_nan (d2 r)).
Proof.
  intros L k c.
  assert (S : forall x, let r := rgb_to_srgb L x in in01_or_nan (d0 r) /\ in01_or_nan (d1 r) /\ in01_or_nan (d2 r)).
  { intros x. unfold rgb_to_srgb, rgb_new_with_alpha. cbn [d0 d1 d2]. auto with col. }
  assert (T : forall x, let r := srgb_to_rgb L x in in01_or_nan (d0 r) /\ in01_or_nan (d1 r) /\ in01_or_nan (d2 r)).
  { intros x. unfold srgb_to_rgb, rgb_new_with_alpha. cbn [d0 d1 d2]. auto with col. }
  assert (X : forall x, let r := xyz_to_rgb x in in01_or_nan (d0 r) /\ in01_or_nan (d1 r) /\ in01_or_nan (d2 r)).
  { intros x. unfold xyz_to_rgb, apply_matrix_clamped, XYZ_TO_RGB. cbn [d0 d1 d2]. auto with col. }
  split.
  - intros N r. unfold r, to_srgb. destruct k; [| now elim N | | | | | |]; apply S.
  - intros N1 N2 r. unfold r, to_rgb, yuv_to_rgb. destruct k;
      [now elim N1|apply T| |now elim N2|apply T|apply X|apply X|apply X].
    unfold hsl_to_rgb, rgb_new_with_alpha. destruct (feq (d1 c) f0); cbn [d0 d1 d2]; auto with col.
Qed.

Example clamp_example : let c := rgb_new (ofZ 7) (dec (-1) 2) fnan in
  d0 c = f1 /\ d1 c = f0 /\ is_nan (d2 c) = true /\
  d0 (with_brightness f1 (mkC f1 f0 f0 f1)) = f1.
Proof. repeat split. Qed.

(** C26: colour operations keep the alpha channel. *)
Lemma operations_keep_alpha : forall L f c, rgb_operation L f -> in01 (alpha c) ->
  alpha (f c) = alpha c.
Proof. intros L f c. exact (op_keeps_alpha L f c). Qed.

Example operations_keep_alpha_example : forall L, let c := mkC (dec 3 4) (dec 1 2) (dec 1 4) (dec 1 2) in
  in01 (alpha c) /\ rgb_operation L (with_saturation f2) /\ d0 (with_saturation f2 c) <> d0 c.
Proof. intros L. split; [split; reflexivity|]. split; [constructor|]. intro E. apply (f_equal B2SF) in E. vm_compute in E. discriminate. Qed.

(** C27: vibrance returns an opaque colour whatever the transparency was. *)
Lemma vibrance_is_opaque : forall L f c, alpha (with_vibrance L f c) = f1.
Proof. intros L f c. unfold with_vibrance, hsl_to_rgb. destruct (feq _ _); reflexivity. Qed.

(** C27: so does difference. *)
Lemma difference_is_opaque : forall a b, alpha (difference a b) = f1.
Proof. reflexivity. Qed.

(** C27: hence both lose the transparency of a half transparent colour. *)
Lemma vibrance_alpha_refuted : exists c, in_gamut c /\
  (forall L f, ~ same (alpha (with_vibrance L f c)) (alpha c)) /\
  (forall o, ~ same (alpha (difference c o)) (alpha c)).
Proof.
  exists (mkC f1 f0 f0 (dec 1 2)). split; [repeat split; reflexivity|]. split.
  - intros L f. rewrite vibrance_is_opaque. vm_compute. discriminate.
  - intros o. rewrite difference_is_opaque. vm_compute. discriminate.
Qed.

(** C28: conversions between all colour types keep alpha. *)
Lemma conversions_keep_alpha : forall L from to c, in01 (alpha c) ->
  alpha (convert_color L from to c) = alpha c.
Proof. intros L from to c. exact (convert_alpha L from to c). Qed.

(** C28: converting a buffer keeps its size and the alpha of every pixel. *)
Lemma buffer_conversion_keeps_alpha : forall L from to (b : PixelBuffer col),
  Forall (fun c => in01 (alpha c)) (data b) ->
  let r := convert (convert_color L from to) b in
  width r = width b /\ height r = height b /\ map alpha (data r) = map alpha (data b).
Proof.
  intros L from to b H r. unfold r, convert. cbn [width height data]. split; [reflexivity|]. split; [reflexivity|].
  rewrite map_map. induction H as [|c l Hc _ IH]; cbn [map]; [reflexivity|]. rewrite IH. f_equal. now apply convert_alpha.
Qed.

Example conversions_keep_alpha_example : in01 (alpha (mkC f1 (dec 1 4) f0 (dec 1 2))) /\
  alpha (convert_color example_libm KHsl (KLch D50 O10) (mkC f1 (dec 1 4) f0 (dec 1 2))) = dec 1 2.
Proof. split; [split; reflexivity|]. apply convert_alpha. split; reflexivity. Qed.

(** C29: colour equality is reflexive and symmetric, NaN and infinities included. *)
Lemma equality_reflexive_symmetric : forall a b : col,
  color_eq a a = true /\ (color_eq a b = true -> color_eq b a = true).
Proof. intros a b. split; [apply color_eq_refl|]. now rewrite (color_eq_sym a b). Qed.

Example equality_example : color_eq (mkC f1 f0 f0 f1) (mkC f0 f1 f0 f1) = false /\
  color_eq (mkC f1 f0 f0 f1) (mkC (dec 99999 100000) f0 f0 f1) = true.
Proof. split; reflexivity. Qed.

(** C30: colour equality is not transitive. *)
Lemma equality_transitive_refuted : exists a b c, in_gamut a /\ in_gamut b /\ in_gamut c /\
  color_eq a b = true /\ color_eq b c = true /\ color_eq a c = false.
Proof. exists (mkC f0 f0 f0 f1), (mkC EPSILON f0 f0 f1), (mkC (fadd EPSILON EPSILON) f0 f0 f1).
  repeat split; reflexivity. Qed.

(** C30: a colour of NaNs equals every colour. *)
Lemma nan_equality_refuted : exists n, is_nan (d0 n) = true /\ forall c, color_eq n c = true.
Proof. exists (mkC fnan fnan fnan fnan). split; reflexivity. Qed.

(** C30: for colours in gamut, equality says the channels differ by at most
    2^-15, up to one rounding error of 2^-38. *)
Lemma equality_is_closeness : forall a b, in_gamut a -> in_gamut b ->
  let close (e : R) := forall f, In f [d0; d1; d2; d3] -> (Rabs (B2R (f a) - B2R (f b)) <= e)%R in
  (close (/ 32768)%R -> color_eq a b = true) /\
  (color_eq a b = true -> close (/ 32768 + / 274877906944)%R).
Proof.
  intros a b (A0 & A1 & A2 & A3) (B0 & B1 & B2 & B3) close. split.
  - intros H. unfold color_eq. rewrite !chan_eq_close; auto using in01_fin; apply H; cbn; auto.
  - intros H f I. unfold color_eq in H. rewrite !andb_true_iff in H. destruct H as [[[H0 H1] H2] H3].
    apply Rlt_le. cbn in I. destruct I as [<-|[<-|[<-|[<-|[]]]]]; apply chan_eq_near; try (now apply in01_num); auto.
Qed.

(** C31: greyscale results have three identical channels and the alpha of the
    input, and a finite one is recognised as grey. *)
Lemma gray_is_grey : forall i c, let g := to_gray_with_intensity i c in
  d0 g = d1 g /\ d1 g = d2 g /\ alpha g = alpha c /\
  (is_finite (d0 g) = true -> is_grayscale g = true).
Proof. intros i c g. repeat split. apply grey_is_grayscale. Qed.

(** C31: the grey of an in-gamut colour is in gamut, so it is always recognised. *)
Lemma gray_in_gamut : forall i c, in_gamut c ->
  in_gamut (to_gray_with_intensity i c) /\ is_grayscale (to_gray_with_intensity i c) = true.
Proof. intros i c H. pose proof (gray_value_range i c H) as G. split.
  - split; [|split; [|split]]; auto. apply H.
  - apply grey_is_grayscale. now apply in01_fin. Qed.

(** C31: a grey colour is unchanged by the channel intensities. *)
Lemma gray_of_grey : forall i v a, in01 v -> in01 a -> picks_channel i ->
  same_color (to_gray_with_intensity i (mkC v v v a)) (mkC v v v a).
Proof. intros i v a H Ha P. pose proof (grey_fixed i v a H P). repeat split; auto.
  apply feq_R; auto using in01_fin. Qed.

Example gray_example : in_gamut (mkC f1 (dec 1 4) f0 f1) /\ is_grayscale (mkC f1 (dec 1 4) f0 f1) = false /\
  is_grayscale (to_gray (mkC f1 (dec 1 4) f0 f1)) = true.
Proof. split; [repeat split; reflexivity|]. split; reflexivity. Qed.

(** C32: inverting keeps in-gamut colours in gamut. *)
Lemma invert_in_gamut : forall c, in_gamut c -> in_gamut (invert c).
Proof. intros c (A & B & C & D). split; [|split; [|split]]; unfold invert; cbn [d0 d1 d2 d3]; auto; apply in01_num; apply one_minus; now apply in01_num. Qed.

(** C32: inverting twice gives an equal colour. *)
Lemma invert_twice : forall c, in_gamut c -> color_eq (invert (invert c)) c = true.
Proof. intros c (A & B & C & D). unfold color_eq, invert, alpha. cbn [d0 d1 d2 d3].
  rewrite !invert_twice_chan by (now apply in01_num). now rewrite chan_eq_refl. Qed.

Example invert_example : let c := mkC (dec 1 3) f0 f1 (dec 1 2) in in_gamut c /\ color_eq (invert c) c = false.
Proof. split; [repeat split; reflexivity|reflexivity]. Qed.

(** C33: HSL of an in-gamut colour is in range. *)
Lemma hsl_in_range : forall c, in_gamut c -> in_gamut (rgb_to_hsl c).
Proof. exact rgb_to_hsl_range. Qed.

Example hsl_example : let c := mkC (dec 1 4) f0 f1 f1 in in_gamut c /\ flt f0 (d1 (rgb_to_hsl c)) = true.
Proof. split; [repeat split; reflexivity|reflexivity]. Qed.

(** C34: HSV of a colour whose channels are not all equal is in range. *)
Lemma hsv_in_range : forall c, in_gamut c ->
  flt (rgb_min c) (rgb_max c) = true \/ flt (rgb_max c) EPSILON = true -> in_gamut (rgb_to_hsv c).
Proof. exact rgb_to_hsv_range. Qed.

(** C34: the hue of every grey level from 2^-15 up is NaN. *)
Lemma hsv_of_grey_is_nan : forall v a, in01 v -> fle EPSILON v = true ->
  is_nan (d0 (rgb_to_hsv (mkC v v v a))) = true.
Proof. exact grey_hsv_hue_nan. Qed.

(** C34: so to_hsv leaves the range, for example for white. *)
Lemma hsv_in_range_refuted : exists c, in_gamut c /\ ~ in01 (d0 (rgb_to_hsv c)).
Proof. exists RGB_WHITE. split; [repeat split; reflexivity|]. intros [H _]. vm_compute in H. discriminate. Qed.

Example hsv_example : let c := mkC (dec 1 4) f0 f1 f1 in
  in_gamut c /\ flt (rgb_min c) (rgb_max c) = true /\ flt f0 (d0 (rgb_to_hsv c)) = true.
Proof. split; [repeat split; reflexivity|]. split; reflexivity. Qed.

(** C35: grey colours survive HSL and HSV round trips exactly. *)
Lemma grey_round_trips : forall L v a, in01 v -> in01 a ->
  let c := mkC v v v a in
  same_color (to_rgb L KHsl (to_hsl L KRgb c)) c /\ same_color (to_rgb L KHsv (to_hsv L KRgb c)) c.
Proof. intros L v a Hv Ha. split; [now apply grey_hsl_roundtrip|now apply grey_hsv_roundtrip]. Qed.

Example grey_example : in01 (dec 1 3) /\ in01 (dec 1 7).
Proof. repeat split; reflexivity. Qed.

(** C36: HSL colours in range, whatever their hue, convert to in-gamut RGB. *)
Lemma hsl_to_rgb_in_gamut : forall L c, hue_number (d0 c) -> in01 (d1 c) -> in01 (d2 c) -> in01 (d3 c) ->
  in_gamut (to_rgb L KHsl c).
Proof.
  intros L c [H1 H2] Hs Hl Ha. apply hsl_to_rgb_range; auto.
  assert (F1 : fin (ofZ (-8388608))) by (apply ofZ_fin; now compute).
  assert (F2 : fin (ofZ 8388608)) by (apply ofZ_fin; now compute).
  assert (F : fin (d0 c)) by (apply (fle_between (ofZ (-8388608)) _ (ofZ 8388608)); auto).
  apply fle_R in H1; auto. apply fle_R in H2; auto. rewrite ofZ_R in H1, H2 by (now compute). split; auto.
Qed.

(** C36: HSV colours in range convert to in-gamut RGB. *)
Lemma hsv_to_rgb_in_gamut : forall L c, in_gamut c -> in_gamut (to_rgb L KHsv c).
Proof. intros L c. exact (hsv_to_rgb_range c). Qed.

Example hsl_to_rgb_example : hue_number (dec 7 3) /\ hue_number (dec (-7) 3).
Proof. repeat split; reflexivity. Qed.

(** C37: blending an opaque colour gives that colour. *)
Lemma blend_opaque : forall c o, in_gamut c -> in_gamut o -> same (alpha o) f1 ->
  same_color (alpha_blend c o) o.
Proof.
  intros c o (C0 & C1 & C2 & C3) (O0 & O1 & O2 & O3) E. apply feq_R in E; auto with fin. rewrite f1_R in E.
  rewrite in01_num in *. unfold alpha in E.
  split; [|split; [|split]]; unfold alpha_blend, rgb_new_with_alpha, alpha; cbn [d0 d1 d2 d3]; try (apply blend_chan_opaque; auto; apply O3).
  destruct (blend_alpha (d3 c) (d3 o) C3 O3) as (A & _ & _ & _ & B). apply same_R; [apply A|apply O3|].
  rewrite E. auto.
Qed.

(** C37: blending a fully transparent colour changes nothing. *)
Lemma blend_transparent : forall c o, in_gamut c -> in_gamut o -> same (alpha o) f0 ->
  same_color (alpha_blend c o) c.
Proof.
  intros c o (C0 & C1 & C2 & C3) (O0 & O1 & O2 & O3) E. apply feq_R in E; auto with fin. rewrite f0_R in E.
  rewrite in01_num in *. unfold alpha in E.
  split; [|split; [|split]]; unfold alpha_blend, rgb_new_with_alpha, alpha; cbn [d0 d1 d2 d3]; try (apply blend_chan_transparent; auto; apply O3).
  destruct (blend_alpha (d3 c) (d3 o) C3 O3) as (A & _ & _ & B & _). apply same_R; [apply A|apply C3|]. auto.
Qed.

(** C37: a blend is in gamut and at least as opaque as both inputs. *)
Lemma blend_in_gamut : forall c o, in_gamut c -> in_gamut o ->
  in_gamut (alpha_blend c o) /\
  fle (alpha c) (alpha (alpha_blend c o)) = true /\ fle (alpha o) (alpha (alpha_blend c o)) = true.
Proof.
  intros c o (C0 & C1 & C2 & C3) (O0 & O1 & O2 & O3). rewrite in01_num in *.
  destruct (blend_alpha (d3 c) (d3 o) C3 O3) as (A & B & C & _).
  split; [split; [|split; [|split]]; unfold alpha_blend, rgb_new_with_alpha, alpha; cbn [d0 d1 d2 d3]; try (apply blend_chan_range; auto); now apply in01_num|].
  split; apply fle_R; try apply C3; try apply O3; try apply A; auto.
Qed.

Example blend_example : let c := mkC f1 f0 f0 (dec 1 2) in let o := mkC f0 (dec 1 3) f1 (dec 1 4) in
  in_gamut c /\ in_gamut o /\ color_eq (alpha_blend c o) c = false.
Proof. split; [repeat split; reflexivity|]. split; [repeat split; reflexivity|reflexivity]. Qed.
