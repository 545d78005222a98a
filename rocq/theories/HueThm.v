(** HSL, HSV and the operations on hue, saturation and lightness (C85-C87). *)
From Coq Require Import Reals ZArith.
From Flocq Require Import IEEE754.BinarySingleNaN.
From Verif Require Import F32 Color ColorSpec MeaningSpec IdealPowf.
Open Scope R_scope.

(* PROPERTIES *)
From Coq Require Import Lra Lia.
From Verif Require Import F32Lemmas ColorProofs Approx OpMeaningProofs HslMeaning HsvMeaning HslOps.
Open Scope R_scope.

(** C85: the colour of given hue, saturation and lightness. *)
Lemma colour_of_hsl : forall L c, in_gamut c ->
  is_hsl (/ 2 ^ 18) (B2R (d0 c)) (B2R (d1 c)) (B2R (d2 c)) (to_rgb L KHsl c) /\ d3 (to_rgb L KHsl c) = d3 c.
Proof. intros L c G. rewrite (pow_IZR 2 18). exact (hsl_to_rgb_meaning c G). Qed.
(** C85: [to_hsl] finds hue, saturation and lightness that describe the colour. *)
Lemma hsl_of_colour : forall L c, in_gamut c ->
  let o := to_hsl L KRgb c in
  is_hsl (/ 2 ^ 15 + / 2 ^ 19) (B2R (d0 o)) (B2R (d1 o)) (B2R (d2 o)) c /\ d3 o = d3 c.
Proof.
  intros L c G. rewrite (pow_IZR 2 15), (pow_IZR 2 19). split; [exact (rgb_to_hsl_meaning c G)|].
  exact (rgb_to_hsl_alpha c).
Qed.
(** C85: the conversion to HSL and back changes no channel by more than 2^-15 + 2^-17. *)
Lemma hsl_and_back : forall L c, in_gamut c ->
  channelwise (/ 2 ^ 15 + / 2 ^ 17) (fun v => v) c (to_rgb L KHsl (to_hsl L KRgb c)).
Proof. intros L c G. rewrite (pow_IZR 2 15), (pow_IZR 2 17). exact (hsl_round_trip c G). Qed.
(** C85: the grey value of the saturation is the saturation of [to_hsl]. *)
Lemma saturation_gray : forall L c, let s := d1 (to_hsl L KRgb c) in
  to_gray_with_intensity Saturation c = mkC s s s (d3 c).
Proof. reflexivity. Qed.
Example hsl_formula_example :
  (* a quarter turn, half saturation, lightness 1/2: a yellow green *)
  hsl_channel (hue_red (/ 4)) (/ 2) (/ 2) = / 2 /\ hsl_channel (hue_green (/ 4)) (/ 2) (/ 2) = 3 / 4 /\
  hsl_channel (hue_blue (/ 4)) (/ 2) (/ 2) = / 4 /\
  let c := mkC (dec 1 2) (dec 3 4) (dec 1 4) (dec 1 2) in
  in_gamut c /\ same_color (rgb_to_hsl c) (mkC (dec 1 4) (dec 1 2) (dec 1 2) (dec 1 2)) /\
  in_gamut (rgb_to_hsl c) /\ feq (d1 (hsl_to_rgb (rgb_to_hsl c))) (dec 3 4) = true.
Proof.
  split; [unfold hsl_channel; hues|]. split; [unfold hsl_channel; hues|]. split; [unfold hsl_channel; hues|].
  cbv zeta. repeat split; vm_compute; reflexivity.
Qed.

(** C86: the colour of given hue, saturation and value. *)
Lemma colour_of_hsv : forall L c, in_gamut c ->
  is_hsv (/ 2 ^ 20) (B2R (d0 c)) (B2R (d1 c)) (B2R (d2 c)) (to_rgb L KHsv c) /\ d3 (to_rgb L KHsv c) = d3 c.
Proof. intros L c G. rewrite (pow_IZR 2 20). exact (hsv_to_rgb_meaning c G). Qed.
(** C86: [to_hsv] finds hue, saturation and value that describe the colour;
    for grey, where the hue is NaN, any hue does. *)
Lemma hsv_of_colour : forall L c, in_gamut c ->
  let o := to_hsv L KRgb c in
  is_hsv (if Rle_dec (/ 2 ^ 15) (B2R (d2 o)) then / 2 ^ 19 else / 2 ^ 15) (B2R (d0 o)) (B2R (d1 o)) (B2R (d2 o)) c /\ d3 o = d3 c.
Proof.
  intros L c G. rewrite (pow_IZR 2 15), (pow_IZR 2 19). split; [exact (rgb_to_hsv_meaning c G)|].
  exact (rgb_to_hsv_alpha c).
Qed.
(** C86: the conversion to HSV and back changes no channel by more than 2^-15. *)
Lemma hsv_and_back : forall L c, in_gamut c ->
  channelwise (/ 2 ^ 15) (fun v => v) c (to_rgb L KHsv (to_hsv L KRgb c)).
Proof. intros L c G. rewrite (pow_IZR 2 15). exact (hsv_round_trip c G). Qed.
Example hsv_formula_example :
  hsv_channel (hue_red (/ 4)) (/ 2) (3 / 4) = 9 / 16 /\ hsv_channel (hue_green (/ 4)) (/ 2) (3 / 4) = 3 / 4 /\
  hsv_channel (hue_blue (/ 4)) (/ 2) (3 / 4) = 3 / 8 /\
  let c := mkC (dec 1 2) (dec 1 1) (dec 0 1) (dec 1 2) in
  in_gamut c /\ same_color (rgb_to_hsv c) (mkC (dec 1 4) f1 f1 (dec 1 2)) /\
  in_gamut (rgb_to_hsv c) /\ same_color (hsv_to_rgb (rgb_to_hsv c)) c.
Proof.
  split; [unfold hsv_channel; hues|]. split; [unfold hsv_channel; hues|]. split; [unfold hsv_channel; hues|].
  cbv zeta. repeat split; vm_compute; reflexivity.
Qed.

(** C87: the saturation multiplied by a factor, limited to [0,1]. *)
Lemma saturated : forall L f c, in_gamut c -> moderate f ->
  let h := to_hsl L KRgb c in let o := with_saturation f c in
  is_hsl (/ 2 ^ 17) (B2R (d0 h)) (limited (B2R (d1 h) * B2R f)) (B2R (d2 h)) o /\ d3 o = d3 c.
Proof. intros L f c G M. rewrite (pow_IZR 2 17). exact (saturation_meaning f c G M). Qed.
(** C87: the distance of the saturation from 1/2 multiplied by a factor. *)
Lemma saturation_stretched : forall L f c, in_gamut c -> moderate f ->
  let h := to_hsl L KRgb c in let o := stretch_saturation f c in
  is_hsl ((1 + Rabs (B2R f)) / 2 ^ 17) (B2R (d0 h)) (limited ((B2R (d1 h) - / 2) * B2R f + / 2)) (B2R (d2 h)) o /\ d3 o = d3 c.
Proof. intros L f c G M. rewrite (pow_IZR 2 17). exact (stretch_saturation_meaning f c G M). Qed.
(** C87: the saturation to the power 1/gamma. *)
Lemma saturation_gamma : forall L g c, accurate_powf L -> bounded_powf L -> in_gamut c -> usual_gamma g ->
  let h := to_hsl L KRgb c in let o := with_gamma_saturation L g c in
  is_hsl (/ 2 ^ 17) (B2R (d0 h)) (gamma_formula (B2R g) (B2R (d1 h))) (B2R (d2 h)) o /\ d3 o = d3 c.
Proof. intros L g c A B G M. rewrite (pow_IZR 2 17). exact (gamma_saturation_meaning L g c A B G M). Qed.
(** C87: the lightness multiplied by a factor. *)
Lemma lightened : forall L f c, in_gamut c -> moderate f ->
  let h := to_hsl L KRgb c in let o := with_lightness f c in
  is_hsl (/ 2 ^ 17) (B2R (d0 h)) (B2R (d1 h)) (limited (B2R (d2 h) * B2R f)) o /\ d3 o = d3 c.
Proof. intros L f c G M. rewrite (pow_IZR 2 17). exact (lightness_meaning f c G M). Qed.
(** C87: all three multiplied by factors. *)
Lemma modulated : forall L fh fs fl c, in_gamut c -> moderate fh -> moderate fs -> moderate fl ->
  let h := to_hsl L KRgb c in let o := modulate fh fs fl c in
  is_hsl (/ 2 ^ 17) (limited (B2R (d0 h) * B2R fh)) (limited (B2R (d1 h) * B2R fs)) (limited (B2R (d2 h) * B2R fl)) o /\ d3 o = d3 c.
Proof. intros L fh fs fl c G A B C. rewrite (pow_IZR 2 17). exact (modulate_meaning fh fs fl c G A B C). Qed.
(** C87: the hue turned by up to a full turn, given in degrees. *)
Lemma hue_turned : forall L degrees c, in_gamut c -> is_finite degrees = true -> Rabs (B2R degrees) <= 360 ->
  let h := to_hsl L KRgb c in let o := with_hue_rotate degrees c in
  exists n : Z, let t := B2R (d0 h) + B2R degrees / 360 + IZR n in
  0 <= t <= 1 /\ is_hsl (/ 2 ^ 17) t (B2R (d1 h)) (B2R (d2 h)) o /\ d3 o = d3 c.
Proof. intros L d c G F D. rewrite (pow_IZR 2 17). exact (hue_rotate_meaning d c G F D). Qed.
(** C87: larger turns are not reduced: two full turns make a red lose all its red. *)
Lemma hue_two_turns_refuted :
  ~ forall c, in_gamut c -> channelwise (/ 2) (fun v => v) c (with_hue_rotate (ofZ 720) c).
Proof.
  intros H. destruct (H (mkC f1 f0 (dec 1 2) f1)) as ((A & B) & _). { repeat split; vm_compute; reflexivity. }
  cbn [d0] in B. assert (E : flt (d0 (with_hue_rotate (ofZ 720) (mkC f1 f0 (dec 1 2) f1))) (dec 1 4) = true) by (vm_compute; reflexivity).
  set (o := d0 (with_hue_rotate (ofZ 720) (mkC f1 f0 (dec 1 2) f1))) in *. clearbody o.
  apply (flt_R o (dec 1 4) A eq_refl) in E. fval (dec 1 4) Q. rewrite Q in E. rewrite f1_R in B. apply Rabs_le_iff in B. lra.
Qed.
Example hue_operations_example : forall L,
  let c := mkC (dec 1 2) (dec 3 4) (dec 1 4) (dec 1 2) in
  in_gamut c /\ moderate f2 /\ usual_gamma f2 /\ accurate_powf (ideal_libm L) /\ bounded_powf (ideal_libm L) /\
  Rabs (B2R (ofZ (-90))) <= 360 /\
  feq (d1 (with_saturation f2 c)) f1 = true /\ feq (d2 (with_saturation f2 c)) f0 = true /\
  feq (d0 (with_hue_rotate (ofZ (-90)) c)) (dec 3 4) = true /\ feq (d1 (with_hue_rotate (ofZ (-90)) c)) (dec 1 4) = true /\
  same_color (with_lightness f2 c) (mkC f1 f1 f1 (dec 1 2)).
Proof.
  intros L. cbv zeta. split; [repeat split; reflexivity|]. split.
  { split; [reflexivity|]. rewrite f2_R, Rabs_right, p60; lra. } split.
  { split; [reflexivity|]. rewrite f2_R. lra. }
  split; [apply ideal_accurate|]. split; [apply ideal_bounded|]. split.
  { rewrite ofZ_R by lia. apply Rabs_le_iff. lra. }
  repeat split; vm_compute; reflexivity.
Qed.
