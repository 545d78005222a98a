(** Property theorems, generated from HueThm.v by tools/mkp.py. *)

From Coq Require Import Reals ZArith.
From Flocq Require Import IEEE754.BinarySingleNaN.
From Verif Require Import F32 Color ColorSpec MeaningSpec IdealPowf.
Open Scope R_scope.

From Verif Require Import HueThm.


(** C85: the colour of given hue, saturation and lightness. *)

Theorem C85_colour_of_hsl : forall L c, in_gamut c ->
  is_hsl (/ 2 ^ 18) (B2R (d0 c)) (B2R (d1 c)) (B2R (d2 c)) (to_rgb L KHsl c) /\ d3 (to_rgb L KHsl c) = d3 c.
Proof. exact colour_of_hsl. Qed.
Print Assumptions C85_colour_of_hsl.


(** C85: [to_hsl] finds hue, saturation and lightness that describe the colour. *)

Theorem C85_hsl_of_colour : forall L c, in_gamut c ->
  let o := to_hsl L KRgb c in
  is_hsl (/ 2 ^ 15 + / 2 ^ 19) (B2R (d0 o)) (B2R (d1 o)) (B2R (d2 o)) c /\ d3 o = d3 c.
Proof. exact hsl_of_colour. Qed.
Print Assumptions C85_hsl_of_colour.


(** C85: the conversion to HSL and back changes no channel by more than 2^-15 + 2^-17. *)

Theorem C85_hsl_and_back : forall L c, in_gamut c ->
  channelwise (/ 2 ^ 15 + / 2 ^ 17) (fun v => v) c (to_rgb L KHsl (to_hsl L KRgb c)).
Proof. exact hsl_and_back. Qed.
Print Assumptions C85_hsl_and_back.


(** C85: the grey value of the saturation is the saturation of [to_hsl]. *)

Theorem C85_saturation_gray : forall L c, let s := d1 (to_hsl L KRgb c) in
  to_gray_with_intensity Saturation c = mkC s s s (d3 c).
Proof. exact saturation_gray. Qed.
Print Assumptions C85_saturation_gray.

Example C85_hsl_formula_example :
  (* a quarter turn, half saturation, lightness 1/2: a yellow green *)
  hsl_channel (hue_red (/ 4)) (/ 2) (/ 2) = / 2 /\ hsl_channel (hue_green (/ 4)) (/ 2) (/ 2) = 3 / 4 /\
  hsl_channel (hue_blue (/ 4)) (/ 2) (/ 2) = / 4 /\
  let c := mkC (dec 1 2) (dec 3 4) (dec 1 4) (dec 1 2) in
  in_gamut c /\ same_color (rgb_to_hsl c) (mkC (dec 1 4) (dec 1 2) (dec 1 2) (dec 1 2)) /\
  in_gamut (rgb_to_hsl c) /\ feq (d1 (hsl_to_rgb (rgb_to_hsl c))) (dec 3 4) = true.
Proof. exact hsl_formula_example. Qed.


(** C86: the colour of given hue, saturation and value. *)

Theorem C86_colour_of_hsv : forall L c, in_gamut c ->
  is_hsv (/ 2 ^ 20) (B2R (d0 c)) (B2R (d1 c)) (B2R (d2 c)) (to_rgb L KHsv c) /\ d3 (to_rgb L KHsv c) = d3 c.
Proof. exact colour_of_hsv. Qed.
Print Assumptions C86_colour_of_hsv.


(** C86: [to_hsv] finds hue, saturation and value that describe the colour;
    for grey, where the hue is NaN, any hue does. *)

Theorem C86_hsv_of_colour : forall L c, in_gamut c ->
  let o := to_hsv L KRgb c in
  is_hsv (if Rle_dec (/ 2 ^ 15) (B2R (d2 o)) then / 2 ^ 19 else / 2 ^ 15) (B2R (d0 o)) (B2R (d1 o)) (B2R (d2 o)) c /\ d3 o = d3 c.
Proof. exact hsv_of_colour. Qed.
Print Assumptions C86_hsv_of_colour.


(** C86: the conversion to HSV and back changes no channel by more than 2^-15. *)

Theorem C86_hsv_and_back : forall L c, in_gamut c ->
  channelwise (/ 2 ^ 15) (fun v => v) c (to_rgb L KHsv (to_hsv L KRgb c)).
Proof. exact hsv_and_back. Qed.
Print Assumptions C86_hsv_and_back.

Example C86_hsv_formula_example :
  hsv_channel (hue_red (/ 4)) (/ 2) (3 / 4) = 9 / 16 /\ hsv_channel (hue_green (/ 4)) (/ 2) (3 / 4) = 3 / 4 /\
  hsv_channel (hue_blue (/ 4)) (/ 2) (3 / 4) = 3 / 8 /\
  let c := mkC (dec 1 2) (dec 1 1) (dec 0 1) (dec 1 2) in
  in_gamut c /\ same_color (rgb_to_hsv c) (mkC (dec 1 4) f1 f1 (dec 1 2)) /\
  in_gamut (rgb_to_hsv c) /\ same_color (hsv_to_rgb (rgb_to_hsv c)) c.
Proof. exact hsv_formula_example. Qed.


(** C87: the saturation multiplied by a factor, limited to [0,1]. *)

Theorem C87_saturated : forall L f c, in_gamut c -> moderate f ->
  let h := to_hsl L KRgb c in let o := with_saturation f c in
  is_hsl (/ 2 ^ 17) (B2R (d0 h)) (limited (B2R (d1 h) * B2R f)) (B2R (d2 h)) o /\ d3 o = d3 c.
Proof. exact saturated. Qed.
Print Assumptions C87_saturated.


(** C87: the distance of the saturation from 1/2 multiplied by a factor. *)

Theorem C87_saturation_stretched : forall L f c, in_gamut c -> moderate f ->
  let h := to_hsl L KRgb c in let o := stretch_saturation f c in
  is_hsl ((1 + Rabs (B2R f)) / 2 ^ 17) (B2R (d0 h)) (limited ((B2R (d1 h) - / 2) * B2R f + / 2)) (B2R (d2 h)) o /\ d3 o = d3 c.
Proof. exact saturation_stretched. Qed.
Print Assumptions C87_saturation_stretched.


(** C87: the saturation to the power 1/gamma. *)

Theorem C87_saturation_gamma : forall L g c, accurate_powf L -> bounded_powf L -> in_gamut c -> usual_gamma g ->
  let h := to_hsl L KRgb c in let o := with_gamma_saturation L g c in
  is_hsl (/ 2 ^ 17) (B2R (d0 h)) (gamma_formula (B2R g) (B2R (d1 h))) (B2R (d2 h)) o /\ d3 o = d3 c.
Proof. exact saturation_gamma. Qed.
Print Assumptions C87_saturation_gamma.


(** C87: the lightness multiplied by a factor. *)

Theorem C87_lightened : forall L f c, in_gamut c -> moderate f ->
  let h := to_hsl L KRgb c in let o := with_lightness f c in
  is_hsl (/ 2 ^ 17) (B2R (d0 h)) (B2R (d1 h)) (limited (B2R (d2 h) * B2R f)) o /\ d3 o = d3 c.
Proof. exact lightened. Qed.
Print Assumptions C87_lightened.


(** C87: all three multiplied by factors. *)

Theorem C87_modulated : forall L fh fs fl c, in_gamut c -> moderate fh -> moderate fs -> moderate fl ->
  let h := to_hsl L KRgb c in let o := modulate fh fs fl c in
  is_hsl (/ 2 ^ 17) (limited (B2R (d0 h) * B2R fh)) (limited (B2R (d1 h) * B2R fs)) (limited (B2R (d2 h) * B2R fl)) o /\ d3 o = d3 c.
Proof. exact modulated. Qed.
Print Assumptions C87_modulated.


(** C87: the hue turned by up to a full turn, given in degrees. *)

Theorem C87_hue_turned : forall L degrees c, in_gamut c -> is_finite degrees = true -> Rabs (B2R degrees) <= 360 ->
  let h := to_hsl L KRgb c in let o := with_hue_rotate degrees c in
  exists n : Z, let t := B2R (d0 h) + B2R degrees / 360 + IZR n in
  0 <= t <= 1 /\ is_hsl (/ 2 ^ 17) t (B2R (d1 h)) (B2R (d2 h)) o /\ d3 o = d3 c.
Proof. exact hue_turned. Qed.
Print Assumptions C87_hue_turned.


(** C87: larger turns are not reduced: two full turns make a red lose all its red. *)

Theorem C87_hue_two_turns_refuted :
  ~ forall c, in_gamut c -> channelwise (/ 2) (fun v => v) c (with_hue_rotate (ofZ 720) c).
Proof. exact hue_two_turns_refuted. Qed.
Print Assumptions C87_hue_two_turns_refuted.

Example C87_hue_operations_example : forall L,
  let c := mkC (dec 1 2) (dec 3 4) (dec 1 4) (dec 1 2) in
  in_gamut c /\ moderate f2 /\ usual_gamma f2 /\ accurate_powf (ideal_libm L) /\ bounded_powf (ideal_libm L) /\
  Rabs (B2R (ofZ (-90))) <= 360 /\
  feq (d1 (with_saturation f2 c)) f1 = true /\ feq (d2 (with_saturation f2 c)) f0 = true /\
  feq (d0 (with_hue_rotate (ofZ (-90)) c)) (dec 3 4) = true /\ feq (d1 (with_hue_rotate (ofZ (-90)) c)) (dec 1 4) = true /\
  same_color (with_lightness f2 c) (mkC f1 f1 f1 (dec 1 2)).
Proof. exact hue_operations_example. Qed.
