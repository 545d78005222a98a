(** Property theorems, generated from OpMeaningThm.v by tools/mkp.py. *)

From Coq Require Import Reals ZArith.
From Flocq Require Import IEEE754.BinarySingleNaN.
From Verif Require Import F32 Color ColorSpec MeaningSpec IdealPowf.
Open Scope R_scope.

From Verif Require Import OpMeaningThm.


(** C84: brightness adds to every channel, limited to [0,1]. *)

Theorem C84_brightness : forall factor c, in_gamut c -> moderate factor ->
  channelwise (/ 2 ^ 24) (fun v => limited (v + B2R factor)) c (with_brightness factor c).
Proof. exact brightness. Qed.
Print Assumptions C84_brightness.


(** C84: contrast scales the distance of every channel from 1/2. *)

Theorem C84_contrast : forall factor c, in_gamut c -> moderate factor ->
  channelwise ((4 + 4 * Rabs (B2R factor)) / 2 ^ 24) (fun v => limited ((v - / 2) * B2R factor + / 2)) c (with_contrast factor c).
Proof. exact contrast. Qed.
Print Assumptions C84_contrast.


(** C84: both at once. *)

Theorem C84_brightness_contrast : forall br factor c, in_gamut c -> moderate br -> moderate factor ->
  channelwise ((1 + Rabs (B2R factor)) * (8 + 5 * Rabs (B2R br)) / 2 ^ 24)
    (fun v => limited ((v + B2R br - / 2) * B2R factor + / 2)) c (with_brightness_contrast br factor c).
Proof. exact brightness_contrast. Qed.
Print Assumptions C84_brightness_contrast.

Example C84_brightness_contrast_example :
  let c := mkC (dec 1 4) (dec 1 2) (dec 7 8) f1 in
  in_gamut c /\ moderate (dec 1 4) /\ moderate (ofZ 2) /\
  same_color (with_brightness (dec 1 4) c) (mkC (dec 1 2) (dec 3 4) f1 f1) /\
  same_color (with_contrast (ofZ 2) c) (mkC f0 (dec 1 2) f1 f1) /\
  same_color (with_brightness_contrast (dec 1 4) (ofZ 2) c) (mkC (dec 1 2) f1 f1 f1).
Proof. exact brightness_contrast_example. Qed.


(** C84: inverting subtracts every channel from 1. *)

Theorem C84_inverted : forall c, in_gamut c -> channelwise (/ 2 ^ 25) (fun v => 1 - v) c (invert c).
Proof. exact inverted. Qed.
Print Assumptions C84_inverted.


(** C84: the difference of two colours is the distance of their channels. *)

Theorem C84_distances : forall c o, in_gamut c -> in_gamut o ->
  colour_close (/ 2 ^ 25) (Rabs (B2R (d0 c) - B2R (d0 o))) (Rabs (B2R (d1 c) - B2R (d1 o))) (Rabs (B2R (d2 c) - B2R (d2 o)))
    (difference c o).
Proof. exact distances. Qed.
Print Assumptions C84_distances.


(** C84: the grey value is the formula of the chosen intensity. *)

Theorem C84_gray : forall i c r, in_gamut c -> gray_formula i (B2R (d0 c)) (B2R (d1 c)) (B2R (d2 c)) = Some r ->
  colour_close (/ 2 ^ 21) r r r (to_gray_with_intensity i c) /\ d3 (to_gray_with_intensity i c) = d3 c.
Proof. exact gray. Qed.
Print Assumptions C84_gray.


(** C84: [to_gray] uses Rec. 709. *)

Theorem C84_gray_default : forall c, in_gamut c ->
  let y := 212656 / 1000000 * B2R (d0 c) + 715158 / 1000000 * B2R (d1 c) + 72186 / 1000000 * B2R (d2 c) in
  colour_close (/ 2 ^ 21) y y y (to_gray c).
Proof. exact gray_default. Qed.
Print Assumptions C84_gray_default.

Example C84_gray_example :
  let c := mkC (dec 1 4) (dec 3 4) f1 f1 in
  in_gamut c /\ same_color (invert c) (mkC (dec 3 4) (dec 1 4) f0 f1) /\
  same_color (difference c RGB_WHITE) (mkC (dec 3 4) (dec 1 4) f0 f1) /\
  same_color (to_gray_with_intensity Average c) (mkC (dec 2 3) (dec 2 3) (dec 2 3) f1) /\
  same_color (to_gray_with_intensity Lightness c) (mkC (dec 5 8) (dec 5 8) (dec 5 8) f1).
Proof. exact gray_example. Qed.


(** C84: sepia mixes the channels with fixed weights, limited to 1. *)

Theorem C84_sepia : forall c, in_gamut c ->
  colour_close (/ 2 ^ 21)
    (limited (393 / 1000 * B2R (d0 c) + 769 / 1000 * B2R (d1 c) + 189 / 1000 * B2R (d2 c)))
    (limited (349 / 1000 * B2R (d0 c) + 686 / 1000 * B2R (d1 c) + 168 / 1000 * B2R (d2 c)))
    (limited (272 / 1000 * B2R (d0 c) + 534 / 1000 * B2R (d1 c) + 131 / 1000 * B2R (d2 c)))
    (with_sepia c).
Proof. exact sepia. Qed.
Print Assumptions C84_sepia.


(** C84: alpha blending weighs the colour on top with its alpha and the one
    below with the rest; the alphas are added, limited to 1. *)

Theorem C84_blended : forall below top, in_gamut below -> in_gamut top ->
  let a := B2R (d3 top) in
  let mix b t := t * a + (1 - a) * b in
  colour_close (/ 2 ^ 22) (mix (B2R (d0 below)) (B2R (d0 top))) (mix (B2R (d1 below)) (B2R (d1 top))) (mix (B2R (d2 below)) (B2R (d2 top)))
    (alpha_blend below top) /\
  close (/ 2 ^ 22) (Rmin (B2R (d3 below) + a) 1) (d3 (alpha_blend below top)).
Proof. exact blended. Qed.
Print Assumptions C84_blended.

Example C84_blended_example :
  let below := mkC f1 f0 (dec 1 2) (dec 1 2) in let top := mkC f0 f1 f1 (dec 1 4) in
  in_gamut below /\ in_gamut top /\
  same_color (alpha_blend below top) (mkC (dec 3 4) (dec 1 4) (dec 5 8) (dec 3 4)).
Proof. exact blended_example. Qed.


(** C84: gamma takes every channel to the power 1/gamma. *)

Theorem C84_gamma_power : forall L g c, accurate_powf L -> in_gamut c -> usual_gamma g ->
  channelwise (/ 2 ^ 19) (gamma_formula (B2R g)) c (with_gamma L g c).
Proof. exact gamma_power. Qed.
Print Assumptions C84_gamma_power.


(** C84: the optimised gamma is that on the upper half of the range and the
    inverse power on the lower half. *)

Theorem C84_gamma_opt_power : forall L g c, accurate_powf L -> in_gamut c -> usual_gamma g ->
  channelwise (/ 2 ^ 19) (gamma_opt_formula (B2R g)) c (with_gamma_opt L g c).
Proof. exact gamma_opt_power. Qed.
Print Assumptions C84_gamma_opt_power.


(** C84: level stretches the range between black and white to [0,1] and
    then applies the gamma: the result is the power of a number that is
    within 2^-20 of the stretched channel. *)

Theorem C84_level : forall L black white g c o, accurate_powf L -> in_gamut c -> in01 black -> in01 white ->
  / 2 ^ 20 <= B2R white - B2R black -> usual_gamma g -> o = with_level L black white g c ->
  let stretched v t := 0 <= t <= 1 /\ Rabs (t - limited ((v - B2R black) / (B2R white - B2R black))) <= / 2 ^ 20 in
  (exists t, stretched (B2R (d0 c)) t /\ close (/ 2 ^ 19) (gamma_formula (B2R g) t) (d0 o)) /\
  (exists t, stretched (B2R (d1 c)) t /\ close (/ 2 ^ 19) (gamma_formula (B2R g) t) (d1 o)) /\
  (exists t, stretched (B2R (d2 c)) t /\ close (/ 2 ^ 19) (gamma_formula (B2R g) t) (d2 o)) /\ d3 o = d3 c.
Proof. exact level. Qed.
Print Assumptions C84_level.

Example C84_gamma_level_example : forall L,
  accurate_powf (ideal_libm L) /\ usual_gamma (dec 22 10) /\
  in_gamut (mkC (dec 1 4) (dec 3 4) f1 f1) /\ in01 (dec 1 10) /\ in01 (dec 9 10) /\
  / 2 ^ 20 <= B2R (dec 9 10) - B2R (dec 1 10) /\
  gamma_formula 2 (/ 4) = / 2.
Proof. exact gamma_level_example. Qed.
