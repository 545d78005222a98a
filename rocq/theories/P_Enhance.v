(** Property theorems, generated from EnhanceThm.v by tools/mkp.py. *)

From Coq Require Import Reals ZArith List.
From Flocq Require Import IEEE754.BinarySingleNaN.
From Verif Require Import Base F32 PixelBuffer BufferSpec Color ColorSpec MeaningSpec ConvSpec EnhanceSpec Kernel Ops IdealPowf IdealLibm.
Import ListNotations.
Open Scope R_scope.

From Verif Require Import EnhanceThm.


(** C98: [optimize_lightness] is a gamma correction whose gamma is 1 less
    [factor] times the distance of the mean lightness from 1/2. *)

Theorem C98_optimize_lightness_is_gamma : forall L (b : PixelBuffer Rgb) factor,
  accurate_powf L -> valid b -> Forall in_gamut (data b) -> is_finite factor = true -> Rabs (B2R factor) <= 3 / 2 ->
  let gamma := 1 - (mean (fun c => B2R (d2 (rgb_to_hsl c))) (data b) - / 2) * B2R factor in
  exists r, optimize_lightness L b factor = Ok r /\ valid r /\ width r = width b /\ height r = height b /\
  forall m x y c, inside b x y -> get_pixel m b x y = Ok c ->
    exists o, get_pixel m r x y = Ok o /\ channelwise (/ 2 ^ 16) (gamma_formula gamma) c o.
Proof. exact optimize_lightness_is_gamma. Qed.
Print Assumptions C98_optimize_lightness_is_gamma.

Example C98_optimize_lightness_example :
  (forall L, accurate_powf (ideal_libm L)) /\
  let b := mkPB 2 1 [mkC f1 f1 f1 f1; mkC (dec 1 2) (dec 1 2) (dec 1 2) f1] in
  valid b /\ Forall in_gamut (data b) /\ is_finite f1 = true /\ Rabs (B2R f1) <= 3 / 2 /\
  mean (fun c => B2R (d2 (rgb_to_hsl c))) (data b) = 3 / 4.
Proof. exact optimize_lightness_example. Qed.


(** C99: [optimize_saturation] in HSL: the saturation of each pixel, as HSL
    has it, is raised to a power that depends on its lightness and on a gamma
    common to all pixels; hue, lightness and alpha stay. The gamma is the wanted
    one up to an error that grows with the number of pixels. *)

Theorem C99_optimize_saturation_hsl : forall L (b : PixelBuffer Rgb) offset,
  accurate_powf L -> bounded_powf L -> valid b -> nonempty b -> Forall in_gamut (data b) ->
  is_finite offset = true -> / 2 <= B2R offset <= 5 / 4 ->
  exists (g : R) r, optimize_saturation L b offset SHsl = Ok r /\ valid r /\ width r = width b /\ height r = height b /\
  / 2 <= g <= 2 /\
  ((width b * height b <= 4194304)%Z ->
    Rabs (g - wanted_gamma (B2R offset) (fun c => B2R (d1 (rgb_to_hsl c))) (data b)) <= (IZR (width b * height b) + 12) / 2 ^ 23) /\
  forall m x y c, inside b x y -> get_pixel m b x y = Ok c -> exists o, get_pixel m r x y = Ok o /\
    let h := rgb_to_hsl c in
    is_hsl (/ 2 ^ 17) (B2R (d0 h)) (gamma_formula (gamma_at g (B2R (d2 h))) (B2R (d1 h))) (B2R (d2 h)) o /\ d3 o = d3 c.
Proof. exact optimize_saturation_hsl. Qed.
Print Assumptions C99_optimize_saturation_hsl.


(** C99: the same in HSV, with the value in place of the lightness. *)

Theorem C99_optimize_saturation_hsv : forall L (b : PixelBuffer Rgb) offset,
  accurate_powf L -> bounded_powf L -> valid b -> nonempty b -> Forall in_gamut (data b) ->
  is_finite offset = true -> / 2 <= B2R offset <= 5 / 4 ->
  exists (g : R) r, optimize_saturation L b offset SHsv = Ok r /\ valid r /\ width r = width b /\ height r = height b /\
  / 2 <= g <= 2 /\
  ((width b * height b <= 4194304)%Z ->
    Rabs (g - wanted_gamma (B2R offset) (fun c => B2R (d1 (rgb_to_hsv c))) (data b)) <= (IZR (width b * height b) + 12) / 2 ^ 23) /\
  forall m x y c, inside b x y -> get_pixel m b x y = Ok c -> exists o, get_pixel m r x y = Ok o /\
    let h := rgb_to_hsv c in
    is_hsv (/ 2 ^ 17) (B2R (d0 h)) (gamma_formula (gamma_at g (B2R (d2 h))) (B2R (d1 h))) (B2R (d2 h)) o /\ d3 o = d3 c.
Proof. exact optimize_saturation_hsv. Qed.
Print Assumptions C99_optimize_saturation_hsv.


(** C99: the same in LCh, for the chroma limited to [0,1]; the gamma may be
    off eight times as much. *)

Theorem C99_optimize_saturation_lch : forall L (b : PixelBuffer Rgb) offset,
  accurate_powf L -> accurate_powf_above L -> accurate_angles L -> valid b -> nonempty b -> Forall in_gamut (data b) ->
  is_finite offset = true -> / 2 <= B2R offset <= 5 / 4 ->
  exists (g : R) r, optimize_saturation L b offset SLch = Ok r /\ valid r /\ width r = width b /\ height r = height b /\
  ((width b * height b <= 4194304)%Z ->
    Rabs (g - wanted_gamma (B2R offset) (fun c => B2R (d1 (to_lch L D65 O2 KRgb c))) (data b)) <= 8 * (IZR (width b * height b) + 12) / 2 ^ 23) /\
  (/ 2 <= g <= 2 -> forall m x y c, inside b x y -> get_pixel m b x y = Ok c -> exists o chroma, get_pixel m r x y = Ok o /\
    let h := to_lch L D65 O2 KRgb c in
    close (/ 2 ^ 17) (gamma_formula (gamma_at g (B2R (d0 h))) (limited (B2R (d1 h)))) chroma /\
    o = to_rgb L (KLch D65 O2) (mkC (d0 h) chroma (d2 h) (d3 c))).
Proof. exact optimize_saturation_lch. Qed.
Print Assumptions C99_optimize_saturation_lch.


(** C99 fails for large images: the saturations are added up in f32, and such
    a sum stops growing. An image of 1 by 1 and one of 8192 by 4096 pixels of the
    same colour get different colours. *)

Theorem C99_optimize_saturation_any_size_refuted : forall L, accurate_powf L -> bounded_powf L ->
  let colour := mkC (dec 3 4) (dec 1 4) (dec 1 4) f1 in
  exists small large r1 r2 o1 o2,
  (forall m, new_with_color m 1 1 colour = Ok small) /\ (forall m, new_with_color m 8192 4096 colour = Ok large) /\
  optimize_saturation L small f1 SHsl = Ok r1 /\ optimize_saturation L large f1 SHsl = Ok r2 /\
  (forall m, get_pixel m r1 0 0 = Ok o1 /\ get_pixel m r2 0 0 = Ok o2) /\
  is_finite (d0 o1) = true /\ is_finite (d0 o2) = true /\ B2R (d0 o1) + / 64 <= B2R (d0 o2).
Proof. exact optimize_saturation_any_size_refuted. Qed.
Print Assumptions C99_optimize_saturation_any_size_refuted.

Example C99_optimize_saturation_example :
  (forall L, accurate_powf (ideal_libm L) /\ bounded_powf (ideal_libm L)) /\
  (forall L, accurate_powf (full_libm L) /\ accurate_powf_above (full_libm L) /\ accurate_angles (full_libm L)) /\
  let b := mkPB 2 1 [mkC (dec 3 4) (dec 1 4) (dec 1 4) f1; mkC (dec 1 2) (dec 1 2) (dec 1 2) f1] in
  valid b /\ nonempty b /\ Forall in_gamut (data b) /\ is_finite f1 = true /\ / 2 <= B2R f1 <= 5 / 4 /\
  wanted_gamma (B2R f1) (fun c => B2R (d1 (rgb_to_hsl c))) (data b) = 3 / 2.
Proof. exact optimize_saturation_example. Qed.
