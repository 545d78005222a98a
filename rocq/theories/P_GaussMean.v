(** Property theorems, generated from GaussMeanThm.v by tools/mkp.py. *)

From Coq Require Import Reals ZArith List.
From Flocq Require Import IEEE754.BinarySingleNaN.
From Verif Require Import Base PixelBuffer BufferSpec F32 Color ColorSpec MeaningSpec EnhanceSpec ResampleSpec Kernel KernelSpec GaussSpec GaussMeaning2.
Import ListNotations.
Open Scope R_scope.

From Verif Require Import GaussMeanThm.


(** C108: every channel of a blurred image is the mean of the pixels up to
    [r] columns and rows away, weighted by the bell curve, up to (2r+1)^2/2^17;
    pixels beyond the edges count as the nearest ones inside. *)

Theorem C108_blur_formula : forall L m (b : PixelBuffer Rgb) r sigma, exp_ok L -> accurate_exp L -> valid b ->
  (0 <= r <= 500)%Z -> sigma_ok r sigma -> (forall c, In c (data b) -> in_gamut c) ->
  exists out, gaussian_blur L m b r sigma = Ok out /\ valid out /\ width out = width b /\ height out = height b /\
    forall x y pick, inside b x y -> channel pick -> exists o, get_pixel m out x y = Ok o /\
      close (IZR ((2 * r + 1) * (2 * r + 1)) / 2 ^ 17)
        (bell_mean (blur_sigma sigma r) r (fun i j => B2R (pick (edge_pixel b (x + i) (y + j))))) (pick o).
Proof. exact blur_formula. Qed.
Print Assumptions C108_blur_formula.

Example C108_blur_formula_example :
  (forall L, exp_ok (exp_libm L) /\ accurate_exp (exp_libm L)) /\ valid (mkPB 2 1 [RGB_RED; RGB_BLUE]) /\ sigma_ok 3 None /\
  (forall c, In c [RGB_RED; RGB_BLUE] -> in_gamut c) /\ blur_sigma None 3 = 3 / 2 /\
  bell_curve (3 / 2) 0 0 = 1 /\ bell_curve (3 / 2) 3 0 = exp (- 2) /\ length (around 3) = 49%nat /\
  (forall sigma v, bell_mean sigma 0 v = v 0%Z 0%Z).
Proof. exact blur_formula_example. Qed.


(** C108: sharpening adds [factor] times the difference from that mean and
    limits the result to [0,1]. *)

Theorem C108_unsharp_formula : forall L m (b : PixelBuffer Rgb) r factor sigma, exp_ok L -> accurate_exp L -> valid b ->
  (0 <= r <= 500)%Z -> sigma_ok r sigma -> is_finite factor = true -> Rabs (B2R factor) <= 32 -> (forall c, In c (data b) -> in_gamut c) ->
  exists out, unsharp L m b r factor sigma = Ok out /\ valid out /\ width out = width b /\ height out = height b /\
    forall x y pick, inside b x y -> channel pick -> exists c o, get_pixel m b x y = Ok c /\ get_pixel m out x y = Ok o /\
      let mean := bell_mean (blur_sigma sigma r) r (fun i j => B2R (pick (edge_pixel b (x + i) (y + j)))) in
      close ((Rabs (B2R factor) + 2) * IZR ((2 * r + 1) * (2 * r + 1)) / 2 ^ 16)
        (limited (B2R (pick c) + B2R factor * (B2R (pick c) - mean))) (pick o).
Proof. exact unsharp_formula. Qed.
Print Assumptions C108_unsharp_formula.

Example C108_unsharp_formula_example :
  (forall L, exp_ok (exp_libm L) /\ accurate_exp (exp_libm L)) /\ valid (mkPB 2 1 [RGB_RED; RGB_BLUE]) /\ sigma_ok 3 (Some f1) /\
  is_finite f2 = true /\ Rabs (B2R f2) <= 32 /\ (forall c, In c [RGB_RED; RGB_BLUE] -> in_gamut c).
Proof. exact unsharp_formula_example. Qed.


(** C108: Sobel edge detection gives the length of the slope, limited to
    [0,1], up to 2^-12, and makes the image opaque. *)

Theorem C108_sobel_formula : forall m (b : PixelBuffer Rgb), valid b -> (forall c, In c (data b) -> in_gamut c) ->
  exists out, edge_detection m b Sobel = Ok out /\ valid out /\ width out = width b /\ height out = height b /\
    forall x y, inside b x y -> exists o, get_pixel m out x y = Ok o /\ d3 o = f1 /\
      forall pick, pick = d0 \/ pick = d1 \/ pick = d2 ->
      let v i j := B2R (pick (edge_pixel b (x + i) (y + j))) in
      close (/ 2 ^ 12) (limited (sqrt (slope_x v ^ 2 + slope_y v ^ 2))) (pick o).
Proof. exact sobel_formula. Qed.
Print Assumptions C108_sobel_formula.

Example C108_sobel_formula_example :
  valid (mkPB 2 1 [RGB_BLACK; RGB_WHITE]) /\ (forall c, In c [RGB_BLACK; RGB_WHITE] -> in_gamut c) /\
  (forall s, slope_x (fun i j => s * IZR i) = - (8 * s) /\ slope_y (fun i j => s * IZR i) = 0).
Proof. exact sobel_formula_example. Qed.
