(** Property theorems, generated from TintThm.v by tools/mkp.py. *)

From Coq Require Import Reals ZArith List.
From Flocq Require Import IEEE754.BinarySingleNaN.
From Verif Require Import Base PixelBuffer BufferSpec F32 Color ColorSpec MeaningSpec ConvSpec OpsSpec TempSpec EnhanceSpec TintSpec Ops TintProofs.
Import ListNotations.
Open Scope R_scope.

From Verif Require Import TintThm.


(** C107: with a tint, [change_color_temperature] darkens green by the mean
    excess of green before the white point is changed, and then red and blue by
    a quarter and by 33 hundredths of their mean excess in the image as it was. *)

Theorem C107_tint_formula : forall L (b : PixelBuffer Rgb) t t' tint, accurate_powf L -> accurate_tanh_single L -> valid b -> nonempty b -> Forall in_gamut (data b) ->
  (width b * height b <= 2 ^ 20)%Z -> is_finite tint = true -> 0 < B2R tint <= 1 -> (3000 <= kelvin t')%Z ->
  exists r ug ur ub, change_color_temperature L b t t' tint = Ok r /\ valid r /\ width r = width b /\ height r = height b /\
  (let e := IZR (width b * height b) / 2 ^ 22 + / 2 ^ 18 in
   Rabs (ug - B2R tint * mean greenness (data b)) <= e /\
   Rabs (ur - B2R tint * (25 / 100 * mean red_excess (data b))) <= e /\
   Rabs (ub - B2R tint * (33 / 100 * mean blue_excess (data b))) <= e) /\
  forall m x y c, inside b x y -> get_pixel m b x y = Ok c -> exists o, get_pixel m r x y = Ok o /\
    close (/ 2 ^ 9) (darkened ur (limited (B2R (d0 c) * (white_red (kelvin t) / white_red (kelvin t'))))) (d0 o) /\
    close (/ 2 ^ 9) (limited (darkened ug (B2R (d1 c)) * (white_green (kelvin t) / white_green (kelvin t')))) (d1 o) /\
    close (/ 2 ^ 9) (darkened ub (limited (B2R (d2 c) * (white_blue (kelvin t) / white_blue (kelvin t'))))) (d2 o) /\ d3 o = d3 c.
Proof. exact tint_formula. Qed.
Print Assumptions C107_tint_formula.

Example C107_tint_formula_example :
  (forall L, accurate_powf (tint_libm L) /\ accurate_tanh_single (tint_libm L)) /\
  let b := mkPB 1 1 [half_green] in
  valid b /\ nonempty b /\ Forall in_gamut (data b) /\ is_finite f1 = true /\ 0 < B2R f1 <= 1 /\ kelvin (ofZ 4000) = 4000%Z /\ mean greenness (data b) = 1.
Proof. exact tint_formula_example. Qed.


(** C107: a user expects the same for an image of any size. The excess is added
    up in f32 and the sum stops growing at 2^24: on a plain image of half green
    with 2^25 pixels or more, green becomes at least 1/5, although the mean
    excess is 1 and half green darkened by that is at most 1/8. *)

Theorem C107_tint_large_refuted : forall L (b : PixelBuffer Rgb) t, accurate_powf L -> accurate_tanh_single L -> valid b -> Forall (fun c => c = half_green) (data b) ->
  (2 ^ 25 <= width b * height b)%Z -> (3000 <= kelvin t)%Z ->
  mean greenness (data b) = 1 /\ darkened 1 (B2R (d1 half_green)) <= / 8 /\
  exists r, change_color_temperature L b t t f1 = Ok r /\ valid r /\ width r = width b /\ height r = height b /\
  forall m x y, inside b x y -> exists o, get_pixel m r x y = Ok o /\ / 5 <= B2R (d1 o).
Proof. exact tint_large_refuted. Qed.
Print Assumptions C107_tint_large_refuted.

Example C107_tint_large_example :
  let b := mkPB (2 ^ 13) (2 ^ 12) (repeat half_green (Z.to_nat (2 ^ 25))) in
  valid b /\ Forall (fun c => c = half_green) (data b) /\ (2 ^ 25 <= width b * height b)%Z /\ kelvin (ofZ 6500) = 6500%Z.
Proof. exact tint_large_example. Qed.
