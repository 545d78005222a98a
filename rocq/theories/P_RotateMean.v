(** Property theorems, generated from RotateMeanThm.v by tools/mkp.py. *)

From Coq Require Import Reals ZArith List.
From Flocq Require Import IEEE754.BinarySingleNaN.
From Verif Require Import Base PixelBuffer BufferSpec F32 Color ColorSpec MeaningSpec Resample ResampleSpec IdealLibm.
Import ListNotations.
Open Scope R_scope.

From Verif Require Import RotateMeanThm.


(** C105: rotating by [a] degrees turns the picture clockwise about its middle:
    where the turned-back position is inside the image, Bilinear shows the
    piecewise linear surface through the pixels at that position. *)

Theorem C105_bilinear_rotate : forall L m b a bg r x y, accurate_turn L -> valid b -> Forall in_gamut (data b) ->
  is_finite a = true -> Rabs (B2R a) <= 360 -> rotate L m b a bg Bilinear = Ok r -> inside r x y ->
  let '(p, q) := turned_back (width b) (height b) (B2R a) x y in let e := IZR (width b + height b) / 2 ^ 19 in
  - / 2 + e < p < IZR (width b) - / 2 - e -> - / 2 + e < q < IZR (height b) - / 2 - e ->
  exists o, get_pixel m r x y = Ok o /\ forall d, In d [d0; d1; d2; d3] ->
    close (/ 2 ^ 20 + 2 * e) (surface linear (fun i j => B2R (d (edge_pixel b i j))) p q) (d o).
Proof. exact bilinear_rotate. Qed.
Print Assumptions C105_bilinear_rotate.


(** C105: Bicubic and Auto show the limited Catmull-Rom spline surface there. *)

Theorem C105_bicubic_rotate : forall L m b a bg f r x y, f = Bicubic \/ f = Auto -> accurate_turn L -> valid b -> Forall in_gamut (data b) ->
  is_finite a = true -> Rabs (B2R a) <= 360 -> rotate L m b a bg f = Ok r -> inside r x y ->
  let '(p, q) := turned_back (width b) (height b) (B2R a) x y in let e := IZR (width b + height b) / 2 ^ 19 in
  - / 2 + e < p < IZR (width b) - / 2 - e -> - / 2 + e < q < IZR (height b) - / 2 - e ->
  exists o, get_pixel m r x y = Ok o /\ forall d, In d [d0; d1; d2; d3] ->
    close (/ 2 ^ 16 + 4 * e) (limited (surface spline (fun i j => B2R (d (edge_pixel b i j))) p q)) (d o).
Proof. exact bicubic_rotate. Qed.
Print Assumptions C105_bicubic_rotate.


(** C105: Nearest shows the pixel nearest to the turned-back position. *)

Theorem C105_nearest_rotate : forall L m b a bg r x y i j, accurate_turn L -> valid b ->
  is_finite a = true -> Rabs (B2R a) <= 360 -> rotate L m b a bg Nearest = Ok r -> inside r x y -> inside b i j ->
  let '(p, q) := turned_back (width b) (height b) (B2R a) x y in let e := IZR (width b + height b) / 2 ^ 19 in
  Rabs (p - IZR i) < / 2 - e -> Rabs (q - IZR j) < / 2 - e -> get_pixel m r x y = get_pixel m b i j.
Proof. exact nearest_rotate. Qed.
Print Assumptions C105_nearest_rotate.


(** C105: where the turned-back position is outside the image, every filter
    shows the background colour. *)

Theorem C105_background_rotate : forall L m b a bg f r x y, accurate_turn L -> valid b ->
  is_finite a = true -> Rabs (B2R a) <= 360 -> rotate L m b a bg f = Ok r -> inside r x y ->
  let '(p, q) := turned_back (width b) (height b) (B2R a) x y in let e := IZR (width b + height b) / 2 ^ 19 in
  p < - / 2 - e \/ IZR (width b) - / 2 + e < p \/ q < - / 2 - e \/ IZR (height b) - / 2 + e < q -> get_pixel m r x y = Ok bg.
Proof. exact background_rotate. Qed.
Print Assumptions C105_background_rotate.

Example C105_rotate_formula_example : forall L, accurate_turn (full_libm L) /\
  let b := mkPB 2 1 [mkC f0 f0 f0 f1; mkC f1 f1 f1 f1] in
  valid b /\ Forall in_gamut (data b) /\ is_finite (ofZ 90) = true /\ B2R (ofZ 90) = 90 /\
  turned_back 2 1 180 0 0 = (1, 0) /\ turned_back 2 1 90 0 0 = (/ 2, / 2) /\ turned_back 3 1 90 0 0 = (1, 1).
Proof. exact rotate_formula_example. Qed.
