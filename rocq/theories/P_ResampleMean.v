(** Property theorems, generated from ResampleMeanThm.v by tools/mkp.py. *)

From Coq Require Import Reals ZArith List.
From Flocq Require Import IEEE754.BinarySingleNaN.
From Verif Require Import Base PixelBuffer BufferSpec F32 Color ColorSpec MeaningSpec Resample ResampleSpec.
Import ListNotations.
Open Scope R_scope.

From Verif Require Import ResampleMeanThm.


(** C104: bilinear resizing gives the values of the piecewise linear surface
    through the pixels at the scaled positions of the new pixel centres. *)

Theorem C104_bilinear_resize : forall L m b w h, valid b -> nonempty b -> Forall in_gamut (data b) -> valid_size w h ->
  exists r, resize L m b w h Bilinear = Ok r /\ width r = w /\ height r = h /\
  forall x y, inside r x y -> exists o, get_pixel m r x y = Ok o /\ forall d, In d [d0; d1; d2; d3] ->
    close (IZR (width b + height b) / 2 ^ 21 + / 2 ^ 20)
      (surface linear (fun i j => B2R (d (edge_pixel b i j))) (scaled_pos x w (width b)) (scaled_pos y h (height b))) (d o).
Proof. exact bilinear_resize. Qed.
Print Assumptions C104_bilinear_resize.


(** C104: bicubic resizing, and resizing with Auto unless both sides shrink,
    gives those of the Catmull-Rom spline surface, limited to 0..1. *)

Theorem C104_bicubic_resize : forall L m b w h f, f = Bicubic \/ f = Auto /\ (width b <= w \/ height b <= h)%Z ->
  valid b -> nonempty b -> Forall in_gamut (data b) -> valid_size w h ->
  exists r, resize L m b w h f = Ok r /\ width r = w /\ height r = h /\
  forall x y, inside r x y -> exists o, get_pixel m r x y = Ok o /\ forall d, In d [d0; d1; d2; d3] ->
    close (IZR (width b + height b) / 2 ^ 20 + / 2 ^ 16)
      (limited (surface spline (fun i j => B2R (d (edge_pixel b i j))) (scaled_pos x w (width b)) (scaled_pos y h (height b)))) (d o).
Proof. exact bicubic_resize. Qed.
Print Assumptions C104_bicubic_resize.


(** C104: nearest resizing takes the pixel nearest to the scaled position of
    the new pixel's corner, not of its centre. *)

Theorem C104_nearest_resize : forall L m b w h, valid b -> nonempty b -> valid_size w h ->
  exists r, resize L m b w h Nearest = Ok r /\ width r = w /\ height r = h /\
  forall x y, inside r x y -> forall i j,
    Rabs (IZR x * (IZR (width b) / IZR w) - IZR i) < / 2 - IZR (width b) / 2 ^ 21 ->
    Rabs (IZR y * (IZR (height b) / IZR h) - IZR j) < / 2 - IZR (height b) / 2 ^ 21 ->
    get_pixel m r x y = Ok (edge_pixel b i j).
Proof. exact nearest_resize. Qed.
Print Assumptions C104_nearest_resize.

Example C104_resize_formula_example :
  let b := mkPB 2 1 [mkC f0 f0 f0 f1; mkC f1 f1 f1 f1] in
  valid b /\ nonempty b /\ Forall in_gamut (data b) /\ valid_size 4 1 /\
  surface linear (fun i j => B2R (d0 (edge_pixel b i j))) (scaled_pos 1 4 2) (scaled_pos 0 1 1) = / 4 /\
  limited (surface spline (fun i j => B2R (d0 (edge_pixel b i j))) (scaled_pos 1 4 2) (scaled_pos 0 1 1)) = 13 / 64.
Proof. exact resize_formula_example. Qed.
