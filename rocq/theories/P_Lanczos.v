(** Property theorems, generated from LanczosThm.v by tools/mkp.py. *)

From Coq Require Import Reals ZArith List.
From Flocq Require Import IEEE754.BinarySingleNaN.
From Verif Require Import Base PixelBuffer BufferSpec F32 Color ColorSpec MeaningSpec Resample ResampleSpec LanczosSpec IdealLibm.
Import ListNotations.
Open Scope R_scope.

From Verif Require Import LanczosThm.


(** C106: resizing with Lanczos3 weights the seven by seven pixels around the
    scaled position of each new pixel's centre with the Lanczos window of three
    lobes; the weights are used as they are and the result is not limited. *)

Theorem C106_lanczos3_resize : forall L m (b : PixelBuffer Rgb) w h, accurate_sine L -> valid b -> nonempty b -> Forall in_gamut (data b) -> valid_size w h ->
  exists r, resize L m b w h Lanczos3 = Ok r /\ width r = w /\ height r = h /\
  forall x y, inside r x y -> exists o, get_pixel m r x y = Ok o /\
    exists p q, Rabs (p - scaled_pos x w (width b)) <= IZR (width b) / 2 ^ 21 /\ Rabs (q - scaled_pos y h (height b)) <= IZR (height b) / 2 ^ 21 /\
    forall d, In d [d0; d1; d2; d3] -> close (68 / 2 ^ 16) (surface (lanczos_curve 3 3) (fun i j => B2R (d (edge_pixel b i j))) p q) (d o).
Proof. exact lanczos3_resize. Qed.
Print Assumptions C106_lanczos3_resize.


(** C106: with Auto, when both sides shrink, the window grows with the reduction. *)

Theorem C106_auto_resize : forall L m (b : PixelBuffer Rgb) w h, accurate_sine L -> valid b -> Forall in_gamut (data b) ->
  (0 < w < width b)%Z -> (0 < h < height b)%Z -> (width b <= 10000 * w)%Z -> (height b <= 10000 * h)%Z ->
  exists r size s, resize L m b w h Auto = Ok r /\ width r = w /\ height r = h /\ auto_window (width b) (height b) w h size s /\
  forall x y, inside r x y -> exists o, get_pixel m r x y = Ok o /\
    exists p q, Rabs (p - scaled_pos x w (width b)) <= IZR (width b) / 2 ^ 21 /\ Rabs (q - scaled_pos y h (height b)) <= IZR (height b) / 2 ^ 21 /\
    forall d, In d [d0; d1; d2; d3] -> close ((65 + IZR size) / 2 ^ 16) (surface (lanczos_curve s size) (fun i j => B2R (d (edge_pixel b i j))) p q) (d o).
Proof. exact auto_resize. Qed.
Print Assumptions C106_auto_resize.


(** C106: rotating with Lanczos3 does the same at the turned-back position. *)

Theorem C106_lanczos3_rotate : forall L m (b : PixelBuffer Rgb) a bg r x y, accurate_sine L -> accurate_turn L -> valid b -> Forall in_gamut (data b) ->
  is_finite a = true -> Rabs (B2R a) <= 360 -> rotate L m b a bg Lanczos3 = Ok r -> inside r x y ->
  let '(p, q) := turned_back (width b) (height b) (B2R a) x y in let e := IZR (width b + height b) / 2 ^ 19 in
  - / 2 + e < p < IZR (width b) - / 2 - e -> - / 2 + e < q < IZR (height b) - / 2 - e ->
  exists o, get_pixel m r x y = Ok o /\ exists p' q', Rabs (p' - p) <= e /\ Rabs (q' - q) <= e /\
    forall d, In d [d0; d1; d2; d3] -> close (68 / 2 ^ 16) (surface (lanczos_curve 3 3) (fun i j => B2R (d (edge_pixel b i j))) p' q') (d o).
Proof. exact lanczos3_rotate. Qed.
Print Assumptions C106_lanczos3_rotate.


(** C106: a user expects that shrinking keeps a plain colour. The weights of
    the window for the reductions between 3/2 and 3 do not add up to 1, and the
    result is not limited: a plain white image of 8 by 8 pixels shrunk to 4 by
    4 with Auto becomes brighter than white. *)

Theorem C106_plain_white_refuted : forall L m, accurate_sine L ->
  let b := mkPB 8 8 (repeat (mkC f1 f1 f1 f1) 64) in
  exists r, resize L m b 4 4 Auto = Ok r /\ width r = 4%Z /\ height r = 4%Z /\
  forall x y, inside r x y -> exists o, get_pixel m r x y = Ok o /\ forall d, In d [d0; d1; d2; d3] -> 103 / 100 < B2R (d o).
Proof. exact plain_white_refuted. Qed.
Print Assumptions C106_plain_white_refuted.

Example C106_lanczos_example : forall L, accurate_sine (full_libm L) /\
  let b := mkPB 8 8 (repeat (mkC f1 f1 f1 f1) 64) in
  valid b /\ nonempty b /\ Forall in_gamut (data b) /\ valid_size 4 4 /\ (0 < 4 < width b)%Z /\ (width b <= 10000 * 4)%Z /\ auto_window 8 8 4 4 4 9 /\
  window 0 = 1 /\ window 1 = 0 /\ forall v x, lanczos_curve 3 3 v (IZR x) = v x.
Proof. exact lanczos_example. Qed.
