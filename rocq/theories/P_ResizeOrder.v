(** Property theorems, generated from ResizeOrderThm.v by tools/mkp.py. *)

From Coq Require Import Reals ZArith List Bool.
From Flocq Require Import IEEE754.BinarySingleNaN.
From Verif Require Import Base PixelBuffer BufferSpec F32 Color ColorSpec MeaningSpec Resample OrderSpec.
Import ListNotations.
Open Scope R_scope.

From Verif Require Import ResizeOrderThm.


(** C124: if an image is nowhere brighter than another, nor is it after
    resizing both with Nearest. *)

Theorem C124_nearest_keeps_order : forall L m (b b' : PixelBuffer Rgb) w h, valid b -> valid b' -> nonempty b -> valid_size w h -> image_not_brighter m b b' ->
  exists r r', resize L m b w h Nearest = Ok r /\ resize L m b' w h Nearest = Ok r' /\ image_not_brighter m r r'.
Proof. exact nearest_keeps_order. Qed.
Print Assumptions C124_nearest_keeps_order.

Example C124_resize_order_example : let b := mkPB 2 1 [RGB_RED; RGB_BLACK] in let b' := mkPB 2 1 [RGB_RED; RGB_WHITE] in
  valid b /\ valid b' /\ nonempty b /\ valid_size 3 4 /\ Forall in_gamut (data b) /\ Forall in_gamut (data b') /\ image_not_brighter Checked b b'.
Proof. exact resize_order_example. Qed.


(** C124: nor is it with Bilinear, but for the rounding. *)

Theorem C124_bilinear_nearly_keeps_order : forall L m (b b' : PixelBuffer Rgb) w h, valid b -> valid b' -> nonempty b -> Forall in_gamut (data b) -> Forall in_gamut (data b') -> valid_size w h -> image_not_brighter m b b' ->
  exists r r', resize L m b w h Bilinear = Ok r /\ resize L m b' w h Bilinear = Ok r' /\ width r = w /\ height r = h /\ width r' = w /\ height r' = h /\
  forall x y, inside r x y -> exists o o', get_pixel m r x y = Ok o /\ get_pixel m r' x y = Ok o' /\ forall d, In d [d0; d1; d2] ->
    B2R (d o) <= B2R (d o') + 2 * (IZR (width b + height b) / 2 ^ 21 + / 2 ^ 20).
Proof. exact bilinear_nearly_keeps_order. Qed.
Print Assumptions C124_bilinear_nearly_keeps_order.


(** C124: a user may expect that of all filters, and exactly.  The rounding of
    Bilinear may exchange two values, and the negative weights of Bicubic
    darken a pixel if one two places away gets brighter. *)

Theorem C124_resize_order_refuted : forall f, f = Bilinear \/ f = Bicubic -> forall L m,
  exists (b b' r r' : PixelBuffer Rgb) w h, valid b /\ valid b' /\ Forall in_gamut (data b) /\ Forall in_gamut (data b') /\ image_not_brighter m b b' /\
    resize L m b w h f = Ok r /\ resize L m b' w h f = Ok r' /\ ~ image_not_brighter m r r'.
Proof. exact resize_order_refuted. Qed.
Print Assumptions C124_resize_order_refuted.
