(** Property theorems, generated from MoveOrderThm.v by tools/mkp.py. *)

From Coq Require Import ZArith List Bool.
From Verif Require Import Base PixelBuffer Geometry BufferSpec F32 Color ColorSpec OrderSpec.
Import ListNotations.
Open Scope Z_scope.

From Verif Require Import MoveOrderThm.


(** C124: if an image is nowhere brighter than another, nor is it after both
    are turned, flipped or cropped in the same way. *)

Theorem C124_moves_keep_order : forall m (d : Rgb) b b', valid b -> valid b' -> image_not_brighter m b b' ->
  (forall f, In f [rotate90 m d; rotate180 m d; rotate270 m d; flip_horizontal m d; flip_vertical m d] ->
     exists r r', f b = Ok r /\ f b' = Ok r' /\ image_not_brighter m r r') /\
  (forall ox oy w h, is_u32 ox -> is_u32 oy -> is_u32 w -> is_u32 h ->
     exists r r', crop m d b ox oy w h = Ok r /\ crop m d b' ox oy w h = Ok r' /\ image_not_brighter m r r').
Proof. exact moves_keep_order. Qed.
Print Assumptions C124_moves_keep_order.

Example C124_moves_keep_order_example : valid (mkPB 2 1 [RGB_RED; RGB_BLACK]) /\ valid (mkPB 2 1 [RGB_RED; RGB_WHITE]) /\ image_not_brighter Checked (mkPB 2 1 [RGB_RED; RGB_BLACK]) (mkPB 2 1 [RGB_RED; RGB_WHITE]).
Proof. exact moves_keep_order_example. Qed.
