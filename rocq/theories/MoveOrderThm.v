(** Turns, flips and crops and the order of images (C124). *)
From Coq Require Import ZArith List Bool.
From Verif Require Import Base PixelBuffer Geometry BufferSpec F32 Color ColorSpec OrderSpec.
Import ListNotations.
Open Scope Z_scope.

(* PROPERTIES *)
From Verif Require Import StepsSpec StepsProofs OrderThm MoveOrderProofs.
Open Scope Z_scope.

(** C124: if an image is nowhere brighter than another, nor is it after both
    are turned, flipped or cropped in the same way. *)
Lemma moves_keep_order : forall m (d : Rgb) b b', valid b -> valid b' -> image_not_brighter m b b' ->
  (forall f, In f [rotate90 m d; rotate180 m d; rotate270 m d; flip_horizontal m d; flip_vertical m d] ->
     exists r r', f b = Ok r /\ f b' = Ok r' /\ image_not_brighter m r r') /\
  (forall ox oy w h, is_u32 ox -> is_u32 oy -> is_u32 w -> is_u32 h ->
     exists r r', crop m d b ox oy w h = Ok r /\ crop m d b' ox oy w h = Ok r' /\ image_not_brighter m r r').
Proof.
  intros m d b b' V V' Q. split; [|intros; now apply crop_order].
  intros f [<-|[<-|[<-|[<-|[<-|[]]]]]];
    [exact (turn_order Quarter m d b b' V V' Q)|exact (turn_order Half m d b b' V V' Q)|exact (turn_order ThreeQuarters m d b b' V V' Q)|exact (turn_order LeftRight m d b b' V V' Q)|exact (turn_order UpsideDown m d b b' V V' Q)].
Qed.
Example moves_keep_order_example : valid (mkPB 2 1 [RGB_RED; RGB_BLACK]) /\ valid (mkPB 2 1 [RGB_RED; RGB_WHITE]) /\ image_not_brighter Checked (mkPB 2 1 [RGB_RED; RGB_BLACK]) (mkPB 2 1 [RGB_RED; RGB_WHITE]).
Proof. split; [vm_compute; intuition congruence|]. split; [vm_compute; intuition congruence|exact (proj2 blur_keeps_example)]. Qed.
