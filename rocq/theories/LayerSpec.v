(** Layers: opaque images that are put together (the vocabulary of C135). *)
From Coq Require Import Reals ZArith List.
From Flocq Require Import IEEE754.BinarySingleNaN.
From Verif Require Import Base PixelBuffer BufferSpec F32 Color ColorSpec Blend.
Import ListNotations.

(** An opaque colour with all channels in range, and an image of such. *)
Definition opaque (c : Rgb) : Prop := in_gamut c /\ same (alpha c) f1.
Definition layer (b : PixelBuffer Rgb) : Prop := valid b /\ Forall opaque (data b).
(** Two images of the same size with the same colours; [+0] and [-0] are the same. *)
Definition alike (a b : PixelBuffer Rgb) : Prop := width a = width b /\ height a = height b /\ Forall2 same_color (data a) (data b).
(** Two colours whose channels differ by at most [e]. *)
Definition nearly (e : R) (a b : Rgb) : Prop :=
  (Rabs (B2R (d0 a) - B2R (d0 b)) <= e)%R /\ (Rabs (B2R (d1 a) - B2R (d1 b)) <= e)%R /\ (Rabs (B2R (d2 a) - B2R (d2 b)) <= e)%R /\ same (d3 a) (d3 b).
(** Nothing is cut off when [a] and [b] are added. *)
Definition room (a b : Rgb) : Prop := (B2R (d0 a) + B2R (d0 b) <= 1 /\ B2R (d1 a) + B2R (d1 b) <= 1 /\ B2R (d2 a) + B2R (d2 b) <= 1)%R.
