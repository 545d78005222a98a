(** Darker and brighter: the vocabulary of C124. *)
From Coq Require Import Reals ZArith List Bool.
From Flocq Require Import IEEE754.BinarySingleNaN.
From Verif Require Import Base PixelBuffer BufferSpec F32 Color ColorSpec MeaningSpec Codec CodecSpec ResaveSpec.
Open Scope R_scope.

(** [f] changes red, green and blue alike, by one curve from [0,1] to [0,1],
    and leaves alpha alone.  The curve never falls if [up], else it never
    rises. *)
Definition tone_curve (up : bool) (f : Rgb -> Rgb) : Prop := exists h : f32 -> f32,
  (forall v, in01 v -> in01 (h v)) /\
  (forall v w, in01 v -> in01 w -> fle v w = true -> if up then fle (h v) (h w) = true else fle (h w) (h v) = true) /\
  forall c, in_gamut c -> f c = mkC (h (d0 c)) (h (d1 c)) (h (d2 c)) (alpha c).

(** In no channel is [c] brighter than [c']. *)
Definition not_brighter (c c' : Rgb) : Prop := fle (d0 c) (d0 c') = true /\ fle (d1 c) (d1 c') = true /\ fle (d2 c) (d2 c') = true.
Definition image_not_brighter (m : build) (b b' : PixelBuffer Rgb) : Prop :=
  width b = width b' /\ height b = height b' /\
  forall x y, inside b x y -> exists c c', get_pixel m b x y = Ok c /\ get_pixel m b' x y = Ok c' /\ not_brighter c c'.

(** A [powf] that gives no smaller power of a larger number in [0,1]. *)
Definition monotone_powf (L : libm) : Prop :=
  forall x x' y, is_finite y = true -> 0 < B2R y -> fle f0 x = true -> fle x x' = true -> fle x' f1 = true ->
  fle (powf L x y) (powf L x' y) = true.

(** A table of bytes that never falls, or never rises. *)
Definition byte_curve (up : bool) (T : Z -> Z) : Prop :=
  forall u v, is_byte u -> is_byte v -> (u <= v)%Z -> if up then (T u <= T v)%Z else (T v <= T u)%Z.
