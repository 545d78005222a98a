(** Filters and directions (the vocabulary of C130). *)
From Coq Require Import Reals ZArith List.
From Flocq Require Import IEEE754.BinarySingleNaN.
From Verif Require Import Base PixelBuffer BufferSpec F32 Color ColorSpec KernelSpec.
Open Scope R_scope.

(** Images of the same size in which [P] relates every channel of every two
    pixels at the same place. *)
Definition channel_pairs (P : R -> R -> Prop) (a b : PixelBuffer Rgb) : Prop :=
  width a = width b /\ height a = height b /\
  forall m x y, inside a x y -> exists c d, get_pixel m a x y = Ok c /\ get_pixel m b x y = Ok d /\
    forall pick, channel pick -> is_finite (pick c) = true /\ is_finite (pick d) = true /\ P (B2R (pick c)) (B2R (pick d)).
(** No channel of a pixel differs by more than [e]. *)
Definition alike (e : R) : PixelBuffer Rgb -> PixelBuffer Rgb -> Prop := channel_pairs (fun u v => Rabs (u - v) <= e).
(** [c] is [t] parts of [a] and [1-t] parts of [b], up to [e]. *)
Definition mixture (e t : R) (a b c : PixelBuffer Rgb) : Prop :=
  width a = width c /\ height a = height c /\ width b = width c /\ height b = height c /\
  forall m x y, inside c x y -> exists p q o, get_pixel m a x y = Ok p /\ get_pixel m b x y = Ok q /\ get_pixel m c x y = Ok o /\
    forall pick, channel pick -> is_finite (pick o) = true /\ Rabs (B2R (pick o) - (t * B2R (pick p) + (1 - t) * B2R (pick q))) <= e.
(** All colours in gamut. *)
Definition in_range (b : PixelBuffer Rgb) : Prop := forall c, In c (data b) -> in_gamut c.
