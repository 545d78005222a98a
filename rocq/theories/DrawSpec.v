(** Specification for C76, C113 and C114: vibrance and plain areas of a drawing. *)
From Coq Require Import ZArith Reals List.
From Verif Require Import Base PixelBuffer BufferSpec F32 Color MeaningSpec.

(** The saturation [s] of a colour of hue [h] after a vibrance of [f]: middle
    saturations change most and fully grey and fully saturated colours do not
    change; the change is smaller near red (hue 0 and 1). *)
Definition vibrant (f h s : R) : R := limited (s + sin (PI * s) * (f * Rmin (3 / 2 * sin (PI * h)) 1)).

(** All pixels of the image at most [k] columns and [k] rows away from [(x, y)]
    have the colour [c]. *)
Definition plain_around (m : build) (b : PixelBuffer Rgb) (k x y : Z) (c : Rgb) : Prop :=
  forall x' y', inside b x' y' -> (Z.abs (x' - x) <= k)%Z -> (Z.abs (y' - y) <= k)%Z -> get_pixel m b x' y' = Ok c.

(** All four channels of [c] are within [e] of 1. *)
Definition nearly_white (e : R) (c : Rgb) : Prop :=
  close e 1 (d0 c) /\ close e 1 (d1 c) /\ close e 1 (d2 c) /\ close e 1 (d3 c).

(** A test of every pixel of a result, for examples. *)
Definition tested (r : res (PixelBuffer Rgb)) (f : Rgb -> bool) : list bool :=
  match r with Ok b => map f (data b) | Panic => nil end.
