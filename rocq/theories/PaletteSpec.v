(** Distances of colours as real numbers: the vocabulary of C120. *)
From Coq Require Import Reals ZArith List.
From Flocq Require Import IEEE754.BinarySingleNaN.
From Verif Require Import Base PixelBuffer F32 Color ColorSpec MeaningSpec ConvSpec.
Import ListNotations.
Open Scope R_scope.

(** The colour [c] in CIE Lab (D65, 2 degrees): L/100, a/128 and b/128, as the
    library scales them. *)
Definition ratio_x (c : Rgb) : R := x_of (B2R (d0 c)) (B2R (d1 c)) (B2R (d2 c)) / (95047 / 100000).
Definition ratio_y (c : Rgb) : R := y_of (B2R (d0 c)) (B2R (d1 c)) (B2R (d2 c)).
Definition ratio_z (c : Rgb) : R := z_of (B2R (d0 c)) (B2R (d1 c)) (B2R (d2 c)) / (108883 / 100000).
Definition exact_l (c : Rgb) : R := lab_l (ratio_y c).
Definition exact_a (c : Rgb) : R := lab_a (ratio_x c) (ratio_y c).
Definition exact_b (c : Rgb) : R := lab_b (ratio_y c) (ratio_z c).
Definition length3 (x y z : R) : R := sqrt (x * x + y * y + z * z).
(** The distance in this scale, and the one of the CIE of 1976. *)
Definition lab_dist (c q : Rgb) : R := length3 (exact_l c - exact_l q) (exact_a c - exact_a q) (exact_b c - exact_b q).
Definition cie76 (c q : Rgb) : R :=
  length3 (100 * exact_l c - 100 * exact_l q) (128 * exact_a c - 128 * exact_a q) (128 * exact_b c - 128 * exact_b q).

(** Colours of the palette are either the same up to alpha or differ by more
    than 1/20. *)
Definition separated (palette : list Rgb) : Prop :=
  forall q q', In q palette -> In q' palette -> (d0 q = d0 q' /\ d1 q = d1 q' /\ d2 q = d2 q') \/ / 20 < lab_dist q q'.

(** An example: a black pixel, and a palette of a dark grey and a dark blue. *)
Definition black : Rgb := RGB_BLACK.
Definition dark_grey : Rgb := mkC (dec 1 4) (dec 1 4) (dec 1 4) f1.
Definition dark_blue : Rgb := mkC f0 f0 (dec 3 32) f1.
Definition one_pixel (c : Rgb) : PixelBuffer Rgb := mkPB 1 1 [c].
Definition two_colours : PixelBuffer Rgb := mkPB 2 1 [dark_grey; dark_blue].
