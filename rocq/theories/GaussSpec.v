(** What blurring, sharpening and Sobel edge detection compute, as formulas on
    real numbers: the vocabulary of C108. *)
From Coq Require Import Reals ZArith List.
From Flocq Require Import IEEE754.BinarySingleNaN.
From Verif Require Import Base PixelBuffer BufferSpec F32 Color MeaningSpec EnhanceSpec.
Open Scope R_scope.

(** The bell curve at distance (i,j). *)
Definition bell_curve (sigma : R) (i j : Z) : R := exp (- (IZR i ^ 2 + IZR j ^ 2) / (2 * sigma ^ 2)).
(** The offsets from (-r,-r) to (r,r). *)
Definition around (r : Z) : list (Z * Z) :=
  map (fun '(i, j) => (i - r, j - r)%Z) (row_major (2 * r + 1) (2 * r + 1)).
(** The mean of the values [v i j] up to [r] columns and [r] rows away, weighted by the
    bell curve. *)
Definition bell_mean (sigma : R) (r : Z) (v : Z -> Z -> R) : R :=
  sum_of (fun o => bell_curve sigma (fst o) (snd o) * v (fst o) (snd o)) (around r) /
  sum_of (fun o => bell_curve sigma (fst o) (snd o)) (around r).
(** The given sigma, or half the radius. *)
Definition blur_sigma (sigma : option f32) (r : Z) : R :=
  match sigma with Some s => B2R s | None => IZR r / 2 end.

(** An exponential function of f32 that is off by at most 2^-22 below zero. *)
Definition accurate_exp (L : libm) : Prop :=
  forall x, is_finite x = true -> B2R x <= 0 -> close (/ 2 ^ 22) (exp (B2R x)) (fexp_ L x).

(** How much [v] falls from left to right at (0,0): the column before it minus
    the column after it, the middle counted twice; and from top to bottom. *)
Definition slope_x (v : Z -> Z -> R) : R :=
  (v (-1)%Z (-1)%Z + 2 * v (-1)%Z 0%Z + v (-1)%Z 1%Z) - (v 1%Z (-1)%Z + 2 * v 1%Z 0%Z + v 1%Z 1%Z).
Definition slope_y (v : Z -> Z -> R) : R := slope_x (fun i j => v j i).
