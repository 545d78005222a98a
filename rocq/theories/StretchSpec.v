(** What contrast stretching and balancing compute: the vocabulary of C109 and
    C110. *)
From Coq Require Import Reals ZArith List.
From Flocq Require Import IEEE754.BinarySingleNaN.
From Verif Require Import Base F32 Color MeaningSpec OpsSpec.
Open Scope R_scope.

(** [k] is the lowest of the 256 levels that more than the share [t] of the
    elements of [l] do not exceed, up to a relative error [e]. *)
Definition dark_level {A} (bin_of : A -> Z) (l : list A) (t e : R) (k : Z) : Prop :=
  let below k := IZR (count (fun a => (bin_of a <=? k)%Z) l) in
  (0 <= k <= 255)%Z /\ IZR (zlen l) * t * (1 - e) < below k /\
  forall j, (0 <= j < k)%Z -> below j <= IZR (zlen l) * t * (1 + e).
(** [k] is the highest level that more than the share [t] reach. *)
Definition bright_level {A} (bin_of : A -> Z) (l : list A) (t e : R) (k : Z) : Prop :=
  let above k := IZR (count (fun a => (k <=? bin_of a)%Z) l) in
  (0 <= k <= 255)%Z /\ IZR (zlen l) * t * (1 - e) < above k /\
  forall j, (k < j <= 255)%Z -> above j <= IZR (zlen l) * t * (1 + e).

(** [v] stretched so that [lo]/255 becomes 0 and [hi]/255 becomes 1. *)
Definition stretched (lo hi : Z) (v : R) : R := (v - IZR lo / 255) / (IZR hi / 255 - IZR lo / 255).

(** [v] balanced between the levels [lo] and [hi]: both the black point and the
    result are scaled by [tanh (10 d)], where [d] is the distance of the levels. *)
Definition soft_stretched (lo hi : Z) (v : R) : R :=
  let d := IZR hi / 255 - IZR lo / 255 in
  let s := tanh (10 * d) in
  (v - IZR lo / 255 * s) * s / d.

(** A hyperbolic tangent of f32 with a relative error of at most 2^-22 from 0
    to 16. *)
Definition accurate_tanh_16 (L : libm) : Prop :=
  forall x, is_finite x = true -> 0 <= B2R x <= 16 -> close (/ 2 ^ 22 * tanh (B2R x) + / 2 ^ 100) (tanh (B2R x)) (ftanh L x).

(** An opaque grey of [n]/256. *)
Definition grey (n : Z) : Rgb := mkC (fdiv (ofZ n) (ofZ 256)) (fdiv (ofZ n) (ofZ 256)) (fdiv (ofZ n) (ofZ 256)) f1.
