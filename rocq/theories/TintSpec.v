(** The tint correction: the vocabulary of C107. *)
From Coq Require Import Reals ZArith.
From Flocq Require Import IEEE754.BinarySingleNaN.
From Verif Require Import F32 Color MeaningSpec.
Open Scope R_scope.

(** How much a colour exceeds the two others. *)
Definition greenness (c : col) : R := 2 * B2R (d1 c) - B2R (d0 c) - B2R (d2 c).
Definition red_excess (c : col) : R := 2 * B2R (d0 c) - B2R (d1 c) - B2R (d2 c).
Definition blue_excess (c : col) : R := 2 * B2R (d2 c) - B2R (d1 c) - B2R (d0 c).

(** [v] darkened because of the excess [u]: to the power 1 / (1 - tanh u), or
    [v] itself if there is none. *)
Definition darkened (u v : R) : R := gamma_formula (1 - tanh (Rmax 0 u)) v.

(** A hyperbolic tangent of f32 that is off by at most 2^-22 from 0 to 5/2. *)
Definition accurate_tanh_single (L : libm) : Prop :=
  forall x, is_finite x = true -> 0 <= B2R x <= 5 / 2 -> close (/ 2 ^ 22) (tanh (B2R x)) (ftanh L x).

(** A green of half the full intensity. *)
Definition half_green : col := mkC f0 (dec 1 2) f0 f1.
