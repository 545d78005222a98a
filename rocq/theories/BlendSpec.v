(** What the blend operations compute, as formulas on real numbers: the
    vocabulary of C102 and C103. *)
From Coq Require Import Reals ZArith.
From Flocq Require Import IEEE754.BinarySingleNaN.
From Verif Require Import F32 Color.
Open Scope R_scope.

(** [v1] and [v2] mixed: all of [v1] for [t] = 0, all of [v2] for [t] = 1. *)
Definition mixed (t v1 v2 : R) : R := v1 * (1 - t) + v2 * t.

(** The angles [a] and [b] differ by whole turns, up to [e]. *)
Definition same_angle (e a b : R) : Prop := exists k : Z, Rabs (a - (b + 2 * PI * IZR k)) <= e.

(** What the platform's [atan2] promises besides accuracy: a result between
    minus and plus the number nearest to pi. *)
Definition bounded_atan2 (L : libm) : Prop :=
  forall b a, is_finite a = true -> is_finite b = true -> Rabs (B2R (fatan2 L b a)) <= B2R fPI.
(** A colour given by its lightness, chroma and hue (D65, 2 degree observer). *)
Definition of_lch (L : libm) (l c h a : f32) : Rgb := to_rgb L (KLch D65 O2) (mkC l c h a).
