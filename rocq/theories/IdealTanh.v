(** There is a hyperbolic tangent as accurate as [accurate_tanh] asks: the
    correctly rounded one. *)
From Coq Require Import Reals Lra Lia ZArith Bool.
From Flocq Require Import Core.Core IEEE754.BinarySingleNaN.
From Verif Require Import F32 F32Lemmas Color MeaningSpec TempSpec Approx F64Lemmas TempOpt.
Open Scope R_scope.

Definition rounded64 (r : R) : f64 :=
  binary_normalize 53 1024 (eq_refl _) (eq_refl _) mode_NE (ZnearestE (scaled_mantissa radix2 dx r)) (cexp radix2 dx r) false.
Lemma rounded64_ok r : Rabs r <= 1 -> fin64 (rounded64 r) /\ B2R (rounded64 r) = rnd64 r.
Proof.
  intros H. unfold rounded64.
  pose proof (binary_normalize_correct 53 1024 (eq_refl _) (eq_refl _) mode_NE (ZnearestE (scaled_mantissa radix2 dx r)) (cexp radix2 dx r) false) as C.
  cbv zeta in C.
  assert (E : F2R (Float radix2 (ZnearestE (scaled_mantissa radix2 dx r)) (cexp radix2 dx r)) = rnd64 r) by reflexivity.
  rewrite E in C.
  assert (E2 : round radix2 dx (round_mode mode_NE) (rnd64 r) = rnd64 r).
  { apply round_generic; [typeclasses eauto|]. unfold rnd64. apply generic_format_round; typeclasses eauto. }
  rewrite E2 in C. destruct (rnd64_M r 1 H ltac:(lra)) as [B _].
  rewrite Rlt_bool_true in C by exact B. destruct C as (C1 & C2 & _). split; [exact C2 | exact C1].
Qed.
Definition tanh_libm (L : libm) : libm :=
  {| powf := powf L; fsin := fsin L; fcos := fcos L; fexp_ := fexp_ L; ftanh := ftanh L; fatan2 := fatan2 L;
     dtanh := fun x => rounded64 (tanh (B2R x)) |}.
Lemma tanh_accurate L : accurate_tanh (tanh_libm L).
Proof.
  intros x F H. cbn [dtanh tanh_libm]. destruct (rounded64_ok _ (tanh_bound (B2R x))) as [A B]. split; [exact A|]. rewrite B.
  destruct (rnd64_M _ 1 (tanh_bound (B2R x)) ltac:(lra)) as [_ E]. rewrite (pow_IZR 2 40). change (2 ^ Z.of_nat 40)%Z with 1099511627776%Z. lra.
Qed.
