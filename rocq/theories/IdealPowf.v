(** There is a [powf] as accurate as [accurate_powf] asks: the correctly
    rounded one.  Only used to show that theorems with that hypothesis are
    about something. *)
From Coq Require Import Reals Lra Lia ZArith Bool.
From Flocq Require Import Core.Core IEEE754.BinarySingleNaN.
From Verif Require Import F32 F32Lemmas Color ColorSpec ColorProofs MeaningSpec Approx OpMeaningProofs.
Open Scope R_scope.

Definition rounded (r : R) : f32 :=
  binary_normalize 24 128 (eq_refl _) (eq_refl _) mode_NE (ZnearestE (scaled_mantissa radix2 fx r)) (cexp radix2 fx r) false.
Lemma rounded_ok r : Rabs r <= 1 -> fin (rounded r) /\ B2R (rounded r) = rnd r.
Proof.
  intros H. unfold rounded.
  pose proof (binary_normalize_correct 24 128 (eq_refl _) (eq_refl _) mode_NE (ZnearestE (scaled_mantissa radix2 fx r)) (cexp radix2 fx r) false) as C.
  cbv zeta in C.
  assert (E : F2R (Float radix2 (ZnearestE (scaled_mantissa radix2 fx r)) (cexp radix2 fx r)) = rnd r) by reflexivity.
  rewrite E in C.
  assert (E2 : round radix2 (SpecFloat.fexp 24 128) (round_mode mode_NE) (rnd r) = rnd r).
  { apply round_generic; [typeclasses eauto|]. unfold rnd. apply generic_format_round; typeclasses eauto. }
  rewrite E2 in C.
  assert (B : Rabs (rnd r) < bpow radix2 128) by (apply (rnd_small r 1); auto with fmt).
  rewrite Rlt_bool_true in C by exact B. destruct C as (C1 & C2 & _). split; [exact C2 | exact C1].
Qed.
Definition ideal_libm (L : libm) : libm :=
  {| powf := fun x y => if feq x f0 then f0 else rounded (Rpower (B2R x) (B2R y));
     fsin := fsin L; fcos := fcos L; fexp_ := fexp_ L; ftanh := ftanh L; fatan2 := fatan2 L; dtanh := dtanh L |}.
Lemma ideal_accurate L : accurate_powf (ideal_libm L).
Proof.
  intros x y Fx Fy Y. cbn [powf ideal_libm]. split.
  - intros X. replace (feq x f0) with false.
    2:{ symmetry. apply not_true_is_false. intros T. apply feq_R in T; auto with fin. rewrite f0_R in T. lra. }
    pose proof (Rpower_01 (B2R x) (B2R y) X ltac:(lra)) as P.
    destruct (rounded_ok (Rpower (B2R x) (B2R y))) as [A B]. { rewrite Rabs_right; lra. }
    split; [exact A|]. rewrite B. pose proof (rnd_rel_abs (Rpower (B2R x) (B2R y))) as R. rewrite (Rabs_right (Rpower (B2R x) (B2R y))) in R by lra.
    assert (/ 2 ^ 140 <= / 2 ^ 100). { apply Rinv_le_contravar; [apply pow_lt; lra|]. apply Rle_pow; [lra|lia]. } lra.
  - intros X. replace (feq x f0) with true.
    2:{ symmetry. apply feq_R; auto with fin. }
    split; [reflexivity|]. rewrite f0_R, Rminus_0_r, Rabs_R0. lra.
Qed.
Lemma ideal_bounded L : bounded_powf (ideal_libm L).
Proof.
  intros x y X Fy Y. change (in01 (powf (ideal_libm L) x y)). cbn [powf ideal_libm]. apply in01_num. apply in01_R in X. destruct X as [Fx X].
  destruct (feq x f0) eqn:T.
  - split; [reflexivity|]. rewrite f0_R. lra.
  - assert (N : B2R x <> 0). { intros E. assert (feq x f0 = true) by (apply feq_R; auto with fin). congruence. }
    pose proof (Rpower_01 (B2R x) (B2R y) ltac:(lra) ltac:(lra)) as P.
    destruct (rounded_ok (Rpower (B2R x) (B2R y))) as [A B]. { rewrite Rabs_right; lra. }
    split; [exact A|]. rewrite B. split; [apply rnd_lo | apply rnd_hi]; auto with fmt; lra.
Qed.
