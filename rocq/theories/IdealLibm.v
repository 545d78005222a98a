(** A mathematical library as accurate as the theorems about YUV, Lab and LCh
    ask: the correctly rounded one.  Only used to show that theorems with
    those hypotheses are about something. *)
From Coq Require Import Reals Lra Lia ZArith Bool.
From Flocq Require Import Core.Core IEEE754.BinarySingleNaN.
From Verif Require Import F32 F32Lemmas Color ColorSpec ColorProofs MeaningSpec ConvSpec Approx OpMeaningProofs HslMeaning IdealPowf.
Open Scope R_scope.

Lemma rounded_64 r : Rabs r <= 64 -> fin (rounded r) /\ B2R (rounded r) = rnd r.
Proof.
  intros H. unfold rounded.
  pose proof (binary_normalize_correct 24 128 (eq_refl _) (eq_refl _) mode_NE (ZnearestE (scaled_mantissa radix2 fx r)) (cexp radix2 fx r) false) as C.
  cbv zeta in C.
  assert (E : F2R (Float radix2 (ZnearestE (scaled_mantissa radix2 fx r)) (cexp radix2 fx r)) = rnd r) by reflexivity.
  rewrite E in C.
  assert (E2 : round radix2 (SpecFloat.fexp 24 128) (round_mode mode_NE) (rnd r) = rnd r).
  { apply round_generic; [typeclasses eauto|]. unfold rnd. apply generic_format_round; typeclasses eauto. }
  rewrite E2 in C.
  assert (B : Rabs (rnd r) < bpow radix2 128) by (apply (rnd_small r 64); [apply (fmt_IZR 64); lia | exact H]).
  rewrite Rlt_bool_true in C by exact B. destruct C as (C1 & C2 & _). split; [exact C2 | exact C1].
Qed.
Lemma rounded_rel r : Rabs r <= 64 -> close (/ 1048576 * Rabs r + / 2 ^ 140) r (rounded r).
Proof.
  intros H. destruct (rounded_64 r H) as [F E]. split; [exact F|]. rewrite E. pose proof (rnd_rel_abs r). pose proof (Rabs_pos r). lra.
Qed.
Lemma rounded_abs r : Rabs r <= 4 -> close (/ 1048576) r (rounded r).
Proof. intros H. destruct (rounded_64 r ltac:(lra)) as [F E]. split; [exact F|]. rewrite E. pose proof (rnd_rel_abs r). pose proof p140. lra. Qed.

(** The angle of a point. *)
Definition angle (b a : R) : R :=
  if Rlt_dec 0 a then atan (b / a)
  else if Rlt_dec a 0 then (if Rle_dec 0 b then atan (b / a) + PI else atan (b / a) - PI)
  else if Rlt_dec 0 b then PI / 2 else if Rlt_dec b 0 then - (PI / 2) else 0.
Lemma angle_ok b a : exists r, Rabs (angle b a) <= PI /\ 0 <= r /\ a = r * cos (angle b a) /\ b = r * sin (angle b a).
Proof.
  pose proof PI_RGT_0 as P. unfold angle. destruct (Rlt_dec 0 a) as [H|H]; [|destruct (Rlt_dec a 0) as [H2|H2]].
  - pose proof (atan_bound (b / a)) as B. assert (S : 0 < sqrt (1 + (b / a)²)) by (apply sqrt_lt_R0; pose proof (Rle_0_sqr (b / a)); lra).
    exists (a * sqrt (1 + (b / a)²)). rewrite cos_atan, sin_atan. split; [apply Rabs_le_iff; lra|]. split; [apply Rmult_le_pos; lra|]. split; field; lra.
  - assert (S : 0 < sqrt (1 + (b / a)²)) by (apply sqrt_lt_R0; pose proof (Rle_0_sqr (b / a)); lra).
    pose proof (atan_bound (b / a)) as B. destruct (Rle_dec 0 b) as [G|G].
    + assert (Q : atan (b / a) <= 0).
      { rewrite <- atan_0. destruct (Req_dec b 0) as [->|N]; [unfold Rdiv; rewrite Rmult_0_l; lra|]. left. apply atan_increasing.
        unfold Rdiv. assert (/ a < 0) by (apply Rinv_lt_0_compat; lra). nra. }
      exists (- a * sqrt (1 + (b / a)²)). rewrite neg_cos, neg_sin, cos_atan, sin_atan. split; [apply Rabs_le_iff; lra|]. split; [apply Rmult_le_pos; lra|]. split; field; lra.
    + apply Rnot_le_lt in G. assert (Q : 0 <= atan (b / a)).
      { left. rewrite <- atan_0. apply atan_increasing. unfold Rdiv. assert (/ a < 0) by (apply Rinv_lt_0_compat; lra). nra. }
      exists (- a * sqrt (1 + (b / a)²)). replace (atan (b / a) - PI) with (- (PI - atan (b / a))) by ring.
      rewrite cos_neg, sin_neg, Rtrigo_facts.cos_pi_minus, Rtrigo_facts.sin_pi_minus, cos_atan, sin_atan.
      split; [apply Rabs_le_iff; lra|]. split; [apply Rmult_le_pos; lra|]. split; field; lra.
  - assert (a = 0) by lra. subst a. destruct (Rlt_dec 0 b) as [G|G]; [|destruct (Rlt_dec b 0) as [G2|G2]].
    + exists b. rewrite cos_PI2, sin_PI2. split; [apply Rabs_le_iff; lra|]. lra.
    + exists (- b). rewrite cos_neg, sin_neg, cos_PI2, sin_PI2. split; [apply Rabs_le_iff; lra|]. lra.
    + exists 0. assert (b = 0) by lra. subst b. rewrite cos_0, sin_0. split; [apply Rabs_le_iff; lra|]. lra.
Qed.
Definition full_libm (L : libm) : libm :=
  {| powf := powf (ideal_libm L); fsin := fun h => rounded (sin (B2R h)); fcos := fun h => rounded (cos (B2R h));
     fexp_ := fexp_ L; ftanh := ftanh L; fatan2 := fun b a => rounded (angle (B2R b) (B2R a)); dtanh := dtanh L |}.
Lemma full_accurate L : accurate_powf (full_libm L).
Proof. exact (ideal_accurate L). Qed.
Lemma full_above L : accurate_powf_above (full_libm L).
Proof.
  intros x y Fx Fy X Y. cbn [powf full_libm ideal_libm]. replace (feq x f0) with false.
  2:{ symmetry. apply not_true_is_false. intros E. apply feq_R in E; auto with fin. rewrite f0_R in E. lra. }
  assert (P : 1 <= Rpower (B2R x) (B2R y) <= 64).
  { split.
    - rewrite <- (Rpower_O (B2R x)) by lra. apply Rle_Rpower; lra.
    - replace 64 with (Rpower 4 3). + eapply Rle_trans; [apply Rle_Rpower_l; [|split; [|apply X]]; lra|]. apply Rle_Rpower; lra.
      + replace 3 with (INR 3) by (rewrite INR_IZR_INZ; reflexivity). rewrite Rpower_pow by lra. lra. }
  destruct (rounded_64 (Rpower (B2R x) (B2R y))) as [F E]. { rewrite Rabs_right; lra. }
  split; [exact F|]. rewrite E. pose proof (rnd_rel_abs (Rpower (B2R x) (B2R y))) as R. rewrite (Rabs_right (Rpower (B2R x) (B2R y))) in R by lra. pose proof p140. lra.
Qed.
Lemma full_angles L : accurate_angles (full_libm L).
Proof.
  split.
  - intros h F H. cbn [fsin fcos full_libm]. split; apply rounded_abs; apply Rabs_le_iff; [pose proof (SIN_bound (B2R h)) | pose proof (COS_bound (B2R h))]; lra.
  - intros b a Fa Fb. cbn [fatan2 full_libm]. destruct (angle_ok (B2R b) (B2R a)) as (r & H1 & H2 & H3 & H4). exists (angle (B2R b) (B2R a)), r.
    repeat split; auto; try (apply rounded_64; pose proof PI_4; lra). apply rounded_abs. pose proof PI_4. lra.
Qed.
