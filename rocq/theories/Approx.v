(** Error bounds for sums, products and quotients of floats. *)
From Coq Require Import Reals Lra Lia ZArith Bool.
From Flocq Require Import Core.Core Relative IEEE754.BinarySingleNaN.
From Verif Require Import F32 F32Lemmas Color ColorSpec ColorProofs MeaningSpec.
Open Scope R_scope.

(** [M] is a power of two and [u] the rounding error of numbers up to [M]. *)
Definition unit_ok (M u : R) : Prop := exists k, (-125 <= k <= 127)%Z /\ M = bpow radix2 k /\ u = bpow radix2 (k - 25).
Lemma uo_1 : unit_ok 1 (/ 33554432).
Proof. exists 0%Z. split; [lia|]. split; reflexivity. Qed.
Lemma uo_h : unit_ok (/ 2) (/ 67108864).
Proof. exists (-1)%Z. split; [lia|]. split; reflexivity. Qed.
Lemma uo_q : unit_ok (/ 4) (/ 134217728).
Proof. exists (-2)%Z. split; [lia|]. split; reflexivity. Qed.
Lemma uo_2 : unit_ok 2 (/ 16777216).
Proof. exists 1%Z. split; [lia|]. split; reflexivity. Qed.
Lemma uo_4 : unit_ok 4 (/ 8388608).
Proof. exists 2%Z. split; [lia|]. split; reflexivity. Qed.
Lemma uo_8 : unit_ok 8 (/ 4194304).
Proof. exists 3%Z. split; [lia|]. split; reflexivity. Qed.
Lemma uo_16 : unit_ok 16 (/ 2097152).
Proof. exists 4%Z. split; [lia|]. split; reflexivity. Qed.
Lemma uo_512 : unit_ok 512 (/ 65536).
Proof. exists 9%Z. split; [lia|]. split; reflexivity. Qed.
Lemma uo_fmt M u : unit_ok M u -> fmt M.
Proof. intros (k & K & -> & _). rewrite <- (Rmult_1_l (bpow radix2 k)).
  destruct (Z_le_gt_dec k 104).
  - apply (fmt_F2R 1 k); lia.
  - replace (1 * bpow radix2 k) with (IZR 8388608 * bpow radix2 (k - 23)).
    + apply fmt_F2R; lia.
    + replace k with (23 + (k - 23))%Z at 2 by lia. rewrite bpow_plus. simpl (bpow radix2 23). lra. Qed.
Lemma uo_err M u r : unit_ok M u -> Rabs r <= M -> Rabs (rnd r - r) <= u.
Proof. intros (k & K & -> & ->) H. apply rnd_err; auto. Qed.
Lemma uo_u M u : unit_ok M u -> 0 < u.
Proof. intros (k & K & -> & ->). apply bpow_gt_0. Qed.

Lemma Rabs_le_iff x e : Rabs x <= e <-> - e <= x <= e.
Proof. split; [apply Rabs_le_inv | apply Rabs_le]. Qed.
Lemma close_fin e r x : close e r x -> fin x. Proof. intros [H _]; exact H. Qed.
Lemma close_0 x : fin x -> close 0 (B2R x) x.
Proof. intros H. split; [exact H|]. replace (B2R x - B2R x) with 0 by lra. rewrite Rabs_R0. lra. Qed.
Lemma close_weak e e' r x : close e r x -> e <= e' -> close e' r x.
Proof. intros [A B] H. split; auto. lra. Qed.
Lemma close_move e r r' d x : close e r x -> Rabs (r - r') <= d -> close (e + d) r' x.
Proof. intros [A B] H. split; auto. apply Rabs_le_iff in B. apply Rabs_le_iff in H. apply Rabs_le_iff. lra. Qed.
Lemma close_eq e r r' x : close e r x -> r = r' -> close e r' x.
Proof. intros H <-. exact H. Qed.
Lemma close_num lo hi e r x : close e r x -> lo <= r - e -> r + e <= hi -> num lo hi x.
Proof. intros [A B] ? ?. apply Rabs_le_iff in B. split; [exact A | lra]. Qed.

Lemma close_add M u e1 e2 r1 r2 x y : unit_ok M u -> close e1 r1 x -> close e2 r2 y -> Rabs (r1 + r2) + e1 + e2 <= M ->
  close (e1 + e2 + u) (r1 + r2) (fadd x y).
Proof.
  intros U [A1 B1] [A2 B2] H. apply Rabs_le_iff in B1, B2.
  assert (Hb : Rabs (B2R x + B2R y) <= M).
  { revert H. unfold Rabs at 1. unfold Rabs. repeat destruct Rcase_abs; lra. }
  destruct (fadd_ok x y M A1 A2 (uo_fmt _ _ U) Hb) as [F E]. split; [exact F|]. rewrite E.
  pose proof (uo_err _ _ _ U Hb) as Er. apply Rabs_le_iff in Er. apply Rabs_le_iff. lra.
Qed.
Lemma close_sub M u e1 e2 r1 r2 x y : unit_ok M u -> close e1 r1 x -> close e2 r2 y -> Rabs (r1 - r2) + e1 + e2 <= M ->
  close (e1 + e2 + u) (r1 - r2) (fsub x y).
Proof.
  intros U [A1 B1] [A2 B2] H. apply Rabs_le_iff in B1, B2.
  assert (Hb : Rabs (B2R x - B2R y) <= M).
  { revert H. unfold Rabs at 1. unfold Rabs. repeat destruct Rcase_abs; lra. }
  destruct (fsub_ok x y M A1 A2 (uo_fmt _ _ U) Hb) as [F E]. split; [exact F|]. rewrite E.
  pose proof (uo_err _ _ _ U Hb) as Er. apply Rabs_le_iff in Er. apply Rabs_le_iff. lra.
Qed.
Lemma abs_mul_le a b A B : Rabs a <= A -> Rabs b <= B -> Rabs (a * b) <= A * B.
Proof. intros. rewrite Rabs_mult. apply Rmult_le_compat; auto using Rabs_pos. Qed.
Lemma close_mul M u M1 M2 e1 e2 r1 r2 x y : unit_ok M u -> close e1 r1 x -> close e2 r2 y ->
  Rabs r1 <= M1 -> Rabs r2 <= M2 -> M1 * M2 + e1 * M2 + e2 * M1 + e1 * e2 <= M ->
  close (e1 * M2 + e2 * M1 + e1 * e2 + u) (r1 * r2) (fmul x y).
Proof.
  intros U [A1 B1] [A2 B2] H1 H2 H.
  assert (D : Rabs (B2R x * B2R y - r1 * r2) <= e1 * M2 + e2 * M1 + e1 * e2).
  { replace (B2R x * B2R y - r1 * r2) with ((B2R x - r1) * r2 + ((B2R y - r2) * r1 + (B2R x - r1) * (B2R y - r2))) by ring.
    eapply Rle_trans; [apply Rabs_triang|]. rewrite Rplus_assoc. apply Rplus_le_compat. { apply abs_mul_le; auto. }
    eapply Rle_trans; [apply Rabs_triang|]. apply Rplus_le_compat; apply abs_mul_le; auto. }
  assert (D1 : Rabs (r1 * r2) <= M1 * M2) by (apply abs_mul_le; auto).
  apply Rabs_le_iff in D, D1.
  assert (Hb : Rabs (B2R x * B2R y) <= M) by (apply Rabs_le_iff; lra).
  destruct (fmul_ok x y M A1 A2 (uo_fmt _ _ U) Hb) as [F E]. split; [exact F|]. rewrite E.
  pose proof (uo_err _ _ _ U Hb) as Er. apply Rabs_le_iff in Er. apply Rabs_le_iff. lra.
Qed.
Lemma close_div M u m Q e1 e2 r1 r2 x y : unit_ok M u -> close e1 r1 x -> close e2 r2 y ->
  0 < m -> m + e2 <= Rabs r2 -> Rabs (r1 / r2) <= Q -> Q + (e1 + Q * e2) / m <= M ->
  close ((e1 + Q * e2) / m + u) (r1 / r2) (fdiv x y).
Proof.
  intros U [A1 B1] [A2 B2] Hm H2 HQ H.
  assert (Y : m <= Rabs (B2R y)).
  { apply Rabs_le_iff in B2. revert H2. unfold Rabs. repeat destruct Rcase_abs; lra. }
  assert (E2 : 0 <= e2) by (eapply Rle_trans; [apply Rabs_pos | exact B2]).
  assert (Yz : B2R y <> 0). { intros Z. rewrite Z, Rabs_R0 in Y. lra. }
  assert (Rz : r2 <> 0). { intros Z. rewrite Z, Rabs_R0 in H2. lra. }
  assert (D : Rabs (B2R x / B2R y - r1 / r2) <= (e1 + Q * e2) / m).
  { replace (B2R x / B2R y - r1 / r2) with (((B2R x - r1) + - (r1 / r2) * (B2R y - r2)) / B2R y) by (field; auto).
    unfold Rdiv. rewrite Rabs_mult. apply Rmult_le_compat; auto using Rabs_pos.
    - eapply Rle_trans; [apply Rabs_triang|]. apply Rplus_le_compat; auto.
      apply abs_mul_le; auto. rewrite Rabs_Ropp. exact HQ.
    - rewrite Rabs_inv by auto. apply Rinv_le_contravar; auto. }
  apply Rabs_le_iff in D. apply Rabs_le_iff in HQ.
  assert (Hb : Rabs (B2R x / B2R y) <= M) by (apply Rabs_le_iff; lra).
  destruct (fdiv_ok x y M A1 A2 Yz (uo_fmt _ _ U) Hb) as [F E]. split; [exact F|]. rewrite E.
  pose proof (uo_err _ _ _ U Hb) as Er. apply Rabs_le_iff in Er. apply Rabs_le_iff. lra.
Qed.
Lemma close_abs e r x : close e r x -> close e (Rabs r) (fabs x).
Proof. intros [A B]. split; [apply fabs_fin, A|]. rewrite fabs_R. revert B.
  unfold Rabs. repeat destruct Rcase_abs; lra. Qed.

Lemma limited_range r : 0 <= limited r <= 1.
Proof. unfold limited, Rmax, Rmin. repeat destruct Rle_dec; lra. Qed.
Lemma limited_id r : 0 <= r <= 1 -> limited r = r.
Proof. unfold limited, Rmax, Rmin. repeat destruct Rle_dec; lra. Qed.
Lemma limited_hi r : 1 <= r -> limited r = 1.
Proof. unfold limited, Rmax, Rmin. repeat destruct Rle_dec; lra. Qed.
Lemma limited_lo r : r <= 0 -> limited r = 0.
Proof. unfold limited, Rmax, Rmin. repeat destruct Rle_dec; lra. Qed.
Lemma limited_lip a b : Rabs (limited a - limited b) <= Rabs (a - b).
Proof. unfold limited, Rmax, Rmin, Rabs. repeat destruct Rle_dec; repeat destruct Rcase_abs; lra. Qed.
Lemma limited_lip_e a b e : Rabs (a - b) <= e -> Rabs (limited a - limited b) <= e.
Proof. intros. eapply Rle_trans; [apply limited_lip | auto]. Qed.
Lemma clamp_R x : fin x -> fin (clamp x) /\ B2R (clamp x) = limited (B2R x).
Proof.
  intros F. unfold clamp, fclamp.
  destruct (flt x f0) eqn:A.
  - apply flt_R in A; auto with fin. rewrite f0_R in A. split; [reflexivity|]. rewrite limited_lo by lra. reflexivity.
  - apply flt_Rf in A; auto with fin. rewrite f0_R in A. destruct (flt f1 x) eqn:B.
    + apply flt_R in B; auto with fin. rewrite f1_R in B. split; [reflexivity|]. rewrite limited_hi by lra. apply f1_R.
    + apply flt_Rf in B; auto with fin. rewrite f1_R in B. split; [exact F|]. rewrite limited_id by lra. reflexivity.
Qed.
Lemma close_clamp e r x : close e r x -> close e (limited r) (clamp x).
Proof. intros [A B]. destruct (clamp_R x A) as [C D]. split; [exact C|]. rewrite D. now apply limited_lip_e. Qed.
(** A rounded number brought into [0,1]. *)
Lemma clamp_rnd x r : fin x -> B2R x = rnd r -> close (/ 16777216) (limited r) (clamp x).
Proof.
  intros A B. destruct (clamp_R x A) as [C D]. split; [exact C|]. rewrite D, B.
  destruct (Rle_dec (Rabs r) 2) as [H|H].
  - apply limited_lip_e. exact (uo_err _ _ _ uo_2 H).
  - destruct (Rcase_abs r) as [N|N].
    + rewrite Rabs_left in H by lra. rewrite (limited_lo r), limited_lo; try lra.
      * replace (0 - 0) with 0 by lra. rewrite Rabs_R0. lra.
      * apply rnd_hi; [apply fmt_0 | lra].
    + rewrite Rabs_right in H by lra. rewrite (limited_hi r), limited_hi; try lra.
      * replace (1 - 1) with 0 by lra. rewrite Rabs_R0. lra.
      * apply rnd_lo; [apply fmt_1 | lra].
Qed.
(** Relative error of any number in range. *)
Lemma rnd_rel_abs r : Rabs (rnd r - r) <= / 16777216 * Rabs r + / 2 ^ 140.
Proof.
  destruct (Rle_dec (bpow radix2 (-126)) (Rabs r)) as [H|H].
  - assert (E : Rabs (rnd r - r) <= / 2 * bpow radix2 (- (24) + 1) * Rabs r).
    { unfold rnd. simpl round_mode. apply (relative_error_N_FLT radix2 (-149) 24); [reflexivity|exact H]. }
    change (- (24) + 1)%Z with (-23)%Z in E. rewrite bpow_neg in E. change (Z.pow_pos 2 23) with 8388608%Z in E.
    replace (/ 2 * / 8388608) with (/ 16777216) in E by lra.
    assert (0 <= / 2 ^ 140). { left. apply Rinv_0_lt_compat, pow_lt. lra. }
    lra.
  - assert (E : Rabs (rnd r - r) <= bpow radix2 (-125 - 25)).
    { apply rnd_err; [lia|]. apply Rlt_le. eapply Rlt_trans; [apply Rnot_le_lt, H|]. apply bpow_lt. lia. }
    assert (bpow radix2 (-125 - 25) <= / 2 ^ 140).
    { replace (/ 2 ^ 140) with (bpow radix2 (-140)).
      - apply bpow_le. lia.
      - rewrite bpow_neg. f_equal. rewrite (pow_IZR 2 140). f_equal. }
    pose proof (Rabs_pos r). lra.
Qed.
