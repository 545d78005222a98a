(** What the Lanczos filter computes: proofs for C106. *)
From Coq Require Import Reals ZArith List Bool Lra Lia Psatz.
From Flocq Require Import Core.Core IEEE754.BinarySingleNaN.
From Verif Require Import Base BaseLemmas PixelBuffer BufferSpec PixelBufferProofs F32 F32Lemmas Color ColorSpec ColorProofs MeaningSpec Approx OpMeaningProofs.
From Verif Require Import Resample ResampleSpec ResampleProofs InterpProofs ResampleMeaning LchMeaning BlendMeaning LanczosSpec.
Import ListNotations.
Open Scope R_scope.

(** ** The cardinal sine *)
Definition sn (y : R) : R := if Req_EM_T y 0 then 1 else sin y / y.
Lemma sn_cos y : exists c, Rabs c <= Rabs y /\ sn y = cos c.
Proof.
  assert (P : forall y, 0 < y -> exists c, 0 < c < y /\ sin y / y = cos c).
  { clear. intros y H. destruct (MVT_cor2 sin cos 0 y H) as (c & E & C). { intros. apply derivable_pt_lim_sin. }
    exists c. split; [exact C|]. rewrite sin_0, !Rminus_0_r in E. rewrite E. field. lra. }
  unfold sn. destruct (Req_EM_T y 0) as [->|N].
  - exists 0. rewrite Rabs_R0, cos_0. split; [lra|reflexivity].
  - destruct (Rlt_dec 0 y) as [H|H].
    + destruct (P y H) as (c & C & E). exists c. split; [rewrite !Rabs_pos_eq; lra|exact E].
    + destruct (P (- y)) as (c & C & E); [lra|]. exists c. split; [rewrite (Rabs_left1 y), (Rabs_pos_eq c); lra|]. rewrite <- E, sin_neg. field. exact N.
Qed.
Lemma sn_bound y : Rabs (sn y) <= 1.
Proof. destruct (sn_cos y) as (c & _ & ->). apply Rabs_le_iff. pose proof (COS_bound c). lra. Qed.
Lemma sn_even y : sn (Rabs y) = sn y.
Proof.
  unfold Rabs. destruct Rcase_abs as [H|H]; [|reflexivity]. unfold sn. destruct (Req_EM_T (- y) 0), (Req_EM_T y 0); try lra.
  rewrite sin_neg. field. lra.
Qed.
Lemma sn_lip_pos a b : 0 < a < b -> Rabs (sn b - sn a) <= b - a.
Proof.
  intros H. assert (E : forall y, 0 < y -> sn y = sin y / y) by (intros y Hy; unfold sn; destruct (Req_EM_T y 0); [lra|reflexivity]).
  rewrite !E by lra. destruct (MVT_cor2 (fun y => sin y / y) (fun y => (cos y * y - 1 * sin y) / (y * y)) a b) as (c & Ec & Hc); [lra| |].
  - intros c Hc. change (fun y => sin y / y) with (sin / id)%F. change ((cos c * c - 1 * sin c) / (c * c)) with ((cos c * id c - 1 * sin c) / Rsqr (id c)).
    apply derivable_pt_lim_div; [apply derivable_pt_lim_sin|apply derivable_pt_lim_id|unfold id; lra].
  - rewrite Ec. rewrite Rabs_mult, (Rabs_pos_eq (b - a)) by lra. destruct (sn_cos c) as (k & Hk & Ek). rewrite E in Ek by lra.
    rewrite (Rabs_pos_eq c) in Hk by lra.
    assert (Rabs ((cos c * c - 1 * sin c) / (c * c)) <= 1); [|nra].
    replace ((cos c * c - 1 * sin c) / (c * c)) with ((cos c - sin c / c) / c) by (field; lra). rewrite Ek. unfold Rdiv. rewrite Rabs_mult, (Rabs_pos_eq (/ c)) by (left; apply Rinv_0_lt_compat; lra).
    apply Rmult_le_reg_r with c; [lra|]. rewrite Rmult_assoc, Rinv_l by lra.
    assert (sinlip : Rabs (cos c - cos k) <= c); [|lra].
    unfold Rabs in Hk.
    destruct (Rle_dec 0 k) as [Q|Q].
    + eapply Rle_trans; [apply cos_lip|]. apply Rabs_le_iff. destruct (Rcase_abs k); lra.
    + rewrite <- (cos_neg k). eapply Rle_trans; [apply cos_lip|]. apply Rabs_le_iff. destruct (Rcase_abs k); lra.
Qed.
Lemma sn_lip a b : Rabs (sn a - sn b) <= Rabs (a - b).
Proof.
  assert (Z : forall y, Rabs (sn y - 1) <= Rabs y).
  { intros y. destruct (sn_cos y) as (c & C & ->). rewrite <- cos_0. eapply Rle_trans; [apply cos_lip|]. rewrite Rminus_0_r. exact C. }
  assert (P : forall a b, 0 <= a -> 0 <= b -> Rabs (sn a - sn b) <= Rabs (a - b)).
  { clear a b. assert (S0 : sn 0 = 1) by (unfold sn; destruct (Req_EM_T 0 0); lra).
    assert (S : forall a b, 0 <= a < b -> Rabs (sn b - sn a) <= b - a).
    { intros a b H. destruct (Req_EM_T a 0) as [->|N]; [rewrite S0; eapply Rle_trans; [apply Z|]; rewrite Rabs_pos_eq; lra|]. apply sn_lip_pos. lra. }
    intros a b A B. destruct (Rtotal_order a b) as [H|[->|H]].
    - rewrite (Rabs_minus_sym a b), (Rabs_minus_sym (sn a)), (Rabs_pos_eq (b - a)) by lra. apply S. lra.
    - unfold Rminus. rewrite !Rplus_opp_r. lra.
    - rewrite (Rabs_pos_eq (a - b)) by lra. apply S. lra. }
  rewrite <- (sn_even a), <- (sn_even b). eapply Rle_trans; [apply P; apply Rabs_pos|]. apply Rabs_triang_inv2.
Qed.
Lemma cs_sn x : cardinal_sine x = sn (PI * x).
Proof. unfold cardinal_sine, sn. pose proof PI_RGT_0. destruct (Req_EM_T x 0) as [->|N], (Req_EM_T (PI * _) 0) as [M|M]; try reflexivity; [rewrite Rmult_0_r in M; lra|]. apply Rmult_integral in M. lra. Qed.
Lemma cs_bound x : Rabs (cardinal_sine x) <= 1.
Proof. rewrite cs_sn. apply sn_bound. Qed.
Lemma cs_lip a b : Rabs (cardinal_sine a - cardinal_sine b) <= 3142 / 1000 * Rabs (a - b).
Proof.
  rewrite !cs_sn. eapply Rle_trans; [apply sn_lip|]. replace (PI * a - PI * b) with (PI * (a - b)) by ring. pose proof PI_bounds. pose proof (Rabs_pos (a - b)).
  rewrite Rabs_mult, (Rabs_pos_eq PI) by lra. nra.
Qed.
Lemma cs_3 : cardinal_sine 3 = 0.
Proof.
  unfold cardinal_sine. destruct (Req_EM_T 3 0); [lra|]. replace (PI * 3) with (2 * PI + PI) by ring. rewrite neg_sin, sin_2PI. unfold Rdiv. ring.
Qed.
Lemma cs_even x : cardinal_sine (- x) = cardinal_sine x.
Proof. rewrite !cs_sn. rewrite <- (sn_even (PI * - x)), <- (sn_even (PI * x)). f_equal. replace (PI * - x) with (- (PI * x)) by ring. apply Rabs_Ropp. Qed.
Lemma window_even v : window (Rabs v) = window v.
Proof. unfold window. rewrite Rabs_Rabsolu. destruct (Rlt_dec _ _); [|reflexivity]. unfold Rabs. destruct Rcase_abs; [|reflexivity].
  replace (- v / 3) with (- (v / 3)) by (unfold Rdiv; ring). now rewrite !cs_even. Qed.
Lemma window_bound v : Rabs (window v) <= 1.
Proof. unfold window. destruct (Rlt_dec _ _); [|rewrite Rabs_R0; lra]. rewrite <- (Rmult_1_l 1). apply abs_mul_le; apply cs_bound. Qed.
Lemma prod_lip a b : Rabs (cardinal_sine a * cardinal_sine (a / 3) - cardinal_sine b * cardinal_sine (b / 3)) <= 42 / 10 * Rabs (a - b).
Proof.
  replace (cardinal_sine a * cardinal_sine (a / 3) - cardinal_sine b * cardinal_sine (b / 3))
    with (cardinal_sine a * (cardinal_sine (a / 3) - cardinal_sine (b / 3)) + (cardinal_sine a - cardinal_sine b) * cardinal_sine (b / 3)) by ring.
  pose proof (cs_lip a b) as A. pose proof (cs_lip (a / 3) (b / 3)) as B. replace (a / 3 - b / 3) with ((a - b) * / 3) in B by (unfold Rdiv; ring).
  rewrite (Rabs_mult _ (/ 3)), (Rabs_pos_eq (/ 3)) in B by lra.
  eapply Rle_trans; [apply Rabs_triang|]. eapply Rle_trans; [apply Rplus_le_compat; [apply (abs_mul_le _ _ 1 _ (cs_bound a) B)|apply (abs_mul_le _ _ _ 1 A (cs_bound (b / 3)))]|].
  pose proof (Rabs_pos (a - b)). lra.
Qed.
Lemma window_lip_pos a b : 0 <= a -> 0 <= b -> Rabs (window a - window b) <= 42 / 10 * Rabs (a - b).
Proof.
  intros A B. unfold window. rewrite (Rabs_pos_eq a), (Rabs_pos_eq b) by lra. pose proof (prod_lip a 3) as Pa. pose proof (prod_lip 3 b) as Pb. rewrite cs_3, Rmult_0_l in Pa, Pb.
  destruct (Rlt_dec a 3), (Rlt_dec b 3).
  - apply prod_lip.
  - eapply Rle_trans; [exact Pa|]. rewrite !Rabs_left1 by lra. lra.
  - eapply Rle_trans; [exact Pb|]. rewrite !Rabs_pos_eq by lra. lra.
  - rewrite Rminus_0_r, Rabs_R0. pose proof (Rabs_pos (a - b)). lra.
Qed.
Lemma window_lip a b : Rabs (window a - window b) <= 42 / 10 * Rabs (a - b).
Proof.
  rewrite <- (window_even a), <- (window_even b). eapply Rle_trans; [apply window_lip_pos; apply Rabs_pos|]. apply Rmult_le_compat_l; [lra|]. apply Rabs_triang_inv2.
Qed.

(** ** The weights in floating point *)
Definition esn := / 330000.
Lemma sinc_close L v : accurate_sine L -> fin v -> Rabs (B2R v) <= 3 -> close esn (cardinal_sine (B2R v)) (sinc L v).
Proof.
  intros A F B. unfold sinc. destruct (feq v f0) eqn:E.
  - apply feq_R in E; auto with fin. rewrite f0_R in E. rewrite E. unfold cardinal_sine. destruct (Req_EM_T 0 0); [|lra].
    split; [reflexivity|]. rewrite f1_R. replace (1 - 1) with 0 by lra. rewrite Rabs_R0. unfold esn. lra.
  - assert (NZ : B2R v <> 0). { intros Z. assert (T : feq v f0 = true) by (apply feq_R; auto with fin; rewrite f0_R; exact Z). exact (eq_true_false_abs _ T E). }
    destruct fPI_val as [FP EP]. pose proof PI_bounds as PB. set (P := B2R fPI) in *.
    destruct (fmul_ok v fPI 16 F FP) as [Fw Ew]. { apply (uo_fmt _ _ uo_16). } { fold P. rewrite Rabs_mult, (Rabs_pos_eq P) by lra. rewrite EP. lra. }
    fold P in Ew. set (w := fmul v fPI) in *.
    pose proof (Rabs_pos (B2R v)) as V0. assert (Vp : 0 < Rabs (B2R v)) by (apply Rabs_pos_lt; exact NZ).
    assert (Wb : Rabs (B2R v) <= Rabs (B2R w)).
    { rewrite Ew. unfold rnd. rewrite <- (round_NE_abs radix2 fx). rewrite Rabs_mult, (Rabs_pos_eq P) by lra. apply round_ge_generic; auto with typeclass_instances.
      - apply generic_format_abs. apply generic_format_B2R.
      - rewrite EP. lra. }
    assert (Wz : B2R w <> 0) by (intros Z; rewrite Z, Rabs_R0 in Wb; lra).
    pose proof (rnd_rel_abs (B2R v * P)) as R1. rewrite <- Ew, Rabs_mult, (Rabs_pos_eq P) in R1 by lra. pose proof p140 as P140.
    assert (D : Rabs (B2R w - PI * B2R v) <= / 1110000).
    { replace (B2R w - PI * B2R v) with ((B2R w - B2R v * P) + B2R v * (P - PI)) by ring. eapply Rle_trans; [apply Rabs_triang|].
      assert (Rabs (B2R v * (P - PI)) <= 3 * (11 / 100000000)) by (apply abs_mul_le; [exact B|apply Rabs_le_iff; rewrite EP; lra]).
      assert (Rabs (B2R v) * P <= 3 * P) by (rewrite EP; lra). rewrite EP in *. lra. }
    assert (W10 : Rabs (B2R w) <= 10).
    { replace (B2R w) with ((B2R w - PI * B2R v) + PI * B2R v) by ring. eapply Rle_trans; [apply Rabs_triang|]. rewrite (Rabs_mult PI), (Rabs_pos_eq PI) by lra. nra. }
    destruct (A w Fw W10) as [Fs Cs]. rewrite (pow_IZR 2 19) in Cs. change (IZR (2 ^ Z.of_nat 19)) with 524288 in Cs.
    assert (Q : Rabs (B2R (fsin L w) / B2R w - sn (B2R w)) <= / 524288).
    { unfold sn. destruct (Req_EM_T (B2R w) 0); [lra|]. replace (B2R (fsin L w) / B2R w - sin (B2R w) / B2R w) with ((B2R (fsin L w) - sin (B2R w)) / B2R w) by (field; exact Wz).
      unfold Rdiv. rewrite Rabs_mult, Rabs_inv by exact Wz. apply Rmult_le_reg_r with (Rabs (B2R w)); [lra|]. rewrite Rmult_assoc, Rinv_l by lra. lra. }
    pose proof (sn_bound (B2R w)) as SB. pose proof (sn_lip (B2R w) (PI * B2R v)) as SL. rewrite <- cs_sn in SL.
    assert (Qb : Rabs (B2R (fsin L w) / B2R w) <= 2) by (apply Rabs_le_iff in Q; apply Rabs_le_iff in SB; apply Rabs_le_iff; lra).
    destruct (fdiv_ok (fsin L w) w 2 Fs Fw Wz) as [Fd Ed]; [apply (uo_fmt _ _ uo_2)|exact Qb|].
    split; [exact Fd|]. rewrite Ed. pose proof (uo_err _ _ _ uo_2 Qb) as Er. unfold esn. apply Rabs_le_iff in Q. apply Rabs_le_iff in Er.
    assert (SL' : Rabs (sn (B2R w) - cardinal_sine (B2R v)) <= / 1110000) by lra. apply Rabs_le_iff in SL'. apply Rabs_le_iff. lra.
Qed.
Definition ewin := / 160000.
Lemma window_close L v : accurate_sine L -> fin v -> 0 <= B2R v ->
  close ewin (window (B2R v)) (if flt v (ofZ 3) then fmul (sinc L v) (sinc L (fdiv v (ofZ 3))) else f0).
Proof.
  intros A F P. destruct (ofZ_val 3) as [F3 E3]; [lia|]. unfold window. rewrite Rabs_pos_eq by exact P. destruct (flt v (ofZ 3)) eqn:E.
  - apply flt_R in E; auto. rewrite E3 in E. destruct (Rlt_dec _ _); [|lra].
    assert (Z3 : B2R (ofZ 3) <> 0) by (rewrite E3; lra).
    assert (Qb : Rabs (B2R v / B2R (ofZ 3)) <= 1) by (rewrite E3; rewrite Rabs_pos_eq; lra).
    destruct (fdiv_ok v (ofZ 3) 1 F F3 Z3 (uo_fmt _ _ uo_1) Qb) as [Fd Ed]. pose proof (uo_err _ _ _ uo_1 Qb) as Er. rewrite <- Ed, E3 in Er.
    assert (B1 : Rabs (B2R v) <= 3) by (rewrite Rabs_pos_eq; lra).
    assert (B2 : Rabs (B2R (fdiv v (ofZ 3))) <= 3) by (apply Rabs_le_iff in Er; apply Rabs_le_iff; lra).
    pose proof (sinc_close L v A F B1) as C1. pose proof (sinc_close L _ A Fd B2) as C2.
    eapply close_move in C2; [|eapply Rle_trans; [apply (cs_lip _ (B2R v / 3))|apply Rmult_le_compat_l; [lra|exact Er]]].
    eapply close_weak; [apply (close_mul 2 (/ 16777216) 1 1); [apply uo_2|exact C1|exact C2|apply cs_bound|apply cs_bound|]|]; unfold esn, ewin; lra.
  - apply flt_Rf in E; auto. rewrite E3 in E. destruct (Rlt_dec _ _); [lra|]. split; [reflexivity|]. rewrite f0_R. replace (0 - 0) with 0 by lra. rewrite Rabs_R0. unfold ewin. lra.
Qed.

Definition stretched (L : libm) (v size : f32) : f32 :=
  let v := fmul (fdiv (fabs v) size) (ofZ 3) in
  if flt v (ofZ 3) then fmul (fmul (sinc L v) (sinc L (fdiv v (ofZ 3)))) (fdiv (ofZ 3) size) else f0.
Lemma lanczos_stretched L N v : N <> 7%Z -> lanczos L N v = stretched L v (ofZ N).
Proof. intros H. apply Z.eqb_neq in H. unfold lanczos. rewrite H. reflexivity. Qed.
Lemma dyn_stretched L v z : lanczos_dyn L v z = stretched L v (ofZ z).
Proof. reflexivity. Qed.
Definition ew (s : R) : R := 3 / s / 100000 + / 8388608.
Lemma stretched_close L x v z r : accurate_sine L -> 3 <= r <= IZR z -> (z <= 100000)%Z -> Rabs x <= r + 1 -> close (/ 16777216 * (r + 2)) x v ->
  close (ew (IZR z)) (3 / IZR z * window (3 * x / IZR z)) (stretched L v (ofZ z)).
Proof.
  intros A Hr Hz Hx C. assert (Zb : (3 <= z)%Z) by (apply le_IZR; lra). assert (Sb : 3 <= IZR z <= 100000) by (split; apply IZR_le; lia).
  destruct (ofZ_val 3) as [F3 E3]; [lia|]. destruct (ofZ_val z) as [Fz Ez]; [lia|]. set (S := IZR z) in *.
  apply close_abs in C. set (y := Rabs x) in *. assert (Y0 : 0 <= y) by apply Rabs_pos.
  assert (W : window (3 * x / S) = window (3 * (y / S))).
  { rewrite <- window_even. unfold Rdiv. rewrite !Rabs_mult, (Rabs_pos_eq 3), (Rabs_pos_eq (/ S)) by (try (left; apply Rinv_0_lt_compat); lra). fold y. f_equal. ring. }
  assert (I0 : 0 < / S) by (apply Rinv_0_lt_compat; lra). assert (SI : S * / S = 1) by (apply Rinv_r; lra).
  assert (I3 : / S <= / 3) by (apply Rinv_le_contravar; lra).
  assert (rS : (r + 1) * / S <= 4 / 3 /\ (r + 2) * / S <= 5 / 3) by (split; nra).
  assert (Q : close (/ 16777216 * (5 / 3) + / 16777216) (y / S) (fdiv (fabs v) (ofZ z))).
  { destruct C as [Fv Cv]. assert (D : Rabs (B2R (fabs v) / S - y / S) <= / 16777216 * (5 / 3)).
    { replace (B2R (fabs v) / S - y / S) with ((B2R (fabs v) - y) * / S) by (unfold Rdiv; ring). rewrite Rabs_mult, (Rabs_pos_eq (/ S)) by lra. pose proof (Rmult_le_compat_r (/ S) _ _ (Rlt_le _ _ I0) Cv). lra. }
    assert (yS : 0 <= y / S <= 4 / 3). { split; [apply Rmult_le_pos; lra|]. unfold Rdiv. pose proof (Rmult_le_compat_r (/ S) _ _ (Rlt_le _ _ I0) Hx). lra. }
    apply Rabs_le_iff in D. assert (Qb : Rabs (B2R (fabs v) / B2R (ofZ z)) <= 2) by (rewrite Ez; apply Rabs_le_iff; lra).
    destruct (fdiv_ok (fabs v) (ofZ z) 2 Fv Fz) as [Fq Eq]; [rewrite Ez; lra|apply (uo_fmt _ _ uo_2)|exact Qb|]. pose proof (uo_err _ _ _ uo_2 Qb) as Er.
    split; [exact Fq|]. rewrite Eq. rewrite Ez in *. apply Rabs_le_iff in Er. apply Rabs_le_iff. lra. }
  assert (yS : 0 <= y / S <= 4 / 3). { split; [apply Rmult_le_pos; lra|]. unfold Rdiv. pose proof (Rmult_le_compat_r (/ S) _ _ (Rlt_le _ _ I0) Hx). lra. }
  assert (V : close (12 / 16777216) (y / S * 3) (fmul (fdiv (fabs v) (ofZ z)) (ofZ 3))).
  { eapply close_weak; [apply (close_mul 8 (/ 4194304) (4 / 3) 3 (/ 16777216 * (5 / 3) + / 16777216) 0); [apply uo_8|exact Q| |rewrite Rabs_pos_eq; lra|rewrite Rabs_pos_eq; lra|lra]|lra]. rewrite <- E3. now apply close_0. }
  assert (VP : 0 <= B2R (fmul (fdiv (fabs v) (ofZ z)) (ofZ 3))).
  { pose proof (close_fin _ _ _ C) as Fv. pose proof (close_fin _ _ _ Q) as Fq.
    assert (P1 : 0 <= B2R (fdiv (fabs v) (ofZ z))).
    { destruct Q as [_ Qc]. assert (Qb : Rabs (B2R (fabs v) / B2R (ofZ z)) <= 1048576).
      { destruct C as [_ Cv]. rewrite Ez. apply Rabs_le_iff in Cv. assert (0 <= B2R (fabs v)) by (rewrite fabs_R; apply Rabs_pos). unfold Rdiv. rewrite Rabs_pos_eq by (apply Rmult_le_pos; lra). nra. }
      destruct (fdiv_ok (fabs v) (ofZ z) 1048576 Fv Fz) as [_ Eq]; [rewrite Ez; lra| |exact Qb|].
      { apply (uo_fmt _ (bpow radix2 (20 - 25))). exists 20%Z. split; [lia|]. split; reflexivity. }
      rewrite Eq. apply rnd_lo; [apply fmt_0|]. rewrite Ez, fabs_R. apply Rmult_le_pos; [apply Rabs_pos|lra]. }
    assert (Qb : Rabs (B2R (fdiv (fabs v) (ofZ z)) * B2R (ofZ 3)) <= 8). { destruct Q as [_ Qc]. rewrite E3. apply Rabs_le_iff in Qc. apply Rabs_le_iff. lra. }
    destruct (fmul_ok _ (ofZ 3) 8 Fq F3 (uo_fmt _ _ uo_8) Qb) as [_ Ew]. rewrite Ew, E3. apply rnd_lo; [apply fmt_0|lra]. }
  unfold stretched. set (u := fmul (fdiv (fabs v) (ofZ z)) (ofZ 3)) in *.
  pose proof (window_close L u A (close_fin _ _ _ V) VP) as WC. rewrite W.
  eapply close_move in WC; [|eapply Rle_trans; [apply (window_lip _ (3 * (y / S)))|apply Rmult_le_compat_l; [lra|]]].
  2:{ destruct V as [_ Vc]. replace (3 * (y / S)) with (y / S * 3) by ring. exact Vc. }
  assert (T : close (/ 33554432) (3 / S) (fdiv (ofZ 3) (ofZ z))).
  { assert (Qb : Rabs (B2R (ofZ 3) / B2R (ofZ z)) <= 1) by (rewrite E3, Ez; apply Rabs_le_iff; unfold Rdiv; lra).
    destruct (fdiv_ok (ofZ 3) (ofZ z) 1 F3 Fz) as [Fq Eq]; [rewrite Ez; lra|apply (uo_fmt _ _ uo_1)|exact Qb|]. pose proof (uo_err _ _ _ uo_1 Qb) as Er.
    split; [exact Fq|]. rewrite Eq, E3, Ez in *. exact Er. }
  assert (S3 : 0 < 3 / S <= 1) by (unfold Rdiv; lra).
  destruct (flt u (ofZ 3)).
  - rewrite (Rmult_comm (3 / S)). eapply close_weak; [eapply (close_mul 2 (/ 16777216) 1 (3 / S)); [apply uo_2|exact WC|exact T|apply window_bound|rewrite Rabs_pos_eq; lra|unfold ewin; lra]|]. unfold ew, ewin. lra.
  - destruct WC as [_ WC]. split; [reflexivity|]. rewrite f0_R in *. rewrite Rminus_0_l, Rabs_Ropp in *. rewrite Rabs_mult, (Rabs_pos_eq (3 / S)) by lra. unfold ew. unfold ewin in WC. nra.
Qed.
Lemma lanczos3_close L x v : accurate_sine L -> Rabs x <= 4 -> close (/ 16777216 * 5) x v ->
  close (ew 3) (3 / 3 * window (3 * x / 3)) (lanczos L 7 v).
Proof.
  intros A Hx C. replace (3 / 3 * window (3 * x / 3)) with (window (Rabs x)) by (rewrite window_even; replace (3 * x / 3) with x by field; field).
  apply close_abs in C. destruct C as [F C]. unfold lanczos. change (7 =? 7)%Z with true. cbv zeta iota.
  assert (P : 0 <= B2R (fabs v)) by (rewrite fabs_R; apply Rabs_pos).
  pose proof (window_close L (fabs v) A F P) as WC. eapply close_weak; [eapply close_move; [exact WC|eapply Rle_trans; [apply (window_lip _ (Rabs x))|apply Rmult_le_compat_l; [lra|exact C]]]|]. unfold ew, ewin. lra.
Qed.
Lemma pos_close p d t tx r : fin p -> B2R p = IZR d -> Rabs (IZR d) <= r -> 3 <= r <= 100000 -> 0 <= t <= 1 -> close (/ 33554432) t tx ->
  close (/ 16777216 * (r + 2)) (IZR d - t) (fsub p tx).
Proof.
  intros Fp Ep Hd Hr Ht [Ft Ct]. apply Rabs_le_iff in Hd. apply Rabs_le_iff in Ct.
  assert (Sb : Rabs (B2R p - B2R tx) <= r + 1 + / 33554432) by (rewrite Ep; apply Rabs_le_iff; lra).
  destruct (fsub_ok p tx 1048576 Fp Ft) as [F E]; [|lra|].
  { apply (uo_fmt _ (bpow radix2 (20 - 25))). exists 20%Z. split; [lia|]. split; reflexivity. }
  split; [exact F|]. rewrite E. pose proof (rnd_rel_abs (B2R p - B2R tx)) as R1. pose proof p140 as P140. rewrite Ep in *. apply Rabs_le_iff in R1. apply Rabs_le_iff.
  assert (/ 16777216 * Rabs (IZR d - B2R tx) <= / 16777216 * (r + 1 + / 33554432)) by (apply Rmult_le_compat_l; lra). lra.
Qed.

(** ** Weighted sums *)
Definition wsum (l : list Z) (sc v : Z -> f32) (acc : f32) : f32 := fold_left (fun a i => fadd a (fmul (v i) (sc i))) l acc.
Definition rsum (l : list Z) (f : Z -> R) : R := fold_right (fun i a => f i + a) 0 l.
Lemma for_pure {A S} (g : A -> S -> S) l : forall s, for_ l (fun a s => Ok (g a s)) s = Ok (fold_left (fun s a => g a s) l s).
Proof. induction l as [|a l IH]; intros s; [reflexivity|]. simpl. apply IH. Qed.
Definition zero4 : col := mkC f0 f0 f0 f0.
Definition row_sum (n : Z) (sc : Z -> f32) (px : Z -> Rgb) : Rgb := fold_left (fun acc x => acc_add (sc x) acc (px x)) (zrange 0 n) zero4.
Lemma lanczos_sum_eq n k row_scale col_scale sc px :
  (forall x, (0 <= x < n)%Z -> idx row_scale x = Ok (sc x)) ->
  (forall y, (0 <= y < n)%Z -> exists row, idx k y = Ok row /\ forall x, (0 <= x < n)%Z -> idx row x = Ok (px x y)) ->
  lanczos_sum n k row_scale col_scale = Ok (row_sum n col_scale (fun y => row_sum n sc (fun x => px x y))).
Proof.
  intros Hs Hk. unfold lanczos_sum. rewrite (map_res_ok _ (fun y => row_sum n sc (fun x => px x y))).
  - cbn [bind]. transitivity (for_ (zrange 0 n) (fun y acc => Ok (acc_add (col_scale y) acc (row_sum n sc (fun x => px x y)))) zero4);
      [|exact (for_pure (fun y acc => acc_add (col_scale y) acc (row_sum n sc (fun x => px x y))) _ _)]. apply for_ext. intros y acc Hy. apply zrange_In in Hy.
    rewrite idx_map, idx_zrange by lia. reflexivity.
  - intros y Hy. apply zrange_In in Hy. transitivity (for_ (zrange 0 n) (fun x acc => Ok (acc_add (sc x) acc (px x y))) zero4); [|exact (for_pure (fun x acc => acc_add (sc x) acc (px x y)) _ _)]. apply for_ext. intros x acc Hx. apply zrange_In in Hx.
    rewrite Hs by exact Hx. cbn [bind]. destruct (Hk y Hy) as (row & -> & R). cbn [bind]. rewrite R by exact Hx. reflexivity.
Qed.
Lemma wsum_chan d sc px l : In d channels -> forall acc, d (fold_left (fun acc x => acc_add (sc x) acc (px x)) l acc) = wsum l sc (fun x => d (px x)) (d acc).
Proof.
  intros Hd. induction l as [|a l IH]; intros acc; [reflexivity|]. cbn [fold_left]. rewrite IH. unfold wsum. cbn [fold_left]. f_equal.
  unfold channels in Hd. cbn [In] in Hd. destruct Hd as [<-|[<-|[<-|[<-|[]]]]]; reflexivity.
Qed.
Lemma rsum_abs l f B : (forall i, In i l -> Rabs (f i) <= B) -> Rabs (rsum l f) <= INR (length l) * B.
Proof.
  induction l as [|a l IH]; intros H; [simpl; rewrite Rabs_R0; lra|]. cbn [rsum fold_right length]. fold (rsum l f). rewrite S_INR.
  eapply Rle_trans; [apply Rabs_triang|]. pose proof (H a (or_introl eq_refl)). specialize (IH (fun i Hi => H i (or_intror Hi))). lra.
Qed.
Lemma wsum_close M u Mp up A B ev es sc v rs rv : unit_ok M u -> unit_ok Mp up -> 0 <= A -> 0 <= B -> 0 <= ev -> 0 <= es -> A * B + ev * B + es * A + ev * es <= Mp ->
  forall l, (forall i, In i l -> close es (rs i) (sc i) /\ Rabs (rs i) <= B /\ close ev (rv i) (v i) /\ Rabs (rv i) <= A) ->
  forall acc racc eacc, close eacc racc acc ->
  Rabs racc + eacc + INR (length l) * (A * B + (ev * B + es * A + ev * es + up) + u) <= M ->
  close (eacc + INR (length l) * ((ev * B + es * A + ev * es + up) + u)) (racc + rsum l (fun i => rs i * rv i)) (wsum l sc v acc).
Proof.
  intros U Up HA HB Hv Hs Hp. pose proof (uo_u _ _ U) as U0. pose proof (uo_u _ _ Up) as Up0.
  assert (AB0 : 0 <= A * B) by (apply Rmult_le_pos; lra). assert (E0 : 0 <= ev * B + es * A + ev * es) by (repeat apply Rplus_le_le_0_compat; apply Rmult_le_pos; lra).
  set (step := ev * B + es * A + ev * es + up) in *.
  induction l as [|i l IH]; intros H acc racc eacc C K.
  - cbn [length rsum fold_right wsum fold_left]. rewrite Rmult_0_l, !Rplus_0_r. exact C.
  - cbn [length] in *. rewrite S_INR in *. pose proof (pos_INR (length l)) as N0. destruct (H i (or_introl eq_refl)) as (C1 & B1 & C2 & B2).
    assert (C3 : close step (rv i * rs i) (fmul (v i) (sc i))).
    { eapply close_weak; [apply (close_mul Mp up A B ev es); auto|]; unfold step; lra. }
    assert (P3 : Rabs (rv i * rs i) <= A * B) by (apply abs_mul_le; auto).
    assert (Nn : 0 <= INR (length l) * (A * B + step + u)) by (apply Rmult_le_pos; [lra|unfold step; lra]).
    assert (T : Rabs (racc + rv i * rs i) <= Rabs racc + A * B) by (eapply Rle_trans; [apply Rabs_triang|lra]).
    pose proof (close_add M u eacc step _ _ _ _ U C C3 ltac:(lra)) as C4.
    cbn [wsum fold_left]. fold (wsum l sc v (fadd acc (fmul (v i) (sc i)))). cbn [rsum fold_right]. fold (rsum l (fun i => rs i * rv i)).
    replace (racc + (rs i * rv i + rsum l (fun i => rs i * rv i))) with (racc + rv i * rs i + rsum l (fun i => rs i * rv i)) by ring.
    replace (eacc + (INR (length l) + 1) * (step + u)) with ((eacc + step + u) + INR (length l) * (step + u)) by ring.
    apply IH; [intros j Hj; apply H; now right|exact C4|]. lra.
Qed.
Lemma rsum_app l1 l2 f : rsum (l1 ++ l2) f = rsum l1 f + rsum l2 f.
Proof. unfold rsum. induction l1 as [|a l IH]; [simpl; lra|]. cbn [app fold_right]. rewrite IH. lra. Qed.
Lemma rsum_sum f n : (0 <= n)%Z -> rsum (zrange 0 (n + 1)) f = sum_f_R0 (fun i => f (Z.of_nat i)) (Z.to_nat n).
Proof.
  intros Hn. rewrite <- (Z2Nat.id n Hn) at 1. induction (Z.to_nat n) as [|k IH].
  - simpl. lra.
  - rewrite zrange_snoc by lia. rewrite rsum_app. replace (Z.of_nat (S k)) with (Z.of_nat k + 1)%Z at 1 by lia. rewrite IH. cbn [sum_f_R0 rsum fold_right]. lra.
Qed.

(** ** The filter *)
Lemma uo_64 : unit_ok 64 (/ 524288).
Proof. exists 6%Z. split; [lia|]. split; reflexivity. Qed.
Lemma zrange_INR n : (0 <= n)%Z -> INR (length (zrange 0 n)) = IZR n.
Proof. intros H. rewrite zrange_length, INR_IZR_INZ, Z2Nat.id; [|lia]. f_equal. lia. Qed.
Definition weight (s t : R) (r i : Z) : R := 3 / s * window (3 * (IZR (i - r) - t) / s).
Lemma weight_abs s t r i : 3 <= s -> Rabs (weight s t r i) <= 3 / s.
Proof.
  intros H. assert (0 < / s) by (apply Rinv_0_lt_compat; lra). unfold weight. rewrite Rabs_mult, (Rabs_pos_eq (3 / s)) by (unfold Rdiv; lra).
  pose proof (window_bound (3 * (IZR (i - r) - t) / s)). assert (0 < 3 / s) by (unfold Rdiv; lra). nra.
Qed.
Lemma grid_close r s tx ty scx scy (px : Z -> Z -> Rgb) d : (3 <= r <= 20001)%Z -> IZR r <= s -> In d channels ->
  (forall i, (0 <= i < 2 * r + 1)%Z -> close (ew s) (weight s tx r i) (scx i) /\ close (ew s) (weight s ty r i) (scy i)) ->
  (forall i j, num 0 1 (d (px i j))) ->
  close ((65 + IZR r) / 65536) (rsum (zrange 0 (2 * r + 1)) (fun y => weight s ty r y * rsum (zrange 0 (2 * r + 1)) (fun x => weight s tx r x * B2R (d (px x y)))))
    (d (row_sum (2 * r + 1) scy (fun y => row_sum (2 * r + 1) scx (fun x => px x y)))).
Proof.
  intros Hr Hs Hd Hw Hp. set (n := (2 * r + 1)%Z) in *. assert (Rr : 3 <= IZR r <= 20001) by (split; apply IZR_le; lia).
  assert (En : IZR n = 2 * IZR r + 1) by (unfold n; rewrite plus_IZR, mult_IZR; reflexivity).
  assert (Hl : INR (length (zrange 0 n)) = IZR n) by (apply zrange_INR; lia).
  assert (I0 : 0 < / s) by (apply Rinv_0_lt_compat; lra). assert (SI : s * / s = 1) by (apply Rinv_r; lra).
  set (B := 3 / s) in *. assert (HB : 0 < B <= 1) by (unfold B, Rdiv; nra). assert (X : IZR n * B <= 7) by (rewrite En; unfold B, Rdiv; nra).
  assert (X0 : 0 <= IZR n * B) by (apply Rmult_le_pos; lra).
  assert (Ew : ew s = B / 100000 + / 8388608) by reflexivity. assert (W0 : 0 < ew s) by lra.
  set (er := IZR n * ((0 * B + ew s * 1 + 0 * ew s + / 16777216) + / 4194304)).
  assert (Er : 0 <= er <= 7 / 100000 + IZR n * (175 / 100 / 4194304)). { unfold er. rewrite Ew. split; [apply Rmult_le_pos; lra|]. lra. }
  set (q := fun y => rsum (zrange 0 n) (fun x => weight s tx r x * B2R (d (px x y)))).
  assert (Q : forall y, Rabs (q y) <= 7 /\ close er (q y) (d (row_sum n scx (fun x => px x y)))).
  { intros y. split.
    - eapply Rle_trans; [apply (rsum_abs _ _ B)|rewrite Hl; exact X]. intros i Hi. destruct (Hp i y) as [_ P]. rewrite <- (Rmult_1_r B). apply abs_mul_le; [apply weight_abs; lra|apply Rabs_le_iff; lra].
    - unfold row_sum. rewrite wsum_chan by exact Hd. replace (d zero4) with f0 by (unfold channels in Hd; cbn [In] in Hd; destruct Hd as [<-|[<-|[<-|[<-|[]]]]]; reflexivity).
      pose proof (wsum_close 8 (/ 4194304) 2 (/ 16777216) 1 B 0 (ew s) scx (fun x => d (px x y)) (weight s tx r) (fun x => B2R (d (px x y))) uo_8 uo_2) as K.
      rewrite <- (Rplus_0_l (q y)). replace er with (0 + er) by ring. unfold er, q. rewrite <- Hl. apply K; try lra.
      + intros i Hi. apply zrange_In in Hi. destruct (Hp i y) as [F P]. split; [apply Hw; lia|]. split; [apply weight_abs; lra|]. split; [now apply close_0|]. apply Rabs_le_iff. lra.
      + split; [reflexivity|]. rewrite f0_R. replace (0 - 0) with 0 by lra. rewrite Rabs_R0. lra.
      + rewrite Rabs_R0, Hl. rewrite Ew. lra. }
  fold q. unfold row_sum at 1. rewrite wsum_chan by exact Hd. replace (d zero4) with f0 by (unfold channels in Hd; cbn [In] in Hd; destruct Hd as [<-|[<-|[<-|[<-|[]]]]]; reflexivity).
  rewrite <- (Rplus_0_l (rsum _ _)).
  assert (T1 : IZR n * (er * B) <= 7 * er) by (replace (IZR n * (er * B)) with (IZR n * B * er) by ring; apply Rmult_le_compat_r; lra).
  assert (T2 : IZR n * ew s <= 7 / 100000 + IZR n / 8388608) by (rewrite Ew; lra).
  assert (T3 : IZR n * (er * ew s) <= er * (5 / 1000)). { replace (IZR n * (er * ew s)) with (er * (IZR n * ew s)) by ring. apply Rmult_le_compat_l; lra. }
  assert (E1 : er * ew s <= er * 1) by (apply Rmult_le_compat_l; [lra|rewrite Ew; lra]). assert (E2 : er * B <= er * 1) by (apply Rmult_le_compat_l; lra).
  eapply close_weak; [apply (wsum_close 64 (/ 524288) 8 (/ 4194304) 7 B er (ew s) scy (fun y => d (row_sum n scx (fun x => px x y))) (weight s ty r) q uo_64 uo_8); try lra|].
  - intros i Hi. apply zrange_In in Hi. split; [apply Hw; lia|]. split; [apply weight_abs; lra|]. split; apply Q.
  - split; [reflexivity|]. rewrite f0_R. replace (0 - 0) with 0 by lra. rewrite Rabs_R0. apply Rle_refl.
  - rewrite Rabs_R0, Hl. lra.
  - rewrite Hl. lra.
Qed.
Lemma curve_rsum s r f p : (0 <= r)%Z -> lanczos_curve s r f p = rsum (zrange 0 (2 * r + 1)) (fun i => weight s (p - IZR (Zfloor p)) r i * f (Zfloor p + (i - r))%Z).
Proof. intros H. rewrite rsum_sum by lia. reflexivity. Qed.
Lemma rsum_ext l f g : (forall i, f i = g i) -> rsum l f = rsum l g.
Proof. intros H. unfold rsum. induction l as [|a l IH]; [reflexivity|]. cbn [fold_right]. now rewrite IH, H. Qed.
Lemma surface_rsum s r v p q : (0 <= r)%Z -> surface (lanczos_curve s r) v p q =
  rsum (zrange 0 (2 * r + 1)) (fun y => weight s (q - IZR (Zfloor q)) r y * rsum (zrange 0 (2 * r + 1)) (fun x => weight s (p - IZR (Zfloor p)) r x * v (Zfloor p + (x - r))%Z (Zfloor q + (y - r))%Z)).
Proof. intros H. unfold surface. rewrite curve_rsum by exact H. apply rsum_ext. intros y. f_equal. apply (curve_rsum s r (fun i => v i _)). exact H. Qed.

Lemma kernel_at m (b : PixelBuffer Rgb) r zx zy : valid b -> nonempty b -> (3 <= r <= 20001)%Z -> safe zx -> safe zy ->
  exists k, get_kernel m b (2 * r + 1) zx zy = Ok k /\
    forall y, (0 <= y < 2 * r + 1)%Z -> exists row, idx k y = Ok row /\ forall x, (0 <= x < 2 * r + 1)%Z -> idx row x = Ok (edge_pixel b (zx + (x - r)) (zy + (y - r))).
Proof.
  intros V N Hr Sx Sy. unfold safe in *. assert (E2 : ((2 * r + 1) / 2 = r)%Z) by (rewrite (Z.mul_comm 2), Z.div_add_l by lia; change (1 / 2)%Z with 0%Z; lia).
  rewrite (get_kernel_eq m m) by (auto; lia). destruct (kernel_spec_idx m b (2 * r + 1) zx zy V N) as (k & E & _ & H). exists k. split; [exact E|].
  intros y Hy. destruct (H y Hy) as (row & Er & _ & Hx). exists row. split; [exact Er|]. intros x X. rewrite (Hx x X), E2, edge_read by auto. do 2 f_equal; lia.
Qed.
Lemma sum_at m (b : PixelBuffer Rgb) r s x y row_scale col_scale (scx : Z -> f32) k : valid b -> nonempty b -> Forall in_gamut (data b) -> (3 <= r <= 20001)%Z -> IZR r <= s ->
  get_kernel m b (2 * r + 1) (Zfloor x) (Zfloor y) = Ok k -> safe (Zfloor x) -> safe (Zfloor y) ->
  (forall i, (0 <= i < 2 * r + 1)%Z -> idx row_scale i = Ok (scx i)) ->
  (forall i, (0 <= i < 2 * r + 1)%Z -> close (ew s) (weight s (x - IZR (Zfloor x)) r i) (scx i) /\ close (ew s) (weight s (y - IZR (Zfloor y)) r i) (col_scale i)) ->
  exists o, lanczos_sum (2 * r + 1) k row_scale col_scale = Ok o /\ forall d, In d channels ->
    close ((65 + IZR r) / 65536) (surface (lanczos_curve s r) (chan b d) x y) (d o).
Proof.
  intros V N G Hr Hs Ek Sx Sy Hsc Hw. destruct (kernel_at m b r (Zfloor x) (Zfloor y) V N Hr Sx Sy) as (k' & E' & Hk). rewrite Ek in E'. inversion E'; subst k'.
  rewrite (lanczos_sum_eq _ _ _ _ scx (fun i j => edge_pixel b (Zfloor x + (i - r)) (Zfloor y + (j - r))) Hsc Hk). eexists. split; [reflexivity|].
  intros d Hd. rewrite surface_rsum by lia. unfold chan. apply (grid_close r s _ _ scx col_scale (fun i j => edge_pixel b (Zfloor x + (i - r)) (Zfloor y + (j - r))) d Hr Hs Hd Hw).
  intros i j. now apply chan_num.
Qed.
Lemma map_idx (f : Z -> f32) n i : (0 <= i < n)%Z -> idx (map f (zrange 0 n)) i = Ok (f i).
Proof. intros H. rewrite idx_map, idx_zrange by lia. reflexivity. Qed.
Lemma dyn_at L m (b : PixelBuffer Rgb) x y r : accurate_sine L -> valid b -> nonempty b -> Forall in_gamut (data b) -> num (-1) 1099999999 x -> num (-1) 1099999999 y -> (3 <= r <= 20001)%Z ->
  exists o, get_pixel_lanczos_dyn L m b x y r = Ok o /\ forall d, In d channels ->
    close ((65 + IZR r) / 65536) (surface (lanczos_curve (IZR r) r) (chan b d) (B2R x) (B2R y)) (d o).
Proof.
  intros A V N G X Y Hr. destruct (base_safe _ _ _ X) as [Sx Ex]; [lra|lra|]. destruct (base_safe _ _ _ Y) as [Sy Ey]; [lra|lra|].
  destruct (offset_close x ltac:(apply X)) as [Ox Rx]. destruct (offset_close y ltac:(apply Y)) as [Oy Ry].
  pose proof (floor_frac (B2R x)) as FX. pose proof (floor_frac (B2R y)) as FY. assert (Rr : 3 <= IZR r <= 20001) by (split; apply IZR_le; lia).
  unfold get_pixel_lanczos_dyn. destruct (get_base_and_offset x) as (zx & tx). destruct (get_base_and_offset y) as (zy & ty). cbn [fst snd] in *. subst zx zy.
  rewrite get_kernel_dyn_same. rewrite (Z.mul_comm r 2). destruct (kernel_at m b r _ _ V N Hr Sx Sy) as (k & Ek & _). rewrite Ek. cbn [bind].
  assert (W : forall p t i, 0 <= p <= 1 -> close (/ 33554432) p t -> (0 <= i < 2 * r + 1)%Z -> close (ew (IZR r)) (weight (IZR r) p r i) (lanczos_dyn L (fsub (ofZ (i - r)) t) r)).
  { intros p t i Hp Hc Hi. rewrite dyn_stretched. unfold weight. assert (Hd : Rabs (IZR (i - r)) <= IZR r) by (apply Rabs_le_iff; rewrite <- opp_IZR; split; apply IZR_le; lia).
    destruct (ofZ_val (i - r)) as [Fi Ei]; [lia|]. apply (stretched_close L _ _ r (IZR r)); auto; try lra; try lia; [apply Rabs_le_iff in Hd; apply Rabs_le_iff; lra|].
    apply (pos_close _ _ p t (IZR r)); auto; lra. }
  apply (sum_at m b r (IZR r) (B2R x) (B2R y) _ _ (fun i => lanczos_dyn L (fsub (ofZ (i - r)) tx) r) k V N G Hr); auto; try lra.
  intros i Hi. now apply (map_idx (fun i => lanczos_dyn L (fsub (ofZ (i - r)) tx) r)).
Qed.
Definition fixed_width (r : Z) : Z := if (r =? 3)%Z then 3%Z else (2 * r + 1)%Z.
Lemma fixed_at L m (b : PixelBuffer Rgb) x y r : accurate_sine L -> valid b -> nonempty b -> Forall in_gamut (data b) -> num (-1) 1099999999 x -> num (-1) 1099999999 y -> (3 <= r <= 6)%Z ->
  exists o, get_pixel_lanczos L m (2 * r + 1) b x y = Ok o /\ forall d, In d channels ->
    close ((65 + IZR r) / 65536) (surface (lanczos_curve (IZR (fixed_width r)) r) (chan b d) (B2R x) (B2R y)) (d o).
Proof.
  intros A V N G X Y Hr. destruct (base_safe _ _ _ X) as [Sx Ex]; [lra|lra|]. destruct (base_safe _ _ _ Y) as [Sy Ey]; [lra|lra|].
  destruct (offset_close x ltac:(apply X)) as [Ox Rx]. destruct (offset_close y ltac:(apply Y)) as [Oy Ry].
  pose proof (floor_frac (B2R x)) as FX. pose proof (floor_frac (B2R y)) as FY. assert (Rr : 3 <= IZR r <= 6) by (split; apply IZR_le; lia).
  unfold get_pixel_lanczos. destruct (get_base_and_offset x) as (zx & tx). destruct (get_base_and_offset y) as (zy & ty). cbn [fst snd] in *. subst zx zy.
  destruct (kernel_at m b r _ _ V N ltac:(lia) Sx Sy) as (k & Ek & _). rewrite Ek. cbn [bind].
  assert (Sz : fin (fdiv (fsub (ofZ (2 * r + 1)) f1) f2) /\ B2R (fdiv (fsub (ofZ (2 * r + 1)) f1) f2) = IZR r).
  { assert (C : r = 3%Z \/ r = 4%Z \/ r = 5%Z \/ r = 6%Z) by lia. destruct C as [->|[->|[->| ->]]].
    - fval (fdiv (fsub (ofZ (2 * 3 + 1)) f1) f2) H. rewrite H. split; [assumption|lra].
    - fval (fdiv (fsub (ofZ (2 * 4 + 1)) f1) f2) H. rewrite H. split; [assumption|lra].
    - fval (fdiv (fsub (ofZ (2 * 5 + 1)) f1) f2) H. rewrite H. split; [assumption|lra].
    - fval (fdiv (fsub (ofZ (2 * 6 + 1)) f1) f2) H. rewrite H. split; [assumption|lra]. }
  set (sz := fdiv (fsub (ofZ (2 * r + 1)) f1) f2) in *. clearbody sz. destruct Sz as [Fz Ez].
  assert (FW : IZR r <= IZR (fixed_width r)). { apply IZR_le. unfold fixed_width. destruct (Z.eqb_spec r 3); lia. }
  assert (W : forall p t i, 0 <= p <= 1 -> close (/ 33554432) p t -> (0 <= i < 2 * r + 1)%Z ->
     close (ew (IZR (fixed_width r))) (weight (IZR (fixed_width r)) p r i) (lanczos L (2 * r + 1) (fsub (fsub (ofZ i) sz) t))).
  { intros p t i Hp Hc Hi. unfold weight. assert (Hd : Rabs (IZR (i - r)) <= IZR r) by (apply Rabs_le_iff; rewrite <- opp_IZR; split; apply IZR_le; lia).
    destruct (ofZ_val i) as [Fi Ei]; [lia|].
    assert (P : fin (fsub (ofZ i) sz) /\ B2R (fsub (ofZ i) sz) = IZR (i - r)).
    { destruct (fsub_ok (ofZ i) sz 16 Fi Fz (uo_fmt _ _ uo_16)) as [F E]; [rewrite Ei, Ez, <- minus_IZR; lra|]. split; [exact F|].
      rewrite E, Ei, Ez, <- minus_IZR. apply rnd_id. replace (IZR (i - r)) with (IZR (i - r) * bpow radix2 0) by (simpl bpow; lra). apply fmt_F2R; lia. }
    destruct P as [FP EP]. pose proof (pos_close _ _ p t (IZR r) FP EP Hd ltac:(lra) Hp Hc) as PC.
    assert (XB : Rabs (IZR (i - r) - p) <= IZR r + 1) by (apply Rabs_le_iff in Hd; apply Rabs_le_iff; lra).
    unfold fixed_width. destruct (Z.eqb_spec r 3) as [R3|R3].
    - subst r. change (2 * 3 + 1)%Z with 7%Z. apply lanczos3_close; auto; [lra|]. eapply close_weak; [exact PC|]. lra.
    - rewrite lanczos_stretched by lia. apply (stretched_close L _ _ (2 * r + 1) (IZR r)); auto; [|lia]. split; [lra|apply IZR_le; lia]. }
  apply (sum_at m b r (IZR (fixed_width r)) (B2R x) (B2R y) _ _ (fun i => lanczos L (2 * r + 1) (fsub (fsub (ofZ i) sz) tx)) k V N G ltac:(lia) FW); auto.
  intros i Hi. now apply (map_idx (fun i => lanczos L (2 * r + 1) (fsub (fsub (ofZ i) sz) tx))).
Qed.

(** ** Integer positions *)
Lemma cs_1 : cardinal_sine 1 = 0.
Proof. unfold cardinal_sine. destruct (Req_EM_T 1 0); [lra|]. rewrite Rmult_1_r, sin_PI. unfold Rdiv. ring. Qed.
Lemma cs_2 : cardinal_sine 2 = 0.
Proof. unfold cardinal_sine. destruct (Req_EM_T 2 0); [lra|]. rewrite (Rmult_comm PI), sin_2PI. unfold Rdiv. ring. Qed.
Lemma cs_0 : cardinal_sine 0 = 1.
Proof. unfold cardinal_sine. destruct (Req_EM_T 0 0); [reflexivity|lra]. Qed.
Lemma window_1 : window 1 = 0.
Proof. unfold window. rewrite Rabs_pos_eq by lra. destruct Rlt_dec; [rewrite cs_1; ring|reflexivity]. Qed.
Lemma window_2 : window 2 = 0.
Proof. unfold window. rewrite Rabs_pos_eq by lra. destruct Rlt_dec; [rewrite cs_2; ring|reflexivity]. Qed.
Lemma window_3 : window 3 = 0.
Proof. unfold window. rewrite Rabs_pos_eq by lra. destruct Rlt_dec; [lra|reflexivity]. Qed.
Lemma curve_int f x : lanczos_curve 3 3 f (IZR x) = f x.
Proof.
  unfold lanczos_curve. rewrite Zfloor_IZR. cbv zeta. change (Z.to_nat (2 * 3)) with 6%nat. cbn [sum_f_R0 Z.of_nat Pos.of_succ_nat Pos.succ Z.sub Z.opp Z.add Z.pos_sub Pos.pred_double Z.pred_double Z.double Z.succ_double].
  assert (W : forall z, (z = -3 \/ z = -2 \/ z = -1 \/ z = 1 \/ z = 2 \/ z = 3)%Z -> window (3 * (IZR z - (IZR x - IZR x)) / 3) = 0).
  { intros z Hz. replace (3 * (IZR z - (IZR x - IZR x)) / 3) with (IZR z) by field.
    destruct Hz as [->|[->|[->|[->|[->| ->]]]]]; try exact window_1; try exact window_2; try exact window_3; rewrite <- window_even, Rabs_left by lra.
    - replace (- -3) with 3 by lra. exact window_3.
    - replace (- -2) with 2 by lra. exact window_2.
    - replace (- -1) with 1 by lra. exact window_1. }
  rewrite !W by lia. replace (3 * (0 - (IZR x - IZR x)) / 3) with 0 by field.
  assert (W0 : window 0 = 1). { unfold window. rewrite Rabs_R0. destruct Rlt_dec; [|lra]. replace (0 / 3) with 0 by field. rewrite cs_0. ring. }
  rewrite W0, (W 1%Z), (W 2%Z), (W 3%Z) by lia. rewrite Z.add_0_r. field.
Qed.
