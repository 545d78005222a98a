(** The curve of Lab: cube roots, its inverse, and what the code computes. *)
From Coq Require Import Reals Lra Lia ZArith Bool Psatz.
From Flocq Require Import Core.Core IEEE754.BinarySingleNaN.
From Verif Require Import F32 F32Lemmas Color ColorSpec ColorProofs MeaningSpec ConvSpec Approx OpMeaningProofs HslMeaning SrgbMeaning LinearConv.
Open Scope R_scope.

(** ** Each operation on numbers up to [M] *)
Notation T := (/ 1000000000000000000000000000000000000000000).
Ltac rel r := let H := fresh in pose proof (rnd_rel_abs r) as H; pose proof p140; lra.
Lemma add_val x y M : fin x -> fin y -> Rabs (B2R x + B2R y) <= M -> M <= 10000 ->
  fin (fadd x y) /\ Rabs (B2R (fadd x y) - (B2R x + B2R y)) <= U * M + T.
Proof.
  intros Fx Fy H G. destruct (fadd_ok x y 10000) as [F E]; auto. { apply (fmt_IZR 10000). lia. } { lra. }
  split; auto. rewrite E. rel (B2R x + B2R y).
Qed.
Lemma sub_val x y M : fin x -> fin y -> Rabs (B2R x - B2R y) <= M -> M <= 10000 ->
  fin (fsub x y) /\ Rabs (B2R (fsub x y) - (B2R x - B2R y)) <= U * M + T.
Proof.
  intros Fx Fy H G. destruct (fsub_ok x y 10000) as [F E]; auto. { apply (fmt_IZR 10000). lia. } { lra. }
  split; auto. rewrite E. rel (B2R x - B2R y).
Qed.
Lemma mul_val x y M : fin x -> fin y -> Rabs (B2R x * B2R y) <= M -> M <= 10000 ->
  fin (fmul x y) /\ Rabs (B2R (fmul x y) - (B2R x * B2R y)) <= U * M + T.
Proof.
  intros Fx Fy H G. destruct (fmul_ok x y 10000) as [F E]; auto. { apply (fmt_IZR 10000). lia. } { lra. }
  split; auto. rewrite E. rel (B2R x * B2R y).
Qed.
Lemma div_val x y M : fin x -> fin y -> B2R y <> 0 -> Rabs (B2R x / B2R y) <= M -> M <= 10000 ->
  fin (fdiv x y) /\ Rabs (B2R (fdiv x y) - (B2R x / B2R y)) <= U * M + T.
Proof.
  intros Fx Fy N H G. destruct (fdiv_ok x y 10000) as [F E]; auto. { apply (fmt_IZR 10000). lia. } { lra. }
  split; auto. rewrite E. rel (B2R x / B2R y).
Qed.

(** ** Powers with a tiny exponent *)
Lemma ln_le t : 0 < t -> ln t <= t - 1.
Proof. intros H. pose proof (exp_ineq1_le (ln t)) as E. rewrite exp_ln in E by exact H. lra. Qed.
Lemma ln_ge t : 0 < t -> 1 - / t <= ln t.
Proof. intros H. pose proof (ln_le (/ t) (Rinv_0_lt_compat _ H)) as E. rewrite ln_Rinv in E by exact H. lra. Qed.
Lemma exp_near y : Rabs y <= / 100 -> Rabs (exp y - 1) <= 102 / 100 * Rabs y.
Proof.
  intros H. pose proof (exp_ineq1_le y) as A. pose proof (exp_ineq1_le (- y)) as B. rewrite exp_Ropp in B.
  pose proof (exp_pos y) as P. assert (C : (1 - y) * exp y <= 1).
  { apply (Rmult_le_compat_r (exp y)) in B; [|lra]. rewrite Rinv_l in B by lra. lra. }
  destruct (Rle_dec 0 y) as [N|N].
  - rewrite (Rabs_right y) in H |- * by lra. apply Rabs_le_iff. split; [lra|].
    destruct (Rle_dec (exp y) (1 + 102 / 100 * y)) as [L|L]; [lra|]. exfalso. apply Rnot_le_lt in L.
    assert ((1 - y) * (1 + 102 / 100 * y) < (1 - y) * exp y) by (apply Rmult_lt_compat_l; lra). nra.
  - apply Rnot_le_lt in N. rewrite (Rabs_left y) in H |- * by lra. apply Rabs_le_iff. split; [lra|]. nra.
Qed.
Lemma Rpower_small t d : / 5 <= t <= 2 -> Rabs d <= / 1000 -> Rabs (Rpower t d - 1) <= 5 * Rabs d.
Proof.
  intros B D. unfold Rpower. pose proof (ln_le t ltac:(lra)) as L1. pose proof (ln_ge t ltac:(lra)) as L2.
  assert (I : / t <= 5). { rewrite <- (Rinv_inv 5). apply Rinv_le_contravar; lra. }
  assert (Q : Rabs (d * ln t) <= Rabs d * 4) by (apply abs_mul_le; [lra | apply Rabs_le_iff; lra]).
  pose proof (exp_near (d * ln t) ltac:(lra)) as E. fold (Rpower t d) in *. pose proof (Rabs_pos d). lra.
Qed.

(** ** Cube roots *)
Lemma cube_root_pos v : 0 < cube_root v.
Proof. apply exp_pos. Qed.
Lemma cube_root_cube v : 0 < v -> cube_root v ^ 3 = v.
Proof.
  intros H. unfold cube_root. rewrite <- Rpower_pow by apply exp_pos. rewrite Rpower_mult.
  replace (/ 3 * INR 3) with 1 by (rewrite INR_IZR_INZ; cbn; lra). now apply Rpower_1.
Qed.
(** A bound on the cube is a bound on the number. *)
Lemma cube_le a b : 0 <= a -> 0 <= b -> a ^ 3 <= b ^ 3 -> a <= b.
Proof. intros A B H. destruct (Rle_dec a b) as [L|L]; [exact L|]. exfalso. apply Rnot_le_lt in L.
  assert (0 < (a - b) * (a * a + a * b + b * b)) by (apply Rmult_lt_0_compat; [lra|]; nra). nra. Qed.
Lemma cube_root_le v b : 0 < v -> 0 <= b -> v <= b ^ 3 -> cube_root v <= b.
Proof. intros V B H. apply cube_le; auto; [left; apply cube_root_pos|]. now rewrite cube_root_cube. Qed.
Lemma cube_root_ge v b : 0 < v -> 0 <= b -> b ^ 3 <= v -> b <= cube_root v.
Proof. intros V B H. apply cube_le; auto; [left; apply cube_root_pos|]. now rewrite cube_root_cube. Qed.
(** ** The curve and its inverse *)
Lemma curve_low v : v < 8856 / 1000000 -> lab_curve v = (9033 / 10 * v + 16) / 116.
Proof. intros H. unfold lab_curve. destruct Rlt_dec; lra. Qed.
Lemma curve_high v : 8856 / 1000000 <= v -> lab_curve v = cube_root v /\ 206893 / 1000000 <= cube_root v /\ cube_root v ^ 3 = v.
Proof.
  intros H. split; [unfold lab_curve; destruct Rlt_dec; lra|]. split; [apply cube_root_ge; lra | apply cube_root_cube; lra].
Qed.
Lemma curve_pos v : - / 100 <= v -> 6 / 100 <= lab_curve v.
Proof.
  intros H. destruct (Rlt_dec v (8856 / 1000000)) as [L|L]; [rewrite curve_low by exact L; lra|].
  apply Rnot_lt_le in L. destruct (curve_high v L) as (-> & ? & _). lra.
Qed.
Lemma curve_le v b : v <= b ^ 3 -> 2068934 / 10000000 <= b -> lab_curve v <= b.
Proof.
  intros H B. destruct (Rlt_dec v (8856 / 1000000)) as [L|L]; [rewrite curve_low by exact L; lra|].
  apply Rnot_lt_le in L. destruct (curve_high v L) as (-> & ? & _). apply cube_root_le; lra.
Qed.
(** Going there and back is the identity but for a step at the limits. *)
Lemma uncurve_curve v : - / 100 <= v -> Rabs (lab_uncurve (lab_curve v) - v) <= / 10000000.
Proof.
  intros H. unfold lab_uncurve. destruct (Rlt_dec v (8856 / 1000000)) as [L|L].
  - rewrite curve_low by exact L. destruct Rle_dec as [P|P]; [apply Rabs_le_iff; lra|]. apply Rnot_le_lt in P.
    set (t := (9033 / 10 * v + 16) / 116) in *. assert (V : v = (116 * t - 16) / (9033 / 10)) by (unfold t; field).
    assert (t <= 2068934 / 10000000) by (unfold t; lra). rewrite V. clearbody t. apply Rabs_le_iff.
    assert (20689303 / 100000000 * (20689303 / 100000000) * (20689303 / 100000000) <= t ^ 3 <= 2068934 / 10000000 * (2068934 / 10000000) * (2068934 / 10000000)).
    { cbn [pow]. rewrite Rmult_1_r. split; rewrite Rmult_assoc; apply Rmult_le_compat; try nra. }
    lra.
  - apply Rnot_lt_le in L. destruct (curve_high v L) as (-> & B & E). destruct Rle_dec as [P|P].
    + set (t := cube_root v) in *. rewrite <- E. clearbody t. apply Rabs_le_iff.
      assert (206893 / 1000000 * (206893 / 1000000) * (206893 / 1000000) <= t ^ 3 <= 20689303 / 100000000 * (20689303 / 100000000) * (20689303 / 100000000)).
      { cbn [pow]. rewrite Rmult_1_r. split; rewrite Rmult_assoc; apply Rmult_le_compat; try nra. }
      lra.
    + rewrite E. rewrite Rminus_diag_eq by reflexivity. rewrite Rabs_R0. lra.
Qed.
(** The inverse is Lipschitz continuous but for that step. *)
Lemma uncurve_lip M a b : 1 <= M -> - M <= a <= M -> - M <= b <= M -> Rabs (lab_uncurve a - lab_uncurve b) <= 3 * M * M * Rabs (a - b) + / 10000000.
Proof.
  intros HM.
  assert (S : forall a b, - M <= a <= M -> - M <= b <= M -> a <= b -> - / 10000000 <= lab_uncurve b - lab_uncurve a <= 3 * M * M * (b - a) + / 10000000).
  { clear a b. intros a b A B H. unfold lab_uncurve. set (s := 20689303 / 100000000).
    assert (C : forall x y, 0 <= x -> x <= y -> y <= M -> 0 <= y ^ 3 - x ^ 3 <= 3 * M * M * (y - x)).
    { clear - HM. intros x y X Y YM. replace (y ^ 3 - x ^ 3) with ((y - x) * (x * x + x * y + y * y)) by ring. split; [apply Rmult_le_pos; nra|].
      rewrite (Rmult_comm (3 * M * M)). apply Rmult_le_compat_l; [lra|]. nra. }
    assert (1 <= M * M) by nra.
    destruct (Rle_dec a s) as [P|P]; destruct (Rle_dec b s) as [Q|Q]; try (apply Rnot_le_lt in P); try (apply Rnot_le_lt in Q).
    - split; [unfold s in *; lra|]. unfold s in *. nra.
    - pose proof (C s b ltac:(unfold s; lra) ltac:(lra) ltac:(lra)) as K.
      assert (E : Rabs (s ^ 3 - (s - 16 / 116) / (7787 / 1000)) <= / 10000000) by (unfold s; apply Rabs_le_iff; lra).
      apply Rabs_le_iff in E. split; [lra|]. unfold s in *. nra.
    - unfold s in *. lra.
    - pose proof (C a b ltac:(unfold s in *; lra) ltac:(lra) ltac:(lra)). lra. }
  intros A B. destruct (Rle_dec a b) as [H|H].
  - specialize (S a b A B H). assert (0 <= 3 * M * M * (b - a)) by (apply Rmult_le_pos; nra). rewrite (Rabs_left1 (a - b)) by lra. apply Rabs_le_iff. lra.
  - apply Rnot_le_lt in H. specialize (S b a B A ltac:(lra)). assert (0 <= 3 * M * M * (a - b)) by (apply Rmult_le_pos; nra).
    rewrite (Rabs_right (a - b)) by lra. apply Rabs_le_iff. lra.
Qed.
(** The curve is Lipschitz continuous but for that step. *)
Lemma curve_lip a b : a <= b -> - / 3000000 <= lab_curve b - lab_curve a <= 8 * (b - a) + / 3000000.
Proof.
  assert (C : forall x y, 8856 / 1000000 <= x -> x <= y -> 0 <= cube_root y - cube_root x <= 8 * (y - x)).
  { intros x y X Y. destruct (curve_high x X) as (_ & B1 & E1). destruct (curve_high y ltac:(lra)) as (_ & B2 & E2).
    set (t := cube_root y) in *. set (s := cube_root x) in *. clearbody t s. rewrite <- E1, <- E2 in *. clear E1 E2.
    assert (s <= t) by (apply cube_le; lra). replace (t ^ 3 - s ^ 3) with ((t - s) * (s * s + s * t + t * t)) by ring.
    split; [lra|]. assert (/ 8 <= s * s + s * t + t * t) by nra. nra. }
  assert (S1 : 206893 / 1000000 <= cube_root (8856 / 1000000) <= 2068931 / 10000000).
  { split; [apply cube_root_ge; lra | apply cube_root_le; lra]. }
  intros H. destruct (Rlt_dec a (8856 / 1000000)) as [P|P]; destruct (Rlt_dec b (8856 / 1000000)) as [Q|Q]; try lra.
  - rewrite !curve_low by assumption. lra.
  - apply Rnot_lt_le in Q. rewrite (curve_low a P). rewrite (proj1 (curve_high b Q)). pose proof (C (8856 / 1000000) b ltac:(lra) Q). lra.
  - apply Rnot_lt_le in P, Q. rewrite (proj1 (curve_high b Q)), (proj1 (curve_high a P)). pose proof (C a b P H). lra.
Qed.
(** A small relative change of its argument. *)
Lemma curve_rel a b d : - / 100 <= a <= 4 -> - / 100 <= b <= 4 -> 0 <= d <= / 1000 -> Rabs (a - b) <= d * Rabs b ->
  Rabs (lab_curve a - lab_curve b) <= 2 * d + / 3000000.
Proof.
  intros A B D H. destruct (Rle_dec b (1 / 50)) as [L|L].
  - assert (E : Rabs b <= 1 / 50) by (apply Rabs_le_iff; lra). assert (d * Rabs b <= d * (1 / 50)) by (apply Rmult_le_compat_l; lra).
    assert (G : Rabs (a - b) <= d * (1 / 50)) by lra. apply Rabs_le_iff in G. apply Rabs_le_iff.
    destruct (Rle_dec a b) as [K|K]; [pose proof (curve_lip a b K); lra|]. apply Rnot_le_lt in K. pose proof (curve_lip b a ltac:(lra)). lra.
  - apply Rnot_le_lt in L. rewrite (Rabs_right b) in H by lra. apply Rabs_le_iff in H. assert (8856 / 1000000 <= a) by nra.
    destruct (curve_high a ltac:(lra)) as (-> & B1 & E1). destruct (curve_high b ltac:(lra)) as (-> & B2 & E2).
    assert (T2 : cube_root b <= 2) by (apply cube_root_le; lra).
    set (t := cube_root a) in *. set (s := cube_root b) in *. clearbody t s. rewrite <- E1, <- E2 in H. clear E1 E2 L B A.
    replace (t ^ 3 - s ^ 3) with ((t - s) * (s * s + s * t + t * t)) in H by ring.
    assert (Q : Rabs (t - s) <= d * s); [|assert (d * s <= d * 2) by (apply Rmult_le_compat_l; lra); lra].
    assert (S2 : 0 < s * s) by nra. assert (S3 : 0 <= d * s * (s * s)) by (apply Rmult_le_pos; nra).
    assert (S4 : 0 < s * t + t * t) by nra. apply Rabs_le_iff. split; apply (Rmult_le_reg_r (s * s)); try exact S2.
    + destruct (Rle_dec s t); [assert (0 <= (t - s) * (s * s)) by (apply Rmult_le_pos; lra); lra|].
      assert (0 <= (s - t) * (s * t + t * t)) by (apply Rmult_le_pos; lra). lra.
    + destruct (Rle_dec s t); [assert (0 <= (t - s) * (s * t + t * t)) by (apply Rmult_le_pos; lra); lra|].
      assert (0 <= (s - t) * (s * s)) by (apply Rmult_le_pos; lra). lra.
Qed.

(** ** What the code computes for the curve *)
Lemma third : fin (fdiv f1 (ofZ 3)) /\ 1 <= 3 * B2R (fdiv f1 (ofZ 3)) <= 1 + U.
Proof. fval (fdiv f1 (ofZ 3)) H. split; [exact Hfin|]. rewrite H. lra. Qed.
Lemma lab_f_close L v : accurate_powf L -> accurate_powf_above L -> fin v -> - / 100 <= B2R v <= 4 ->
  fin (lab_f L v) /\ Rabs (B2R (lab_f L v) - lab_curve (B2R v)) <= 13 / 10000000 * lab_curve (B2R v) + / 2000000.
Proof.
  intros AL AA F V. pose proof (curve_pos (B2R v) ltac:(lra)) as CP. unfold lab_f. fval (dec 8856 1000000) Vt.
  destruct (flt v (dec 8856 1000000)) eqn:E.
  - apply (flt_R _ _ F Vtfin) in E. rewrite Vt in E. fval (dec 9033 10) Vk. pose proof (ofZ_val 16) as [F16 E16]; [lia|]. pose proof (ofZ_val 116) as [F116 E116]; [lia|].
    destruct (mul_val (dec 9033 10) v 10) as [FM M]; auto; try lra. { rewrite Vk. apply Rabs_le_iff. lra. }
    rewrite Vk in M. apply Rabs_le_iff in M.
    destruct (add_val (fmul (dec 9033 10) v) (ofZ 16) 25) as [FA A]; auto; try lra. { rewrite E16. apply Rabs_le_iff. lra. }
    rewrite E16 in A. apply Rabs_le_iff in A.
    destruct (div_val (fadd (fmul (dec 9033 10) v) (ofZ 16)) (ofZ 116) 1) as [FD D]; auto; try lra. { rewrite E116. apply Rabs_le_iff. lra. }
    rewrite E116 in D. apply Rabs_le_iff in D. split; [exact FD|].
    destruct (Rlt_dec (B2R v) (8856 / 1000000)) as [Q|Q].
    + rewrite curve_low in * by exact Q. apply Rabs_le_iff. lra.
    + apply Rnot_lt_le in Q. pose proof (curve_lip (8855999999 / 1000000000000) (B2R v) ltac:(lra)) as K. rewrite (curve_low (8855999999 / 1000000000000)) in K by lra. apply Rabs_le_iff. lra.
  - assert (G : B2R (dec 8856 1000000) <= B2R v).
    { destruct (Rle_dec (B2R (dec 8856 1000000)) (B2R v)) as [G|G]; [exact G|]. apply Rnot_le_lt in G. apply (flt_R _ _ F Vtfin) in G. congruence. }
    rewrite Vt in G. destruct (curve_high (B2R v) ltac:(lra)) as (EC & B & E3). rewrite EC in *.
    assert (T2 : cube_root (B2R v) <= 2) by (apply cube_root_le; lra). pose proof third as [F3 B3]. set (b := fdiv f1 (ofZ 3)) in *.
    assert (PE : Rpower (B2R v) (B2R b) = cube_root (B2R v) * Rpower (cube_root (B2R v)) (3 * B2R b - 1)).
    { rewrite <- (Rpower_1 (cube_root (B2R v))) at 1 by lra. rewrite <- Rpower_plus. unfold cube_root. rewrite Rpower_mult. f_equal. lra. }
    pose proof (Rpower_small (cube_root (B2R v)) (3 * B2R b - 1) ltac:(lra) ltac:(apply Rabs_le_iff; lra)) as PS.
    rewrite (Rabs_right (3 * B2R b - 1)) in PS by lra. set (t := cube_root (B2R v)) in *. set (q := Rpower t (3 * B2R b - 1)) in *.
    apply Rabs_le_iff in PS. pose proof p100 as P100.
    assert (K : fin (powf L v b) /\ Rabs (B2R (powf L v b) - t * q) <= / 1048576 * (t * q) + / 2 ^ 100).
    { rewrite <- PE. destruct (Rle_dec (B2R v) 1) as [W|W].
      - destruct (AL v b F F3 ltac:(lra)) as [P _]. apply P. lra.
      - apply Rnot_le_lt in W. destruct (AA v b F F3 ltac:(lra) ltac:(lra)) as [P1 P2]. split; [exact P1|]. lra. }
    destruct K as [FK K]. split; [exact FK|]. apply Rabs_le_iff in K. apply Rabs_le_iff. clearbody t q. clear - PS K T2 B P100 B3.
    assert (t * (1 - 6 * U) <= t * q <= t * (1 + 6 * U)) by (split; apply Rmult_le_compat_l; lra). lra.
Qed.
Lemma lab_finv_close L t : accurate_powf L -> accurate_powf_above L -> fin t -> - 2 <= B2R t <= 4 ->
  fin (lab_finv L t) /\ Rabs (B2R (lab_finv L t) - lab_uncurve (B2R t)) <= / 1000000 * Rabs (lab_uncurve (B2R t)) + / 8000000.
Proof.
  intros AL AA F V. unfold lab_finv. fval (dec 20689303 100000000) Vt.
  assert (UP : 0 <= Rabs (lab_uncurve (B2R t))) by apply Rabs_pos.
  destruct (flt (dec 20689303 100000000) t) eqn:E.
  - apply (flt_R _ _ Vtfin F) in E. rewrite Vt in E. pose proof (ofZ_val 3) as [F3 E3]; [lia|].
    assert (PE : Rpower (B2R t) (B2R (ofZ 3)) = B2R t ^ 3).
    { rewrite E3. replace 3 with (INR 3) by (rewrite INR_IZR_INZ; reflexivity). apply Rpower_pow. lra. }
    pose proof p100 as P100.
    assert (K : fin (powf L t (ofZ 3)) /\ Rabs (B2R (powf L t (ofZ 3)) - B2R t ^ 3) <= / 1048576 * B2R t ^ 3 + / 2 ^ 100).
    { rewrite <- PE. destruct (Rle_dec (B2R t) 1) as [W|W].
      - destruct (AL t (ofZ 3) F F3 ltac:(lra)) as [P _]. apply P. lra.
      - apply Rnot_le_lt in W. destruct (AA t (ofZ 3) F F3 ltac:(lra) ltac:(lra)) as [P1 P2]. split; [exact P1|]. lra. }
    destruct K as [FK K]. split; [exact FK|]. assert (P3 : 0 <= B2R t ^ 3) by (apply pow_le; lra).
    unfold lab_uncurve in *. destruct (Rle_dec (B2R t) (20689303 / 100000000)) as [Q|Q].
    + set (x := B2R t) in *. assert (G : 206893026 / 1000000000 * (206893026 / 1000000000) * (206893026 / 1000000000) <= x ^ 3 <= 20689303 / 100000000 * (20689303 / 100000000) * (20689303 / 100000000)).
      { cbn [pow]. rewrite Rmult_1_r. split; rewrite Rmult_assoc; apply Rmult_le_compat; try nra. }
      apply Rabs_le_iff in K. apply Rabs_le_iff. lra.
    + rewrite (Rabs_right (B2R t ^ 3)) in UP |- * by lra. lra.
  - assert (G : B2R t <= B2R (dec 20689303 100000000)).
    { destruct (Rle_dec (B2R t) (B2R (dec 20689303 100000000))) as [G|G]; [exact G|]. apply Rnot_le_lt in G. apply (flt_R _ _ Vtfin F) in G. congruence. }
    rewrite Vt in G. fval (fdiv (ofZ 16) (ofZ 116)) Vk. fval (dec 7787 1000) Vs.
    destruct (sub_val t (fdiv (ofZ 16) (ofZ 116)) 3) as [FS S]; auto; try lra. { rewrite Vk. apply Rabs_le_iff. lra. }
    rewrite Vk in S. apply Rabs_le_iff in S.
    destruct (div_val (fsub t (fdiv (ofZ 16) (ofZ 116))) (dec 7787 1000) (/ 3)) as [FD D]; auto; try lra. { rewrite Vs. apply Rabs_le_iff. lra. }
    rewrite Vs in D. apply Rabs_le_iff in D. split; [exact FD|].
    unfold lab_uncurve in *. destruct Rle_dec as [Q|Q]; [|exfalso; lra]. apply Rabs_le_iff. lra.
Qed.
Lemma curve_rel_T a b d : - / 100 <= a <= 4 -> - / 100 <= b <= 4 -> 0 <= d <= / 2000 -> Rabs (a - b) <= d * Rabs b + T ->
  Rabs (lab_curve a - lab_curve b) <= 2 * d + / 2900000.
Proof.
  intros A B D H. destruct (Rle_dec b (1 / 50)) as [L|L].
  - assert (E : Rabs b <= 1 / 50) by (apply Rabs_le_iff; lra). assert (d * Rabs b <= d * (1 / 50)) by (apply Rmult_le_compat_l; lra).
    assert (G : Rabs (a - b) <= d * (1 / 50) + T) by lra. apply Rabs_le_iff in G. apply Rabs_le_iff.
    destruct (Rle_dec a b) as [K|K]; [pose proof (curve_lip a b K); lra|]. apply Rnot_le_lt in K. pose proof (curve_lip b a ltac:(lra)). lra.
  - apply Rnot_le_lt in L. pose proof (curve_rel a b (d + 50 * T) A B ltac:(lra)) as K. rewrite (Rabs_right b) in * by lra. lra.
Qed.
