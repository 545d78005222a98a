(** Proofs for C88: the sRGB transfer function and its round trips. *)
From Coq Require Import Reals Lra Lia ZArith Bool Psatz.
From Flocq Require Import Core.Core IEEE754.BinarySingleNaN.
From Verif Require Import F32 F32Lemmas Color ColorSpec ColorProofs MeaningSpec Approx OpMeaningProofs HslMeaning HslOps.
Open Scope R_scope.

(** ** Powers *)
Lemma Rpower_n x n : 0 < x -> Rpower x (INR n) = x ^ n.
Proof. intros H. symmetry. rewrite <- Rpower_pow by exact H. reflexivity. Qed.
Lemma power_frac x p q : 0 < x -> (0 < q)%nat -> Rpower x (INR p / INR q) = Rpower (x ^ p) (/ INR q).
Proof. intros H Q. rewrite <- (Rpower_n x p H), Rpower_mult. reflexivity. Qed.
Lemma root_pow r q : 0 < r -> (0 < q)%nat -> Rpower (r ^ q) (/ INR q) = r.
Proof.
  intros H Q. rewrite <- (Rpower_n r q H), Rpower_mult, Rinv_r by (apply not_0_INR; lia). now apply Rpower_1.
Qed.
Lemma power_ge r x p q : 0 < r -> 0 < x -> (0 < q)%nat -> r ^ q <= x ^ p -> r <= Rpower x (INR p / INR q).
Proof.
  intros R X Q H. rewrite power_frac by auto. rewrite <- (root_pow r q) at 1 by auto.
  apply Rle_Rpower_l; [left; apply Rinv_0_lt_compat, lt_0_INR; lia|]. split; [now apply pow_lt | exact H].
Qed.
Lemma power_le r x p q : 0 < r -> 0 < x -> (0 < q)%nat -> x ^ p <= r ^ q -> Rpower x (INR p / INR q) <= r.
Proof.
  intros R X Q H. rewrite power_frac by auto. rewrite <- (root_pow r q) by auto.
  apply Rle_Rpower_l; [left; apply Rinv_0_lt_compat, lt_0_INR; lia|]. split; [now apply pow_lt | exact H].
Qed.
Lemma e24 : 24 / 10 = INR 12 / INR 5. Proof. rewrite !INR_IZR_INZ. cbn. lra. Qed.
Lemma e1024 : 10 / 24 = INR 5 / INR 12. Proof. rewrite !INR_IZR_INZ. cbn. lra. Qed.
Lemma Rpower_mono x y a : 0 < x <= y -> 0 <= a -> Rpower x a <= Rpower y a.
Proof. intros. now apply Rle_Rpower_l. Qed.
Lemma pow_A y : 90475 / 1000000 <= y -> 313089 / 100000000 <= Rpower y (24 / 10).
Proof.
  intros H. eapply Rle_trans; [|apply (Rpower_mono (90475 / 1000000)); lra]. rewrite e24. apply power_ge; try lra; try lia.
Qed.
Lemma pow_B y : 904737 / 10000000 <= y -> 313078 / 100000000 <= Rpower y (24 / 10).
Proof.
  intros H. eapply Rle_trans; [|apply (Rpower_mono (904737 / 10000000)); lra]. rewrite e24. apply power_ge; try lra; try lia.
Qed.
Lemma pow_B' y : 0 < y <= 90476 / 1000000 -> Rpower y (24 / 10) <= 3131 / 1000000.
Proof.
  intros H. eapply Rle_trans; [apply (Rpower_mono _ (90476 / 1000000)); lra|]. rewrite e24. apply power_le; try lra; try lia.
Qed.
Lemma pow_C l : 31308 / 10000000 <= l -> 904738 / 10000000 <= Rpower l (10 / 24).
Proof.
  intros H. eapply Rle_trans; [|apply (Rpower_mono (31308 / 10000000)); lra]. rewrite e1024. apply power_ge; try lra; try lia.
Qed.
Lemma pow_C' l : 0 < l <= 313083 / 100000000 -> Rpower l (10 / 24) <= 904743 / 10000000.
Proof.
  intros H. eapply Rle_trans; [apply (Rpower_mono _ (313083 / 100000000)); lra|]. rewrite e1024. apply power_le; try lra; try lia.
Qed.
Lemma pow_D l : 3131 / 1000000 <= l -> 90476 / 1000000 <= Rpower l (10 / 24).
Proof.
  intros H. eapply Rle_trans; [|apply (Rpower_mono (3131 / 1000000)); lra]. rewrite e1024. apply power_ge; try lra; try lia.
Qed.
(** A power of a factor near 1 is at least as near to 1. *)
Lemma Rpower_K K b d : 0 < b <= 1 -> 0 <= d < 1 -> Rabs (K - 1) <= d -> Rabs (Rpower K b - 1) <= d.
Proof.
  intros B D H. apply Rabs_le_iff in H. assert (K0 : 0 < K) by lra. apply Rabs_le_iff.
  assert (P1 : Rpower 1 b = 1) by (unfold Rpower; rewrite ln_1, Rmult_0_r, exp_0; reflexivity).
  destruct (Rle_dec 1 K) as [G|G].
  - assert (1 <= Rpower K b) by (rewrite <- P1; apply Rpower_mono; lra).
    assert (Rpower K b <= K). { rewrite <- (Rpower_1 K) at 2 by lra. destruct (Req_dec K 1) as [->|N]; [rewrite !Rpower_1, ?P1 by lra; lra|]. apply Rle_Rpower; lra. }
    lra.
  - assert (Rpower K b <= 1) by (rewrite <- P1; apply Rpower_mono; lra).
    assert (K <= Rpower K b).
    { pose proof (Rpower_near K b 1 ltac:(lra) ltac:(lra)) as E. rewrite Rpower_1 in E by lra. lra. }
    lra.
Qed.
(** Powers with an exponent of at least 1 are Lipschitz continuous on (0,1]. *)
Lemma Rpower_lip x y a : 0 < x <= 1 -> 0 < y <= 1 -> 1 <= a -> Rabs (Rpower x a - Rpower y a) <= a * Rabs (x - y).
Proof.
  assert (L : forall x y, 0 < x -> x < y -> y <= 1 -> 1 <= a -> Rpower y a - Rpower x a <= a * (y - x)).
  { clear. intros x y X XY Y A.
    destruct (MVT_cor2 (fun t => Rpower t a) (fun t => a * Rpower t (a - 1)) x y XY) as (c & E & C).
    - intros c C. apply derivable_pt_lim_power. lra.
    - rewrite E. apply Rmult_le_compat_r; [lra|]. pose proof (Rpower_01 c (a - 1) ltac:(lra) ltac:(lra)). nra. }
  intros X Y A. destruct (Rtotal_order x y) as [H|[H|H]].
  - pose proof (L x y ltac:(lra) H ltac:(lra) A). pose proof (Rpower_mono x y a ltac:(lra) ltac:(lra)).
    rewrite Rabs_left1, Rabs_left1 by lra. lra.
  - subst. replace (y - y) with 0 by lra. rewrite Rminus_diag_eq by reflexivity. rewrite Rabs_R0. lra.
  - pose proof (L y x ltac:(lra) H ltac:(lra) A). pose proof (Rpower_mono y x a ltac:(lra) ltac:(lra)).
    rewrite !Rabs_right by lra. lra.
Qed.

(** ** The constants *)
Lemma c_055 : close (U / 8) (55 / 1000) (dec 55 1000).
Proof. fval (dec 55 1000) H. split; [exact Hfin|]. rewrite H. apply Rabs_le_iff. lra. Qed.
Lemma c_1055 : close U (1055 / 1000) (dec 1055 1000).
Proof. fval (dec 1055 1000) H. split; [exact Hfin|]. rewrite H. apply Rabs_le_iff. lra. Qed.
Lemma c_1292 : close (2 * U) (1292 / 100) (dec 1292 100).
Proof. fval (dec 1292 100) H. split; [exact Hfin|]. rewrite H. apply Rabs_le_iff. lra. Qed.
Lemma c_24 : fin (dec 24 10) /\ 24 / 10 <= B2R (dec 24 10) <= 24 / 10 + 2 * U.
Proof. fval (dec 24 10) H. split; [exact Hfin|]. rewrite H. lra. Qed.
Lemma c_inv : fin (fdiv f1 (dec 24 10)) /\ 10 / 24 - U <= B2R (fdiv f1 (dec 24 10)) <= 10 / 24.
Proof. fval (fdiv f1 (dec 24 10)) H. split; [exact Hfin|]. rewrite H. lra. Qed.
Lemma c_prod : Rabs (B2R (dec 24 10) * B2R (fdiv f1 (dec 24 10)) - 1) <= U.
Proof. fval (fdiv f1 (dec 24 10)) H. fval (dec 24 10) H1. rewrite H, H1. apply Rabs_le_iff. lra. Qed.
Lemma c_t1 : fin (dec 4045 100000) /\ 4044999 / 100000000 <= B2R (dec 4045 100000) <= 4045 / 100000.
Proof. fval (dec 4045 100000) H. split; [exact Hfin|]. rewrite H. lra. Qed.
Lemma c_t2 : fin (dec 3130805 1000000000) /\ 31308049 / 10000000000 <= B2R (dec 3130805 1000000000) <= 3130805 / 1000000000.
Proof. fval (dec 3130805 1000000000) H. split; [exact Hfin|]. rewrite H. lra. Qed.

Lemma srgb_base x : fin x -> B2R (dec 4045 100000) < B2R x <= 1 ->
  let y := fdiv (fadd x (dec 55 1000)) (dec 1055 1000) in
  fin y /\ 904737 / 10000000 <= B2R y <= 1 /\ Rabs (B2R y - (B2R x + 55 / 1000) / (1055 / 1000)) <= 13 / 4 * U.
Proof.
  intros F X. cbv zeta. pose proof c_t1 as [_ T].
  assert (S : close (9 / 8 * U) (B2R x + 55 / 1000) (fadd x (dec 55 1000))).
  { eapply close_weak; [apply (close_add 2 U 0 (U / 8) _ _ _ _ uo_2 (close_0 _ F) c_055)|lra]. rewrite Rabs_right; lra. }
  assert (Y : close (13 / 4 * U) ((B2R x + 55 / 1000) / (1055 / 1000)) (fdiv (fadd x (dec 55 1000)) (dec 1055 1000))).
  { eapply close_weak; [apply (close_div 2 (U) 1 (101 / 100) (9 / 8 * U) U _ _ _ _ uo_2 S c_1055)|]; try lra.
    - rewrite Rabs_right; lra.
    - apply Rabs_le_iff. lra. }
  pose proof Y as [FY EY]. apply Rabs_le_iff in EY. split; [exact FY|]. split; [|apply Rabs_le_iff; lra]. split; [lra|].
  destruct (fadd_ok x (dec 55 1000) 2) as [A B]; auto using f2_fin with fmt.
  { destruct c_055 as [_ C]. apply Rabs_le_iff in C. apply Rabs_le_iff. lra. }
  fval (fadd f1 (dec 55 1000)) V. fval (dec 1055 1000) W. fval (dec 55 1000) Q.
  assert (LE : B2R (fadd x (dec 55 1000)) <= B2R (dec 1055 1000)).
  { apply Rle_trans with (B2R (fadd f1 (dec 55 1000))); [|rewrite V, W; lra].
    destruct (fadd_ok f1 (dec 55 1000) 2) as [A' B']; auto using f2_fin with fin fmt. { rewrite f1_R, Q. apply Rabs_le_iff. lra. }
    rewrite B, B'. apply rnd_le. rewrite f1_R. lra. }
  assert (P : 0 <= B2R (fadd x (dec 55 1000)) / B2R (dec 1055 1000) <= 1).
  { destruct S as [_ S]. apply Rabs_le_iff in S. apply div_01; rewrite ?W in *; lra. }
  destruct (fdiv_ok (fadd x (dec 55 1000)) (dec 1055 1000) 1) as [C D]; auto with fmt. { rewrite W. lra. } { apply Rabs_le_iff. lra. }
  rewrite D. apply rnd_hi; auto with fmt. lra.
Qed.

(** The curves with the limits of the code, and why that makes no difference. *)
Definition decode_t (v : R) : R :=
  if Rle_dec v (B2R (dec 4045 100000)) then v / (1292 / 100) else Rpower ((v + 55 / 1000) / (1055 / 1000)) (24 / 10).
Definition encode_t (v : R) : R :=
  if Rle_dec v (B2R (dec 3130805 1000000000)) then 1292 / 100 * v else 1055 / 1000 * Rpower v (10 / 24) - 55 / 1000.
Lemma below_limit (t x : f32) (r : R) e : fin t -> (-100 <= e)%Z -> bpow radix2 (e - 1) <= B2R t < bpow radix2 e -> B2R t <= r < B2R t + bpow radix2 (e - 25) ->
  (B2R x <= r <-> B2R x <= B2R t).
Proof.
  intros F E M R. split; [|lra]. intros H.
  assert (Q : rnd r <= B2R t).
  { assert (S : succ radix2 (FLT_exp (-149) 24) (B2R t) = B2R t + bpow radix2 (e - 24)).
    { pose proof (bpow_gt_0 radix2 (e - 1)). rewrite succ_eq_pos by lra. f_equal. rewrite ulp_neq_0 by lra. unfold cexp.
      rewrite (mag_unique radix2 (B2R t) e) by (rewrite Rabs_right; lra). f_equal. unfold FLT_exp. lia. }
    unfold rnd. simpl round_mode. apply round_N_le_midp; [apply FLT_exp_valid; reflexivity | apply fmt_B2R |].
    change (SpecFloat.emin 24 128) with (-149)%Z in *. change (SpecFloat.fexp 24 128) with (FLT_exp (-149) 24). rewrite S.
    replace (e - 24)%Z with (e - 25 + 1)%Z by lia. rewrite bpow_plus. change (bpow radix2 1) with 2. lra. }
  rewrite <- (rnd_id (B2R x)) by apply fmt_B2R. eapply Rle_trans; [apply rnd_le; exact H | exact Q].
Qed.
Lemma decode_limit (x : f32) : decode_t (B2R x) = srgb_decode (B2R x).
Proof.
  unfold decode_t, srgb_decode. assert (Q : B2R x <= 4045 / 100000 <-> B2R x <= B2R (dec 4045 100000)).
  { fval (dec 4045 100000) H. apply (below_limit _ _ _ (-4)); [exact Hfin | lia | |].
    - change (bpow radix2 (-4 - 1)) with (/ 32). change (bpow radix2 (-4)) with (/ 16). rewrite H. lra.
    - change (bpow radix2 (-4 - 25)) with (/ 536870912). rewrite H. lra. }
  do 2 destruct Rle_dec; tauto.
Qed.
Lemma encode_limit (x : f32) : encode_t (B2R x) = srgb_encode (B2R x).
Proof.
  unfold encode_t, srgb_encode. assert (Q : B2R x <= 3130805 / 1000000000 <-> B2R x <= B2R (dec 3130805 1000000000)).
  { fval (dec 3130805 1000000000) H. apply (below_limit _ _ _ (-8)); [exact Hfin | lia | |].
    - change (bpow radix2 (-8 - 1)) with (/ 512). change (bpow radix2 (-8)) with (/ 256). rewrite H. lra.
    - change (bpow radix2 (-8 - 25)) with (/ 8589934592). rewrite H. lra. }
  do 2 destruct Rle_dec; tauto.
Qed.

(** ** Decoding *)
Lemma decode_pow L x : accurate_powf L -> fin x -> B2R (dec 4045 100000) < B2R x <= 1 ->
  let y := B2R (fdiv (fadd x (dec 55 1000)) (dec 1055 1000)) in
  let a := B2R (dec 24 10) in
  let l := clamp (gamma_to_linear L x) in
  fin l /\ 313072 / 100000000 <= Rpower y a <= 1 /\ exists K, B2R l = Rpower y a * K /\ Rabs (K - 1) <= / 1048576 + U / 1000.
Proof.
  intros AL F X. cbv zeta. destruct (srgb_base x F X) as (Fy & Y & _). pose proof c_24 as [Fa A].
  set (y := fdiv (fadd x (dec 55 1000)) (dec 1055 1000)) in *.
  destruct (AL y (dec 24 10) Fy Fa ltac:(lra)) as [P _]. specialize (P ltac:(lra)). destruct P as [FP EP].
  pose proof (pow_B (B2R y) ltac:(lra)) as LB.
  pose proof (Rpower_near (B2R y) (24 / 10) (B2R (dec 24 10)) ltac:(lra) ltac:(lra)) as NE.
  pose proof (Rpower_01 (B2R y) (B2R (dec 24 10)) ltac:(lra) ltac:(lra)) as P1.
  set (r := Rpower (B2R y) (B2R (dec 24 10))) in *. assert (R0 : 313072 / 100000000 <= r <= 1) by lra.
  assert (G : gamma_to_linear L x = powf L y (dec 24 10)).
  { unfold gamma_to_linear. replace (flt (dec 4045 100000) x) with true; [reflexivity|]. symmetry. apply flt_R; [apply c_t1 | exact F | lra]. }
  rewrite G. destruct (clamp_R _ FP) as [FC EC]. split; [exact FC|]. split; [exact R0|].
  exists (limited (B2R (powf L y (dec 24 10))) / r). split; [rewrite EC; field; lra|].
  assert (Q : Rabs (limited (B2R (powf L y (dec 24 10))) - r) <= / 1048576 * r + / 2 ^ 100).
  { rewrite <- (limited_id r) at 1 by lra. now apply limited_lip_e. }
  replace (limited (B2R (powf L y (dec 24 10))) / r - 1) with ((limited (B2R (powf L y (dec 24 10))) - r) * / r) by (field; lra).
  rewrite Rabs_mult, (Rabs_right (/ r)) by (left; apply Rinv_0_lt_compat; lra).
  apply (Rmult_le_reg_r r); [lra|]. rewrite Rmult_assoc, Rinv_l by lra. pose proof p100. nra.
Qed.
Lemma decode_meaning L x : accurate_powf L -> in01 x -> close (/ 524288) (decode_t (B2R x)) (clamp (gamma_to_linear L x)).
Proof.
  intros AL X. apply in01_R in X. destruct X as [F X]. unfold decode_t. pose proof c_t1 as [Ft T]. destruct Rle_dec as [N|N].
  - unfold gamma_to_linear. replace (flt (dec 4045 100000) x) with false.
    2:{ symmetry. apply not_true_is_false. intros E. apply flt_R in E; auto. lra. }
    rewrite <- (limited_id (B2R x / (1292 / 100))) by lra. apply close_clamp.
    eapply close_weak; [apply (close_div (/ 4) _ 12 (/ 8) 0 (2 * U) _ _ _ _ uo_q (close_0 _ F) c_1292)|]; try lra.
    + rewrite Rabs_right; lra.
    + rewrite Rabs_right; lra.
  - apply Rnot_le_lt in N. destruct (srgb_base x F ltac:(lra)) as (Fy & Y & EY).
    destruct (decode_pow L x AL F ltac:(lra)) as (FL & RB & K & EK & HK). split; [exact FL|]. rewrite EK.
    pose proof c_24 as [_ A]. set (y := B2R (fdiv (fadd x (dec 55 1000)) (dec 1055 1000))) in *.
    set (Y0 := (B2R x + 55 / 1000) / (1055 / 1000)) in *. assert (Yb : 0 < Y0 <= 1) by (unfold Y0; lra).
    pose proof (Rpower_near y (24 / 10) (B2R (dec 24 10)) ltac:(lra) ltac:(lra)) as NE.
    pose proof (Rpower_lip y Y0 (24 / 10) ltac:(lra) ltac:(lra) ltac:(lra)) as LI.
    assert (Q : Rabs (Rpower y (B2R (dec 24 10)) * (K - 1)) <= 1 * (/ 1048576 + U / 1000)) by (apply abs_mul_le; [rewrite Rabs_right; lra | exact HK]).
    assert (LI' : Rabs (Rpower y (24 / 10) - Rpower Y0 (24 / 10)) <= 24 / 10 * (13 / 4 * U)) by lra.
    apply Rabs_le_iff in Q, LI'. apply Rabs_le_iff. lra.
Qed.

(** ** Encoding *)
Lemma encode_tail e r q : close e r q -> 0 <= r <= 1 -> 0 <= e <= / 16 ->
  close (1055 / 1000 * e + (17 / 4 + e) * U) (1055 / 1000 * r - 55 / 1000) (fsub (fmul (dec 1055 1000) q) (dec 55 1000)).
Proof.
  intros Q R E.
  assert (P : close (U * 1 + e * (1055 / 1000) + U * e + U) (1055 / 1000 * r) (fmul (dec 1055 1000) q)).
  { apply (close_mul 2 U (1055 / 1000) 1 U e _ _ _ _ uo_2 c_1055 Q); try (rewrite Rabs_right; lra). nra. }
  eapply close_weak; [apply (close_sub 2 U _ (U / 8) _ _ _ _ uo_2 P c_055)|].
  - unfold Rabs; destruct Rcase_abs; nra.
  - nra.
Qed.
Lemma encode_lin L v : fin v -> 0 <= B2R v <= B2R (dec 3130805 1000000000) ->
  close (U / 4) (1292 / 100 * B2R v) (clamp (linear_to_gamma L v)).
Proof.
  intros F V. unfold linear_to_gamma. pose proof c_t2 as [Ft T]. replace (flt (dec 3130805 1000000000) v) with false.
  2:{ symmetry. apply not_true_is_false. intros E. apply flt_R in E; auto. lra. }
  rewrite <- (limited_id (1292 / 100 * B2R v)) by lra. apply close_clamp.
  eapply close_weak; [apply (close_mul (/ 4) _ 13 (/ 300) (2 * U) 0 _ _ _ _ uo_q c_1292 (close_0 _ F))|]; try lra; try (rewrite Rabs_right; lra).
Qed.
Lemma encode_pow L v r e : fin v -> B2R (dec 3130805 1000000000) < B2R v -> close e r (powf L v (fdiv f1 (dec 24 10))) ->
  0 <= 1055 / 1000 * r - 55 / 1000 -> r <= 1 -> 0 <= e <= / 16 ->
  close (1055 / 1000 * e + (17 / 4 + e) * U) (1055 / 1000 * r - 55 / 1000) (clamp (linear_to_gamma L v)).
Proof.
  intros F V C R0 R1 E. unfold linear_to_gamma. pose proof c_t2 as [Ft T]. replace (flt (dec 3130805 1000000000) v) with true.
  2:{ symmetry. apply flt_R; auto. }
  rewrite <- (limited_id (1055 / 1000 * r - 55 / 1000)) at 1 by lra. apply close_clamp. apply encode_tail; auto. lra.
Qed.
Lemma encode_meaning L v : accurate_powf L -> in01 v -> close (25 * U) (encode_t (B2R v)) (clamp (linear_to_gamma L v)).
Proof.
  intros AL V. apply in01_R in V. destruct V as [F V]. unfold encode_t. pose proof c_t2 as [Ft T]. destruct Rle_dec as [N|N].
  - eapply close_weak; [apply encode_lin; auto; lra | lra].
  - apply Rnot_le_lt in N. pose proof c_inv as [Fb B].
    destruct (AL v (fdiv f1 (dec 24 10)) F Fb ltac:(lra)) as [P _]. specialize (P ltac:(lra)). destruct P as [FP EP].
    pose proof (Rpower_near (B2R v) (B2R (fdiv f1 (dec 24 10))) (10 / 24) ltac:(lra) ltac:(lra)) as NE.
    assert (D : (10 / 24 - B2R (fdiv f1 (dec 24 10))) / B2R (fdiv f1 (dec 24 10)) <= 3 * U).
    { apply (Rmult_le_reg_r (B2R (fdiv f1 (dec 24 10)))); [lra|]. unfold Rdiv. rewrite Rmult_assoc, Rinv_l by lra. lra. }
    pose proof (Rpower_01 (B2R v) (B2R (fdiv f1 (dec 24 10))) ltac:(lra) ltac:(lra)) as P1.
    pose proof (Rpower_01 (B2R v) (10 / 24) ltac:(lra) ltac:(lra)) as P2. pose proof (pow_C (B2R v) ltac:(lra)) as P3.
    assert (C : close (191 / 10 * U) (Rpower (B2R v) (10 / 24)) (powf L v (fdiv f1 (dec 24 10)))).
    { split; [exact FP|]. apply Rabs_le_iff in EP. apply Rabs_le_iff. pose proof p100. nra. }
    eapply close_weak; [apply (encode_pow L v _ _ F N C); lra | lra].
Qed.

(** ** Decoding, a small relative change, and encoding again *)
Lemma there_and_back L x l' : accurate_powf L -> in01 x -> in01 l' ->
  Rabs (B2R l' - B2R (clamp (gamma_to_linear L x))) <= 8 * U * B2R (clamp (gamma_to_linear L x)) ->
  close (64 * U) (B2R x) (clamp (linear_to_gamma L l')).
Proof.
  intros AL X' I D. pose proof X' as X. pose proof I as L'. apply in01_R in X, L'. destruct X as [F X]. destruct L' as [FL' L'].
  pose proof c_t1 as [_ T1]. pose proof c_t2 as [Ft2 T2]. destruct (Rle_dec (B2R x) (B2R (dec 4045 100000))) as [N|N].
  - assert (C : close (U / 4) (B2R x / (1292 / 100)) (clamp (gamma_to_linear L x))).
    { unfold gamma_to_linear. replace (flt (dec 4045 100000) x) with false.
      2:{ symmetry. apply not_true_is_false. intros E. apply (flt_R _ _ (proj1 c_t1) F) in E. lra. }
      rewrite <- (limited_id (B2R x / (1292 / 100))) by lra. apply close_clamp.
      eapply close_weak; [apply (close_div (/ 4) _ 12 (/ 8) 0 (2 * U) _ _ _ _ uo_q (close_0 _ F) c_1292)|]; try lra.
      - rewrite Rabs_right; lra.
      - rewrite Rabs_right; lra. }
    destruct C as [_ C]. apply Rabs_le_iff in C, D.
    destruct (Rle_dec (B2R l') (B2R (dec 3130805 1000000000))) as [M|M].
    + destruct (encode_lin L l' FL' ltac:(lra)) as [FE E]. split; [exact FE|]. apply Rabs_le_iff in E. apply Rabs_le_iff. lra.
    + apply Rnot_le_lt in M.
      destruct (encode_meaning L l' AL I) as [FE E]. split; [exact FE|]. revert E. unfold encode_t. destruct Rle_dec as [Q|_]; [lra|]. intros E.
      pose proof (pow_C (B2R l') ltac:(lra)). pose proof (pow_C' (B2R l') ltac:(lra)). apply Rabs_le_iff in E. apply Rabs_le_iff. lra.
  - apply Rnot_le_lt in N. destruct (srgb_base x F ltac:(lra)) as (Fy & Y & EY).
    destruct (decode_pow L x AL F ltac:(lra)) as (FL & RB & K & EK & HK). rewrite EK in D.
    pose proof c_24 as [_ A]. set (y := B2R (fdiv (fadd x (dec 55 1000)) (dec 1055 1000))) in *.
    set (a := B2R (dec 24 10)) in *. set (r := Rpower y a) in *. pose proof HK as HK'. apply Rabs_le_iff in HK, D, EY.
    assert (D1 : (1 - 8 * U) * (1 - (/ 1048576 + U / 1000)) * r <= B2R l' <= (1 + 8 * U) * (1 + (/ 1048576 + U / 1000)) * r) by nra.
    destruct (Rle_dec (B2R l') (B2R (dec 3130805 1000000000))) as [M|M].
    + destruct (encode_lin L l' FL' ltac:(lra)) as [FE E]. split; [exact FE|]. apply Rabs_le_iff in E. apply Rabs_le_iff.
      destruct (Rle_dec (90475 / 1000000) y) as [Z|Z].
      * exfalso. pose proof (pow_A y Z) as PA.
        pose proof (Rpower_near y (24 / 10) a ltac:(lra) ltac:(lra)) as NE. fold r in NE. lra.
      * lra.
    + apply Rnot_le_lt in M. pose proof c_inv as [Fb B]. pose proof c_prod as CP. fold a in CP.
      destruct (AL l' (fdiv f1 (dec 24 10)) FL' Fb ltac:(lra)) as [P _]. specialize (P ltac:(lra)). destruct P as [FP EP].
      set (b := B2R (fdiv f1 (dec 24 10))) in *. set (KK := B2R l' / r).
      assert (HKK : Rabs (KK - 1) <= 241 / 10 * U).
      { apply Rabs_le_iff. unfold KK. split.
        - apply (Rmult_le_reg_r r); [lra|]. replace ((B2R l' / r - 1) * r) with (B2R l' - r) by (field; lra). nra.
        - apply (Rmult_le_reg_r r); [lra|]. replace ((B2R l' / r - 1) * r) with (B2R l' - r) by (field; lra). nra. }
      assert (EL : B2R l' = r * KK) by (unfold KK; field; lra).
      assert (K0 : 0 < KK) by (apply Rabs_le_iff in HKK; lra).
      pose proof (Rpower_K KK b (241 / 10 * U) ltac:(lra) ltac:(lra) HKK) as PK. 
      assert (EB : Rpower (B2R l') b = Rpower y (a * b) * Rpower KK b).
      { rewrite EL, <- Rpower_mult_distr by lra. unfold r. now rewrite Rpower_mult. }
      pose proof (Rpower_rel y 1 (a * b) U ltac:(lra) ltac:(lra) ltac:(lra) ltac:(lra)) as PR. rewrite Rpower_1 in PR by lra.
      pose proof (Rpower_01 y (a * b) ltac:(lra) ltac:(nra)) as P1.
      pose proof (Rpower_01 (B2R l') b ltac:(lra) ltac:(lra)) as P2.
      assert (C : close (422 / 10 * U) y (powf L l' (fdiv f1 (dec 24 10)))).
      { split; [exact FP|]. rewrite EB in EP, P2. 
        assert (Q : Rabs (Rpower y (a * b) * (Rpower KK b - 1)) <= 1 * (241 / 10 * U)) by (apply abs_mul_le; [rewrite Rabs_right; lra | exact PK]).
        apply Rabs_le_iff in EP, Q, PR. apply Rabs_le_iff. pose proof p100. lra. }
      destruct (encode_pow L l' _ _ FL' M C) as [FE E]; try lra. split; [exact FE|]. apply Rabs_le_iff in E. apply Rabs_le_iff. lra.
Qed.
(** ** Encoding and decoding again *)
Lemma back_and_there L v : accurate_powf L -> in01 v ->
  close (/ 131072) (B2R v) (clamp (gamma_to_linear L (clamp (linear_to_gamma L v)))).
Proof.
  intros AL V'. pose proof V' as V. apply in01_R in V. destruct V as [F V].
  pose proof c_t1 as [_ T1]. pose proof c_t2 as [Ft2 T2].
  pose proof (encode_meaning L v AL V') as G'. pose proof (clamped_in01 _ _ _ G') as I'. destruct G' as [FG G].
  set (g := clamp (linear_to_gamma L v)) in *. pose proof I' as I. apply in01_R in I. destruct I as [_ I].
  pose proof (decode_meaning L g AL I') as [FR R]. split; [exact FR|].
  set (o := B2R (clamp (gamma_to_linear L g))) in *. clearbody o.
  assert (LIN : B2R v <= B2R (dec 3130805 1000000000) -> close (U / 4) (1292 / 100 * B2R v) g) by (intros; apply encode_lin; auto; lra).
  revert G R. unfold encode_t, decode_t. set (w := B2R v) in *. set (h := B2R g) in *.
  destruct (Rle_dec w (B2R (dec 3130805 1000000000))) as [N|N]; destruct (Rle_dec h (B2R (dec 4045 100000))) as [M|M]; intros G R.
  - destruct (LIN N) as [_ G2]. fold h in G2. apply Rabs_le_iff in R, G2. apply Rabs_le_iff. lra.
  - destruct (LIN N) as [_ G2]. fold h in G2. apply Rabs_le_iff in R, G2. apply Rabs_le_iff.
    pose proof (pow_B ((h + 55 / 1000) / (1055 / 1000)) ltac:(lra)). pose proof (pow_B' ((h + 55 / 1000) / (1055 / 1000)) ltac:(lra)). lra.
  - apply Rabs_le_iff in R, G. apply Rabs_le_iff. pose proof (pow_C w ltac:(lra)).
    destruct (Rle_dec (3131 / 1000000) w) as [Z|Z]; [pose proof (pow_D w Z); lra | lra].
  - pose proof (pow_C w ltac:(lra)) as PC. pose proof (Rpower_01 w (10 / 24) ltac:(lra) ltac:(lra)) as P1.
    assert (E : Rpower (Rpower w (10 / 24)) (24 / 10) = w).
    { rewrite Rpower_mult. replace (10 / 24 * (24 / 10)) with 1 by field. apply Rpower_1. lra. }
    pose proof (Rpower_lip ((h + 55 / 1000) / (1055 / 1000)) (Rpower w (10 / 24)) (24 / 10) ltac:(lra) ltac:(lra) ltac:(lra)) as LI.
    rewrite E in LI. assert (D : Rabs ((h + 55 / 1000) / (1055 / 1000) - Rpower w (10 / 24)) <= 25 * U).
    { apply Rabs_le_iff in G. apply Rabs_le_iff. lra. }
    assert (LI' : Rabs (Rpower ((h + 55 / 1000) / (1055 / 1000)) (24 / 10) - w) <= 24 / 10 * (25 * U)) by lra.
    apply Rabs_le_iff in LI', R. apply Rabs_le_iff. lra.
Qed.
