(** Proofs for C108: blurring is the bell-shaped mean, sharpening moves away
    from it, Sobel measures the slope. *)
From Coq Require Import ZArith List Bool Lia Reals Lra Psatz.
From Flocq Require Import Core.Core IEEE754.BinarySingleNaN.
From Verif Require Import Base PixelBuffer BaseLemmas BufferSpec PixelBufferProofs EnumProofs.
From Verif Require Import F32 Color F32Lemmas ColorSpec ColorProofs MeaningSpec Approx Kernel KernelSpec KernelProofs.
From Verif Require Import ComposeProofs ResampleProofs Kernel2Proofs GaussProofs Gauss2Proofs EnhanceSpec ResampleSpec ResampleMeaning GaussSpec.
Import ListNotations.
Open Scope R_scope.

(** The rounded weighted mean is near the exact weighted mean of the rounded
    weights. *)
Lemma weighted_lemma pick (vals : list f32) (ps : list Rgb) V :
  length vals = length ps -> (1 <= INR (length vals) <= 1048576) ->
  (forall v, In v vals -> num 0 V v) -> (exists v, In v vals /\ B2R v = V) ->
  / 100000000000000 <= V <= 1099511627776 ->
  (forall c, In c ps -> num 0 1 (pick c)) ->
  let S := fold_left fadd vals f0 in
  let e := (INR (length vals) + 1) / 4194304 in
  close e (rsum (map (fun p => B2R (fst p) * B2R (pick (snd p))) (combine vals ps)) / rsum (map B2R vals))
    (weighted_channel pick (combine (map (fun v => fdiv v S) vals) ps)).
Proof.
  intros Len HK Hv [v0 [I0 E0]] HV Hc S e.
  set (K := INR (length vals)) in *.
  assert (LE : 0 < ee <= / 16777216) by (unfold ee; lra).
  pose proof eta_small as HE.
  set (Sx := rsum (map B2R vals)).
  assert (Nn : forall r, In r (map B2R vals) -> 0 <= r).
  { intros r Hr. apply in_map_iff in Hr. destruct Hr as [w [<- Hw]]. apply (Hv w Hw). }
  assert (Slo : V <= Sx). { rewrite <- E0. apply rsum_In; auto. apply in_map; auto. }
  assert (Shi : Sx <= V * K).
  { unfold Sx. apply Rle_trans with (rsum (map (fun v => 0 * B2R v + V) vals)).
    - apply rsum_le. intros v I. pose proof (Hv v I) as [_ ?]. lra.
    - rewrite (rsum_lin B2R 0 V). rewrite Rmult_0_l, Rplus_0_l. apply Rle_refl. }
  assert (KE : K * ee <= / 16) by (unfold ee; lra).
  assert (PU : (1 + ee) ^ length vals * (1 - K * ee) <= 1) by (apply pow_up; fold K; split; [apply Rmult_le_pos; lra|lra]).
  assert (PD : 1 - K * ee <= (1 - ee) ^ length vals) by apply pow_dn.
  set (A := (1 + ee) ^ length vals) in *. set (B := (1 - ee) ^ length vals) in *.
  assert (A1 : 1 <= A) by (apply pow_R1_Rle; lra).
  assert (A2 : A <= 2) by (clear - PU KE A1; nra).
  assert (B0 : 0 < B) by lra.
  assert (B1 : B <= 1). { unfold B. apply Rle_trans with (1 ^ length vals); [apply pow_incr; lra|rewrite pow1; lra]. }
  assert (VK : 0 <= V * K <= 1152921504606846976) by (clear - HV HK; nra).
  destruct (fold_sum_rel vals f0 (bpow radix2 72)) as [FS RS]; [apply f0_fin|rewrite f0_R; lra| |apply fmt_2_72| |].
  { intros v I. destruct (Hv v I) as [? ?]. split; [auto|lra]. }
  { rewrite f0_R, Rplus_0_l. fold Sx A. rewrite (bp 72 4722366482869645213696 eq_refl).
    assert (0 <= Sx) by lra. assert (Sx * A <= Sx * 2) by (apply Rmult_le_compat_l; lra). lra. }
  rewrite f0_R, Rplus_0_l in RS. fold Sx A B S in RS. fold S in FS.
  assert (PS : 0 < B2R S).
  { apply Rlt_le_trans with (2 := proj1 RS). apply Rmult_lt_0_compat; lra. }
  (* ratio of the exact to the rounded sum *)
  set (Q := Sx / B2R S).
  assert (QS : Q * B2R S = Sx) by (unfold Q, Rdiv; rewrite Rmult_assoc, Rinv_l; lra).
  assert (Q0 : 0 < Q) by (apply Rdiv_lt_0_compat; lra).
  assert (QB : Q * B <= 1).
  { apply Rmult_le_reg_r with (B2R S); auto. replace (Q * B * B2R S) with ((Q * B2R S) * B) by ring. rewrite QS. lra. }
  assert (QA : 1 <= Q * A).
  { apply Rmult_le_reg_r with (B2R S); auto. replace (Q * A * B2R S) with ((Q * B2R S) * A) by ring. rewrite QS. lra. }
  (* every product *)
  set (ws := combine (map (fun v => fdiv v S) vals) ps).
  set (qs := combine vals ps).
  assert (WS : ws = map (fun p => (fdiv (fst p) S, snd p)) qs).
  { unfold ws, qs. clearbody S. clear. revert ps. induction vals as [|v vals IH]; intros [|c ps]; cbn; auto. f_equal. apply IH. }
  assert (PP : forall p, In p qs ->
    fin (fmul (fdiv (fst p) S) (pick (snd p))) /\ 0 <= B2R (fmul (fdiv (fst p) S) (pick (snd p))) /\
    (1 - ee) * (1 - ee) / B2R S * (B2R (fst p) * B2R (pick (snd p))) - 2 * eta <= B2R (fmul (fdiv (fst p) S) (pick (snd p)))
    <= (1 + ee) * (1 + ee) / B2R S * (B2R (fst p) * B2R (pick (snd p))) + 3 * eta).
  { intros [v c] I. cbn [fst snd].
    pose proof (in_combine_l _ _ _ _ I) as Iv. pose proof (in_combine_r _ _ _ _ I) as Ic.
    destruct (Hv v Iv) as [Fv Rv]. destruct (Hc c Ic) as [Fc Rc].
    assert (Rvs : 0 <= B2R v / B2R S <= 2).
    { assert (IP : 0 < / B2R S) by (apply Rinv_0_lt_compat; auto).
      split; [unfold Rdiv; apply Rmult_le_pos; lra|].
      apply div_le; auto. assert (/ 2 * Sx <= B2R S).
      { apply Rle_trans with (2 := proj1 RS). rewrite (Rmult_comm (/ 2)). apply Rmult_le_compat_l; lra. }
      lra. }
    destruct (fdiv_num v S 0 2) as [[Fw Rw] Ew]; auto with fmt; [lra|].
    pose proof (rnd_any _ (proj1 Rvs)) as Aw. rewrite <- Ew in Aw.
    set (w := fdiv v S) in *. set (x := B2R v / B2R S) in *.
    assert (0 <= B2R w * B2R (pick c) <= 2).
    { clear - Rw Rc. split; [apply Rmult_le_pos; lra|]. nra. }
    destruct (fmul_num w (pick c) 0 2) as [[Fp Rp] Ep]; auto with fmt.
    split; [auto|]. split; [lra|].
    pose proof (rnd_any _ (proj1 H)) as Ap. rewrite <- Ep in Ap.
    replace ((1 - ee) * (1 - ee) / B2R S * (B2R v * B2R (pick c))) with (B2R (pick c) * (1 - ee) * (1 - ee) * x) by (unfold x; field; lra).
    replace ((1 + ee) * (1 + ee) / B2R S * (B2R v * B2R (pick c))) with (B2R (pick c) * (1 + ee) * (1 + ee) * x) by (unfold x; field; lra).
    set (p := B2R (fmul w (pick c))) in *. set (y := B2R (pick c)) in *. set (z := B2R w) in *.
    clearbody x p y z. clear - Aw Ap LE HE Rc Rvs Rw.
    
    split.
    - assert (z * y <= z * y) by (apply Rmult_le_compat_l; lra).
      assert (z * y * (1 - ee) <= z * y * (1 - ee)) by (apply Rmult_le_compat_r; lra).
      assert ((x * (1 - ee) - eta) * (y * (1 - ee)) <= z * (y * (1 - ee))).
      { apply Rmult_le_compat_r; [apply Rmult_le_pos; lra|lra]. }
      assert (eta * (y * (1 - ee)) <= eta * 1).
      { apply Rmult_le_compat_l; [lra|]. assert (y * (1 - ee) <= 1 * 1) by (apply Rmult_le_compat; lra). lra. }
      lra.
    - assert (z * y <= z * y) by (apply Rmult_le_compat_l; lra).
      assert (z * y * (1 + ee) <= z * y * (1 + ee)) by (apply Rmult_le_compat_r; lra).
      assert (z * (y * (1 + ee)) <= (x * (1 + ee) + eta) * (y * (1 + ee))).
      { apply Rmult_le_compat_r; [apply Rmult_le_pos; lra|lra]. }
      assert (eta * (y * (1 + ee)) <= eta * 2).
      { apply Rmult_le_compat_l; [lra|]. assert (y * (1 + ee) <= 1 * 2) by (apply Rmult_le_compat; lra). lra. }
      lra. }
  rewrite weighted_channel_fold. fold ws. rewrite WS, map_map.
  set (f := fun p : f32 * Rgb => fmul (fdiv (fst p) S) (pick (snd p))) in *.
  change (map (fun x => fmul (fst (fdiv (fst x) S, snd x)) (pick (snd (fdiv (fst x) S, snd x)))) qs) with (map f qs).
  assert (Lq : length (map f qs) = length vals).
  { rewrite map_length. unfold qs. rewrite combine_length. lia. }
  set (T := rsum (map B2R (map f qs))).
  assert (MF : map B2R (map f qs) = map (fun p => B2R (f p)) qs) by apply map_map.
  assert (SQ : rsum (map (fun p : f32 * Rgb => B2R (fst p)) qs) = Sx).
  { unfold Sx. f_equal. unfold qs. clear - Len. revert ps Len.
    induction vals as [|v vals IH]; intros [|c ps] Len; cbn in *; try discriminate; auto. f_equal. apply IH. lia. }
  assert (Lqs : INR (length qs) = K). { unfold K. f_equal. rewrite map_length in Lq. auto. }
  set (M := rsum (map (fun p : f32 * Rgb => B2R (fst p) * B2R (pick (snd p))) qs)).
  assert (Sxp : 0 < Sx) by lra.
  assert (M0 : 0 <= M <= Sx).
  { split.
    - apply rsum_nonneg. intros r Hr. apply in_map_iff in Hr. destruct Hr as [[v c] [<- I]]. cbn [fst snd].
      pose proof (Hv v (in_combine_l _ _ _ _ I)) as [_ ?]. pose proof (Hc c (in_combine_r _ _ _ _ I)) as [_ ?]. apply Rmult_le_pos; lra.
    - rewrite <- SQ. apply rsum_le. intros [v c] I. cbn [fst snd].
      pose proof (Hv v (in_combine_l _ _ _ _ I)) as [_ ?]. pose proof (Hc c (in_combine_r _ _ _ _ I)) as [_ ?].
      rewrite <- (Rmult_1_r (B2R v)) at 2. apply Rmult_le_compat_l; lra. }
  set (mu := M / Sx).
  assert (Plo : 0 <= mu) by (unfold mu, Rdiv; apply Rmult_le_pos; [lra|apply Rlt_le, Rinv_0_lt_compat; lra]).
  assert (Phi : mu <= 1) by (unfold mu; apply div_le; lra).
  assert (Tlo : mu * (1 - ee) * (1 - ee) * Q - 2 * eta * K <= T).
  { unfold T. rewrite MF. apply Rle_trans with (rsum (map (fun p => (1 - ee) * (1 - ee) / B2R S * (B2R (fst p) * B2R (pick (snd p))) + - (2 * eta)) qs)).
    - rewrite (rsum_lin (fun p : f32 * Rgb => B2R (fst p) * B2R (pick (snd p)))). fold M. rewrite Lqs. unfold Q, mu. apply Req_le. field. split; lra.
    - apply rsum_le. intros p I. destruct (PP p I) as [_ [_ [G _]]]. apply Rle_trans with (2 := G). apply Rle_refl. }
  assert (Thi : T <= mu * (1 + ee) * (1 + ee) * Q + 3 * eta * K).
  { unfold T. rewrite MF. apply Rle_trans with (rsum (map (fun p => (1 + ee) * (1 + ee) / B2R S * (B2R (fst p) * B2R (pick (snd p))) + 3 * eta) qs)).
    - apply rsum_le. intros p I. destruct (PP p I) as [_ [_ [_ G]]]. apply Rle_trans with (1 := G). apply Rle_refl.
    - rewrite (rsum_lin (fun p : f32 * Rgb => B2R (fst p) * B2R (pick (snd p)))). fold M. rewrite Lqs. unfold Q, mu. apply Req_le. field. split; lra. }
  assert (T0 : 0 <= T).
  { apply rsum_nonneg. intros r Hr. rewrite MF in Hr. apply in_map_iff in Hr. destruct Hr as [p [<- I]]. apply (PP p I). }
  assert (Q2 : Q <= 2) by (clear - QB PD KE Q0; nra).
  assert (Hhi : mu <= mu) by apply Rle_refl.
  assert (EK : eta * K <= / 1000000000).
  { apply Rle_trans with (/ 1125899906842624 * 1048576); [apply Rmult_le_compat; lra|lra]. }
  assert (T9 : T <= 9).
  { assert (hi0 : 0 <= mu) by lra. assert (mu * (1 + ee) <= 1 * (1 + ee)) by (apply Rmult_le_compat_r; lra).
    assert (mu * (1 + ee) * (1 + ee) <= 2).
    { apply Rle_trans with (1 * (1 + ee) * (1 + ee)); [apply Rmult_le_compat_r; lra|]. clear - LE. nra. }
    assert (0 <= mu * (1 + ee) * (1 + ee)) by (apply Rmult_le_pos; [apply Rmult_le_pos; lra|lra]).
    assert (mu * (1 + ee) * (1 + ee) * Q <= 2 * 2) by (apply Rmult_le_compat; lra). lra. }
  destruct (fold_sum_rel (map f qs) f0 (bpow radix2 72)) as [FO RO]; [apply f0_fin|rewrite f0_R; lra| |apply fmt_2_72| |].
  { intros v I. apply in_map_iff in I. destruct I as [p [<- I]]. destruct (PP p I) as [? [? _]]. auto. }
  { rewrite f0_R, Rplus_0_l, Lq. fold T A. rewrite (bp 72 4722366482869645213696 eq_refl).
    assert (T * A <= 9 * 2) by (apply Rmult_le_compat; lra). lra. }
  rewrite f0_R, Rplus_0_l, Lq in RO. fold T A B in RO.
  split; [exact FO|]. set (O := B2R (fold_left fadd (map f qs) f0)) in *. change (Rabs (O - mu) <= e). apply Rabs_le_iff.
  assert (KK : 0 < K) by lra.
  unfold e. clearbody mu O T A B Q K. clear - RO Tlo Thi T0 QB QA Q0 Q2 PU PD A1 A2 B0 B1 KE LE HE EK HK Plo Phi Hhi.
  set (t := (2 * K + 2) * ee).
  assert (Ht : 0 < t <= / 7) by (unfold t; unfold ee in *; lra).
  assert (He : (K + 1) / 4194304 = 2 * t) by (unfold t, ee; lra).
  rewrite He.
  assert (E3 : 6 * (eta * K) <= / 2 * t).
  { assert (eta * K <= / 1125899906842624 * K) by (apply Rmult_le_compat_r; lra). unfold t, ee. lra. }
  assert (ee2 : 0 <= ee * ee <= ee * / 16) by (clear - LE; nra).
  assert (mu - 2 * t <= O <= mu + 2 * t); [|lra]. split.
  - (* lower *)
    apply Rle_trans with (2 := proj1 RO).
    assert (G1 : (mu * (1 - ee) * (1 - ee) * Q - 2 * eta * K) * B <= T * B) by (apply Rmult_le_compat_r; lra).
    apply Rle_trans with (2 := G1).
    assert (QA' : 1 - K * ee <= Q).
    { assert (Q * A * (1 - K * ee) <= Q) . { replace (Q * A * (1 - K * ee)) with (Q * (A * (1 - K * ee))) by ring. rewrite <- (Rmult_1_r Q) at 2. apply Rmult_le_compat_l; lra. }
      assert (1 * (1 - K * ee) <= Q * A * (1 - K * ee)) by (apply Rmult_le_compat_r; lra). lra. }
    set (u := K * ee) in *.
    assert (Hu : 0 <= u) by (unfold u; apply Rmult_le_pos; lra).
    assert (Et : t = 2 * u + 2 * ee) by (unfold t, u; ring).
    assert (C1 : (1 - ee) * (1 - ee) >= 1 - 2 * ee) by lra.
    assert (C2 : (1 - u) * (1 - u) >= 1 - 2 * u) by (clear; nra).
    assert (C3 : (1 - 2 * ee) * (1 - 2 * u) >= 1 - t) by (rewrite Et; clear - Hu LE; nra).
    assert (C4 : 1 - t <= (1 - ee) * (1 - ee) * (Q * B)).
    { assert ((1 - u) * (1 - u) <= Q * B) by (apply Rmult_le_compat; lra).
      assert ((1 - 2 * ee) * (1 - 2 * u) <= (1 - ee) * (1 - ee) * (Q * B)) by (apply Rmult_le_compat; lra). lra. }
    assert (C5 : mu * (1 - t) <= mu * ((1 - ee) * (1 - ee) * (Q * B))) by (apply Rmult_le_compat_l; lra).
    assert (C6 : eta * K * B <= eta * K * 1) by (apply Rmult_le_compat_l; [apply Rmult_le_pos; lra|lra]).
    assert (C7 : mu * t <= 1 * t) by (apply Rmult_le_compat_r; lra).
    lra.
  - (* upper *)
    apply Rle_trans with (1 := proj2 RO).
    assert (G1 : T * A <= (mu * (1 + ee) * (1 + ee) * Q + 3 * eta * K) * A) by (apply Rmult_le_compat_r; lra).
    apply Rle_trans with (1 := G1).
    set (u := K * ee) in *.
    assert (Hu : 0 <= u) by (unfold u; apply Rmult_le_pos; lra).
    assert (Et : t = 2 * u + 2 * ee) by (unfold t, u; ring).
    assert (QB' : Q * (1 - u) <= 1).
    { apply Rle_trans with (Q * B); [apply Rmult_le_compat_l; lra|auto]. }
    assert (C1 : (Q * A) * ((1 - u) * (1 - u)) <= 1).
    { replace (Q * A * ((1 - u) * (1 - u))) with ((Q * (1 - u)) * (A * (1 - u))) by ring.
      apply Rle_trans with (1 * 1); [|lra]. apply Rmult_le_compat; try lra.
      - apply Rmult_le_pos; lra.
      - apply Rmult_le_pos; lra. }
    assert (C2 : (1 + ee) * (1 + ee) * (1 - 2 * ee) <= 1) by (clear - LE ee2; nra).
    set (X := (1 + ee) * (1 + ee) * (Q * A)).
    assert (X0 : 0 <= X) by (unfold X; apply Rmult_le_pos; [apply Rmult_le_pos; lra|apply Rmult_le_pos; lra]).
    assert (C3 : X * ((1 - 2 * ee) * ((1 - u) * (1 - u))) <= 1).
    { unfold X. replace ((1 + ee) * (1 + ee) * (Q * A) * ((1 - 2 * ee) * ((1 - u) * (1 - u)))) with (((1 + ee) * (1 + ee) * (1 - 2 * ee)) * ((Q * A) * ((1 - u) * (1 - u)))) by ring.
      apply Rle_trans with (1 * 1); [|lra]. apply Rmult_le_compat; try lra.
      - apply Rmult_le_pos; [apply Rmult_le_pos; lra|lra].
      - apply Rmult_le_pos; [apply Rmult_le_pos; lra|apply Rmult_le_pos; lra]. }
    assert (C4 : 1 - t <= (1 - 2 * ee) * ((1 - u) * (1 - u))).
    { assert (1 - 2 * u <= (1 - u) * (1 - u)) by (clear; nra).
      assert ((1 - 2 * ee) * (1 - 2 * u) <= (1 - 2 * ee) * ((1 - u) * (1 - u))) by (apply Rmult_le_compat_l; lra).
      rewrite Et. clear - H H0 Hu LE. nra. }
    assert (C5 : X * (1 - t) <= 1).
    { apply Rle_trans with (2 := C3). apply Rmult_le_compat_l; lra. }
    assert (C6 : X <= 1 + 3 / 2 * t) by (clear - C5 Ht X0; nra).
    assert (C7 : mu * X <= mu * (1 + 3 / 2 * t)) by (apply Rmult_le_compat_l; lra).
    assert (C8 : mu * (3 / 2 * t) <= 1 * (3 / 2 * t)) by (apply Rmult_le_compat_r; lra).
    assert (C9 : eta * K * A <= eta * K * 2) by (apply Rmult_le_compat_l; [apply Rmult_le_pos; lra|lra]).
    replace ((mu * (1 + ee) * (1 + ee) * Q + 3 * eta * K) * A) with (mu * X + 3 * (eta * K * A)) by (unfold X; ring).
    lra.
Qed.

(** * The bell curve *)

Lemma rel_small r : / 4611686018427387904 <= r -> (1 - ee) * r <= rnd r <= (1 + ee) * r.
Proof.
  intros H. assert (P : Rabs r = r) by (apply Rabs_pos_eq; lra).
  assert (K : Rabs (rnd r - r) <= ee * Rabs r).
  { apply rnd_rel. rewrite P. apply Rle_trans with (2 := H). apply Rle_trans with (bpow radix2 (-62)); [apply bpow_le; lia|].
    rewrite bpow_neg. change (Z.pow_pos 2 62) with 4611686018427387904%Z. lra. }
  rewrite P in K. apply Rabs_le_inv in K. lra.
Qed.

Lemma cube_lo : 1 - 4 * ee <= (1 - ee) * ((1 - ee) * (1 - ee)).
Proof. unfold ee. lra. Qed.
Lemma cube_hi : (1 + ee) * ((1 + ee) * (1 + ee)) <= 1 + 4 * ee.
Proof. unfold ee. lra. Qed.

(** The square of the rounded distance. *)
Lemma distance_near x y : (-500 <= x <= 500)%Z -> (-500 <= y <= 500)%Z ->
  let r := fsqrt (fadd (fmul (ofZ x) (ofZ x)) (fmul (ofZ y) (ofZ y))) in
  let n := IZR x ^ 2 + IZR y ^ 2 in
  fin (fmul r r) /\ 0 <= n <= 500000 /\ (n = 0 \/ 1 <= n) /\ n * (1 - 4 * ee) <= B2R (fmul r r) <= n * (1 + 4 * ee).
Proof.
  intros Hx Hy r n.
  destruct (ofZ_val x ltac:(lia)) as [Fx Rx]. destruct (ofZ_val y ltac:(lia)) as [Fy Ry].
  assert (En : n = IZR (x * x + y * y)) by (unfold n; rewrite plus_IZR, !mult_IZR; ring).
  assert (Hn : (0 <= x * x + y * y <= 500000)%Z) by nia.
  assert (Rn : 0 <= n <= 500000) by (rewrite En; split; apply IZR_le; lia).
  destruct (fmul_exact (ofZ x) (ofZ x) Fx Fx) as [F1 E1].
  { rewrite Rx, <- mult_IZR. apply fmt_IZR. nia. }
  destruct (fmul_exact (ofZ y) (ofZ y) Fy Fy) as [F2 E2].
  { rewrite Ry, <- mult_IZR. apply fmt_IZR. nia. }
  destruct (fadd_exact _ _ F1 F2) as [F3 E3].
  { rewrite E1, E2, Rx, Ry, <- !mult_IZR, <- plus_IZR. apply fmt_IZR. lia. }
  rewrite E1, E2, Rx, Ry in E3. replace (IZR x * IZR x + IZR y * IZR y) with n in E3 by (unfold n; ring).
  assert (S1 : 0 <= sqrt n <= 1024).
  { split; [apply sqrt_pos|]. replace 1024 with (sqrt (1024 * 1024)) by (apply sqrt_square; lra). apply sqrt_le_1_alt. lra. }
  destruct (fsqrt_num _ 0 1024 F3 ltac:(rewrite E3; lra)) as [[F4 R4] E4]; [apply fmt_0|apply fmt_IZR; lia|rewrite E3; lra|].
  fold r in F4, R4, E4. rewrite E3 in E4.
  destruct (fmul_num r r 0 1048576 F4 F4) as [[F5 R5] E5]; [apply fmt_0|apply fmt_IZR; lia|clear - R4; nra|].
  split; [auto|]. split; [auto|].
  assert (Zn : n = 0 \/ 1 <= n).
  { rewrite En. destruct (Z.eq_dec (x * x + y * y) 0) as [-> | N]; [left; reflexivity|right; apply IZR_le; lia]. }
  split; [auto|]. destruct Zn as [Zn | Zn].
  - assert (Z4 : B2R r = 0) by (rewrite E4, Zn, sqrt_0; apply rnd_0).
    assert (Z5 : B2R (fmul r r) = 0) by (rewrite E5, Z4, Rmult_0_l; apply rnd_0). rewrite Z5, Zn. lra.
  - assert (S2 : 1 <= sqrt n) by (rewrite <- sqrt_1; apply sqrt_le_1_alt; auto).
    pose proof (rel_small (sqrt n) ltac:(lra)) as B1. rewrite <- E4 in B1.
    assert (Q : sqrt n * sqrt n = n) by (apply sqrt_sqrt; lra).
    set (q := sqrt n) in *. set (v := B2R r) in *.
    assert (LE : 0 < ee <= / 16777216) by (unfold ee; lra).
    assert (L1 : (1 - ee) * (1 - ee) * n <= v * v <= (1 + ee) * (1 + ee) * n).
    { rewrite <- Q. assert (0 <= (1 - ee) * q) by (apply Rmult_le_pos; lra). split.
      - replace ((1 - ee) * (1 - ee) * (q * q)) with (((1 - ee) * q) * ((1 - ee) * q)) by ring. apply Rmult_le_compat; lra.
      - replace ((1 + ee) * (1 + ee) * (q * q)) with (((1 + ee) * q) * ((1 + ee) * q)) by ring. apply Rmult_le_compat; lra. }
    assert (L2 : / 4 <= v * v).
    { apply Rle_trans with (2 := proj1 L1). unfold ee. lra. }
    pose proof (rel_small (v * v) ltac:(lra)) as B2. rewrite <- E5 in B2.
    pose proof cube_lo as C1. pose proof cube_hi as C2. split.
    + apply Rle_trans with (2 := proj1 B2). apply Rle_trans with ((1 - ee) * ((1 - ee) * (1 - ee) * n)); [|apply Rmult_le_compat_l; lra].
      replace ((1 - ee) * ((1 - ee) * (1 - ee) * n)) with (n * ((1 - ee) * ((1 - ee) * (1 - ee)))) by ring. apply Rmult_le_compat_l; lra.
    + apply Rle_trans with (1 := proj2 B2). apply Rle_trans with ((1 + ee) * ((1 + ee) * (1 + ee) * n)); [apply Rmult_le_compat_l; lra|].
      replace ((1 + ee) * ((1 + ee) * (1 + ee) * n)) with (n * ((1 + ee) * ((1 + ee) * (1 + ee)))) by ring. apply Rmult_le_compat_l; lra.
Qed.

(** The rounded 2 sigma^2. *)
Lemma gaussian_s_near sigma : fin sigma -> sig_lo <= B2R sigma <= sig_hi ->
  2 * B2R sigma ^ 2 * (1 - ee) <= B2R (gaussian_s sigma) <= 2 * B2R sigma ^ 2 * (1 + ee) /\
  / 549755813888 <= 2 * B2R sigma ^ 2 <= 2199023255552.
Proof.
  intros F H. unfold sig_lo, sig_hi, gaussian_s in *.
  assert (E : fmt (2 * B2R sigma)).
  { destruct (fmt_B2R sigma) as [G _]. split.
    - rewrite Rmult_comm. change 2 with (bpow radix2 1). apply generic_format_FLT. apply FLT_format_generic in G; [|reflexivity].
      destruct G as [g G1 G2 G3]. exists (Float radix2 (Fnum g) (Fexp g + 1)).
      + rewrite G1. unfold F2R. cbn [Fnum Fexp]. rewrite bpow_plus. ring.
      + exact G2.
      + cbn [Fexp]. lia.
    - rewrite Rabs_pos_eq by lra. apply Rle_lt_trans with (bpow radix2 30); [|apply bpow_lt; lia].
      rewrite (bp 30 1073741824 eq_refl). lra. }
  destruct (fmul_exact f2 sigma) as [F1 E1]; auto with fin; [rewrite f2_R; auto|]. rewrite f2_R in E1.
  assert (Pr : 2 * B2R sigma * B2R sigma <= 2199023255552 /\ / 549755813888 <= 2 * B2R sigma * B2R sigma).
  { split; [|]; clear - H; nra. }
  destruct (fmul_ok (fmul f2 sigma) sigma (bpow radix2 72)) as [F2 E2]; auto using fmt_2_72.
  { rewrite E1, Rabs_pos_eq by lra. apply Rle_trans with (bpow radix2 45); [|apply bpow_le; lia].
    rewrite (bp 45 35184372088832 eq_refl). lra. }
  rewrite E1 in E2. rewrite E2.
  pose proof (rel_small (2 * B2R sigma * B2R sigma) ltac:(lra)) as R. lra.
Qed.

Lemma exp_neg_near t t' : 0 <= t -> t * (1 - 8 * ee) <= t' <= t * (1 + 8 * ee) -> Rabs (exp (- t') - exp (- t)) <= 16 * ee.
Proof.
  intros Ht H. assert (LE : 0 < ee <= / 16777216) by (unfold ee; lra).
  assert (Half : t * exp (- (t / 2)) <= 2).
  { assert (P : 0 < exp (t / 2)) by apply exp_pos. assert (G : t / 2 <= exp (t / 2)) by (pose proof (exp_ineq1_le (t / 2)); lra).
    rewrite exp_Ropp. apply Rmult_le_reg_r with (exp (t / 2)); [auto|]. rewrite Rmult_assoc, Rinv_l, Rmult_1_r by lra. lra. }
  assert (K : forall b c, t / 2 <= b -> b <= c -> c - b <= 8 * ee * t -> Rabs (exp (- b) - exp (- c)) <= 16 * ee).
  { intros b c Hb Hc Hd.
    assert (M : exp (- c) <= exp (- b)). { destruct (Rle_lt_or_eq_dec b c Hc) as [G | ->]; [apply Rlt_le, exp_increasing; lra|lra]. }
    rewrite Rabs_pos_eq by lra.
    assert (E : exp (- c) = exp (- b) * exp (- (c - b))) by (rewrite <- exp_plus; f_equal; ring).
    assert (I : 1 - (c - b) <= exp (- (c - b))) by (pose proof (exp_ineq1_le (- (c - b))); lra).
    assert (P : 0 < exp (- b)) by apply exp_pos.
    assert (Q : exp (- b) <= exp (- (t / 2))). { destruct (Rle_lt_or_eq_dec _ _ Hb) as [G | <-]; [apply Rlt_le, exp_increasing; lra|lra]. }
    assert (S1 : exp (- b) - exp (- c) <= exp (- b) * (c - b)).
    { rewrite E. assert (exp (- b) * (1 - (c - b)) <= exp (- b) * exp (- (c - b))) by (apply Rmult_le_compat_l; lra). lra. }
    assert (S2 : exp (- b) * (c - b) <= exp (- (t / 2)) * (8 * ee * t)) by (apply Rmult_le_compat; lra).
    assert (S3 : 8 * ee * (t * exp (- (t / 2))) <= 8 * ee * 2) by (apply Rmult_le_compat_l; lra). lra. }
  assert (t * (8 * ee) <= t * / 2) by (apply Rmult_le_compat_l; lra).
  destruct (Rle_dec t' t) as [G | G].
  - apply K; lra.
  - rewrite Rabs_minus_sym. apply K; lra.
Qed.

Lemma eta_tiny : 0 < eta <= / 1267650600228229401496703205376.
Proof.
  unfold eta. split; [apply bpow_gt_0|]. apply Rle_trans with (bpow radix2 (-100)); [apply bpow_le; lia|].
  rewrite bpow_neg. change (Z.pow_pos 2 100) with 1267650600228229401496703205376%Z. lra.
Qed.

Lemma argument_near sigma x y : fin sigma -> sig_lo <= B2R sigma <= sig_hi ->
  (-500 <= x <= 500)%Z -> (-500 <= y <= 500)%Z ->
  let r := fsqrt (fadd (fmul (ofZ x) (ofZ x)) (fmul (ofZ y) (ofZ y))) in
  let a := fdiv (fneg (fmul r r)) (gaussian_s sigma) in
  Rabs (exp (B2R a) - bell_curve (B2R sigma) x y) <= 16 * ee.
Proof.
  intros Fs Hs Hx Hy r a. assert (LE : 0 < ee <= / 16777216) by (unfold ee; lra).
  destruct (gaussian_s_range sigma Fs Hs) as [Fg [Rg _]]. destruct (gaussian_s_near sigma Fs Hs) as [Ng HT].
  destruct (distance_near x y Hx Hy) as [Fd [Hn [Zn Nd]]]. fold r in Fd, Nd.
  set (n := IZR x ^ 2 + IZR y ^ 2) in *. set (T := 2 * B2R sigma ^ 2) in *.
  assert (RS : B2R (fneg (fmul r r)) / B2R (gaussian_s sigma) = - (B2R (fmul r r) / B2R (gaussian_s sigma))) by (rewrite fneg_R; unfold Rdiv; ring).
  set (v := B2R (fmul r r)) in *. unfold s_lo, s_hi in Rg.
  assert (IP : 0 < / T) by (apply Rinv_0_lt_compat; lra).
  assert (Q : n / T * (1 - 6 * ee) <= v / B2R (gaussian_s sigma) <= n / T * (1 + 6 * ee)).
  { set (S := B2R (gaussian_s sigma)) in *. assert (0 < S) by lra.
    assert (G : 0 <= n / T) by (apply Rmult_le_pos; lra). assert (En : n = n / T * T) by (unfold Rdiv; rewrite Rmult_assoc, Rinv_l; lra).
    set (q := n / T) in *.
    assert (ee2 : 0 <= ee * ee <= ee * / 16) by (clear - LE; nra). split.
    - apply Rmult_le_reg_r with S; [auto|]. replace (v / S * S) with v by (field; lra).
      apply Rle_trans with (2 := proj1 Nd). rewrite En.
      assert (q * (1 - 6 * ee) * S <= q * (1 - 6 * ee) * (T * (1 + ee))) by (apply Rmult_le_compat_l; [apply Rmult_le_pos; lra|lra]).
      assert (0 <= q * T) by (apply Rmult_le_pos; lra).
      assert (q * T * ((1 - 6 * ee) * (1 + ee)) <= q * T * (1 - 4 * ee)) by (apply Rmult_le_compat_l; lra). lra.
    - apply Rmult_le_reg_r with S; [auto|]. replace (v / S * S) with v by (field; lra).
      apply Rle_trans with (1 := proj2 Nd). rewrite En at 1.
      assert (q * (1 + 6 * ee) * (T * (1 - ee)) <= q * (1 + 6 * ee) * S) by (apply Rmult_le_compat_l; [apply Rmult_le_pos; lra|lra]).
      assert (0 <= q * T) by (apply Rmult_le_pos; lra).
      assert (q * T * (1 + 4 * ee) <= q * T * ((1 + 6 * ee) * (1 - ee))) by (apply Rmult_le_compat_l; lra). lra. }
  assert (Gq : 0 <= n / T) by (apply Rmult_le_pos; lra).
  assert (Ea : B2R a = - rnd (v / B2R (gaussian_s sigma))).
  { unfold a. destruct (fdiv_num (fneg (fmul r r)) (gaussian_s sigma) (- bpow radix2 72) 0) as [_ E].
    - auto with fin.
    - auto.
    - lra.
    - apply fmt_opp, fmt_2_72.
    - apply fmt_0.
    - rewrite RS. rewrite (bp 72 4722366482869645213696 eq_refl).
      assert (n / T <= 500000 * 549755813888).
      { unfold Rdiv. apply Rmult_le_compat; try lra. rewrite <- (Rinv_inv 549755813888). apply Rinv_le_contravar; lra. }
      assert (n / T * (1 + 6 * ee) <= n / T * 2) by (apply Rmult_le_compat_l; lra).
      assert (0 <= n / T * (1 - 6 * ee)) by (apply Rmult_le_pos; lra). lra.
    - rewrite E, RS. apply rnd_opp. }
  unfold bell_curve. fold n T. replace (- n / T) with (- (n / T)) by (unfold Rdiv; ring). rewrite Ea.
  apply exp_neg_near; [auto|]. set (q := v / B2R (gaussian_s sigma)) in *.
  assert (ee2 : 0 <= ee * ee <= ee * / 16) by (clear - LE; nra).
  destruct Zn as [Zn | Zn].
  - assert (n / T = 0) by (rewrite Zn; unfold Rdiv; lra). rewrite H in Q |- *. assert (Zq : q = 0) by lra. rewrite Zq, rnd_0. lra.
  - assert (/ 2199023255552 <= n / T).
    { unfold Rdiv. apply Rle_trans with (1 * / T); [rewrite Rmult_1_l; apply Rinv_le_contravar; lra|apply Rmult_le_compat_r; lra]. }
    assert (/ 4398046511104 <= q).
    { apply Rle_trans with (2 := proj1 Q). apply Rle_trans with (n / T * / 2); [lra|apply Rmult_le_compat_l; lra]. }
    pose proof (rel_small q ltac:(lra)) as B.
    set (p := n / T) in *. split.
    + apply Rle_trans with (2 := proj1 B). apply Rle_trans with ((1 - ee) * (p * (1 - 6 * ee))); [|apply Rmult_le_compat_l; lra].
      assert (p * (1 - 8 * ee) <= p * ((1 - ee) * (1 - 6 * ee))) by (apply Rmult_le_compat_l; lra). lra.
    + apply Rle_trans with (1 := proj2 B). apply Rle_trans with ((1 + ee) * (p * (1 + 6 * ee))); [apply Rmult_le_compat_l; lra|].
      assert (p * ((1 + ee) * (1 + 6 * ee)) <= p * (1 + 8 * ee)) by (apply Rmult_le_compat_l; lra). lra.
Qed.

(** Every computed value of the bell, up to a common factor. *)
Lemma bell_near L sigma x y : exp_ok L -> accurate_exp L -> fin sigma -> sig_lo <= B2R sigma <= sig_hi ->
  (-500 <= x <= 500)%Z -> (-500 <= y <= 500)%Z ->
  Rabs (B2R (fmul fPI (gaussian_s sigma)) * B2R (gaussian_value L (gaussian_s sigma) x y) - bell_curve (B2R sigma) x y) <= / 524288.
Proof.
  intros [X1 X2] AE Fs Hs Hx Hy. assert (LE : 0 < ee <= / 16777216) by (unfold ee; lra).
  destruct (gaussian_s_range sigma Fs Hs) as [Fg [Rg _]].
  pose proof (argument_near sigma x y Fs Hs Hx Hy) as Na. cbv zeta in Na.
  destruct (gauss_denominator _ Fg Rg) as [FD RD].
  destruct (gauss_argument _ x y Fg Rg ltac:(lia) ltac:(lia)) as [Fa [Ra _]].
  unfold gaussian_value. cbv zeta. set (a := fdiv (fneg _) (gaussian_s sigma)) in *.
  destruct (AE a Fa Ra) as [FE NE].
  assert (E0 : num 0 1 (fexp_ L a)).
  { apply in01_num. apply X1. apply fle_R; [exact Fa|apply f0_fin|]. rewrite f0_R. exact Ra. }
  destruct E0 as [_ E0]. set (E := fexp_ L a) in *. set (D := fmul fPI (gaussian_s sigma)) in *. unfold s_lo, s_hi in Rg.
  assert (PD : 0 < B2R D) by lra.
  assert (ID : 0 < / B2R D <= 1099511627776).
  { split; [apply Rinv_0_lt_compat; auto|]. rewrite <- (Rinv_inv 1099511627776). apply Rinv_le_contravar; lra. }
  assert (RQ : 0 <= B2R E / B2R D <= 1 * 1099511627776).
  { unfold Rdiv. split; [apply Rmult_le_pos; lra|apply Rmult_le_compat; lra]. }
  destruct (fdiv_num E D 0 (bpow radix2 72)) as [_ EQ]; auto.
  { lra. } { apply fmt_0. } { apply fmt_2_72. } { rewrite (bp 72 4722366482869645213696 eq_refl). lra. }
  rewrite EQ. pose proof (rnd_any (B2R E / B2R D) (proj1 RQ)) as B.
  assert (EE : B2R E = B2R E / B2R D * B2R D) by (unfold Rdiv; rewrite Rmult_assoc, Rinv_l; lra).
  set (q := B2R E / B2R D) in *. set (w := rnd q) in *.
  pose proof eta_tiny as HT.
  assert (Et : eta * B2R D <= / 1267650600228229401496703205376 * 17592186044416) by (apply Rmult_le_compat; lra).
  assert (B1 : B2R D * (q * (1 - ee) - eta) <= B2R D * w <= B2R D * (q * (1 + ee) + eta)).
  { split; apply Rmult_le_compat_l; lra. }
  replace (B2R D * (q * (1 - ee) - eta)) with ((q * B2R D) * (1 - ee) - eta * B2R D) in B1 by ring.
  replace (B2R D * (q * (1 + ee) + eta)) with ((q * B2R D) * (1 + ee) + eta * B2R D) in B1 by ring.
  rewrite <- EE in B1.
  assert (G : 0 <= B2R E * ee <= 1 * ee) by (split; [apply Rmult_le_pos; lra|apply Rmult_le_compat_r; lra]).
  apply Rabs_le_iff in NE. apply Rabs_le_iff in Na. apply Rabs_le_iff. unfold ee in *. lra.
Qed.

(** * The mean *)

Lemma sum_of_rsum {A} (f : A -> R) l : sum_of f l = rsum (map f l).
Proof. induction l as [|a l IH]; [reflexivity|]. cbn [sum_of fold_right map rsum]. fold (sum_of f l). rewrite IH. reflexivity. Qed.
Lemma sum_of_map {A B} (f : B -> R) (g : A -> B) l : sum_of f (map g l) = sum_of (fun a => f (g a)) l.
Proof. rewrite !sum_of_rsum, map_map. reflexivity. Qed.

Lemma sum_near {A} (f g : A -> R) l d : (forall a, In a l -> Rabs (f a - g a) <= d) ->
  Rabs (sum_of f l - sum_of g l) <= INR (length l) * d.
Proof.
  induction l as [|a l IH]; intros H.
  - cbn [sum_of fold_right length INR]. rewrite Rminus_0_r, Rabs_R0. lra.
  - cbn [sum_of fold_right]. fold (sum_of f l) (sum_of g l). change (length (a :: l)) with (S (length l)). rewrite S_INR.
    pose proof (H a (or_introl eq_refl)) as Ha. assert (Hl := IH (fun x Hx => H x (or_intror Hx))).
    apply Rabs_le_iff in Ha. apply Rabs_le_iff in Hl. apply Rabs_le_iff. lra.
Qed.

(** Quotients of nearby sums. *)
Lemma ratio_near A B A' B' d : 1 <= B -> 0 < B' -> 0 <= A' <= B' -> Rabs (A' - A) <= d -> Rabs (B' - B) <= d ->
  Rabs (A' / B' - A / B) <= 2 * d.
Proof.
  intros HB HB' HA NA NB. assert (D0 : 0 <= d) by (pose proof (Rabs_pos (A' - A)); lra).
  set (q := A' / B'). assert (Eq : A' = q * B') by (unfold q; field; lra).
  assert (Q : 0 <= q <= 1).
  { unfold q. split; [apply Rmult_le_pos; [lra|apply Rlt_le, Rinv_0_lt_compat; auto]|].
    apply Rmult_le_reg_r with B'; [auto|]. unfold Rdiv. rewrite Rmult_assoc, Rinv_l; lra. }
  replace (q - A / B) with ((q * (B - B') + (A' - A)) / B) by (rewrite Eq; field; lra).
  unfold Rdiv. rewrite Rabs_mult, (Rabs_pos_eq (/ B)) by (apply Rlt_le, Rinv_0_lt_compat; lra).
  assert (I : 0 < / B <= 1) by (split; [apply Rinv_0_lt_compat; lra|rewrite <- Rinv_1; apply Rinv_le_contravar; lra]).
  assert (N : Rabs (q * (B - B') + (A' - A)) <= 2 * d).
  { apply Rle_trans with (1 := Rabs_triang _ _). rewrite Rabs_mult, (Rabs_pos_eq q), (Rabs_minus_sym B B') by lra.
    assert (q * Rabs (B' - B) <= 1 * d) by (apply Rmult_le_compat; try lra; apply Rabs_pos). lra. }
  rewrite <- (Rmult_1_r (2 * d)). apply Rmult_le_compat; try lra. apply Rabs_pos.
Qed.

Lemma combine_map {A B C} (f : A -> B) (g : A -> C) l : combine (map f l) (map g l) = map (fun a => (f a, g a)) l.
Proof. induction l as [|a l IH]; [reflexivity|]. cbn [map combine]. now rewrite IH. Qed.
Lemma map_res_all {A B} (f : A -> res B) g l : (forall a, In a l -> f a = Ok (g a)) -> map_res f l = Ok (map g l).
Proof.
  induction l as [|a l IH]; intros H; [reflexivity|]. cbn [map_res map]. rewrite (H a (or_introl eq_refl)). cbn [bind].
  rewrite IH by (intros; apply H; right; auto). reflexivity.
Qed.

Lemma neighbourhood_edge m (b : PixelBuffer Rgb) w h x y : valid b -> inside b x y ->
  neighbourhood m b w h x y = Ok (map (fun o => edge_pixel b (x - w / 2 + fst o) (y - h / 2 + snd o)) (row_major w h)).
Proof.
  intros V I. pose proof (inside_nonempty b x y I) as N. unfold neighbourhood. apply map_res_all. intros [tx ty] _. cbn [fst snd].
  rewrite <- (edge_read m b (x - w / 2 + tx) (y - h / 2 + ty) V N). symmetry. apply (get_pixel_clamped_eq m b); auto.
Qed.

Lemma bell_range sigma i j : 0 < sigma -> 0 < bell_curve sigma i j <= 1.
Proof.
  intros H. unfold bell_curve. split; [apply exp_pos|]. rewrite <- exp_0.
  assert (0 < 2 * sigma ^ 2) by (apply Rmult_lt_0_compat; [lra|apply pow_lt; auto]).
  assert (- (IZR i ^ 2 + IZR j ^ 2) / (2 * sigma ^ 2) <= 0).
  { unfold Rdiv. rewrite Ropp_mult_distr_l_reverse. assert (0 <= IZR i ^ 2) by apply pow2_ge_0. assert (0 <= IZR j ^ 2) by apply pow2_ge_0.
    assert (0 < / (2 * sigma ^ 2)) by (apply Rinv_0_lt_compat; auto).
    assert (0 <= (IZR i ^ 2 + IZR j ^ 2) * / (2 * sigma ^ 2)) by (apply Rmult_le_pos; lra). lra. }
  destruct H1 as [H1 | ->]; [apply Rlt_le, exp_increasing; auto|lra].
Qed.

Lemma around_In r o : (0 <= r)%Z -> In o (around r) -> (- r <= fst o <= r)%Z /\ (- r <= snd o <= r)%Z.
Proof.
  intros Hr H. unfold around in H. apply in_map_iff in H. destruct H as [[i j] [<- I]]. apply row_major_In in I. cbn [fst snd]. lia.
Qed.
Lemma around_center r : (0 <= r)%Z -> In (0, 0)%Z (around r).
Proof.
  intros Hr. unfold around. apply in_map_iff. exists (r, r). split; [f_equal; lia|]. apply row_major_In. lia.
Qed.
Lemma around_length r : (0 <= r)%Z -> INR (length (around r)) = IZR ((2 * r + 1) * (2 * r + 1)).
Proof. intros Hr. unfold around. rewrite map_length. apply row_major_INR. lia. Qed.

Lemma around_map {A} (f : Z -> Z -> A) r : (0 <= r)%Z ->
  map (fun o : Z * Z => f (fst o - (2 * r + 1) / 2) (snd o - (2 * r + 1) / 2))%Z (row_major (2 * r + 1) (2 * r + 1)) = map (fun o => f (fst o) (snd o)) (around r).
Proof.
  intros Hr. assert (O : ((2 * r + 1) / 2 = r)%Z) by (symmetry; apply (Z.div_unique _ 2 _ 1); lia).
  rewrite O. unfold around. rewrite map_map. apply map_ext. intros [i j]. reflexivity.
Qed.

Lemma gauss_vals_around L r sigma : (0 <= r)%Z ->
  gauss_vals L (2 * r + 1) sigma = map (fun o => gaussian_value L (gaussian_s sigma) (fst o) (snd o)) (around r).
Proof.
  intros Hr. rewrite gauss_vals_eq, <- (around_map (fun i j => gaussian_value L (gaussian_s sigma) i j)) by auto.
  apply map_ext. intros [i j]. reflexivity.
Qed.
Lemma neighbourhood_around m (b : PixelBuffer Rgb) r x y : valid b -> inside b x y -> (0 <= r)%Z ->
  neighbourhood m b (2 * r + 1) (2 * r + 1) x y = Ok (map (fun o => edge_pixel b (x + fst o) (y + snd o)) (around r)).
Proof.
  intros V I Hr. rewrite neighbourhood_edge by auto. rewrite <- (around_map (fun i j => edge_pixel b (x + i) (y + j))) by auto.
  f_equal. apply map_ext. intros [i j]. cbn [fst snd]. f_equal; lia.
Qed.

Lemma sigma_real r sigma : (0 <= r <= 32767)%Z -> B2R (sigma_or_default sigma (2 * r + 1)) = blur_sigma sigma r.
Proof. intros Hr. destruct sigma as [s|]; [reflexivity|]. apply (default_sigma_val r Hr). Qed.

Lemma sum_scale {A} (f : A -> R) k l : sum_of (fun a => k * f a) l = k * sum_of f l.
Proof. induction l as [|a l IH]; cbn [sum_of fold_right]; [lra|]. fold (sum_of (fun a => k * f a) l) (sum_of f l). rewrite IH. lra. Qed.
Lemma sum_nonneg {A} (f : A -> R) l : (forall a, In a l -> 0 <= f a) -> 0 <= sum_of f l.
Proof. intros H. rewrite sum_of_rsum. apply rsum_nonneg. intros r Hr. apply in_map_iff in Hr. destruct Hr as [a [<- I]]. auto. Qed.
Lemma sum_mono {A} (f g : A -> R) l : (forall a, In a l -> f a <= g a) -> sum_of f l <= sum_of g l.
Proof. intros H. rewrite !sum_of_rsum. apply rsum_le. auto. Qed.
Lemma sum_In {A} (f : A -> R) l a : (forall a, In a l -> 0 <= f a) -> In a l -> f a <= sum_of f l.
Proof.
  intros H I. rewrite sum_of_rsum. apply rsum_In; [|apply (in_map f); auto].
  intros r Hr. apply in_map_iff in Hr. destruct Hr as [x [<- J]]. auto.
Qed.

(** The weighted mean of values in [0,1]. *)
Lemma bell_mean_near L (sigma : f32) r (v : Z * Z -> R) : exp_ok L -> accurate_exp L -> fin sigma -> sig_lo <= B2R sigma <= sig_hi -> (0 <= r <= 500)%Z ->
  (forall o, In o (around r) -> 0 <= v o <= 1) -> (forall o, In o (around r) -> 0 <= B2R (gaussian_value L (gaussian_s sigma) (fst o) (snd o))) ->
  0 < sum_of (fun o => B2R (gaussian_value L (gaussian_s sigma) (fst o) (snd o))) (around r) ->
  Rabs (sum_of (fun o => B2R (gaussian_value L (gaussian_s sigma) (fst o) (snd o)) * v o) (around r) /
        sum_of (fun o => B2R (gaussian_value L (gaussian_s sigma) (fst o) (snd o))) (around r) -
        sum_of (fun o => bell_curve (B2R sigma) (fst o) (snd o) * v o) (around r) /
        sum_of (fun o => bell_curve (B2R sigma) (fst o) (snd o)) (around r)) <= 2 * (INR (length (around r)) * / 524288).
Proof.
  intros X AE Fs Hs Hr Hv Hg Sg.
  set (g := fun o : Z * Z => B2R (gaussian_value L (gaussian_s sigma) (fst o) (snd o))) in *.
  set (h := fun o : Z * Z => bell_curve (B2R sigma) (fst o) (snd o)).
  destruct (gaussian_s_range sigma Fs Hs) as [Fg [Rg _]]. destruct (gauss_denominator _ Fg Rg) as [_ RD].
  set (D := B2R (fmul fPI (gaussian_s sigma))) in *. unfold s_lo, s_hi in Rg. assert (PD : 0 < D) by lra.
  assert (Hs0 : 0 < B2R sigma) by (unfold sig_lo in Hs; lra).
  assert (N : forall o, In o (around r) -> Rabs (D * g o - h o) <= / 524288).
  { intros o I. apply around_In in I; [|lia]. apply (bell_near L sigma); auto; lia. }
  change (Rabs (sum_of (fun o => g o * v o) (around r) / sum_of g (around r) - sum_of (fun o => h o * v o) (around r) / sum_of h (around r)) <= 2 * (INR (length (around r)) * / 524288)).
  set (l := around r) in *.
  replace (sum_of (fun o => g o * v o) l / sum_of g l) with (sum_of (fun o => D * g o * v o) l / sum_of (fun o => D * g o) l).
  2:{ rewrite (sum_scale g D). assert (E : sum_of (fun o => D * g o * v o) l = D * sum_of (fun o => g o * v o) l).
      { rewrite <- sum_scale, !sum_of_rsum. f_equal. apply map_ext. intros a. ring. }
      rewrite E. field. split; lra. }
  assert (Bh : forall o, 0 < h o <= 1) by (intros o; apply bell_range; auto).
  apply ratio_near.
  - apply Rle_trans with (h (0, 0)%Z).
    + unfold h, bell_curve. cbn [fst snd]. replace (- (IZR 0 ^ 2 + IZR 0 ^ 2) / (2 * B2R sigma ^ 2)) with 0 by (unfold Rdiv; ring). rewrite exp_0. lra.
    + apply sum_In; [intros a _; apply Rlt_le, Bh|]. apply around_center. lia.
  - rewrite sum_scale. apply Rmult_lt_0_compat; auto.
  - split.
    + apply sum_nonneg. intros o I. pose proof (Hv o I). assert (0 <= g o) by exact (Hg o I). apply Rmult_le_pos; [apply Rmult_le_pos; lra|lra].
    + apply sum_mono. intros o I. pose proof (Hv o I). pose proof (Hg o I). rewrite <- (Rmult_1_r (D * g o)) at 2. apply Rmult_le_compat_l; [apply Rmult_le_pos; [lra|exact (Hg o I)]|lra].
  - apply sum_near. intros o I. replace (D * g o * v o - h o * v o) with ((D * g o - h o) * v o) by ring. rewrite Rabs_mult.
    pose proof (Hv o I). rewrite (Rabs_pos_eq (v o)) by lra. rewrite <- (Rmult_1_r (/ 524288)). apply Rmult_le_compat; try lra; [apply Rabs_pos|apply N; auto].
  - apply sum_near. exact N.
Qed.

Lemma blur_real L m (b : PixelBuffer Rgb) r sigma pick : exp_ok L -> accurate_exp L -> valid b ->
  (0 <= r <= 500)%Z -> sigma_ok r sigma -> channel pick -> (forall c, In c (data b) -> num 0 1 (pick c)) ->
  exists out, gaussian_blur L m b r sigma = Ok out /\ valid out /\ width out = width b /\ height out = height b /\
    forall x y, inside b x y -> exists c, get_pixel m out x y = Ok c /\
      close (IZR ((2 * r + 1) * (2 * r + 1)) / 131072)
        (bell_mean (blur_sigma sigma r) r (fun i j => B2R (pick (edge_pixel b (x + i) (y + j))))) (pick c).
Proof.
  intros X AE V Hr Hs Cp Hc.
  destruct (sigma_ok_range r sigma ltac:(lia) Hs) as [Fs Rs]. cbv zeta in Fs, Rs.
  rewrite <- sigma_real by lia. destruct (blur_conv L m b r sigma V ltac:(lia)) as [out [E [Vo [W [H P]]]]].
  set (sg := sigma_or_default sigma (2 * r + 1)) in *.
  destruct (gaussian_s_range _ Fs Rs) as [Fg [Rg _]].
  destruct (gauss_vals_range L r _ X ltac:(lia) Fg Rg) as [Vm [V1 [V2 V3]]].
  exists out. split; [auto|]. split; [auto|]. split; [auto|]. split; [auto|].
  intros x y I. destruct (P x y I) as [ps [Hps Hp]]. eexists. split; [exact Hp|].
  rewrite weighted_sum_channel by auto. rewrite (neighbourhood_around m b r x y V I ltac:(lia)) in Hps. apply Ok_inj in Hps.
  rewrite gauss_vals_around in * by lia.
  set (l := around r) in *. set (g := fun o : Z * Z => gaussian_value L (gaussian_s sg) (fst o) (snd o)) in *.
  assert (Lk : INR (length l) = IZR ((2 * r + 1) * (2 * r + 1))) by (apply around_length; lia).
  assert (N2 : 1 <= INR (length l) <= 1048576) by (rewrite Lk; split; apply IZR_le; nia).
  pose proof (inside_nonempty b x y I) as Ne.
  assert (Hps' : forall c, In c ps -> num 0 1 (pick c)).
  { intros c Ic. apply Hc. subst ps. apply in_map_iff in Ic. destruct Ic as [o [<- _]]. apply edge_In; auto. }
  assert (W' : close ((INR (length (map g l)) + 1) / 4194304)
    (rsum (map (fun p => B2R (fst p) * B2R (pick (snd p))) (combine (map g l) ps)) / rsum (map B2R (map g l)))
    (weighted_channel pick (combine (map (fun v => fdiv v (fold_left fadd (map g l) f0)) (map g l)) ps))).
  { apply (weighted_lemma pick (map g l) ps Vm); auto.
    - subst ps. rewrite !map_length. reflexivity.
    - rewrite map_length. auto.
    - unfold s_lo, s_hi in Rg.
      assert (I1 : / (2 * B2R (gaussian_s sg)) <= / (2 * / 1099511627776)) by (apply Rinv_le_contravar; lra).
      assert (I2 : / (5 * 4398046511104) <= / (5 * B2R (gaussian_s sg))) by (apply Rinv_le_contravar; lra).
      lra. }
  destruct W' as [F B]. split; [exact F|].
  rewrite map_length in B. rewrite <- Lk.
  set (v := fun o : Z * Z => B2R (pick (edge_pixel b (x + fst o) (y + snd o)))).
  assert (E1 : rsum (map (fun p : f32 * Rgb => B2R (fst p) * B2R (pick (snd p))) (combine (map g l) ps)) = sum_of (fun o => B2R (g o) * v o) l).
  { subst ps. rewrite combine_map, map_map, sum_of_rsum. reflexivity. }
  assert (E2 : rsum (map B2R (map g l)) = sum_of (fun o => B2R (g o)) l) by (rewrite map_map, sum_of_rsum; reflexivity).
  assert (B' : Rabs (B2R (weighted_channel pick (combine (map (fun v => fdiv v (fold_left fadd (map g l) f0)) (map g l)) ps)) -
     sum_of (fun o => B2R (g o) * v o) l / sum_of (fun o => B2R (g o)) l) <= (INR (length l) + 1) / 4194304) by (rewrite <- E1, <- E2; exact B).
  assert (G0 : forall o, In o l -> 0 <= B2R (g o)) by (intros o Io; apply (V1 (g o)); apply in_map; auto).
  pose proof (bell_mean_near L sg r v X AE Fs Rs Hr) as M. fold l in M.
  assert (M' : Rabs (sum_of (fun o => B2R (g o) * v o) l / sum_of (fun o => B2R (g o)) l -
    bell_mean (B2R sg) r (fun i j => B2R (pick (edge_pixel b (x + i) (y + j))))) <= 2 * (INR (length l) * / 524288)).
  { apply M.
    - intros o Io. unfold v. apply (Hc (edge_pixel b (x + fst o) (y + snd o))). apply edge_In; auto.
    - exact G0.
    - destruct V2 as [v0 [I0 Ev]]. apply in_map_iff in I0. destruct I0 as [o [<- Io]].
      apply Rlt_le_trans with (B2R (g o)); [|apply (sum_In (fun o => B2R (g o))); auto].
      rewrite Ev. apply Rlt_le_trans with (2 := proj1 V3). apply Rinv_0_lt_compat. unfold s_lo in Rg. lra. }
  apply Rabs_le_iff in B'. apply Rabs_le_iff in M'. apply Rabs_le_iff. lra.
Qed.
