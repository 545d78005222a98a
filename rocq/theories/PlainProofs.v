(** Proofs for C114: plain areas of a drawing. *)
From Coq Require Import ZArith List Bool Lia Reals Lra Psatz.
From Flocq Require Import Core.Core IEEE754.BinarySingleNaN.
From Flocq Require Import Plus_error Relative.
From Verif Require Import Base PixelBuffer BaseLemmas BufferSpec PixelBufferProofs.
From Verif Require Import F32 Color F32Lemmas ColorSpec ColorProofs Kernel KernelSpec KernelProofs.
From Verif Require Import ComposeProofs ResampleProofs Kernel2Proofs GaussProofs Gauss2Proofs FilterProofs MeaningSpec Approx OpMeaningProofs DrawingProofs HslMeaning HslOps.
Import ListNotations.
Open Scope R_scope.

(** [average_lemma] for channels up to 2. *)
Lemma average2_lemma pick (vals : list f32) (ps : list Rgb) V lo hi :
  length vals = length ps -> (1 <= INR (length vals) <= 1048576) ->
  (forall v, In v vals -> num 0 V v) -> (exists v, In v vals /\ B2R v = V) ->
  / 100000000000000 <= V <= 1099511627776 ->
  0 <= lo -> hi <= 2 -> (forall c, In c ps -> num lo hi (pick c)) ->
  let S := fold_left fadd vals f0 in
  let e := (INR (length vals) + 1) / 2097152 in
  num (lo - e) (hi + e) (weighted_channel pick (combine (map (fun v => fdiv v S) vals) ps)).
Proof.
  intros Len HK Hv [v0 [I0 E0]] HV Plo Phi Hc S e.
  set (K := INR (length vals)) in *.
  assert (LE : 0 < ee <= / 16777216) by (unfold ee; lra).
  pose proof eta_small as HE.
  set (Sx := rsum (map B2R vals)).
  assert (Nn : forall r, In r (map B2R vals) -> 0 <= r).
  { intros r Hr. apply in_map_iff in Hr. destruct Hr as [w [<- Hw]]. apply (Hv w Hw). }
  assert (Slo : V <= Sx). { rewrite <- E0. apply rsum_In; auto. apply in_map; auto. }
  assert (Shi : Sx <= V * K).
  { unfold Sx. apply Rle_trans with (rsum (map (fun v => 0 * B2R v + V) vals)).
    - apply rsum_le. intros v I. pose proof (Hv v I) as [_ ?]. lra.
    - rewrite (rsum_lin B2R 0 V). rewrite Rmult_0_l, Rplus_0_l. apply Rle_refl. }
  assert (KE : K * ee <= / 16) by (unfold ee; lra).
  assert (PU : (1 + ee) ^ length vals * (1 - K * ee) <= 1) by (apply pow_up; fold K; split; [apply Rmult_le_pos; lra|lra]).
  assert (PD : 1 - K * ee <= (1 - ee) ^ length vals) by apply pow_dn.
  set (A := (1 + ee) ^ length vals) in *. set (B := (1 - ee) ^ length vals) in *.
  assert (A1 : 1 <= A) by (apply pow_R1_Rle; lra).
  assert (A2 : A <= 2) by (clear - PU KE A1; nra).
  assert (B0 : 0 < B) by lra.
  assert (B1 : B <= 1). { unfold B. apply Rle_trans with (1 ^ length vals); [apply pow_incr; lra|rewrite pow1; lra]. }
  assert (VK : 0 <= V * K <= 1152921504606846976) by (clear - HV HK; nra).
  destruct (fold_sum_rel vals f0 (bpow radix2 72)) as [FS RS]; [apply f0_fin|rewrite f0_R; lra| |apply fmt_2_72| |].
  { intros v I. destruct (Hv v I) as [? ?]. split; [auto|lra]. }
  { rewrite f0_R, Rplus_0_l. fold Sx A. rewrite (bp 72 4722366482869645213696 eq_refl).
    assert (0 <= Sx) by lra. assert (Sx * A <= Sx * 2) by (apply Rmult_le_compat_l; lra). lra. }
  rewrite f0_R, Rplus_0_l in RS. fold Sx A B S in RS. fold S in FS.
  assert (PS : 0 < B2R S).
  { apply Rlt_le_trans with (2 := proj1 RS). apply Rmult_lt_0_compat; lra. }
  (* ratio of the exact to the rounded sum *)
  set (Q := Sx / B2R S).
  assert (QS : Q * B2R S = Sx) by (unfold Q, Rdiv; rewrite Rmult_assoc, Rinv_l; lra).
  assert (Q0 : 0 < Q) by (apply Rdiv_lt_0_compat; lra).
  assert (QB : Q * B <= 1).
  { apply Rmult_le_reg_r with (B2R S); auto. replace (Q * B * B2R S) with ((Q * B2R S) * B) by ring. rewrite QS. lra. }
  assert (QA : 1 <= Q * A).
  { apply Rmult_le_reg_r with (B2R S); auto. replace (Q * A * B2R S) with ((Q * B2R S) * A) by ring. rewrite QS. lra. }
  (* every product *)
  set (ws := combine (map (fun v => fdiv v S) vals) ps).
  set (qs := combine vals ps).
  assert (WS : ws = map (fun p => (fdiv (fst p) S, snd p)) qs).
  { unfold ws, qs. clearbody S. clear. revert ps. induction vals as [|v vals IH]; intros [|c ps]; cbn; auto. f_equal. apply IH. }
  assert (PP : forall p, In p qs ->
    fin (fmul (fdiv (fst p) S) (pick (snd p))) /\ 0 <= B2R (fmul (fdiv (fst p) S) (pick (snd p))) /\
    lo * (1 - ee) * (1 - ee) / B2R S * B2R (fst p) - 3 * eta <= B2R (fmul (fdiv (fst p) S) (pick (snd p)))
    <= hi * (1 + ee) * (1 + ee) / B2R S * B2R (fst p) + 5 * eta).
  { intros [v c] I. cbn [fst snd].
    pose proof (in_combine_l _ _ _ _ I) as Iv. pose proof (in_combine_r _ _ _ _ I) as Ic.
    destruct (Hv v Iv) as [Fv Rv]. destruct (Hc c Ic) as [Fc Rc].
    assert (Rvs : 0 <= B2R v / B2R S <= 2).
    { assert (IP : 0 < / B2R S) by (apply Rinv_0_lt_compat; auto).
      split; [unfold Rdiv; apply Rmult_le_pos; lra|].
      apply div_le; auto. assert (/ 2 * Sx <= B2R S).
      { apply Rle_trans with (2 := proj1 RS). rewrite (Rmult_comm (/ 2)). apply Rmult_le_compat_l; lra. }
      lra. }
    destruct (fdiv_num v S 0 2) as [[Fw Rw] Ew]; auto with fmt; [lra|].
    pose proof (rnd_any _ (proj1 Rvs)) as Aw. rewrite <- Ew in Aw.
    set (w := fdiv v S) in *. set (x := B2R v / B2R S) in *.
    assert (0 <= B2R w * B2R (pick c) <= 4).
    { clear - Rw Rc Plo Phi. split; [apply Rmult_le_pos; lra|]. nra. }
    destruct (fmul_num w (pick c) 0 4) as [[Fp Rp] Ep]; auto with fmt.
    split; [auto|]. split; [lra|].
    pose proof (rnd_any _ (proj1 H)) as Ap. rewrite <- Ep in Ap.
    replace (lo * (1 - ee) * (1 - ee) / B2R S * B2R v) with (lo * (1 - ee) * (1 - ee) * x) by (unfold x; field; lra).
    replace (hi * (1 + ee) * (1 + ee) / B2R S * B2R v) with (hi * (1 + ee) * (1 + ee) * x) by (unfold x; field; lra).
    set (p := B2R (fmul w (pick c))) in *. set (y := B2R (pick c)) in *. set (z := B2R w) in *.
    clearbody x p y z. clear - Aw Ap LE HE Plo Phi Rc Rvs Rw.
    assert (hi0 : 0 <= hi) by lra.
    split.
    - assert (z * lo <= z * y) by (apply Rmult_le_compat_l; lra).
      assert (z * lo * (1 - ee) <= z * y * (1 - ee)) by (apply Rmult_le_compat_r; lra).
      assert ((x * (1 - ee) - eta) * (lo * (1 - ee)) <= z * (lo * (1 - ee))).
      { apply Rmult_le_compat_r; [apply Rmult_le_pos; lra|lra]. }
      assert (eta * (lo * (1 - ee)) <= eta * 2).
      { apply Rmult_le_compat_l; [lra|]. assert (lo * (1 - ee) <= 2 * 1) by (apply Rmult_le_compat; lra). lra. }
      lra.
    - assert (z * y <= z * hi) by (apply Rmult_le_compat_l; lra).
      assert (z * y * (1 + ee) <= z * hi * (1 + ee)) by (apply Rmult_le_compat_r; lra).
      assert (z * (hi * (1 + ee)) <= (x * (1 + ee) + eta) * (hi * (1 + ee))).
      { apply Rmult_le_compat_r; [apply Rmult_le_pos; lra|lra]. }
      assert (eta * (hi * (1 + ee)) <= eta * 4).
      { apply Rmult_le_compat_l; [lra|]. assert (hi * (1 + ee) <= 2 * 2) by (apply Rmult_le_compat; lra). lra. }
      lra. }
  rewrite weighted_channel_fold. fold ws. rewrite WS, map_map.
  set (f := fun p : f32 * Rgb => fmul (fdiv (fst p) S) (pick (snd p))) in *.
  change (map (fun x => fmul (fst (fdiv (fst x) S, snd x)) (pick (snd (fdiv (fst x) S, snd x)))) qs) with (map f qs).
  assert (Lq : length (map f qs) = length vals).
  { rewrite map_length. unfold qs. rewrite combine_length. lia. }
  set (T := rsum (map B2R (map f qs))).
  assert (MF : map B2R (map f qs) = map (fun p => B2R (f p)) qs) by apply map_map.
  assert (SQ : rsum (map (fun p : f32 * Rgb => B2R (fst p)) qs) = Sx).
  { unfold Sx. f_equal. unfold qs. clear - Len. revert ps Len.
    induction vals as [|v vals IH]; intros [|c ps] Len; cbn in *; try discriminate; auto. f_equal. apply IH. lia. }
  assert (Lqs : INR (length qs) = K). { unfold K. f_equal. rewrite map_length in Lq. auto. }
  assert (Tlo : lo * (1 - ee) * (1 - ee) * Q - 3 * eta * K <= T).
  { unfold T. rewrite MF. apply Rle_trans with (rsum (map (fun p => lo * (1 - ee) * (1 - ee) / B2R S * B2R (fst p) + - (3 * eta)) qs)).
    - rewrite (rsum_lin (fun p : f32 * Rgb => B2R (fst p))), SQ, Lqs. unfold Q. apply Req_le. field. lra.
    - apply rsum_le. intros p I. destruct (PP p I) as [_ [_ [G _]]]. apply Rle_trans with (2 := G). apply Rle_refl. }
  assert (Thi : T <= hi * (1 + ee) * (1 + ee) * Q + 5 * eta * K).
  { unfold T. rewrite MF. apply Rle_trans with (rsum (map (fun p => hi * (1 + ee) * (1 + ee) / B2R S * B2R (fst p) + 5 * eta) qs)).
    - apply rsum_le. intros p I. destruct (PP p I) as [_ [_ [_ G]]]. apply Rle_trans with (1 := G). apply Rle_refl.
    - rewrite (rsum_lin (fun p : f32 * Rgb => B2R (fst p))), SQ, Lqs. unfold Q. apply Req_le. field. lra. }
  assert (T0 : 0 <= T).
  { apply rsum_nonneg. intros r Hr. rewrite MF in Hr. apply in_map_iff in Hr. destruct Hr as [p [<- I]]. apply (PP p I). }
  assert (Q2 : Q <= 2) by (clear - QB PD KE Q0; nra).
  assert (Hhi : lo <= hi).
  { destruct ps as [|c ps']; [cbn in Len; destruct vals; [destruct I0|discriminate]|].
    pose proof (Hc c (or_introl eq_refl)) as [_ ?]. lra. }
  assert (EK : eta * K <= / 1000000000).
  { apply Rle_trans with (/ 1125899906842624 * 1048576); [apply Rmult_le_compat; lra|lra]. }
  assert (T9 : T <= 10).
  { assert (hi0 : 0 <= hi) by lra. assert (hi * (1 + ee) <= 2 * (1 + ee)) by (apply Rmult_le_compat_r; lra).
    assert (hi * (1 + ee) * (1 + ee) <= 4).
    { apply Rle_trans with (2 * (1 + ee) * (1 + ee)); [apply Rmult_le_compat_r; lra|]. clear - LE. nra. }
    assert (0 <= hi * (1 + ee) * (1 + ee)) by (apply Rmult_le_pos; [apply Rmult_le_pos; lra|lra]).
    assert (hi * (1 + ee) * (1 + ee) * Q <= 4 * 2) by (apply Rmult_le_compat; lra). lra. }
  destruct (fold_sum_rel (map f qs) f0 (bpow radix2 72)) as [FO RO]; [apply f0_fin|rewrite f0_R; lra| |apply fmt_2_72| |].
  { intros v I. apply in_map_iff in I. destruct I as [p [<- I]]. destruct (PP p I) as [? [? _]]. auto. }
  { rewrite f0_R, Rplus_0_l, Lq. fold T A. rewrite (bp 72 4722366482869645213696 eq_refl).
    assert (T * A <= 10 * 2) by (apply Rmult_le_compat; lra). lra. }
  rewrite f0_R, Rplus_0_l, Lq in RO. fold T A B in RO.
  split; [exact FO|]. set (O := B2R (fold_left fadd (map f qs) f0)) in *.
  assert (KK : 0 < K) by lra.
  unfold e. clearbody O T A B Q K. clear - RO Tlo Thi T0 QB QA Q0 Q2 PU PD A1 A2 B0 B1 KE LE HE EK HK Plo Phi Hhi.
  set (t := (2 * K + 2) * ee).
  assert (Ht : 0 < t <= / 7) by (unfold t; unfold ee in *; lra).
  assert (He : (K + 1) / 2097152 = 4 * t) by (unfold t, ee; lra).
  rewrite He.
  assert (E3 : 10 * (eta * K) <= / 2 * t).
  { assert (eta * K <= / 1125899906842624 * K) by (apply Rmult_le_compat_r; lra). unfold t, ee. lra. }
  assert (ee2 : 0 <= ee * ee <= ee * / 16) by (clear - LE; nra).
  split.
  - (* lower *)
    apply Rle_trans with (2 := proj1 RO).
    assert (G1 : (lo * (1 - ee) * (1 - ee) * Q - 3 * eta * K) * B <= T * B) by (apply Rmult_le_compat_r; lra).
    apply Rle_trans with (2 := G1).
    assert (QA' : 1 - K * ee <= Q).
    { assert (Q * A * (1 - K * ee) <= Q) . { replace (Q * A * (1 - K * ee)) with (Q * (A * (1 - K * ee))) by ring. rewrite <- (Rmult_1_r Q) at 2. apply Rmult_le_compat_l; lra. }
      assert (1 * (1 - K * ee) <= Q * A * (1 - K * ee)) by (apply Rmult_le_compat_r; lra). lra. }
    set (u := K * ee) in *.
    assert (Hu : 0 <= u) by (unfold u; apply Rmult_le_pos; lra).
    assert (Et : t = 2 * u + 2 * ee) by (unfold t, u; ring).
    assert (C1 : (1 - ee) * (1 - ee) >= 1 - 2 * ee) by lra.
    assert (C2 : (1 - u) * (1 - u) >= 1 - 2 * u) by (clear; nra).
    assert (C3 : (1 - 2 * ee) * (1 - 2 * u) >= 1 - t) by (rewrite Et; clear - Hu LE; nra).
    assert (C4 : 1 - t <= (1 - ee) * (1 - ee) * (Q * B)).
    { assert ((1 - u) * (1 - u) <= Q * B) by (apply Rmult_le_compat; lra).
      assert ((1 - 2 * ee) * (1 - 2 * u) <= (1 - ee) * (1 - ee) * (Q * B)) by (apply Rmult_le_compat; lra). lra. }
    assert (C5 : lo * (1 - t) <= lo * ((1 - ee) * (1 - ee) * (Q * B))) by (apply Rmult_le_compat_l; lra).
    assert (C6 : eta * K * B <= eta * K * 1) by (apply Rmult_le_compat_l; [apply Rmult_le_pos; lra|lra]).
    assert (C7 : lo * t <= 2 * t) by (apply Rmult_le_compat_r; lra).
    lra.
  - (* upper *)
    apply Rle_trans with (1 := proj2 RO).
    assert (G1 : T * A <= (hi * (1 + ee) * (1 + ee) * Q + 5 * eta * K) * A) by (apply Rmult_le_compat_r; lra).
    apply Rle_trans with (1 := G1).
    set (u := K * ee) in *.
    assert (Hu : 0 <= u) by (unfold u; apply Rmult_le_pos; lra).
    assert (Et : t = 2 * u + 2 * ee) by (unfold t, u; ring).
    assert (QB' : Q * (1 - u) <= 1).
    { apply Rle_trans with (Q * B); [apply Rmult_le_compat_l; lra|auto]. }
    assert (C1 : (Q * A) * ((1 - u) * (1 - u)) <= 1).
    { replace (Q * A * ((1 - u) * (1 - u))) with ((Q * (1 - u)) * (A * (1 - u))) by ring.
      apply Rle_trans with (1 * 1); [|lra]. apply Rmult_le_compat; try lra.
      - apply Rmult_le_pos; lra.
      - apply Rmult_le_pos; lra. }
    assert (C2 : (1 + ee) * (1 + ee) * (1 - 2 * ee) <= 1) by (clear - LE ee2; nra).
    set (X := (1 + ee) * (1 + ee) * (Q * A)).
    assert (X0 : 0 <= X) by (unfold X; apply Rmult_le_pos; [apply Rmult_le_pos; lra|apply Rmult_le_pos; lra]).
    assert (C3 : X * ((1 - 2 * ee) * ((1 - u) * (1 - u))) <= 1).
    { unfold X. replace ((1 + ee) * (1 + ee) * (Q * A) * ((1 - 2 * ee) * ((1 - u) * (1 - u)))) with (((1 + ee) * (1 + ee) * (1 - 2 * ee)) * ((Q * A) * ((1 - u) * (1 - u)))) by ring.
      apply Rle_trans with (1 * 1); [|lra]. apply Rmult_le_compat; try lra.
      - apply Rmult_le_pos; [apply Rmult_le_pos; lra|lra].
      - apply Rmult_le_pos; [apply Rmult_le_pos; lra|apply Rmult_le_pos; lra]. }
    assert (C4 : 1 - t <= (1 - 2 * ee) * ((1 - u) * (1 - u))).
    { assert (1 - 2 * u <= (1 - u) * (1 - u)) by (clear; nra).
      assert ((1 - 2 * ee) * (1 - 2 * u) <= (1 - 2 * ee) * ((1 - u) * (1 - u))) by (apply Rmult_le_compat_l; lra).
      rewrite Et. clear - H H0 Hu LE. nra. }
    assert (C5 : X * (1 - t) <= 1).
    { apply Rle_trans with (2 := C3). apply Rmult_le_compat_l; lra. }
    assert (C6 : X <= 1 + 3 / 2 * t) by (clear - C5 Ht X0; nra).
    assert (C7 : hi * X <= hi * (1 + 3 / 2 * t)) by (apply Rmult_le_compat_l; lra).
    assert (C8 : hi * (3 / 2 * t) <= 2 * (3 / 2 * t)) by (apply Rmult_le_compat_r; lra).
    assert (C9 : eta * K * A <= eta * K * 2) by (apply Rmult_le_compat_l; [apply Rmult_le_pos; lra|lra]).
    replace ((hi * (1 + ee) * (1 + ee) * Q + 5 * eta * K) * A) with (hi * X + 5 * (eta * K * A)) by (unfold X; ring).
    lra.
Qed.

(** ** Areas of an image *)
(** Every pixel of the image up to [R] columns and rows from (x, y) satisfies [P]. *)
Definition area (m : build) (b : PixelBuffer Rgb) (x y R : Z) (P : Rgb -> Prop) : Prop :=
  forall x' y', inside b x' y' -> (Z.abs (x' - x) <= R)%Z -> (Z.abs (y' - y) <= R)%Z -> exists c, get_pixel m b x' y' = Ok c /\ P c.
Lemma area_weak m b x y R R' (P Q : Rgb -> Prop) : area m b x y R P -> (R' <= R)%Z -> (forall c, P c -> Q c) -> area m b x y R' Q.
Proof. intros A H I x' y' Hi X Y. destruct (A x' y' Hi) as (c & E & K); try lia. eauto. Qed.
Lemma area_nb m (b : PixelBuffer Rgb) x y R r (P : Rgb -> Prop) x' y' ps : area m b x y (R + r) P -> (0 <= r)%Z -> valid b -> inside b x' y' ->
  (Z.abs (x' - x) <= R)%Z -> (Z.abs (y' - y) <= R)%Z -> neighbourhood m b (2 * r + 1) (2 * r + 1) x' y' = Ok ps -> forall c, In c ps -> P c.
Proof.
  intros A Hr V I X Y H c Hc. apply In_nth_error in Hc. destruct Hc as [n Hn].
  unfold neighbourhood in H. pose proof (map_res_length _ _ _ H) as Ln.
  apply map_res_inv in H.
  assert (exists t, In t (row_major (2 * r + 1) (2 * r + 1)) /\ (let '(tx, ty) := t in
    get_pixel m b (Z.max 0 (Z.min (x' - (2 * r + 1) / 2 + tx) (width b - 1))) (Z.max 0 (Z.min (y' - (2 * r + 1) / 2 + ty) (height b - 1)))) = Ok c) as (t & It & Et).
  { clear - H Hn. revert n Hn. induction H as [|t c' l l' E F IH]; intros n Hn; [destruct n; discriminate|].
    destruct n as [|n]; [injection Hn as ->; exists t; split; [left; auto|exact E]|]. destruct (IH n Hn) as (t' & I' & E'). exists t'. split; [right; auto|exact E']. }
  destruct t as [tx ty]. apply row_major_In in It. assert (D : ((2 * r + 1) / 2 = r)%Z) by (rewrite Z.mul_comm, Z.div_add_l by lia; cbn; lia).
  rewrite D in Et. unfold inside in I. destruct (A (Z.max 0 (Z.min (x' - r + tx) (width b - 1))) (Z.max 0 (Z.min (y' - r + ty) (height b - 1)))) as (c' & E & K).
  - unfold inside. lia.
  - lia.
  - lia.
  - rewrite Et in E. apply Ok_inj in E. subst c'. exact K.
Qed.

Definition slack (r : Z) : R := (IZR ((2 * r + 1) * (2 * r + 1)) + 1) / 2097152.
Lemma weighted_band L m (b : PixelBuffer Rgb) r sigma pick lo hi x y ps : exp_ok L -> (0 <= r <= 500)%Z -> sigma_ok r sigma -> channel pick -> 0 <= lo -> hi <= 2 ->
  neighbourhood m b (2 * r + 1) (2 * r + 1) x y = Ok ps -> (forall c, In c ps -> num lo hi (pick c)) ->
  let vals := gauss_vals L (2 * r + 1) (sigma_or_default sigma (2 * r + 1)) in
  num (lo - slack r) (hi + slack r) (pick (weighted_sum (combine (map (fun v => fdiv v (fold_left fadd vals f0)) vals) ps))).
Proof.
  intros X Hr Hs Cp Plo Phi Hps Hc vals.
  destruct (sigma_ok_range r sigma ltac:(lia) Hs) as [Fs Rs].
  destruct (gaussian_s_range _ Fs Rs) as [Fg [Rg _]].
  destruct (gauss_vals_range L r _ X ltac:(lia) Fg Rg) as [Vm [V1 [V2 V3]]].
  rewrite weighted_sum_channel by auto. fold vals in V1, V2.
  assert (Ln : length vals = length (row_major (2 * r + 1) (2 * r + 1))) by (unfold vals, gauss_vals; apply map_length).
  assert (Lk : INR (length vals) = IZR ((2 * r + 1) * (2 * r + 1))) by (rewrite Ln; apply row_major_INR; lia).
  unfold slack. rewrite <- Lk.
  apply (average2_lemma pick vals ps Vm); auto.
  - rewrite Ln. unfold neighbourhood in Hps. apply map_res_length in Hps. auto.
  - rewrite Lk. split; apply IZR_le; nia.
  - unfold s_lo, s_hi in Rg.
    assert (I1 : / (2 * B2R (gaussian_s (sigma_or_default sigma (2 * r + 1)))) <= / (2 * / 1099511627776)) by (apply Rinv_le_contravar; lra).
    assert (I2 : / (5 * 4398046511104) <= / (5 * B2R (gaussian_s (sigma_or_default sigma (2 * r + 1))))) by (apply Rinv_le_contravar; lra).
    lra.
Qed.

(** The channels of [c] in [S] are within [e] of those of [v]. *)
Definition about (S : (Rgb -> f32) -> Prop) (e : R) (v : (Rgb -> f32) -> R) (c : Rgb) : Prop := forall pick, channel pick -> S pick -> close e (v pick) (pick c).
Lemma close_band e r x : close e r x <-> num (r - e) (r + e) x.
Proof. split; intros [F H]; split; auto; [apply Rabs_le_iff in H|apply Rabs_le_iff]; lra. Qed.

Lemma blur_area L m (b : PixelBuffer Rgb) r sigma x y R (S : (Rgb -> f32) -> Prop) e v out : exp_ok L -> valid b -> (0 <= r <= 500)%Z -> sigma_ok r sigma ->
  (forall pick, channel pick -> S pick -> 0 <= v pick - e /\ v pick + e <= 2) ->
  gaussian_blur L m b r sigma = Ok out -> area m b x y (R + r) (about S e v) -> area m out x y R (about S (e + slack r) v).
Proof.
  intros X V Hr Hs B E A x' y' I Dx Dy. destruct (blur_conv L m b r sigma V ltac:(lia)) as [out' [E' [Vo [W [H P]]]]].
  rewrite E in E'. apply Ok_inj in E'. subst out'. assert (I' : inside b x' y') by (unfold inside in *; lia).
  destruct (P x' y' I') as (ps & Hps & Hp). eexists. split; [exact Hp|]. intros pick Cp Sp.
  destruct (B pick Cp Sp) as [B1 B2]. apply close_band.
  pose proof (weighted_band L m b r sigma pick _ _ x' y' ps X Hr Hs Cp B1 B2 Hps) as K. cbv zeta in K.
  eapply num_weak; [apply K| |]; try lra. intros c Hc. apply close_band. apply (area_nb m b x y R r _ x' y' ps A ltac:(lia) V I' Dx Dy Hps c Hc); assumption.
Qed.

Lemma sharpen_close f v s r e d : fin f -> Rabs (B2R f) <= 8 -> close e r v -> close (e + d) r s -> 0 <= r <= 2 -> 0 <= e <= / 100 -> 0 <= d <= / 100 ->
  close (e + Rabs (B2R f) * (2 * e + d) + / 1000000) r (sharpen f v s).
Proof.
  intros Ff Bf [Fv Ev] [Fs Es] Br Be Bd. unfold sharpen. apply Rabs_le_iff in Ev, Es.
  destruct (fsub_ok v s 1) as [F1 E1]; auto. { apply (uo_fmt _ _ uo_1). } { apply Rabs_le_iff; lra. }
  assert (Q1 : Rabs (B2R v - B2R s) <= 2 * e + d) by (apply Rabs_le_iff; lra).
  assert (R1 : Rabs (rnd (B2R v - B2R s) - (B2R v - B2R s)) <= / 33554432) by (apply (uo_err _ _ _ uo_1); lra).
  rewrite <- E1 in R1. set (t := fsub v s) in *. clearbody t.
  assert (Q2 : Rabs (B2R t) <= 2 * e + d + / 33554432). { apply Rabs_le_iff in R1, Q1. apply Rabs_le_iff. lra. }
  set (a := Rabs (B2R f)) in *. assert (0 <= a) by apply Rabs_pos.
  assert (Q3 : Rabs (B2R t * B2R f) <= (2 * e + d + / 33554432) * a) by (apply abs_mul_le; [exact Q2|apply Rle_refl]).
  assert (Q4 : (2 * e + d + / 33554432) * a <= (4 / 100) * 8) by (apply Rmult_le_compat; lra).
  destruct (fmul_ok t f 1) as [F2 E2]; auto; [apply (uo_fmt _ _ uo_1)|lra|].
  assert (R2 : Rabs (rnd (B2R t * B2R f) - (B2R t * B2R f)) <= / 33554432) by (apply (uo_err _ _ _ uo_1); lra).
  rewrite <- E2 in R2. set (u := fmul t f) in *. clearbody u. apply Rabs_le_iff in R2, Q3.
  assert (Q5 : Rabs (B2R v + B2R u) <= 4) by (apply Rabs_le_iff; lra).
  destruct (fadd_ok v u 4) as [F3 E3]; auto. { apply (uo_fmt _ _ uo_4). }
  pose proof (uo_err _ _ _ uo_4 Q5) as R3. rewrite <- E3 in R3. apply Rabs_le_iff in R3.
  split; [exact F3|]. apply Rabs_le_iff. lra.
Qed.
Lemma unsharp_area L m (b : PixelBuffer Rgb) r f sigma x y R (S : (Rgb -> f32) -> Prop) e v out : exp_ok L -> valid b -> (0 <= r <= 100)%Z -> sigma_ok r sigma -> fin f -> Rabs (B2R f) <= 8 ->
  (forall pick, channel pick -> S pick -> 0 <= v pick - e /\ v pick <= 1) -> 0 <= e <= / 100 -> slack r <= / 100 ->
  unsharp L m b r f sigma = Ok out -> area m b x y (R + r) (about S e v) ->
  area m out x y R (about S (e + Rabs (B2R f) * (2 * e + slack r) + / 1000000) v).
Proof.
  intros X V Hr Hs Ff Bf B Be Bs E A x' y' I Dx Dy. destruct (unsharp_lemma L m b r f sigma V ltac:(lia)) as (out' & E' & Vo & W & H & P).
  rewrite E in E'. apply Ok_inj in E'. subst out'. assert (I' : inside b x' y') by (unfold inside in *; lia).
  destruct (P x' y' I') as (c0 & ps & E1 & Hps & Hp). cbv zeta in Hp. eexists. split; [exact Hp|]. intros pick Cp Sp.
  destruct (A x' y' I') as (c1 & E2 & K1); try lia. rewrite E1 in E2. apply Ok_inj in E2. subst c1.
  set (s := weighted_sum _) in *.
  assert (SS : forall pick, channel pick -> S pick -> close (e + slack r) (v pick) (pick s)).
  { intros p Cq Sq. destruct (B p Cq Sq) as [B1 B2]. apply close_band.
    pose proof (weighted_band L m b r sigma p _ (v p + e) x' y' ps X ltac:(lia) Hs Cq B1 ltac:(lra) Hps) as K. cbv zeta in K. fold s in K.
    eapply num_weak; [apply K| |]; try lra. intros c Hc. apply close_band. apply (area_nb m b x y R r _ x' y' ps A ltac:(lia) V I' Dx Dy Hps c Hc); assumption. }
  clearbody s.
  assert (Z : forall p, channel p -> S p -> close (e + Rabs (B2R f) * (2 * e + slack r) + / 1000000) (v p) (clamp (sharpen f (p c0) (p s)))).
  { intros p Cq Sq. destruct (B p Cq Sq) as [B1 B2]. rewrite <- (limited_id (v p)) by lra. apply close_clamp. apply sharpen_close; auto; try lra.
    split; [unfold slack|lra]. assert (0 <= IZR ((2 * r + 1) * (2 * r + 1))) by (apply (IZR_le 0); nia). lra. }
  unfold rgb_new_with_alpha. destruct Cp as [-> | [-> | [-> | ->]]]; cbn [d0 d1 d2 d3]; apply Z; auto; unfold channel; tauto.
Qed.

(** ** The pixels of a blank area *)
Definition pair_ok (k : R) (a b : f32) : Prop := fin a /\ fin b /\ / 10 <= B2R a <= 11 / 10 /\ - / 10 <= B2R b <= 9 / 10 /\ k * (101 / 100 - B2R b) <= B2R a.
Lemma pair_blank a b : pair_ok (8003 / 10000) a b ->
  let c := fabs (fdiv a (fmin (fadd (fsub f1 b) (dec 1 100)) f1)) in is_nan c = false /\ fin c /\ B2R (dec 8 10) < B2R c.
Proof.
  intros (Fa & Fb & Ha & Hb & K). cbv zeta. fval (dec 1 100) HP. fval (dec 8 10) HQ.
  destruct (fsub_num f1 b 0 2) as [[F1 R1] _]; auto with fin fmt. { rewrite f1_R. lra. }
  assert (Q1 : Rabs (B2R f1 - B2R b) <= 2) by (rewrite f1_R; apply Rabs_le_iff; lra).
  destruct (fsub_ok f1 b 2 f1_fin Fb (uo_fmt _ _ uo_2) Q1) as [_ X1]. pose proof (uo_err _ _ _ uo_2 Q1) as Y1. rewrite <- X1, f1_R in Y1. apply Rabs_le_iff in Y1.
  set (t := fsub f1 b) in *. clearbody t.
  assert (Q2 : Rabs (B2R t + B2R (dec 1 100)) <= 4) by (rewrite HP; apply Rabs_le_iff; lra).
  destruct (fadd_ok t (dec 1 100) 4) as [F2 X2]; auto. { apply (uo_fmt _ _ uo_4). } pose proof (uo_err _ _ _ uo_4 Q2) as Y2. rewrite <- X2, HP in Y2. apply Rabs_le_iff in Y2.
  set (u := fadd t (dec 1 100)) in *. clearbody u.
  destruct (fmin_val u f1) as [F3 X3]; auto with fin. rewrite f1_R in X3. set (w := fmin u f1) in *. clearbody w.
  assert (W : / 10 <= B2R w <= 1 /\ B2R w <= 101 / 100 - B2R b + / 1000000). { rewrite X3. unfold Rmin. destruct Rle_dec; lra. }
  destruct W as [W1 W2].
  assert (Q3 : 8002 / 10000 <= B2R a / B2R w).
  { apply Rmult_le_reg_r with (B2R w); [lra|]. unfold Rdiv. rewrite !Rmult_assoc, Rinv_l by lra. lra. }
  assert (Q4 : B2R a / B2R w <= 16).
  { apply Rmult_le_reg_r with (B2R w); [lra|]. unfold Rdiv. rewrite !Rmult_assoc, Rinv_l by lra. lra. }
  assert (Q5 : Rabs (B2R a / B2R w) <= 16) by (apply Rabs_le_iff; lra).
  destruct (fdiv_ok a w 16) as [F4 X4]; auto; [lra|apply (uo_fmt _ _ uo_16)|].
  pose proof (uo_err _ _ _ uo_16 Q5) as Y4. rewrite <- X4 in Y4. apply Rabs_le_iff in Y4.
  set (q := fdiv a w) in *. clearbody q. split; [|split].
  - destruct q; try discriminate; reflexivity.
  - apply fabs_fin. exact F4.
  - rewrite fabs_R, Rabs_pos_eq by lra. lra.
Qed.
Lemma fold_blank l : forall a, fin a -> B2R (dec 8 10) < B2R a -> (forall v, In v l -> fin v /\ B2R (dec 8 10) < B2R v) ->
  fin (fold_left fmin l a) /\ B2R (dec 8 10) < B2R (fold_left fmin l a).
Proof.
  induction l as [|v l IH]; intros a Fa Ha H; [auto|]. cbn [fold_left]. destruct (H v (or_introl eq_refl)) as [Fv Hv].
  destruct (fmin_val a v Fa Fv) as [F E]. apply IH; auto.
  - rewrite E. unfold Rmin. destruct Rle_dec; lra.
  - intros; apply H; right; auto.
Qed.
Lemma mean_close x y z a b c e : close e a x -> close e b y -> close e c z -> 0 <= e <= / 10 -> Rabs a <= 11 / 10 -> Rabs b <= 11 / 10 -> Rabs c <= 11 / 10 ->
  close (e + / 1000000) ((a + b + c) / 3) (fdiv (fadd (fadd x y) z) (ofZ 3)).
Proof.
  intros X Y Z E A B C. apply Rabs_le_iff in A, B, C.
  pose proof (close_add 4 (/ 8388608) e e a b x y uo_4 X Y ltac:(assert (Rabs (a + b) <= 22 / 10) by (apply Rabs_le_iff; lra); lra)) as P.
  pose proof (close_add 4 (/ 8388608) _ e _ c _ z uo_4 P Z ltac:(assert (Rabs (a + b + c) <= 33 / 10) by (apply Rabs_le_iff; lra); lra)) as Q.
  assert (T : close 0 3 (ofZ 3)) by (rewrite <- (ofZ_R 3) by lia; apply close_0, ofZ_fin; lia).
  eapply close_weak; [eapply (close_div 2 (/ 16777216) 3 (11 / 10)); [exact uo_2|exact Q|exact T|lra| | |]|].
  - rewrite Rabs_pos_eq; lra.
  - apply Rabs_le_iff. lra.
  - lra.
  - lra.
Qed.
Lemma average_pair c1 c2 : pair_ok (8004 / 10000) (d0 c1) (d0 c2) -> pair_ok (8004 / 10000) (d1 c1) (d1 c2) -> pair_ok (8004 / 10000) (d2 c1) (d2 c2) ->
  / 5 <= B2R (d0 c1) + B2R (d1 c1) + B2R (d2 c1) <= 3001 / 1000 -> B2R (d0 c2) + B2R (d1 c2) + B2R (d2 c2) <= 26 / 10 -> -/ 5 <= B2R (d0 c2) + B2R (d1 c2) + B2R (d2 c2) ->
  pair_ok (8003 / 10000) (average c1) (average c2).
Proof.
  intros (A1 & B1 & C1 & D1 & E1) (A2 & B2 & C2 & D2 & E2) (A3 & B3 & C3 & D3 & E3) S1 S2 S3. unfold average, to_gray_with_intensity, gray_value. cbn [d0].
  destruct (mean_close (d0 c1) (d1 c1) (d2 c1) _ _ _ 0 (close_0 _ A1) (close_0 _ A2) (close_0 _ A3)) as [F G]; try lra; try (apply Rabs_le_iff; lra).
  destruct (mean_close (d0 c2) (d1 c2) (d2 c2) _ _ _ 0 (close_0 _ B1) (close_0 _ B2) (close_0 _ B3)) as [F' G']; try lra; try (apply Rabs_le_iff; lra).
  apply Rabs_le_iff in G, G'. unfold pair_ok. split; [exact F|]. split; [exact F'|]. split; [lra|]. split; lra.
Qed.
Lemma channel_pair a b l : close (3 / 10000) (limited (105 / 100 * l - 25 / 1000)) a -> close (194 / 10000) (1 - l) b -> / 5 <= l <= 1 ->
  pair_ok (8004 / 10000) a b.
Proof.
  intros [Fa Ea] [Fb Eb] H. apply Rabs_le_iff in Ea, Eb. unfold pair_ok. split; [exact Fa|]. split; [exact Fb|].
  revert Ea. unfold limited, Rmax, Rmin. repeat destruct Rle_dec; intros; (split; [lra|]; split; lra).
Qed.
Lemma blank_pixel c1 c2 (l : (Rgb -> f32) -> R) : (forall p, p = d0 \/ p = d1 \/ p = d2 -> / 5 <= l p <= 1 /\
    close (3 / 10000) (limited (105 / 100 * l p - 25 / 1000)) (p c1) /\ close (194 / 10000) (1 - l p) (p c2)) ->
  drawing_pixel c1 c2 = mkC f1 f1 f1 f1.
Proof.
  intros H. destruct (H d0 ltac:(auto)) as (L0 & A0 & B0). destruct (H d1 ltac:(auto)) as (L1 & A1 & B1). destruct (H d2 ltac:(auto)) as (L2 & A2 & B2).
  pose proof (channel_pair _ _ _ A0 B0 L0) as P0. pose proof (channel_pair _ _ _ A1 B1 L1) as P1. pose proof (channel_pair _ _ _ A2 B2 L2) as P2.
  assert (PA : pair_ok (8003 / 10000) (average c1) (average c2)).
  { apply average_pair; auto.
    - destruct A0 as [_ A0], A1 as [_ A1], A2 as [_ A2]. apply Rabs_le_iff in A0, A1, A2. revert A0 A1 A2.
      unfold limited, Rmax, Rmin. repeat destruct Rle_dec; intros; split; lra.
    - destruct B0 as [_ B0], B1 as [_ B1], B2 as [_ B2]. apply Rabs_le_iff in B0, B1, B2. lra.
    - destruct B0 as [_ B0], B1 as [_ B1], B2 as [_ B2]. apply Rabs_le_iff in B0, B1, B2. lra. }
  assert (W : forall a b, pair_ok (8004 / 10000) a b -> pair_ok (8003 / 10000) a b).
  { intros a b (Fa & Fb & Ha & Hb & K). repeat split; auto; lra. }
  unfold drawing_pixel. cbv zeta.
  set (vs := _ ++ _ ++ _ ++ _).
  assert (V : forall p, In p vs -> pair_ok (8003 / 10000) (fst p) (snd p)).
  { intros [a b] I. unfold vs in I. cbn [fst snd]. rewrite !in_app_iff in I.
    destruct I as [I|[I|[I|I]]]; match type of I with In _ (if ?t then _ else _) => destruct t end; try (destruct I; fail); destruct I as [I|[]]; inversion I; subst; auto. }
  clearbody vs.
  set (diff := fold_left fmin _ f1).
  assert (D : fin diff /\ B2R (dec 8 10) < B2R diff).
  { apply fold_blank; auto with fin. { fval (dec 8 10) HQ. rewrite f1_R. lra. }
    intros v I. apply in_map_iff in I. destruct I as [[a b] [<- I]]. destruct (pair_blank a b (V _ I)) as (_ & X & Y). auto. }
  clearbody diff. destruct D as [FD RD].
  assert (E : flt (dec 8 10) diff = true) by (apply flt_R; auto; reflexivity). rewrite E. reflexivity.
Qed.

Definition shade (pick : Rgb -> f32) : Prop := pick = d0 \/ pick = d1 \/ pick = d2.
Lemma map_area m (f : Rgb -> Rgb) (b r : PixelBuffer Rgb) x y R (P Q : Rgb -> Prop) : valid b -> map_pure f b = Ok r -> (forall c, P c -> Q (f c)) ->
  area m b x y R P -> area m r x y R Q.
Proof.
  intros V E H A x' y' I X Y. destruct (map_pure_ok f b V) as (r' & E' & _ & _ & Wr & Hr & K). rewrite E in E'. apply Ok_inj in E'. subst r'.
  assert (I' : inside b x' y') by (unfold inside in *; lia). destruct (A x' y' I' X Y) as (c & Ec & Pc).
  rewrite (K m x' y' I'), Ec. cbn [bind]. eauto.
Qed.
Lemma compose_area m f (b1 b2 r : PixelBuffer Rgb) d x y R (P1 P2 Q : Rgb -> Prop) : valid b1 -> valid b2 -> width b1 = width b2 -> height b1 = height b2 ->
  compose2 m b1 b2 d f = Ok r -> (forall c1 c2, P1 c1 -> P2 c2 -> Q (f c1 c2)) ->
  area m b1 x y R P1 -> area m b2 x y R P2 -> area m r x y R Q.
Proof.
  intros V1 V2 W H E K A1 A2 x' y' I X Y. destruct (compose2_ok m b1 b2 d f V1 V2 W H) as (r' & E' & _ & Wr & Hr & C). rewrite E in E'. apply Ok_inj in E'. subst r'.
  assert (I1 : inside b1 x' y') by (unfold inside in *; lia). assert (I2 : inside b2 x' y') by (unfold inside in *; lia).
  destruct (A1 x' y' I1 X Y) as (c1 & E1 & P). destruct (A2 x' y' I2 X Y) as (c2 & E2 & P').
  destruct (C x' y' I1) as (k1 & k2 & F1 & F2 & F). rewrite E1 in F1. apply Ok_inj in F1. rewrite E2 in F2. apply Ok_inj in F2. subst k1 k2. eauto.
Qed.
Lemma lighten_close v : fin v -> 0 <= B2R v <= 1 -> close (/ 2000000) (8 / 10 * B2R v + 2 / 10) (clamp (fadd (fmul v (dec 8 10)) (dec 2 10))).
Proof.
  intros F H. rewrite <- (limited_id (8 / 10 * B2R v + 2 / 10)) by lra. apply close_clamp.
  fval (dec 8 10) HP. fval (dec 2 10) HQ.
  assert (X : close (/ 16777216) (8 / 10) (dec 8 10)) by (split; [exact HPfin|rewrite HP; apply Rabs_le_iff; lra]).
  assert (Y : close (/ 16777216) (2 / 10) (dec 2 10)) by (split; [exact HQfin|rewrite HQ; apply Rabs_le_iff; lra]).
  pose proof (close_mul 1 _ 1 (8 / 10) _ _ _ _ _ _ uo_1 (close_0 v F) X ltac:(rewrite Rabs_right; lra) ltac:(rewrite Rabs_right; lra) ltac:(lra)) as Z.
  pose proof (close_add 2 _ _ _ _ _ _ _ uo_2 Z Y ltac:(rewrite Rabs_right; lra)) as W.
  eapply close_weak; [eapply close_eq; [exact W|lra]|lra].
Qed.
Lemma contrast_close e r v : close e r v -> 0 <= r <= 1 -> 0 <= e <= / 100 ->
  close (11 / 10 * e + / 1000000) (limited (105 / 100 * r - 25 / 1000)) (clamp (fadd (fmul (fsub v (dec 1 2)) (dec 105 100)) (dec 1 2))).
Proof.
  intros C Hr He. apply close_clamp.
  fval (dec 105 100) HP. fval (dec 1 2) HQ.
  assert (X : close (/ 4194304) (105 / 100) (dec 105 100)) by (split; [exact HPfin|rewrite HP; apply Rabs_le_iff; lra]).
  assert (Y : close 0 (1 / 2) (dec 1 2)) by (split; [exact HQfin|rewrite HQ; apply Rabs_le_iff; lra]).
  assert (A : Rabs (r - 1 / 2) <= 1 / 2) by (apply Rabs_le_iff; lra).
  pose proof (close_sub 1 _ _ _ _ _ _ _ uo_1 C Y ltac:(lra)) as S.
  pose proof (close_mul 2 _ (1 / 2) (105 / 100) _ _ _ _ _ _ uo_2 S X A ltac:(rewrite Rabs_right; lra) ltac:(lra)) as Z.
  assert (A2 : Rabs ((r - 1 / 2) * (105 / 100) + 1 / 2) <= 2) by (apply Rabs_le_iff; lra).
  pose proof (close_add 4 _ _ _ _ _ _ _ uo_4 Z Y ltac:(lra)) as W.
  eapply close_weak; [eapply close_eq; [exact W|lra]|lra].
Qed.
Lemma invert_close e r v : close e r v -> 0 <= r <= 1 -> 0 <= e <= / 10 -> close (e + / 10000000) (1 - r) (fsub f1 v).
Proof.
  intros C Hr He. assert (Y : close 0 1 f1) by (split; [exact f1_fin|rewrite f1_R; apply Rabs_le_iff; lra]).
  assert (A : Rabs (1 - r) <= 1) by (apply Rabs_le_iff; lra).
  pose proof (close_sub 2 _ _ _ _ _ _ _ uo_2 Y C ltac:(lra)) as W. eapply close_weak; [exact W|lra].
Qed.
Lemma slack_100 r : (0 <= r <= 100)%Z -> 0 <= slack r <= 1927 / 100000.
Proof.
  intros H. unfold slack. assert (0 <= IZR ((2 * r + 1) * (2 * r + 1)) <= 40401). { split; apply IZR_le; nia. } lra.
Qed.
Lemma white_not_dark e c : about (fun _ => True) e (fun _ => 1) c -> 0 <= e <= / 100 -> dark (dec 15 100) c = false.
Proof.
  intros A He. unfold dark, average, to_gray_with_intensity, gray_value. cbn [d0].
  pose proof (A d0 ltac:(unfold channel; tauto) I) as X. pose proof (A d1 ltac:(unfold channel; tauto) I) as Y. pose proof (A d2 ltac:(unfold channel; tauto) I) as Z.
  destruct (mean_close _ _ _ _ _ _ e X Y Z) as [F E]; try lra; try (rewrite Rabs_right; lra). apply Rabs_le_iff in E.
  fval (dec 15 100) HP. destruct (flt _ _) eqn:T; [|reflexivity]. apply flt_R in T; auto. rewrite HP in T. lra.
Qed.
Lemma despeckle_white m (b r : PixelBuffer Rgb) x y R e : valid b -> despeckle m b (dec 15 100) 1 = Ok r -> 0 <= e <= / 100 ->
  area m b x y R (about (fun _ => True) e (fun _ => 1)) -> area m r x y R (about (fun _ => True) e (fun _ => 1)).
Proof.
  intros V E He A x' y' I X Y. destruct (despeckle_lemma m b (dec 15 100) 1 V) as (r' & E' & _ & W & H & K). rewrite E in E'. apply Ok_inj in E'. subst r'.
  assert (I' : inside b x' y') by (unfold inside in *; lia). destruct (A x' y' I' X Y) as (c & Ec & Pc).
  destruct (K x' y' c I' Ec) as (ps & _ & Q). cbv zeta in Q. rewrite (white_not_dark e c Pc He) in Q. cbn [andb] in Q. eauto.
Qed.

(** The drawing before the colours are put back. *)
Lemma blank_area L m (b : PixelBuffer Rgb) radius c x y l b1 b1' b1'' b2 b2' d d' d'' : exp_ok L -> valid b -> (1 <= radius <= 100)%Z -> in_gamut c ->
  area m b x y (Z.max 5 radius + 2) (fun p => p = c) ->
  map_pure (map_channels (fun v => fadd (fmul v (dec 8 10)) (dec 2 10))) b = Ok l ->
  gaussian_blur L m l 1 None = Ok b1 -> unsharp L m b1 4 (ofZ 4) (Some (ofZ 5)) = Ok b1' -> map_pure (with_contrast (dec 105 100)) b1' = Ok b1'' ->
  gaussian_blur L m l radius None = Ok b2 -> map_pure invert b2 = Ok b2' -> compose2 m b1'' b2' RGB_NONE drawing_pixel = Ok d ->
  unsharp L m d 2 f1 None = Ok d' -> despeckle m d' (dec 15 100) 1 = Ok d'' ->
  area m d'' x y 0 (about (fun _ => True) (/ 65536) (fun _ => 1)).
Proof.
  intros X V Hr G A El E1 E1' E1'' E2 E2' Ed Ed' Ed''. pose proof (slack_100 radius ltac:(lia)) as SR.
  assert (S1 : slack 1 = 10 / 2097152) by (unfold slack; change ((2 * 1 + 1) * (2 * 1 + 1))%Z with 9%Z; lra).
  assert (S4 : slack 4 = 82 / 2097152) by (unfold slack; change ((2 * 4 + 1) * (2 * 4 + 1))%Z with 81%Z; lra).
  assert (S2 : slack 2 = 26 / 2097152) by (unfold slack; change ((2 * 2 + 1) * (2 * 2 + 1))%Z with 25%Z; lra).
  destruct (map_pure_ok (map_channels (fun v => fadd (fmul v (dec 8 10)) (dec 2 10))) b V) as (t & T & _ & Vl & Wl & Hl & _). rewrite El in T. apply Ok_inj in T. subst t.
  destruct (blur_total L m l 1 None Vl ltac:(lia)) as (t & T & V1 & W1 & H1). rewrite E1 in T. apply Ok_inj in T. subst t.
  destruct (unsharp_total L m b1 4 (ofZ 4) (Some (ofZ 5)) V1 ltac:(lia)) as (t & T & V1' & W1' & H1'). rewrite E1' in T. apply Ok_inj in T. subst t.
  destruct (map_pure_ok (with_contrast (dec 105 100)) b1' V1') as (t & T & _ & V1'' & W1'' & H1'' & _). rewrite E1'' in T. apply Ok_inj in T. subst t.
  destruct (blur_total L m l radius None Vl ltac:(lia)) as (t & T & V2 & W2 & H2). rewrite E2 in T. apply Ok_inj in T. subst t.
  destruct (map_pure_ok invert b2 V2) as (t & T & _ & V2' & W2' & H2' & _). rewrite E2' in T. apply Ok_inj in T. subst t.
  destruct (compose2_ok m b1'' b2' RGB_NONE drawing_pixel V1'' V2' ltac:(lia) ltac:(lia)) as (t & T & Vd & Wd & Hd & _). rewrite Ed in T. apply Ok_inj in T. subst t.
  destruct (unsharp_total L m d 2 f1 None Vd ltac:(lia)) as (t & T & Vd' & Wd' & Hd'). rewrite Ed' in T. apply Ok_inj in T. subst t.
  set (v := fun pick : Rgb -> f32 => 8 / 10 * B2R (pick c) + 2 / 10).
  destruct G as (G0 & G1 & G2 & _). apply in01_num in G0, G1, G2.
  assert (Bv : forall p, shade p -> / 5 <= v p <= 1).
  { intros p [-> | [-> | ->]]; unfold v; [destruct G0|destruct G1|destruct G2]; lra. }
  assert (A0 : area m l x y (Z.max 5 radius + 2) (about shade (/ 2000000) v)).
  { apply (map_area m _ b l x y _ _ _ V El) with (2 := A). intros p -> q _ [-> | [-> | ->]]; unfold map_channels; cbn [d0 d1 d2]; apply lighten_close; apply G0 || apply G1 || apply G2. }
  assert (A1 : area m b1 x y (2 + 4) (about shade (/ 2000000 + slack 1) v)).
  { apply (blur_area L m l 1 None x y (2 + 4) shade (/ 2000000) v b1 X Vl); auto; try lia. { cbn [sigma_ok]. lia. }
    - intros p _ Sp. specialize (Bv p Sp). lra.
    - eapply area_weak; [exact A0|lia|auto]. }
  assert (F4 : B2R (ofZ 4) = 4) by (apply ofZ_R; lia).
  assert (A1' : area m b1' x y 2 (about shade (/ 2000000 + slack 1 + Rabs (B2R (ofZ 4)) * (2 * (/ 2000000 + slack 1) + slack 4) + / 1000000) v)).
  { apply (unsharp_area L m b1 4 (ofZ 4) (Some (ofZ 5)) x y 2 shade _ v b1' X V1); auto; try lia; try lra.
    - cbn [sigma_ok]. split; vm_compute; reflexivity.
    - apply ofZ_fin; lia.
    - rewrite F4. rewrite Rabs_right; lra.
    - intros p _ Sp. specialize (Bv p Sp). lra. }
  rewrite F4, S1, S4, (Rabs_right 4) in A1' by lra.
  assert (A1'' : area m b1'' x y 2 (about shade (3 / 10000) (fun p => limited (105 / 100 * v p - 25 / 1000)))).
  { apply (map_area m _ b1' b1'' x y _ _ _ V1' E1'') with (2 := A1'). intros q Hq p Cp Sp. pose proof (Bv p Sp) as Bp. specialize (Hq p Cp Sp).
    pose proof (contrast_close _ _ _ Hq ltac:(lra) ltac:(lra)) as K.
    unfold with_contrast, map_channels. destruct Sp as [-> | [-> | ->]]; cbn [d0 d1 d2]; (eapply close_weak; [exact K|lra]). }
  assert (A2 : area m b2 x y 2 (about shade (/ 2000000 + slack radius) v)).
  { apply (blur_area L m l radius None x y 2 shade (/ 2000000) v b2 X Vl); auto; try lia. { cbn [sigma_ok]. lia. }
    - intros p _ Sp. specialize (Bv p Sp). lra.
    - eapply area_weak; [exact A0|lia|auto]. }
  assert (A2' : area m b2' x y 2 (about shade (194 / 10000) (fun p => 1 - v p))).
  { apply (map_area m _ b2 b2' x y _ _ _ V2 E2') with (2 := A2). intros q Hq p Cp Sp. pose proof (Bv p Sp) as Bp. specialize (Hq p Cp Sp).
    pose proof (invert_close _ _ _ Hq ltac:(lra) ltac:(lra)) as K.
    unfold invert. destruct Sp as [-> | [-> | ->]]; cbn [d0 d1 d2]; (eapply close_weak; [exact K|lra]). }
  assert (Ad : area m d x y (0 + 2) (about (fun _ => True) 0 (fun _ => 1))).
  { apply (compose_area m drawing_pixel b1'' b2' d RGB_NONE x y _ _ _ _ V1'' V2' ltac:(lia) ltac:(lia) Ed) with (2 := A1'') (3 := A2').
    intros c1 c2 P1 P2. rewrite (blank_pixel c1 c2 v).
    - assert (K : close 0 1 f1) by (split; [exact f1_fin|rewrite f1_R; apply Rabs_le_iff; lra]).
      intros p [-> | [-> | [-> | ->]]] _; cbn [d0 d1 d2 d3]; exact K.
    - intros p Sp. split; [apply Bv; exact Sp|]. assert (Cp : channel p) by (unfold channel, shade in *; tauto). split; [apply (P1 p Cp Sp)|apply (P2 p Cp Sp)]. }
  assert (Ad' : area m d' x y 0 (about (fun _ => True) (/ 65536) (fun _ => 1))).
  { eapply area_weak; [apply (unsharp_area L m d 2 f1 None x y 0 (fun _ => True) 0 (fun _ => 1) d' X Vd); auto; try lia; try lra| |].
    - cbn [sigma_ok]. lia.
    - exact f1_fin.
    - rewrite f1_R, Rabs_right; lra.
    - intros; lra.
    - lia.
    - intros q Hq p Cp Sp. eapply close_weak; [apply (Hq p Cp Sp)|]. rewrite f1_R, Rabs_right, S2; lra. }
  apply (despeckle_white m d' d'' x y 0 (/ 65536) Vd' Ed'' ltac:(lra) Ad').
Qed.

Lemma white_lightness d e : about (fun _ => True) e (fun _ => 1) d -> in_gamut d -> 0 <= e <= / 100 -> 1 - e - / 8388608 <= B2R (d2 (rgb_to_hsl d)).
Proof.
  intros A (G0 & G1 & G2 & _) He. apply in01_num in G0, G1, G2.
  destruct (rgb_max_val d G0 G1 G2) as (NM & M0 & M1 & M2 & MX).
  destruct (rgb_min_val d G0 G1 G2) as (Nm & m0 & m1 & m2 & MN).
  assert (E : d2 (rgb_to_hsl d) = fdiv (fadd (rgb_max d) (rgb_min d)) f2) by (unfold rgb_to_hsl; cbv zeta; destruct (flt _ EPSILON); reflexivity).
  rewrite E. clear E. set (mx := rgb_max d) in *. set (mn := rgb_min d) in *. clearbody mx mn.
  destruct (A d0 ltac:(unfold channel; tauto) I) as [_ X]. destruct (A d1 ltac:(unfold channel; tauto) I) as [_ Y]. destruct (A d2 ltac:(unfold channel; tauto) I) as [_ Z].
  apply Rabs_le_iff in X, Y, Z. destruct NM as [FM RM], Nm as [Fm Rm].
  assert (Q1 : 1 - e <= B2R mx) by lra. assert (Q2 : 1 - e <= B2R mn) by (destruct MN as [MN|[MN|MN]]; lra).
  pose proof (close_add 4 _ _ _ _ _ _ _ uo_4 (close_0 mx FM) (close_0 mn Fm) ltac:(rewrite Rabs_right; lra)) as S.
  assert (T : close 0 2 f2) by (rewrite <- f2_R; apply close_0; reflexivity).
  assert (Q3 : Rabs ((B2R mx + B2R mn) / 2) <= 1) by (apply Rabs_le_iff; lra).
  destruct (close_div 2 _ 2 1 _ _ _ _ _ _ uo_2 S T ltac:(lra) ltac:(rewrite Rabs_right; lra) Q3 ltac:(lra)) as [_ W]. apply Rabs_le_iff in W. lra.
Qed.
Lemma merge_white d c e : about (fun _ => True) e (fun _ => 1) d -> in_gamut d -> in_gamut c -> 0 <= e <= / 100 ->
  channelwise (2 * e + / 16384) (fun v => v) c (merge_color_pixel d c).
Proof.
  intros A Gd Gc He. pose proof (white_lightness d e A Gd He) as W. unfold merge_color_pixel. cbv zeta.
  destruct (rgb_to_hsl_range d Gd) as (_ & _ & D2 & _). destruct (rgb_to_hsl_range c Gc) as (R0 & R1 & R2 & _).
  destruct (rgb_to_hsl_meaning c Gc) as (A1 & A2 & A3).
  unfold with_2. change (alpha (rgb_to_hsl c)) with (d3 (rgb_to_hsl c)). rewrite rgb_to_hsl_alpha.
  set (h := rgb_to_hsl c) in *. set (k := d2 (rgb_to_hsl d)) in *. clearbody h k.
  pose proof R2 as R2'. apply in01_num in R2'. apply in01_num in D2. destruct R2' as [F2 N2]. destruct D2 as [Fk Nk].
  destruct (fmin_val _ _ F2 Fk) as [Fm Em].
  assert (I : in01 (fmin (d2 h) k)) by (apply in01_num; split; [exact Fm|rewrite Em; unfold Rmin; destruct Rle_dec; lra]).
  destruct (hsl_set c (d0 h) (d1 h) (fmin (d2 h) k) 0 0 (e + / 8388608) (B2R (d0 h)) (B2R (d1 h)) (B2R (d2 h)) (2 * e + / 262144 + / 2097152)) as [(B1 & B2 & B3) B4];
    auto using circ_0, abs_0; try (now apply in01_R).
  - rewrite Em. apply Rabs_le_iff. unfold Rmin; destruct Rle_dec; lra.
  - lra.
  - assert (T : forall r x y, close (/ 32768 + / 524288) r x -> close (2 * e + / 262144 + / 2097152) r y -> close (2 * e + / 16384) (B2R x) y).
    { intros r x y [_ X] [F Y]. split; [exact F|]. apply Rabs_le_iff in X, Y. apply Rabs_le_iff. lra. }
    split; [exact (T _ _ _ A1 B1)|]. split; [exact (T _ _ _ A2 B2)|]. split; [exact (T _ _ _ A3 B3)|exact B4].
Qed.

Lemma plain_drawing L m (b : PixelBuffer Rgb) radius c x y mode out : exp_ok L -> valid b -> (1 <= radius <= 100)%Z -> in_gamut c -> inside b x y ->
  area m b x y (Z.max 5 radius + 2) (fun p => p = c) -> drawing L m b radius mode = Ok out ->
  (mode = DGray -> exists p, get_pixel m out x y = Ok p /\ forall pick, channel pick -> close (/ 65536) 1 (pick p)) /\
  (mode = DColored -> exists p, get_pixel m out x y = Ok p /\ channelwise (/ 8192) (fun v => v) c p).
Proof.
  intros X V Hr G I A. unfold drawing.
  destruct (map_pure_all (map_channels (fun v => fadd (fmul v (dec 8 10)) (dec 2 10))) b V) as (l & El & V1 & W1 & H1 & _). rewrite El. cbn [bind].
  destruct (blur_total L m l 1 None V1 ltac:(lia)) as (b1 & E1 & V2 & W2 & H2). rewrite E1. cbn [bind].
  destruct (unsharp_total L m b1 4 (ofZ 4) (Some (ofZ 5)) V2 ltac:(lia)) as (b1' & E1' & V3 & W3 & H3). rewrite E1'. cbn [bind].
  destruct (map_pure_all (with_contrast (dec 105 100)) b1' V3) as (b1'' & E1'' & V4 & W4 & H4 & _). rewrite E1''. cbn [bind].
  destruct (blur_total L m l radius None V1 ltac:(lia)) as (b2 & E2 & V5 & W5 & H5). rewrite E2. cbn [bind].
  destruct (map_pure_all invert b2 V5) as (b2' & E2' & V6 & W6 & H6 & _). rewrite E2'. cbn [bind].
  destruct (compose2_all m b1'' b2' RGB_NONE drawing_pixel (fun c => in_gamut c)) as (d & Ed & V7 & W7 & H7 & P7); auto; try lia.
  { intros c1 c2 _ _. destruct (drawing_pixel_gamut c1 c2) as (Q & _ & _ & _). exact Q. }
  rewrite Ed. cbn [bind].
  destruct (unsharp_gamut L m d 2 f1 X V7 ltac:(lia) f1_fin) as (d' & Ed' & V8 & W8 & H8 & P8); [intros q Hc; apply P7; auto|].
  rewrite Ed'. cbn [bind].
  destruct (despeckle_lemma m d' (dec 15 100) 1 V8) as (d'' & Ed'' & V9 & W9 & H9 & _).
  assert (P9 : all_pixels in_gamut d'').
  { intros q Hc. apply (despeckle_gamut m d' (dec 15 100) 1 d''); auto. lia. }
  rewrite Ed''. cbn [bind].
  pose proof (blank_area L m b radius c x y l b1 b1' b1'' b2 b2' d d' d'' X V Hr G A El E1 E1' E1'' E2 E2' Ed Ed' Ed'') as K.
  clear El E1 E1' E1'' E2 E2' Ed Ed' Ed''.
  assert (I9 : inside d'' x y) by (unfold inside in *; lia).
  destruct (K x y I9 ltac:(lia) ltac:(lia)) as (p & Ep & Hp).
  destruct mode; intros E; (split; [intros M|intros M]); try discriminate.
  - apply Ok_inj in E. subst out. exists p. split; [exact Ep|]. intros pick Cp. apply Hp; auto.
  - unfold merge_color in E. destruct (compose2_ok m d'' b RGB_NONE merge_color_pixel V9 V) as (r & E' & Vr & Wr & Hh & Q); try lia.
    rewrite E in E'. apply Ok_inj in E'. subst r. destruct (Q x y I9) as (c1 & c2 & F1 & F2 & F3).
    rewrite Ep in F1. apply Ok_inj in F1. subst c1.
    destruct (A x y I ltac:(lia) ltac:(lia)) as (c' & F4 & ->). rewrite F2 in F4. apply Ok_inj in F4. subst c2.
    exists (merge_color_pixel p c). split; [exact F3|].
    assert (Gp : in_gamut p) by (apply P9; apply (data_In m); eauto).
    destruct (merge_white p c (/ 65536) Hp Gp G ltac:(lra)) as (B1 & B2 & B3 & B4).
    split; [|split; [|split]]; auto; (eapply close_weak; [eassumption|lra]).
Qed.
