(** Proofs for C110: what balancing the channels computes. *)
From Coq Require Import Reals Lra Lia ZArith Bool Psatz List.
From Flocq Require Import Core.Core IEEE754.BinarySingleNaN.
From Verif Require Import Base BaseLemmas PixelBuffer BufferSpec PixelBufferProofs F32 F32Lemmas Color ColorSpec ColorProofs MeaningSpec Approx OpMeaningProofs.
From Verif Require Import ResampleProofs GaussProofs Ops OpsSpec OpsProofs HistogramProofs NoiseProofs TempOpt TintProofs IdealPowf StretchSpec StretchProofs.
Import ListNotations.
Open Scope R_scope.

Lemma tanh_ge u : 0 <= u -> u / (1 + u) <= tanh u.
Proof.
  intros H. pose proof (one_tanh u) as E. assert (X : 1 + 2 * u <= exp (2 * u)).
  { destruct (Req_dec u 0) as [->|N]; [rewrite Rmult_0_r, exp_0; lra|]. left. apply exp_ineq1. lra. }
  assert (Y : 2 / (exp (2 * u) + 1) <= 2 / (2 + 2 * u)) by (apply Rmult_le_compat_l; [lra|apply Rinv_le_contravar; lra]).
  assert (Z : 1 - 2 / (2 + 2 * u) = u / (1 + u)) by (field; lra). lra.
Qed.
Lemma tanh_16 L x : accurate_tanh_16 L -> fin x -> 0 <= B2R x <= 16 ->
  close (/ 4194304 + / 1000000000000) (tanh (B2R x)) (ftanh L x) /\ (B2R x = 0 -> B2R (ftanh L x) <= / 1000000000000).
Proof.
  intros A F H. destruct (A x F H) as [P Q]. assert (T : / 2 ^ 100 <= / 1000000000000) by (rewrite (pow_IZR 2 100); apply Rinv_le_contravar; [lra|apply IZR_le; vm_compute; discriminate]).
  pose proof (tanh_pos (B2R x) ltac:(lra)). pose proof (tanh_bound (B2R x)) as B. apply Rabs_le_iff in B.
  assert (E22 : / 2 ^ 22 = / 4194304) by (rewrite (pow_IZR 2 22); reflexivity). rewrite E22 in Q.
  split; [split; [exact P|apply Rabs_le_iff in Q; apply Rabs_le_iff; nra]|]. intros Z. rewrite Z, tanh_0' in Q. apply Rabs_le_iff in Q. lra.
Qed.

Notation aa := (/ 33554432).

Lemma product_err N n q p f M1 M2 M3 e1 e2 e3 : Rabs N <= M1 -> Rabs q <= M2 -> 0 <= M1 -> 0 <= M2 ->
  Rabs (n - N) <= e1 -> Rabs (p - q) <= e2 -> Rabs (f - 1) <= e3 -> M3 = (M1 + e1) * (1 + e3) ->
  Rabs (n * f * p - N * q) <= M3 * e2 + M2 * (e1 + (M1 + e1) * e3).
Proof.
  intros HN Hq HM1 HM2 H1 H2 H3 ->. replace (n * f * p - N * q) with (n * f * (p - q) + (n * (f - 1) + (n - N)) * q) by ring.
  assert (An : Rabs n <= M1 + e1) by (replace n with (N + (n - N)) by ring; eapply Rle_trans; [apply Rabs_triang|lra]).
  assert (Af : Rabs f <= 1 + e3) by (replace f with (1 + (f - 1)) by ring; eapply Rle_trans; [apply Rabs_triang|rewrite Rabs_R1; lra]).
  eapply Rle_trans; [apply Rabs_triang|]. apply Rplus_le_compat.
  - rewrite !Rabs_mult. apply Rmult_le_compat; auto using Rabs_pos. + apply Rmult_le_pos; apply Rabs_pos. + apply Rmult_le_compat; auto using Rabs_pos.
  - rewrite Rabs_mult, Rmult_comm. apply Rmult_le_compat; auto using Rabs_pos. eapply Rle_trans; [apply Rabs_triang|]. rewrite Rabs_mult.
    assert (Rabs n * Rabs (f - 1) <= (M1 + e1) * e3) by (apply Rmult_le_compat; auto using Rabs_pos). lra.
Qed.

Section Soft.
  Variables (L : libm) (lo hi : Z) (v : f32).
  Hypothesis AT : accurate_tanh_16 L.
  Hypothesis Hlo : (0 <= lo <= 255)%Z.
  Hypothesis Hhi : (0 <= hi <= 255)%Z.
  Hypothesis LT : (lo < hi)%Z.
  Hypothesis Hv : in01 v.
  Let b := fdiv (ofZ lo) (ofZ 255).
  Let w := fdiv (ofZ hi) (ofZ 255).
  Let B := IZR lo / 255.
  Let D := IZR hi / 255 - IZR lo / 255.
  Let S := tanh (10 * D).
  Let d := fsub w b.
  Let s := ftanh L (fmul (fabs d) (ofZ 10)).

  Lemma D_range : / 255 <= D <= 1.
  Proof.
    assert (1 <= IZR hi - IZR lo) by (rewrite <- minus_IZR; apply IZR_le; lia).
    assert (0 <= IZR lo) by (apply IZR_le; lia). assert (IZR hi <= 255) by (apply IZR_le; lia). unfold D. lra.
  Qed.
  Lemma d_near : fin d /\ Rabs (B2R d - D) <= 3 * aa /\ / 256 <= B2R d <= 1.
  Proof.
    destruct (level255 lo Hlo) as (F1 & B1 & E1). destruct (level255 hi Hhi) as (F2 & B2 & E2). fold b in F1, B1, E1. fold w in F2, B2, E2.
    pose proof D_range as HD. apply Rabs_le_iff in E1, E2. unfold D in HD.
    destruct (fsub_ok w b 1) as [A1 A2]; auto with fin fmt. { apply Rabs_le_iff. lra. }
    fold d in A1, A2. split; [exact A1|]. pose proof (uo_err 1 _ (B2R w - B2R b) uo_1 ltac:(apply Rabs_le_iff; lra)) as X. rewrite <- A2 in X. apply Rabs_le_iff in X.
    split; [apply Rabs_le_iff; unfold D; lra|]. split; [lra|]. rewrite A2. apply rnd_hi; [apply fmt_1|lra].
  Qed.
  Lemma s_near : close (55 * aa) S s /\ / 28 <= S /\ S <= 1 /\ S <= 10 * D.
  Proof.
    destruct d_near as (Fd & Ed & Rd). pose proof D_range as HD. apply Rabs_le_iff in Ed. destruct (ofZ_val 10 ltac:(lia)) as [F10 R10].
    assert (Hd : B2R (fabs d) = B2R d) by (rewrite fabs_R, Rabs_right; lra).
    destruct (fmul_ok (fabs d) (ofZ 10) 16) as [A1 A2]; auto with fin fmt. { rewrite Hd, R10. apply Rabs_le_iff. lra. }
    rewrite Hd, R10 in A2. pose proof (uo_err 16 _ (B2R d * 10) uo_16 ltac:(apply Rabs_le_iff; lra)) as X. rewrite <- A2 in X. apply Rabs_le_iff in X.
    set (x := fmul (fabs d) (ofZ 10)) in *. destruct (tanh_16 L x AT A1 ltac:(lra)) as [[P Q] _]. fold s in P, Q.
    pose proof (tanh_lip (B2R x) (10 * D)) as LP. fold S in LP.
    assert (LX : Rabs (B2R x - 10 * D) <= 46 * aa) by (apply Rabs_le_iff; lra).
    split. { split; [exact P|]. pose proof (Rle_trans _ _ _ LP LX) as LQ. apply Rabs_le_iff in LQ, Q. apply Rabs_le_iff. lra. }
    split. { apply Rle_trans with (2 := tanh_ge (10 * D) ltac:(lra)). apply Rmult_le_reg_r with (1 + 10 * D); [lra|]. replace (10 * D / (1 + 10 * D) * (1 + 10 * D)) with (10 * D) by (field; lra). lra. }
    pose proof (tanh_bound (10 * D)) as TB. apply Rabs_le_iff in TB. fold S in TB. pose proof (tanh_le (10 * D) ltac:(lra)) as TL. fold S in TL. lra.
  Qed.
  Lemma n_near : close (61 * aa) (B2R v - B * S) (fsub v (fmul b s)) /\ Rabs (B2R v - B * S) <= 1.
  Proof.
    destruct (level255 lo Hlo) as (F1 & B1 & E1). fold b in F1, B1, E1. destruct s_near as ([Fs Es] & S0 & S1 & _). destruct (in01_R v Hv) as [Fv V].
    assert (HB : 0 <= B <= 1) by (assert (0 <= IZR lo <= 255) by (split; apply IZR_le; lia); unfold B; lra).
    assert (BS : 0 <= B * S <= 1) by nra.
    apply Rabs_le_iff in Es. pose proof E1 as E1'. apply Rabs_le_iff in E1'. fold B in E1'.
    assert (Pb : 0 <= B2R b * B2R s <= 1 + 55 * aa) by nra.
    destruct (fmul_ok b s 2) as [A1 A2]; auto with fin fmt. { apply Rabs_le_iff. lra. }
    pose proof (uo_err 2 _ (B2R b * B2R s) uo_2 ltac:(apply Rabs_le_iff; lra)) as X. rewrite <- A2 in X. set (p := fmul b s) in *. apply Rabs_le_iff in X.
    assert (Q : Rabs (B2R b * B2R s - B * S) <= 57 * aa) by (apply Rabs_le_iff; nra). apply Rabs_le_iff in Q.
    destruct (fsub_ok v p 2) as [A3 A4]; auto with fin fmt. { apply Rabs_le_iff. lra. }
    pose proof (uo_err 2 _ (B2R v - B2R p) uo_2 ltac:(apply Rabs_le_iff; lra)) as Y. rewrite <- A4 in Y. apply Rabs_le_iff in Y.
    split; [split; [exact A3|apply Rabs_le_iff; lra]|apply Rabs_le_iff; lra].
  Qed.
  Lemma f_near : let f := fdiv f1 d in fin f /\ Rabs (B2R f * D - 1) <= 780 * aa /\ 0 <= B2R f <= 260.
  Proof.
    intros f. destruct d_near as (Fd & Ed & Rd). pose proof D_range as HD. apply Rabs_le_iff in Ed.
    assert (I : 1 <= / B2R d <= 256).
    { split; [rewrite <- Rinv_1; apply Rinv_le_contravar; lra|rewrite <- (Rinv_inv 256); apply Rinv_le_contravar; lra]. }
    destruct (fdiv_ok f1 d 256) as [A1 A2]; auto with fin. { lra. } { apply (fmt_IZR 256). lia. } { rewrite f1_R. unfold Rdiv. rewrite Rmult_1_l. apply Rabs_le_iff. lra. }
    fold f in A1, A2. rewrite f1_R in A2. unfold Rdiv in A2. rewrite Rmult_1_l in A2.
    pose proof (rnd_rel_pos (/ B2R d) ltac:(lra)) as RR. rewrite <- A2 in RR. unfold ee in RR.
    split; [exact A1|]. assert (E : / B2R d * D = 1 + (D - B2R d) * / B2R d) by (field; lra).
    assert (K : - (768 * aa) <= (D - B2R d) * / B2R d <= 768 * aa).
    { assert (C : Rabs ((D - B2R d) * / B2R d) <= 3 * aa * 256) by (rewrite Rabs_mult; apply Rmult_le_compat; [apply Rabs_pos|apply Rabs_pos|apply Rabs_le_iff; lra|apply Rabs_le_iff; lra]).
      apply Rabs_le_iff in C. lra. }
    split; [|lra]. apply Rabs_le_iff. assert (U : B2R f * D <= (1 + / 16777216) * (/ B2R d * D)) by (rewrite <- Rmult_assoc; apply Rmult_le_compat_r; lra).
    assert (W : (1 - / 16777216) * (/ B2R d * D) <= B2R f * D) by (rewrite <- Rmult_assoc; apply Rmult_le_compat_r; lra).
    rewrite E in U, W. lra.
  Qed.

  Lemma soft_near : close (/ 1024) (soft_stretched lo hi (B2R v)) (soft_level L b w v).
  Proof.
    unfold soft_stretched, soft_level. cbv zeta. fold d s B D S.
    destruct s_near as ([Fs Es] & S0 & S1 & S2). pose proof D_range as HD. destruct n_near as [[Fn En] Nn]. destruct f_near as (Ff & Ef & Rf).
    replace (fle s f32_EPSILON) with false.
    2:{ symmetry. apply fle_Rf; [exact Fs|reflexivity|]. fval f32_EPSILON HE. rewrite HE. apply Rabs_le_iff in Es. lra. }
    set (n := fsub v (fmul b s)) in *. set (f := fdiv f1 d) in *. set (N := B2R v - B * S) in *.
    pose proof p140 as P140.
    assert (Rn : Rabs (B2R n) <= 1 + 61 * aa) by (replace (B2R n) with (N + (B2R n - N)) by ring; eapply Rle_trans; [apply Rabs_triang|lra]).
    assert (NF : Rabs (B2R n * B2R f) <= 261) by (rewrite Rabs_mult; apply Rle_trans with ((1 + 61 * aa) * 260); [apply Rmult_le_compat; auto using Rabs_pos; apply Rabs_le_iff; lra|lra]).
    destruct (fmul_ok n f 512) as [A1 A2]; auto. { apply (fmt_IZR 512). lia. } { lra. }
    pose proof (rnd_rel_abs (B2R n * B2R f)) as G1. rewrite <- A2 in G1. set (g := fmul n f) in *.
    assert (Rs : 0 <= B2R s <= 1 + 55 * aa) by (apply Rabs_le_iff in Es; lra).
    assert (Gs : Rabs (B2R g) <= 262) by (replace (B2R g) with (B2R n * B2R f + (B2R g - B2R n * B2R f)) by ring; eapply Rle_trans; [apply Rabs_triang|lra]).
    assert (GS : Rabs (B2R g * B2R s) <= 263) by (rewrite Rabs_mult; apply Rle_trans with (262 * (1 + 55 * aa)); [apply Rmult_le_compat; auto using Rabs_pos; apply Rabs_le_iff; lra|lra]).
    destruct (fmul_ok g s 512) as [A3 A4]; auto. { apply (fmt_IZR 512). lia. } { lra. }
    pose proof (rnd_rel_abs (B2R g * B2R s)) as G2. rewrite <- A4 in G2. split; [exact A3|]. set (o := fmul g s) in *.
    set (X := B2R n * (B2R f * D) * (B2R s * / D)).
    assert (EX : B2R n * B2R f * B2R s = X) by (unfold X; field; lra).
    assert (ID : 1 <= / D <= 255) by (split; [rewrite <- Rinv_1; apply Rinv_le_contravar; lra|rewrite <- (Rinv_inv 255); apply Rinv_le_contravar; lra]).
    assert (Q : S * / D <= 10) by (apply Rmult_le_reg_r with D; [lra|]; rewrite Rmult_assoc, Rinv_l by lra; lra).
    assert (Q0 : 0 <= S * / D) by (apply Rmult_le_pos; lra).
    assert (EP : Rabs (B2R s * / D - S * / D) <= 55 * aa * 255).
    { rewrite <- Rmult_minus_distr_r, Rabs_mult. apply Rmult_le_compat; auto using Rabs_pos. apply Rabs_le_iff. lra. }
    pose proof (product_err N (B2R n) (S * / D) (B2R s * / D) (B2R f * D) 1 10 _ _ _ _ Nn ltac:(apply Rabs_le_iff; lra) ltac:(lra) ltac:(lra) En EP Ef eq_refl) as PE. fold X in PE.
    set (Y := N * (S * / D)) in *.
    assert (EY : N * S / D = Y) by (unfold Y, Rdiv; ring).
    assert (YB : Rabs Y <= 10) by (unfold Y; rewrite Rabs_mult; apply Rle_trans with (1 * 10); [apply Rmult_le_compat; auto using Rabs_pos; apply Rabs_le_iff; lra|lra]).
    assert (XB : Rabs X <= 11) by (replace X with (Y + (X - Y)) by ring; eapply Rle_trans; [apply Rabs_triang|lra]).
    assert (G3 : Rabs (B2R g * B2R s - X) <= / 16777216 * 12 + / 1000000000).
    { replace (B2R g * B2R s - X) with ((B2R g - B2R n * B2R f) * B2R s) by (rewrite Rmult_minus_distr_r, EX; reflexivity). rewrite Rabs_mult. rewrite (Rabs_right (B2R s)) by lra.
      apply Rle_trans with ((/ 16777216 * Rabs (B2R n * B2R f) + / 2 ^ 140) * B2R s); [apply Rmult_le_compat_r; lra|].
      assert (AX : Rabs (B2R n * B2R f) * B2R s = Rabs X) by (rewrite <- EX at 1; rewrite (Rabs_mult (B2R n * B2R f) (B2R s)), (Rabs_right (B2R s)) by lra; reflexivity).
      assert (T2 : / 2 ^ 140 * B2R s <= / 2 ^ 140 * 2) by (apply Rmult_le_compat_l; lra).
      set (t := / 2 ^ 140) in *. clearbody t. rewrite Rmult_plus_distr_r, Rmult_assoc, AX. lra. }
    assert (G4 : Rabs (B2R g * B2R s) <= 12) by (replace (B2R g * B2R s) with (X + (B2R g * B2R s - X)) by ring; eapply Rle_trans; [apply Rabs_triang|lra]).
    assert (G5 : Rabs (B2R o - B2R g * B2R s) <= / 16777216 * 12 + / 1000000000) by lra.
    change (Rabs (B2R o - N * S / D) <= / 1024). rewrite EY. apply Rabs_le_iff in PE, G3, G5. apply Rabs_le_iff. lra.
  Qed.
End Soft.

Lemma soft_flat L k v : accurate_tanh_16 L -> (0 <= k <= 255)%Z -> let b := fdiv (ofZ k) (ofZ 255) in soft_level L b b v = v.
Proof.
  intros AT Hk b. destruct (level255 k Hk) as (F & _). fold b in F. unfold soft_level. cbv zeta.
  destruct (fsub_exact b b) as [A1 A2]; auto. { replace (B2R b - B2R b) with 0 by lra. apply fmt_0. }
  assert (Z : B2R (fabs (fsub b b)) = 0) by (rewrite fabs_R, A2; replace (B2R b - B2R b) with 0 by lra; apply Rabs_R0).
  destruct (ofZ_val 10 ltac:(lia)) as [F10 R10].
  destruct (fmul_exact (fabs (fsub b b)) (ofZ 10)) as [A3 A4]; auto. { now apply fabs_fin. } { rewrite Z, Rmult_0_l. apply fmt_0. }
  rewrite Z, Rmult_0_l in A4. destruct (tanh_16 L _ AT A3 ltac:(rewrite A4; lra)) as [[P _] Q]. specialize (Q A4).
  replace (fle (ftanh L (fmul (fabs (fsub b b)) (ofZ 10))) f32_EPSILON) with true; [reflexivity|]. symmetry.
  apply fle_R; [exact P|reflexivity|]. fval f32_EPSILON HE. rewrite HE. lra.
Qed.

(** * The image *)

Lemma black_unique t l v w : black_point t l v -> black_point t l w -> v = w.
Proof.
  intros [(k & (K1 & K2 & K3) & ->)|[N ->]] [(j & (J1 & J2 & J3) & ->)|[N' ->]]; auto.
  - assert (k = j); [|now subst]. destruct (Z.lt_trichotomy k j) as [H|[H|H]]; [|exact H|].
    + rewrite J3 in K2 by lia. discriminate.
    + rewrite K3 in J2 by lia. discriminate.
  - rewrite N' in K2 by lia. discriminate.
  - rewrite N in J2 by lia. discriminate.
Qed.
Lemma white_unique t l v w : white_point t l v -> white_point t l w -> v = w.
Proof.
  intros [(k & (K1 & K2 & K3) & ->)|[N ->]] [(j & (J1 & J2 & J3) & ->)|[N' ->]]; auto.
  - assert (k = j); [|now subst]. destruct (Z.lt_trichotomy k j) as [H|[H|H]]; [|exact H|].
    + rewrite J3 in K2 by lia. discriminate.
    + rewrite K3 in J2 by lia. discriminate.
  - rewrite N' in K2 by lia. discriminate.
  - rewrite N in J2 by lia. discriminate.
Qed.

Lemma balance_real L (b : PixelBuffer Rgb) threshold : accurate_tanh_16 L -> valid b -> (1 <= zlen (data b) <= 1048576)%Z ->
  (forall c, In c (data b) -> in_gamut c) -> is_finite threshold = true -> B2R threshold = 0 \/ / 1048576 <= B2R threshold <= 400 ->
  exists r, balance L b BRgb threshold = Ok r /\ valid r /\ width r = width b /\ height r = height b /\
    (forall m x y, inside b x y -> exists c o, get_pixel m b x y = Ok c /\ get_pixel m r x y = Ok o /\ d3 o = d3 c) /\
    forall pick, pick = d0 \/ pick = d1 \/ pick = d2 -> exists lo hi,
      dark_level (fun c => channel_bin (pick c)) (data b) (B2R threshold / 1000) ((IZR (zlen (data b)) + 300) / 8388608) lo /\
      bright_level (fun c => channel_bin (pick c)) (data b) (B2R threshold / 1000) ((IZR (zlen (data b)) + 300) / 8388608) hi /\ (lo <= hi)%Z /\
      forall m x y c o, inside b x y -> get_pixel m b x y = Ok c -> get_pixel m r x y = Ok o ->
        ((lo < hi)%Z -> close (/ 1024) (soft_stretched lo hi (B2R (pick c))) (pick o)) /\ (lo = hi -> pick o = pick c).
Proof.
  intros AT V Hn G Ft Ht. destruct (balance_spec_l L b BRgb threshold KRgb true true true V eq_refl) as (r & E & Vr & W & H & P).
  exists r. split; [exact E|]. split; [exact Vr|]. split; [exact W|]. split; [exact H|]. split.
  { intros m x y I. destruct (P m x y I) as (c & o & Pc & Po & _ & _ & _ & Q3). exists c, o. auto. }
  intros pick Cp. assert (BR : forall c, (0 <= channel_bin (pick c) <= 255)%Z) by (intros c0; apply fcast_range; lia).
  set (sh := shares (fun c => channel_bin (pick c)) (data b)). set (t := fdiv threshold (ofZ 1000)).
  pose proof (black_point_ok t sh) as BP. pose proof (white_point_ok t sh (shares_zlen _ _)) as WP.
  destruct (dark_found (fun c => channel_bin (pick c)) BR (data b) threshold Hn Ft Ht _ BP) as (k1 & U1 & D1).
  destruct (bright_found (fun c => channel_bin (pick c)) BR (data b) threshold Hn Ft Ht _ WP) as (k2 & U2 & D2).
  pose proof (dark_below_bright (fun c => channel_bin (pick c)) (data b) threshold Hn Ht k1 k2 D1 D2) as LE.
  exists k1, k2. split; [exact D1|]. split; [exact D2|]. split; [exact LE|]. rewrite U1 in BP. rewrite U2 in WP.
  intros m x y c o I Pc Po. destruct (P m x y I) as (c' & o' & Pc' & Po' & Q0 & Q1 & Q2 & _).
  rewrite Pc in Pc'. rewrite Po in Po'. assert (Ec : c' = c) by (now inversion Pc'). assert (Eo' : o' = o) by (now inversion Po'). subst c' o'. clear Pc' Po' P.
  assert (IN : In c (data b)) by (rewrite get_pixel_eq in Pc by auto; eapply idx_In; exact Pc).
  assert (Gp : in01 (pick c)) by (destruct (G c IN) as (g0 & g1 & g2 & _); destruct Cp as [-> | [-> | ->]]; auto).
  assert (Q : balanced L t pick (map (convert_color L KRgb KRgb) (data b)) (pick c) (pick o)) by (destruct Cp as [-> | [-> | ->]]; auto).
  destruct Q as (lo & hi & BP' & WP' & Eo).
  assert (EM : map (convert_color L KRgb KRgb) (data b) = data b) by (rewrite <- (map_id (data b)) at 2; apply map_ext; reflexivity). rewrite EM in BP', WP'.
  rewrite (black_unique _ _ _ _ BP' BP), (white_unique _ _ _ _ WP' WP) in Eo. rewrite Eo. split.
  - intros LT. apply soft_near; auto; [apply D1|apply D2].
  - intros <-. apply soft_flat; [exact AT|apply D1].
Qed.

(** Two greys of which the brighter leaves the range *)
Lemma two_levels {A} (bin_of : A -> Z) a1 a2 e k1 k2 : bin_of a1 = 102%Z -> bin_of a2 = 153%Z ->
  dark_level bin_of [a1; a2] 0 e k1 -> bright_level bin_of [a1; a2] 0 e k2 -> k1 = 102%Z /\ k2 = 153%Z.
Proof.
  intros E1 E2 (A1 & A2 & A3) (B1 & B2 & B3).
  assert (LO : forall k, count (fun a => (bin_of a <=? k)%Z) [a1; a2] = ((if 102 <=? k then 1 else 0) + ((if 153 <=? k then 1 else 0) + 0))%Z).
  { intros k. rewrite !count_cons, E1, E2. reflexivity. }
  assert (HI : forall k, count (fun a => (k <=? bin_of a)%Z) [a1; a2] = ((if k <=? 102 then 1 else 0) + ((if k <=? 153 then 1 else 0) + 0))%Z).
  { intros k. rewrite !count_cons, E1, E2. reflexivity. }
  rewrite LO, Rmult_0_r, Rmult_0_l in A2. rewrite HI, Rmult_0_r, Rmult_0_l in B2.
  apply (lt_IZR 0) in A2. apply (lt_IZR 0) in B2. split.
  - destruct (Z.eq_dec k1 102) as [|N]; [auto|exfalso]. destruct (102 <=? k1)%Z eqn:C1, (153 <=? k1)%Z eqn:C2; try lia.
    all: specialize (A3 102%Z ltac:(lia)); rewrite LO, Rmult_0_r, Rmult_0_l in A3; apply (le_IZR _ 0) in A3; cbn in A3; lia.
  - destruct (Z.eq_dec k2 153) as [|N]; [auto|exfalso]. destruct (k2 <=? 102)%Z eqn:C1, (k2 <=? 153)%Z eqn:C2; try lia.
    all: specialize (B3 153%Z ltac:(lia)); rewrite HI, Rmult_0_r, Rmult_0_l in B3; apply (le_IZR _ 0) in B3; cbn in B3; lia.
Qed.
Lemma tanh_2 : 8 / 10 <= tanh 2 <= 98 / 100.
Proof.
  pose proof (one_tanh 2) as E. replace (2 * 2) with (1 + 1 + (1 + 1)) in E by lra. rewrite !exp_plus in E.
  assert (X : 2 <= exp 1) by (left; apply Rle_lt_trans with (1 + 1); [lra|apply exp_ineq1; lra]). pose proof exp_le_3 as Y.
  assert (X2 : 4 <= exp 1 * exp 1 <= 9) by nra. assert (X4 : 16 <= exp 1 * exp 1 * (exp 1 * exp 1) <= 81) by nra.
  set (z := exp 1 * exp 1 * (exp 1 * exp 1)) in *. clearbody z.
  assert (2 / 82 <= 2 / (z + 1)) by (apply Rmult_le_compat_l; [lra|apply Rinv_le_contravar; lra]).
  assert (2 / (z + 1) <= 2 / 17) by (apply Rmult_le_compat_l; [lra|apply Rinv_le_contravar; lra]). lra.
Qed.
Lemma balance_overflow L : accurate_tanh_16 L ->
  exists r, balance L (mkPB 2 1 [grey 103; grey 154]) BRgb f0 = Ok r /\
  exists o, get_pixel Checked r 1 0 = Ok o /\ 101 / 100 < B2R (d0 o) /\ 101 / 100 < B2R (d1 o) /\ 101 / 100 < B2R (d2 o).
Proof.
  intros AT. set (b := mkPB 2 1 [grey 103; grey 154]).
  assert (V : valid b) by (vm_compute; intuition congruence).
  destruct (balance_real L b f0 AT V) as (r & E & _ & _ & _ & P & Q).
  { change (1 <= 2 <= 1048576)%Z. lia. } { intros c [<- | [<- | []]]; vm_compute; intuition. } { reflexivity. } { left. reflexivity. }
  exists r. split; [exact E|].
  assert (I : inside b 1 0) by (unfold inside; cbn [width height b]; lia). destruct (P Checked 1%Z 0%Z I) as (c & o & Pc & Po & _).
  exists o. split; [exact Po|]. assert (Ec : c = grey 154) by (assert (Pg : get_pixel Checked b 1 0 = Ok (grey 154)) by reflexivity; rewrite Pg in Pc; now inversion Pc). clear P.
  assert (GEN : forall pick, pick = d0 \/ pick = d1 \/ pick = d2 -> pick (grey 103) = fdiv (ofZ 103) (ofZ 256) -> pick (grey 154) = fdiv (ofZ 154) (ofZ 256) -> 101 / 100 < B2R (pick o)).
  { intros pick Hp G1 G2. destruct (Q pick Hp) as (lo & hi & D1 & D2 & _ & K'). destruct (K' Checked 1%Z 0%Z c o I Pc Po) as [K _]. clear K'.
    replace (B2R f0 / 1000) with 0 in D1, D2 by (change (B2R f0) with 0; lra). cbn [data b] in D1, D2.
    assert (K1 : channel_bin (pick (grey 103)) = 102%Z) by (rewrite G1; vm_compute; reflexivity). assert (K2 : channel_bin (pick (grey 154)) = 153%Z) by (rewrite G2; vm_compute; reflexivity).
    destruct (two_levels (fun c : col => channel_bin (pick c)) _ _ _ lo hi K1 K2 D1 D2) as [-> ->].
    specialize (K ltac:(lia)). rewrite Ec, G2 in K. fval (fdiv (ofZ 154) (ofZ 256)) HV. rewrite HV in K. destruct K as [_ K]. unfold soft_stretched in K.
    replace (153 / 255 - 102 / 255) with (/ 5) in K by lra. replace (10 * / 5) with 2 in K by lra. cbv zeta in K.
    pose proof tanh_2 as T2. apply Rabs_le_iff in K. set (t := tanh 2) in *. clearbody t.
    assert (102 / 100 - / 1000 <= (154 / 256 - 102 / 255 * t) * t * 5) by nra. unfold Rdiv in K. rewrite Rinv_inv in K. unfold Rdiv in *. lra. }
  split; [apply (GEN d0); auto|]. split; [apply (GEN d1); auto|apply (GEN d2); auto].
Qed.
Definition balance_libm (L : libm) : libm :=
  {| powf := powf L; fsin := fsin L; fcos := fcos L; fexp_ := fexp_ L; ftanh := fun x => rounded (tanh (B2R x)); fatan2 := fatan2 L; dtanh := dtanh L |}.
Lemma balance_accurate L : accurate_tanh_16 (balance_libm L).
Proof.
  intros x Fx Hx. cbn [ftanh balance_libm]. pose proof (tanh_bound (B2R x)) as B. pose proof (tanh_pos (B2R x) ltac:(lra)) as P.
  destruct (rounded_ok (tanh (B2R x)) B) as [F E]. split; [exact F|]. rewrite E. pose proof (rnd_rel_abs (tanh (B2R x))) as R. rewrite (Rabs_right (tanh (B2R x))) in R by lra.
  assert (T : / 2 ^ 140 <= / 2 ^ 100) by (apply Rinv_le_contravar; [apply pow_lt; lra|apply Rle_pow; [lra|lia]]).
  assert (E22 : / 2 ^ 22 = / 4194304) by (rewrite (pow_IZR 2 22); reflexivity). rewrite E22. lra.
Qed.
