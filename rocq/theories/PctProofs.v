(** Proofs about Image::resize_pct. *)
From Coq Require Import Reals.
From Coq Require Import ZArith List Bool Lia Lra String.
From Flocq Require Import Core BinarySingleNaN Sterbenz.
From Verif Require Import Base BaseLemmas PixelBuffer BufferSpec PixelBufferProofs F32 F32Lemmas Color ColorSpec ColorProofs.
From Verif Require Import Resample ResampleProofs Image ImageSpec ImageProofs.
Import ListNotations.
Open Scope R_scope.

Definition pct_side (p : f32) (w : Z) : Z := Z.max (f_as_u32 (fround (fmul (ofZ w) (fdiv p (ofZ 100))))) 1.

Definition tt_ : R := / 1208925819614629174706176.
Lemma tiny_150 : bpow radix2 (-150) <= tt_.
Proof. apply Rle_trans with (bpow radix2 (-80)); [apply bpow_le; lia|]. rewrite bpow_neg. change (Z.pow_pos 2 80) with 1208925819614629174706176%Z. unfold tt_. lra. Qed.
Lemma rnd_near x : 0 <= x -> (1 - ee) * x - tt_ <= rnd x <= (1 + ee) * x + tt_.
Proof.
  intros P. pose proof ee_val as EE. assert (T : 0 < tt_) by (unfold tt_; lra).
  destruct (Rle_dec (bpow radix2 (-126)) x) as [H|H].
  - assert (K : Rabs (rnd x - x) <= ee * Rabs x) by (apply rnd_rel; rewrite Rabs_pos_eq; auto).
    rewrite (Rabs_pos_eq x) in K by auto. apply Rabs_le_inv in K. lra.
  - assert (K : Rabs (rnd x - x) <= bpow radix2 (-125 - 25)).
    { apply rnd_err; [lia|]. rewrite Rabs_pos_eq by auto. apply Rle_trans with (bpow radix2 (-126)); [lra|]. apply bpow_le; lia. }
    pose proof tiny_150. change (-125 - 25)%Z with (-150)%Z in K. apply Rabs_le_inv in K.
    assert (0 <= ee * x) by (rewrite EE; lra). lra.
Qed.
Lemma hundred : fin (ofZ 100) /\ B2R (ofZ 100) = 100.
Proof. apply (ofZ_val 100). reflexivity. Qed.
Lemma znearest_half x : Rabs (IZR (ZnearestA x) - x) <= / 2.
Proof. rewrite Rabs_minus_sym. apply Znearest_half. Qed.

Lemma cast_big v : fin v -> 4294967296 <= B2R v -> f_as_u32 (fround v) = 4294967295%Z.
Proof.
  intros F H. destruct (fround_val v F) as [F1 E1]. unfold f_as_u32. rewrite (cast_int _ _ _ _ F1 E1).
  assert (4294967295 < ZnearestA (B2R v))%Z; [|lia].
  apply lt_IZR. pose proof (znearest_half (B2R v)) as K. apply Rabs_le_inv in K. lra.
Qed.

Lemma fmul_inf x y : fin x -> fin y -> bpow radix2 128 <= Rabs (rnd (B2R x * B2R y)) ->
  fmul x y = B754_infinity (xorb (Bsign x) (Bsign y)).
Proof.
  intros Fx Fy H. pose proof (Bmult_correct 24 128 p24 e128 mode_NE x y) as B.
  rewrite Rlt_bool_false in B by (exact H). apply B2SF_inj. unfold fmul. rewrite B. reflexivity.
Qed.
Lemma pos_sign x : fin x -> 0 < B2R x -> Bsign x = false.
Proof.
  destruct x as [s|s| |s m e B]; intros F H; try discriminate; [simpl in H; lra|].
  destruct s; auto. exfalso. simpl in H. pose proof (F2R_le_0 radix2 (Float radix2 (Zneg m) e)) as K. simpl in K.
  assert (F2R {| Fnum := Zneg m; Fexp := e |} <= 0) by (apply K; lia). lra.
Qed.
Lemma neg_sign x : fin x -> B2R x < 0 -> Bsign x = true.
Proof.
  destruct x as [s|s| |s m e B]; intros F H; try discriminate; [simpl in H; lra|].
  destruct s; auto. exfalso. simpl in H. pose proof (F2R_ge_0 radix2 (Float radix2 (Zpos m) e)) as K. simpl in K.
  assert (0 <= F2R {| Fnum := Zpos m; Fexp := e |}) by (apply K; lia). lra.
Qed.

Lemma pct_side_close p w : (0 < w <= 1073741823)%Z -> fin p -> 0 <= B2R p ->
  let r := IZR w * (B2R p / 100) in
  (pct_side p w = 4294967295%Z /\ 2147483648 <= r) \/ Rabs (IZR (pct_side p w) - Rmax 1 r) <= / 2 + r * / 4194304.
Proof.
  intros Hw Fp Pp r.
  assert (Rw : 1 <= IZR w <= 1073741823) by (split; apply IZR_le; lia).
  destruct (ofZ_big w) as [FW BW]; [lia|]. destruct hundred as [F100 E100].
  pose proof ee_val as EE. set (e := ee) in *.
  set (q := B2R p / 100). assert (Pq : 0 <= q) by (unfold q; lra).
  destruct (fdiv_ok p (ofZ 100) (B2R p)) as [Ff Ef]; auto; [rewrite E100; lra|apply fmt_B2R| |].
  { rewrite E100, Rabs_pos_eq; lra. }
  rewrite E100 in Ef. fold q in Ef. set (f := fdiv p (ofZ 100)) in *.
  pose proof (rnd_near q Pq) as Bf. rewrite <- Ef in Bf. fold e in Bf.
  assert (T : 0 < tt_ <= / 1000000000000000000000000) by (unfold tt_; lra). set (t := tt_) in *.
  assert (Pf : 0 <= B2R f). { rewrite Ef. apply rnd_lo; [apply fmt_0|auto]. }
  set (W := B2R (ofZ w)) in *. set (x := W * B2R f).
  assert (PW : 0 < W) by nra.
  assert (Er : r = IZR w * q) by reflexivity. assert (Pr : 0 <= r) by nra.
  assert (WB : W <= 2147483648) by nra.
  assert (Bx : (1 - 2 * e) * r - / 100000000000 <= x <= (1 + 2 * e + e * e) * r + / 100000000000).
  { unfold x. assert (L1 : W * ((1 - e) * q - t) <= W * B2R f) by (apply Rmult_le_compat_l; lra).
    assert (L2 : W * B2R f <= W * ((1 + e) * q + t)) by (apply Rmult_le_compat_l; lra).
    assert (L3 : W * t <= / 100000000000).
    { apply Rle_trans with (2147483648 * / 1000000000000000000000000); [|lra].
      apply Rmult_le_compat; lra. }
    assert (L4 : (1 - e) * IZR w * q <= W * q) by (apply Rmult_le_compat_r; lra).
    assert (L5 : W * q <= (1 + e) * IZR w * q) by (apply Rmult_le_compat_r; lra).
    assert (L6 : (1 - e) * (W * q) >= (1 - e) * ((1 - e) * IZR w * q)) by (apply Rle_ge, Rmult_le_compat_l; lra).
    assert (L7 : (1 + e) * (W * q) <= (1 + e) * ((1 + e) * IZR w * q)) by (apply Rmult_le_compat_l; lra).
    assert (L8 : (1 - e) * ((1 - e) * IZR w * q) = (1 - 2 * e) * r + e * e * r) by (rewrite Er; ring).
    assert (L9 : (1 + e) * ((1 + e) * IZR w * q) = (1 + 2 * e + e * e) * r) by (rewrite Er; ring).
    assert (0 <= e * e * r) by (apply Rmult_le_pos; [nra|lra]).
    split; lra. }
  assert (Px : 0 <= x) by (unfold x; nra).
  destruct (Rle_dec x 1099511627776) as [S|S].
  - destruct (fmul_ok (ofZ w) f 1099511627776) as [Fv Ev]; auto using fmt_2_40.
    { fold W x. rewrite Rabs_pos_eq; auto. }
    fold W x in Ev. pose proof (rnd_near x Px) as Bv. fold e t in Bv. rewrite <- Ev in Bv.
    set (v := fmul (ofZ w) f) in *. destruct (fround_val v Fv) as [F1 E1].
    pose proof (znearest_half (B2R v)) as K. apply Rabs_le_inv in K.
    assert (V : Rabs (B2R v - r) <= (3 * e + / 1000000 * e) * r + / 10000000000).
    { assert (U : (1 + e) * ((1 + 2 * e + e * e) * r + / 100000000000) + t <= (1 + (3 * e + / 1000000 * e)) * r + / 10000000000).
      { replace ((1 + e) * ((1 + 2 * e + e * e) * r + / 100000000000)) with ((1 + e) * (1 + 2 * e + e * e) * r + (1 + e) * / 100000000000) by ring.
        assert ((1 + e) * (1 + 2 * e + e * e) * r <= (1 + (3 * e + / 1000000 * e)) * r); [apply Rmult_le_compat_r; auto; rewrite EE; lra|].
        rewrite EE in *. lra. }
      assert (U2 : (1 - (3 * e + / 1000000 * e)) * r - / 10000000000 <= (1 - e) * ((1 - 2 * e) * r - / 100000000000) - t).
      { replace ((1 - e) * ((1 - 2 * e) * r - / 100000000000)) with ((1 - e) * (1 - 2 * e) * r - (1 - e) * / 100000000000) by ring.
        assert ((1 - (3 * e + / 1000000 * e)) * r <= (1 - e) * (1 - 2 * e) * r); [apply Rmult_le_compat_r; auto; rewrite EE; lra|].
        rewrite EE in *. lra. }
      assert (U3 : (1 + e) * x <= (1 + e) * ((1 + 2 * e + e * e) * r + / 100000000000)) by (apply Rmult_le_compat_l; lra).
      assert (U4 : (1 - e) * ((1 - 2 * e) * r - / 100000000000) <= (1 - e) * x) by (apply Rmult_le_compat_l; lra).
      apply Rabs_le. lra. }
    apply Rabs_le_inv in V. unfold pct_side. fold f v. unfold f_as_u32. rewrite (cast_int _ _ _ _ F1 E1).
    set (z := ZnearestA (B2R v)) in *.
    destruct (Z_le_gt_dec 4294967295 z) as [Z0|Z0].
    + left. split; [lia|]. assert (4294967295 <= IZR z) by (apply IZR_le; lia). rewrite EE in *. lra.
    + right. assert (Pv : 0 <= B2R v) by (rewrite Ev; apply rnd_lo; [apply fmt_0|auto]).
      assert (Z1 : (0 <= z)%Z). { assert (-1 < z)%Z; [|lia]. apply lt_IZR. lra. }
      replace (Z.max (Z.max 0 (Z.min 4294967295 z)) 1) with (Z.max z 1) by lia.
      destruct (Rle_dec r (/ 4)) as [R4|R4].
      * assert (z < 1)%Z; [apply lt_IZR; rewrite EE in *; lra|]. replace (Z.max z 1) with 1%Z by lia.
        rewrite Rmax_left by lra. replace (1 - 1) with 0 by lra. rewrite Rabs_R0. lra.
      * assert (D : Rabs (IZR z - r) <= / 2 + r * / 4194304).
        { apply Rabs_le. rewrite EE in *. lra. }
        apply Rabs_le_inv in D. apply Rabs_le.
        destruct (Z_le_gt_dec 1 z) as [Z2|Z2].
        -- replace (Z.max z 1) with z by lia. assert (1 <= IZR z) by (apply IZR_le; lia). unfold Rmax. destruct (Rle_dec 1 r); lra.
        -- replace (Z.max z 1) with 1%Z by lia. assert (IZR z <= 0) by (apply IZR_le; lia). unfold Rmax. destruct (Rle_dec 1 r); lra.
  - left. assert (Rx : 1099511627776 <= rnd x) by (apply rnd_lo; [apply fmt_2_40|lra]).
    split; [|rewrite EE in *; lra]. unfold pct_side. fold f.
    replace (f_as_u32 (fround (fmul (ofZ w) f))) with 4294967295%Z; [reflexivity|]. symmetry.
    destruct (Rlt_dec (Rabs (rnd x)) (bpow radix2 128)) as [B|B].
    + pose proof (Bmult_correct 24 128 p24 e128 mode_NE (ofZ w) f) as C.
      rewrite Rlt_bool_true in C by exact B. destruct C as (C1 & C2 & _). apply cast_big.
      * unfold fin, fmul. rewrite C2. unfold fin in *. rewrite FW, Ff. reflexivity.
      * unfold fmul. rewrite C1. fold W x. fold (rnd x). lra.
    + rewrite fmul_inf; auto; [|fold W x; lra].
      rewrite (pos_sign (ofZ w)) by auto. rewrite (pos_sign f); [reflexivity|auto|].
      destruct (Rle_lt_or_eq_dec _ _ Pf) as [P|P]; auto. exfalso. unfold x in S. rewrite <- P in S. lra.
Qed.

Lemma fround_inf s : fround (B754_infinity s) = B754_infinity s.
Proof. reflexivity. Qed.
Lemma pct_side_nonpos p w : (0 < w <= 1073741823)%Z -> flt f0 p = false -> pct_side p w = 1%Z.
Proof.
  intros Hw H. unfold pct_side. enough (E : (f_as_u32 (fround (fmul (ofZ w) (fdiv p (ofZ 100)))) <= 0)%Z) by lia.
  assert (Rw : 1 <= IZR w <= 1073741823) by (split; apply IZR_le; lia).
  destruct (ofZ_big w) as [FW BW]; [lia|]. destruct hundred as [F100 E100]. pose proof ee_val as EE.
  assert (PW : 0 < B2R (ofZ w)) by (rewrite EE in *; lra). pose proof (pos_sign _ FW PW) as SW.
  destruct (is_finite p) eqn:Fp.
  - apply flt_Rf in H; [|apply f0_fin|exact Fp]. rewrite f0_R in H.
    destruct (fdiv_ok p (ofZ 100) (- B2R p)) as [Ff Ef]; auto; [rewrite E100; lra|apply fmt_opp, fmt_B2R| |].
    { rewrite E100. rewrite Rabs_left1; lra. }
    rewrite E100 in Ef. set (f := fdiv p (ofZ 100)) in *.
    assert (Nf : B2R f <= 0). { rewrite Ef. apply rnd_hi; [apply fmt_0|lra]. }
    destruct (Rlt_dec (Rabs (rnd (B2R (ofZ w) * B2R f))) (bpow radix2 128)) as [B|B].
    + pose proof (Bmult_correct 24 128 p24 e128 mode_NE (ofZ w) f) as C.
      rewrite Rlt_bool_true in C by exact B. destruct C as (C1 & C2 & _).
      assert (Fv : fin (fmul (ofZ w) f)). { unfold fin, fmul. rewrite C2. unfold fin in *. rewrite FW, Ff. reflexivity. }
      destruct (fround_val _ Fv) as [F1 E1]. unfold f_as_u32. rewrite (cast_int _ _ _ _ F1 E1).
      assert (Nv : B2R (fmul (ofZ w) f) <= 0).
      { unfold fmul. rewrite C1. change (rnd (B2R (ofZ w) * B2R f) <= 0). apply rnd_hi; [apply fmt_0|nra]. }
      enough (ZnearestA (B2R (fmul (ofZ w) f)) < 1)%Z by lia. apply lt_IZR.
      pose proof (znearest_half (B2R (fmul (ofZ w) f))) as K. apply Rabs_le_inv in K. lra.
    + rewrite fmul_inf by (auto; lra). rewrite SW.
      destruct (Rle_lt_or_eq_dec _ _ Nf) as [P|P].
      * rewrite (neg_sign f) by auto. change (0 <= 0)%Z. lia.
      * exfalso. apply B. rewrite P, Rmult_0_r, rnd_0, Rabs_R0. apply bpow_gt_0.
  - destruct p as [s|s| |s m e B]; try discriminate Fp.
    + destruct s; [|discriminate H].
      assert (E : fdiv (B754_infinity true) (ofZ 100) = B754_infinity true) by (apply B2SF_inj; vm_compute; reflexivity).
      rewrite E. clear E. destruct (ofZ w) as [s|s| |s m e B]; try discriminate FW; [simpl in PW; lra|].
      simpl in SW. subst s. change (fmul (B754_finite false m e B) (B754_infinity true)) with (@B754_infinity 24 128 true).
      change (0 <= 0)%Z. lia.
    + assert (E : fdiv B754_nan (ofZ 100) = B754_nan) by (apply B2SF_inj; vm_compute; reflexivity).
      rewrite E. clear E. destruct (ofZ w) as [s|s| |s m e B]; change (0 <= 0)%Z; lia.
Qed.

Lemma pct_side_100 w : (0 < w < 16777216)%Z -> pct_side (ofZ 100) w = w.
Proof.
  intros Hw. unfold pct_side. assert (E : fdiv (ofZ 100) (ofZ 100) = f1) by (apply B2SF_inj; vm_compute; reflexivity).
  rewrite E. destruct (ofZ_val w) as [Fw Ew]; [change (2 ^ 24)%Z with 16777216%Z; lia|].
  destruct (fmul_1_r (ofZ w) Fw) as [Fm Em]. rewrite Ew in Em.
  assert (K : ZnearestA (IZR w) = w) by (apply Znearest_imp; rewrite Rminus_eq_0, Rabs_R0; lra).
  destruct (fround_val _ Fm) as [F1 E1]. rewrite Em, K in E1.
  unfold f_as_u32. rewrite (cast_int _ _ _ _ F1 E1). lia.
Qed.

(** ** has_transparency and is_grayscale *)
Lemma in01_B2R x : in01 x -> fin x /\ 0 <= B2R x <= 1.
Proof. intros H. apply in01_num in H as [F H]. auto. Qed.
Lemma transparency_iff c : in01 (alpha c) -> (has_transparency c = true <-> see_through c).
Proof.
  intros H. apply in01_B2R in H as [F B]. unfold has_transparency, see_through. set (a := alpha c) in *.
  destruct (fsub_ok f1 a 1) as [Fs Es]; auto using f1_fin, fmt_1. { rewrite f1_R, Rabs_pos_eq; lra. }
  rewrite f1_R in Es. rewrite flt_R; auto using EPS_fin, fabs_fin. rewrite EPS_R, fabs_R, Es.
  destruct (Rle_dec (/ 2) (B2R a)) as [G|G].
  - assert (X : rnd (1 - B2R a) = 1 - B2R a).
    { apply rnd_id. split.
      - apply (sterbenz radix2 fx); [apply fmt_1|apply fmt_B2R|lra].
      - rewrite Rabs_pos_eq by lra. apply Rlt_le_trans with (bpow radix2 1); [simpl; lra|apply bpow_le; lia]. }
    rewrite X, Rabs_pos_eq; lra.
  - assert (/ 2 <= rnd (1 - B2R a)) by (apply rnd_lo; [apply fmt_half|lra]). rewrite Rabs_pos_eq by lra. lra.
Qed.
Lemma fmt_EPS : fmt (/ 32768).
Proof. rewrite <- EPS_R. apply fmt_B2R. Qed.
Lemma fmt_EPS_pred : fmt (/ 32768 * (1 - / 16777216)).
Proof.
  replace (/ 32768 * (1 - / 16777216)) with (IZR 16777215 * bpow radix2 (-39)).
  - apply fmt_F2R; [reflexivity|lia].
  - rewrite bpow_neg. change (Z.pow_pos 2 39) with 549755813888%Z. lra.
Qed.
Lemma close_iff x y : in01 x -> in01 y ->
  (flt (fabs (fsub x y)) EPSILON = true -> Rabs (B2R x - B2R y) < / 32768) /\
  (Rabs (B2R x - B2R y) < / 32768 * (1 - / 16777216) -> flt (fabs (fsub x y)) EPSILON = true).
Proof.
  intros Hx Hy. apply in01_B2R in Hx as [Fx Bx]. apply in01_B2R in Hy as [Fy By].
  destruct (fsub_ok x y 1) as [Fs Es]; auto using fmt_1. { apply Rabs_le. lra. }
  rewrite flt_R; auto using EPS_fin, fabs_fin. rewrite EPS_R, fabs_R, Es, rnd_abs. split; intros H.
  - apply Rnot_le_lt. intros K. pose proof (rnd_lo _ _ fmt_EPS K). lra.
  - pose proof (rnd_hi _ _ fmt_EPS_pred (Rlt_le _ _ H)). lra.
Qed.
Lemma gray_below_sound c : in_gamut c -> is_grayscale c = true -> gray_below (/ 32768) c.
Proof.
  intros (G0 & G1 & G2 & _) H. unfold is_grayscale in H. apply andb_prop in H as (H1 & H2).
  split; apply close_iff; auto.
Qed.
Lemma gray_below_complete c : in_gamut c -> gray_below (/ 32768 * (1 - / 16777216)) c -> is_grayscale c = true.
Proof.
  intros (G0 & G1 & G2 & _) (H1 & H2). unfold is_grayscale. apply andb_true_intro.
  split; apply close_iff; auto.
Qed.
