(** Proofs for C109: the black and white points count pixels. *)
From Coq Require Import Reals Lra Lia ZArith Bool Psatz List.
From Flocq Require Import Core.Core IEEE754.BinarySingleNaN.
From Verif Require Import Base BaseLemmas PixelBuffer BufferSpec PixelBufferProofs F32 F32Lemmas Color ColorSpec ColorProofs MeaningSpec Approx OpMeaningProofs.
From Verif Require Import ResampleProofs GaussProofs Ops OpsSpec OpsProofs HistogramProofs StretchSpec.
Import ListNotations.
Open Scope R_scope.

(** * One share *)

Lemma iter_comm (r : f32) c a : Nat.iter (S c) (fun s => fadd s r) a = Nat.iter c (fun s => fadd s r) (fadd a r).
Proof.
  induction c as [|c IH]; [reflexivity|]. change (fadd (Nat.iter (S c) (fun s => fadd s r) a) r = fadd (Nat.iter c (fun s => fadd s r) (fadd a r)) r). rewrite IH. reflexivity.
Qed.
Lemma iter_fold (r : f32) c a : Nat.iter c (fun s => fadd s r) a = fold_left fadd (repeat r c) a.
Proof.
  revert a. induction c as [|c IH]; intros a; [reflexivity|]. cbn [repeat fold_left]. rewrite <- IH. apply iter_comm.
Qed.
Lemma rsum_repeat (r : f32) c : rsum (map B2R (repeat r c)) = INR c * B2R r.
Proof. induction c as [|c IH]; [cbn; lra|]. cbn [repeat map rsum fold_right]. fold (rsum (map B2R (repeat r c))). rewrite IH, S_INR. lra. Qed.

Section Shares.
  Variable n : Z.
  Hypothesis Hn : (1 <= n <= 1048576)%Z.
  Let N := Z.to_nat n.

  Lemma N_R : 1 <= IZR n <= 1048576. Proof. split; apply IZR_le; lia. Qed.
  Lemma unit_share : fin (fdiv f1 (ofZ n)) /\ / IZR n * (1 - ee) <= B2R (fdiv f1 (ofZ n)) <= / IZR n * (1 + ee) /\ 0 < / IZR n <= 1.
  Proof.
    pose proof N_R as HN. destruct (ofZ_val n ltac:(lia)) as [F R].
    assert (I : / 1048576 <= / IZR n <= 1) by (split; [apply Rinv_le_contravar; lra|rewrite <- Rinv_1; apply Rinv_le_contravar; lra]).
    destruct (fdiv_num f1 (ofZ n) 0 1) as [[A B] E]; auto with fin fmt.
    { rewrite R. lra. } { rewrite f1_R, R. unfold Rdiv. lra. }
    rewrite f1_R, R in E. unfold Rdiv in E. rewrite Rmult_1_l in E. split; [exact A|]. rewrite E.
    pose proof (rnd_rel_pos (/ IZR n) ltac:(lra)). lra.
  Qed.

  Lemma pow_up2 k : (Z.of_nat k <= 1100000)%Z -> (1 + ee) ^ k <= 2.
  Proof.
    intros H. assert (HK : INR k <= 1100000) by (rewrite INR_IZR_INZ; apply IZR_le; lia).
    pose proof (pos_INR k).
    assert (KE : 0 <= INR k * ee <= / 10) by (unfold ee; lra).
    pose proof (pow_up k) as P. assert (A : (1 + ee) ^ k * (1 - INR k * ee) <= 1) by (apply P; lra).
    assert (1 <= (1 + ee) ^ k) by (apply pow_R1_Rle; unfold ee; lra). nra.
  Qed.

  Lemma share_near c : (0 <= c <= n)%Z ->
    fin (share c n) /\ IZR c * / IZR n * (1 - ee) ^ (S N) <= B2R (share c n) <= IZR c * / IZR n * (1 + ee) ^ (S N).
  Proof.
    intros Hc. destruct unit_share as [F [B I]]. unfold share. rewrite iter_fold. set (r := fdiv f1 (ofZ n)) in *.
    assert (LE : 0 < ee < / 2) by (unfold ee; lra).
    assert (Hcr : 0 <= IZR c <= IZR n) by (split; apply IZR_le; lia).
    assert (R0 : 0 <= B2R r) by (apply Rle_trans with (2 := proj1 B); apply Rmult_le_pos; lra).
    assert (Ec : INR (Z.to_nat c) = IZR c) by (rewrite INR_IZR_INZ, Z2Nat.id by lia; reflexivity).
    assert (Sr : rsum (map B2R (repeat r (Z.to_nat c))) = IZR c * B2R r) by (rewrite rsum_repeat, Ec; reflexivity).
    assert (Lc : (Z.to_nat c <= N)%nat) by (unfold N; lia).
    assert (P1 : (1 + ee) ^ Z.to_nat c <= (1 + ee) ^ N) by (apply Rle_pow; lra || lia).
    assert (P2 : (1 - ee) ^ N <= (1 - ee) ^ Z.to_nat c).
    { replace N with (Z.to_nat c + (N - Z.to_nat c))%nat by lia. rewrite pow_add. rewrite <- (Rmult_1_r ((1 - ee) ^ Z.to_nat c)) at 2.
      apply Rmult_le_compat_l; [apply pow_le; lra|]. apply Rle_trans with (1 ^ (N - Z.to_nat c)); [apply pow_incr; lra|rewrite pow1; lra]. }
    assert (P3 : (1 + ee) ^ N <= 2) by (apply pow_up2; unfold N; lia).
    assert (P4 : 0 <= (1 - ee) ^ N) by (apply pow_le; lra).
    assert (Cn : IZR c * B2R r <= 2).
    { apply Rle_trans with (IZR n * (/ IZR n * (1 + ee))); [apply Rmult_le_compat; lra|]. rewrite <- Rmult_assoc, Rinv_r by (pose proof N_R; lra). lra. }
    assert (C0 : 0 <= IZR c * B2R r) by (apply Rmult_le_pos; lra).
    destruct (fold_sum_rel (repeat r (Z.to_nat c)) f0 8) as [G H]; [apply f0_fin|rewrite f0_R; lra| | | |].
    - intros v Hv. apply repeat_spec in Hv. subst v. auto.
    - apply (fmt_IZR 8). lia.
    - rewrite f0_R, Rplus_0_l, Sr, repeat_length.
      assert (1 <= (1 + ee) ^ Z.to_nat c) by (apply pow_R1_Rle; lra).
      apply Rle_trans with (2 * 2); [apply Rmult_le_compat; lra|lra].
    - rewrite f0_R, Rplus_0_l, Sr, repeat_length in H. split; [exact G|]. cbn [pow].
      assert (C1 : 0 <= IZR c * / IZR n) by (apply Rmult_le_pos; lra).
      assert (K1 : IZR c * / IZR n * (1 - ee) <= IZR c * B2R r) by (rewrite Rmult_assoc; apply Rmult_le_compat_l; lra).
      assert (K2 : IZR c * B2R r <= IZR c * / IZR n * (1 + ee)) by (rewrite Rmult_assoc; apply Rmult_le_compat_l; lra).
      split.
      + apply Rle_trans with (2 := proj1 H). rewrite <- Rmult_assoc. apply Rmult_le_compat; try lra. apply Rmult_le_pos; lra.
      + apply Rle_trans with (1 := proj2 H). rewrite <- Rmult_assoc. apply Rmult_le_compat; try lra. assert (0 <= (1 + ee) ^ Z.to_nat c) by (apply pow_le; lra). lra.
  Qed.

  Definition zsum (l : list Z) : Z := fold_right Z.add 0%Z l.

  Lemma shares_near (cs : list Z) : (forall c, In c cs -> 0 <= c <= n)%Z -> (zsum cs <= n)%Z -> (length cs <= 256)%nat ->
    let S := fold_left fadd (map (fun c => share c n) cs) f0 in
    fin S /\ IZR (zsum cs) * / IZR n * (1 - ee) ^ (N + 257) <= B2R S <= IZR (zsum cs) * / IZR n * (1 + ee) ^ (N + 257).
  Proof.
    intros Hc Hs Hl S0. pose proof N_R as HN. destruct unit_share as [_ [_ I]]. assert (LE : 0 < ee < / 2) by (unfold ee; lra).
    set (T := rsum (map B2R (map (fun c => share c n) cs))).
    assert (TB : IZR (zsum cs) * / IZR n * (1 - ee) ^ S N <= T <= IZR (zsum cs) * / IZR n * (1 + ee) ^ S N).
    { unfold T. clear T S0 Hs Hl. induction cs as [|c cs IH]; [cbn; lra|].
      cbn [map rsum zsum fold_right]. fold (zsum cs) (rsum (map B2R (map (fun c => share c n) cs))).
      destruct (share_near c (Hc c (or_introl eq_refl))) as [_ B]. specialize (IH (fun x Hx => Hc x (or_intror Hx))). rewrite plus_IZR. lra. }
    assert (Z0 : (0 <= zsum cs)%Z). { clear - Hc. induction cs as [|c cs IH]; [cbn; lia|]. cbn [zsum fold_right]. fold (zsum cs). pose proof (Hc c (or_introl eq_refl)). specialize (IH (fun x Hx => Hc x (or_intror Hx))). lia. }
    assert (Zr : 0 <= IZR (zsum cs) <= IZR n) by (split; apply IZR_le; lia).
    assert (C1 : 0 <= IZR (zsum cs) * / IZR n <= 1).
    { split; [apply Rmult_le_pos; lra|]. apply Rle_trans with (IZR n * / IZR n); [apply Rmult_le_compat_r; lra|rewrite Rinv_r; lra]. }
    set (q := IZR (zsum cs) * / IZR n) in *.
    assert (P3 : (1 + ee) ^ S N <= 2) by (apply pow_up2; unfold N; lia).
    assert (P0 : 0 <= (1 - ee) ^ S N) by (apply pow_le; lra).
    assert (T0 : 0 <= T) by (apply Rle_trans with (2 := proj1 TB); apply Rmult_le_pos; lra).
    assert (T2 : T <= 2). { apply Rle_trans with (1 := proj2 TB). apply Rle_trans with (1 * 2); [apply Rmult_le_compat; try lra; apply pow_le; lra|lra]. }
    assert (PL : (1 + ee) ^ length cs <= 2) by (apply pow_up2; lia).
    assert (PL1 : 1 <= (1 + ee) ^ length cs) by (apply pow_R1_Rle; lra).
    destruct (fold_sum_rel (map (fun c => share c n) cs) f0 8) as [G H]; [apply f0_fin|rewrite f0_R; lra| | | |].
    - intros v Hv. apply in_map_iff in Hv. destruct Hv as [c [<- Ic]]. destruct (share_near c (Hc c Ic)) as [F B]. split; [exact F|].
      apply Rle_trans with (2 := proj1 B). apply Rmult_le_pos; [|exact P0]. apply Rmult_le_pos; [apply IZR_le; apply Hc; auto|lra].
    - apply (fmt_IZR 8). lia.
    - rewrite f0_R, Rplus_0_l, map_length. fold T. apply Rle_trans with (2 * 2); [apply Rmult_le_compat; lra|lra].
    - rewrite f0_R, Rplus_0_l, map_length in H. fold T in H. split; [exact G|]. fold S0 in H.
      replace (N + 257)%nat with (S N + 256)%nat by lia. rewrite !pow_add.
      assert (Q1 : (1 + ee) ^ length cs <= (1 + ee) ^ 256) by (apply Rle_pow; [lra|auto]).
      assert (Q2 : (1 - ee) ^ 256 <= (1 - ee) ^ length cs).
      { replace 256%nat with (length cs + (256 - length cs))%nat by lia. rewrite pow_add. rewrite <- (Rmult_1_r ((1 - ee) ^ length cs)) at 2.
        apply Rmult_le_compat_l; [apply pow_le; lra|]. apply Rle_trans with (1 ^ (256 - length cs)); [apply pow_incr; lra|rewrite pow1; lra]. }
      assert (Q3 : 0 <= (1 - ee) ^ 256) by (apply pow_le; lra).
      rewrite <- !Rmult_assoc. split.
      + apply Rle_trans with (2 := proj1 H). apply Rmult_le_compat; try lra. apply Rmult_le_pos; lra.
      + apply Rle_trans with (1 := proj2 H). apply Rmult_le_compat; lra.
  Qed.
End Shares.

(** * Counting over the bins *)

Lemma zsum_app a b : zsum (a ++ b) = (zsum a + zsum b)%Z.
Proof. induction a as [|x a IH]; [reflexivity|]. cbn [app zsum fold_right]. fold (zsum (a ++ b)) (zsum a). rewrite IH. lia. Qed.
Lemma zsum_rev a : zsum (rev a) = zsum a.
Proof. induction a as [|x a IH]; [reflexivity|]. cbn [rev]. rewrite zsum_app, IH. cbn [zsum fold_right]. fold (zsum a). lia. Qed.

Section Bins.
  Context {A : Type} (bin_of : A -> Z).

  Lemma count_range l a m : zsum (map (fun k => count (fun c => (bin_of c =? k)%Z) l) (zrange a (a + Z.of_nat m)))
    = count (fun c => (a <=? bin_of c)%Z && (bin_of c <? a + Z.of_nat m)%Z) l.
  Proof.
    induction m as [|m IH].
    - rewrite zrange_empty by lia. cbn [map zsum fold_right]. induction l as [|x l IH]; [reflexivity|]. rewrite count_cons, <- IH.
      destruct (a <=? bin_of x)%Z eqn:E1, (bin_of x <? a + Z.of_nat 0)%Z eqn:E2; cbn [andb]; lia.
    - replace (a + Z.of_nat (S m))%Z with (a + Z.of_nat m + 1)%Z by lia. rewrite zrange_snoc by lia. rewrite map_app, zsum_app, IH.
      cbn [map zsum fold_right]. rewrite Z.add_0_r. clear IH. induction l as [|x l IH]; [reflexivity|]. rewrite !count_cons, <- IH.
      destruct (a <=? bin_of x)%Z eqn:E1, (bin_of x <? a + Z.of_nat m)%Z eqn:E2, (bin_of x =? a + Z.of_nat m)%Z eqn:E3, (bin_of x <? a + Z.of_nat m + 1)%Z eqn:E4; cbn [andb]; lia.
  Qed.

  Hypothesis Hbin : forall a, (0 <= bin_of a <= 255)%Z.

  Definition tally_of l k : Z := count (fun c => (bin_of c =? k)%Z) l.

  Lemma low_count l k : (0 <= k <= 255)%Z -> zsum (map (tally_of l) (zrange 0 (k + 1))) = count (fun c => (bin_of c <=? k)%Z) l.
  Proof.
    intros H. pose proof (count_range l 0 (Z.to_nat (k + 1))) as E. rewrite Z2Nat.id in E by lia. rewrite Z.add_0_l in E.
    unfold tally_of. rewrite E. apply count_ext. intros a. pose proof (Hbin a).
    destruct (0 <=? bin_of a)%Z eqn:E1, (bin_of a <? k + 1)%Z eqn:E2, (bin_of a <=? k)%Z eqn:E3; cbn [andb]; lia.
  Qed.
  Lemma high_count l k : (0 <= k <= 255)%Z -> zsum (map (tally_of l) (zrange k 256)) = count (fun c => (k <=? bin_of c)%Z) l.
  Proof.
    intros H. pose proof (count_range l k (Z.to_nat (256 - k))) as E. rewrite Z2Nat.id in E by lia. replace (k + (256 - k))%Z with 256%Z in E by lia.
    unfold tally_of. rewrite E. apply count_ext. intros a. pose proof (Hbin a).
    destruct (bin_of a <? 256)%Z eqn:E1, (k <=? bin_of a)%Z eqn:E3; cbn [andb]; lia.
  Qed.

  Lemma sum_to_low l k : (0 <= k <= 255)%Z ->
    sum_to k (shares bin_of l) = fold_left fadd (map (fun c => share c (zlen l)) (map (tally_of l) (zrange 0 (k + 1)))) f0.
  Proof.
    intros H. unfold sum_to, shares. rewrite (zrange_split 0 (k + 1) 256) by lia. rewrite map_app, firstn_app, firstn_all2.
    2:{ rewrite map_length, zrange_length. lia. }
    rewrite map_length, zrange_length. replace (Z.to_nat (k + 1) - Z.to_nat (k + 1 - 0))%nat with O by lia. cbn [firstn]. rewrite app_nil_r, map_map. reflexivity.
  Qed.
  Lemma sum_to_high l k : (0 <= k <= 255)%Z ->
    sum_to k (rev (shares bin_of l)) = fold_left fadd (map (fun c => share c (zlen l)) (rev (map (tally_of l) (zrange (255 - k) 256)))) f0.
  Proof.
    intros H. unfold sum_to, shares. rewrite (zrange_split 0 (255 - k) 256) by lia. rewrite map_app, rev_app_distr, firstn_app, firstn_all2.
    2:{ rewrite rev_length, map_length, zrange_length. lia. }
    rewrite rev_length, map_length, zrange_length. replace (Z.to_nat (k + 1) - Z.to_nat (256 - (255 - k)))%nat with O by lia. cbn [firstn].
    rewrite app_nil_r, <- !map_rev, map_map. reflexivity.
  Qed.

  Lemma count_lt_len l k : (0 <= count (fun c => (bin_of c =? k)%Z) l <= zlen l)%Z.
  Proof. split; [apply count_nonneg|apply count_le_len]. Qed.

  (** The running sum against the threshold *)
  Section Against.
    Variables (l : list A) (threshold : f32).
    Hypothesis Hl : (1 <= zlen l <= 1048576)%Z.
    Hypothesis Ft : fin threshold.
    Hypothesis Ht : B2R threshold = 0 \/ / 1048576 <= B2R threshold <= 400.
    Let t := fdiv threshold (ofZ 1000).
    Let e := (IZR (zlen l) + 300) / 8388608.
    Let n := IZR (zlen l).

    Lemma t_near : fin t /\ B2R threshold / 1000 * (1 - ee) <= B2R t <= B2R threshold / 1000 * (1 + ee).
    Proof.
      destruct (ofZ_val 1000 ltac:(lia)) as [F R]. unfold t.
      destruct (fdiv_num threshold (ofZ 1000) 0 1) as [[P _] E]; auto with fin fmt.
      { rewrite R. lra. } { rewrite R. destruct Ht; lra. }
      split; [exact P|]. rewrite E, R. destruct Ht as [Z|B].
      - rewrite Z. unfold Rdiv. rewrite Rmult_0_l, rnd_0. lra.
      - pose proof (rnd_rel_pos (B2R threshold / 1000) ltac:(lra)). lra.
    Qed.

    Lemma against (cs : list Z) : (forall c, In c cs -> 0 <= c <= zlen l)%Z -> (0 <= zsum cs <= zlen l)%Z -> (length cs <= 256)%nat ->
      let S := fold_left fadd (map (fun c => share c (zlen l)) cs) f0 in
      (flt t S = true -> n * (B2R threshold / 1000) * (1 - e) < IZR (zsum cs)) /\
      (flt t S = false -> IZR (zsum cs) <= n * (B2R threshold / 1000) * (1 + e)).
    Proof.
      intros Hc Hs Hln S0. destruct (shares_near (zlen l) Hl cs Hc (proj2 Hs) Hln) as [FS BS]. fold S0 in FS, BS. destruct t_near as [F T].
      pose proof (N_R (zlen l) Hl) as HN. fold n in HN, BS. set (C := IZR (zsum cs)) in *. assert (HC : 0 <= C) by (apply IZR_le; lia).
      set (tau := B2R threshold / 1000) in *. assert (Htau : 0 <= tau) by (unfold tau; destruct Ht; lra).
      set (K := (Z.to_nat (zlen l) + 257)%nat) in *.
      assert (IK : INR K = n + 257) by (unfold K, n; rewrite INR_IZR_INZ; replace 257 with (IZR 257) by reflexivity; rewrite <- plus_IZR; f_equal; lia).
      set (x := INR K * ee) in *. assert (Hx : 0 < x <= / 15) by (unfold x; rewrite IK; unfold ee; lra).
      pose proof (pow_dn K) as PD. fold x in PD. assert (PU : (1 + ee) ^ K * (1 - x) <= 1) by (apply pow_up; unfold x in *; lra).
      assert (P1 : 0 < (1 + ee) ^ K) by (apply pow_lt; unfold ee; lra).
      assert (EX : e = 2 * x + 86 * ee) by (unfold e, x; rewrite IK; fold n; unfold ee; lra).
      assert (LE : 0 < ee < / 1000000) by (unfold ee; lra).
      assert (Q : C = n * (C * / n)) by (field; lra). set (q := C * / n) in *.
      assert (q0 : 0 <= q) by (unfold q; apply Rmult_le_pos; [lra|left; apply Rinv_0_lt_compat; lra]).
      split; intros H.
      - apply flt_R in H; auto. assert (L1 : tau * (1 - ee) < q * (1 + ee) ^ K) by lra.
        assert (L2 : tau * (1 - ee) * (1 - x) < q).
        { apply Rlt_le_trans with (q * (1 + ee) ^ K * (1 - x)); [apply Rmult_lt_compat_r; lra|]. rewrite Rmult_assoc. rewrite <- (Rmult_1_r q) at 2. apply Rmult_le_compat_l; lra. }
        rewrite Q, Rmult_assoc. apply Rmult_lt_compat_l; [lra|]. apply Rle_lt_trans with (2 := L2). rewrite Rmult_assoc. apply Rmult_le_compat_l; [lra|]. rewrite EX. nra.
      - apply flt_Rf in H; auto. assert (L1 : q * (1 - ee) ^ K <= tau * (1 + ee)) by lra.
        assert (L2 : q * (1 - x) <= tau * (1 + ee)) by (apply Rle_trans with (2 := L1); apply Rmult_le_compat_l; lra).
        rewrite Q, Rmult_assoc. apply Rmult_le_compat_l; [lra|].
        apply Rmult_le_reg_r with (1 - x); [lra|]. apply Rle_trans with (1 := L2). rewrite Rmult_assoc. apply Rmult_le_compat_l; [lra|]. rewrite EX. nra.
    Qed.

    Lemma dark_found v : black_point t (shares bin_of l) v ->
      exists k, v = fdiv (ofZ k) (ofZ 255) /\ dark_level bin_of l (B2R threshold / 1000) e k.
    Proof.
      assert (AG : forall k, (0 <= k <= 255)%Z -> let S := sum_to k (shares bin_of l) in
        (flt t S = true -> n * (B2R threshold / 1000) * (1 - e) < IZR (count (fun c => (bin_of c <=? k)%Z) l)) /\
        (flt t S = false -> IZR (count (fun c => (bin_of c <=? k)%Z) l) <= n * (B2R threshold / 1000) * (1 + e))).
      { intros k Hk. rewrite sum_to_low by auto. rewrite <- (low_count l k Hk). apply against.
        - intros c Hc. apply in_map_iff in Hc. destruct Hc as [j [<- _]]. apply count_lt_len.
        - rewrite low_count by auto. split; [apply count_nonneg|apply count_le_len].
        - rewrite map_length, zrange_length. lia. }
      intros [(k & (K1 & K2 & K3) & ->)|[N _]].
      - rewrite shares_zlen in K1. exists k. split; [reflexivity|]. split; [lia|]. split.
        + apply AG; [lia|exact K2].
        + intros j Hj. apply AG; [lia|]. apply K3. lia.
      - exfalso. specialize (N 255%Z ltac:(rewrite shares_zlen; lia)). apply AG in N; [|lia].
        rewrite count_all in N by (intros a; pose proof (Hbin a); lia). pose proof (N_R (zlen l) Hl) as HN. fold n in N, HN.
        assert (e <= / 7) by (unfold e; fold n; lra). assert (0 <= B2R threshold / 1000 <= 4 / 10) by (destruct Ht; lra).
        assert (n * (B2R threshold / 1000) * (1 + e) <= n * (4 / 10) * (1 + / 7)).
        { apply Rmult_le_compat; try lra. - apply Rmult_le_pos; lra. - unfold e; fold n; lra. - apply Rmult_le_compat_l; lra. }
        lra.
    Qed.
    Lemma bright_found v : white_point t (shares bin_of l) v ->
      exists k, v = fdiv (ofZ k) (ofZ 255) /\ bright_level bin_of l (B2R threshold / 1000) e k.
    Proof.
      assert (RZ : zlen (rev (shares bin_of l)) = 256%Z) by (unfold zlen; rewrite rev_length; apply (shares_zlen bin_of l)).
      assert (AG : forall k, (0 <= k <= 255)%Z -> let S := sum_to (255 - k) (rev (shares bin_of l)) in
        (flt t S = true -> n * (B2R threshold / 1000) * (1 - e) < IZR (count (fun c => (k <=? bin_of c)%Z) l)) /\
        (flt t S = false -> IZR (count (fun c => (k <=? bin_of c)%Z) l) <= n * (B2R threshold / 1000) * (1 + e))).
      { intros k Hk. rewrite sum_to_high by lia. replace (255 - (255 - k))%Z with k by lia. rewrite <- (high_count l k Hk), <- zsum_rev. apply against.
        - intros c Hc. apply in_rev in Hc. apply in_map_iff in Hc. destruct Hc as [j [<- _]]. apply count_lt_len.
        - rewrite zsum_rev, high_count by auto. split; [apply count_nonneg|apply count_le_len].
        - rewrite rev_length, map_length, zrange_length. lia. }
      intros [(k & (K1 & K2 & K3) & ->)|[N _]].
      - rewrite RZ in K1. exists (255 - k)%Z. split; [reflexivity|]. split; [lia|]. split.
        + apply AG; [lia|]. replace (255 - (255 - k))%Z with k by lia. exact K2.
        + intros j Hj. apply AG; [lia|]. apply K3. lia.
      - exfalso. specialize (N (255 - 0)%Z ltac:(rewrite RZ; lia)). apply AG in N; [|lia].
        rewrite count_all in N by (intros a; pose proof (Hbin a); lia). pose proof (N_R (zlen l) Hl) as HN. fold n in N, HN.
        assert (e <= / 7) by (unfold e; fold n; lra). assert (0 <= B2R threshold / 1000 <= 4 / 10) by (destruct Ht; lra).
        assert (n * (B2R threshold / 1000) * (1 + e) <= n * (4 / 10) * (1 + / 7)).
        { apply Rmult_le_compat; try lra. - apply Rmult_le_pos; lra. - unfold e; fold n; lra. - apply Rmult_le_compat_l; lra. }
        lra.
    Qed.

    Lemma dark_below_bright k1 k2 : dark_level bin_of l (B2R threshold / 1000) e k1 -> bright_level bin_of l (B2R threshold / 1000) e k2 -> (k1 <= k2)%Z.
    Proof.
      intros (A1 & _ & A2) (B1 & _ & B2). destruct (Z.le_gt_cases k1 k2) as [|G]; [auto|exfalso].
      specialize (A2 k2 ltac:(lia)). specialize (B2 (k2 + 1)%Z ltac:(lia)). fold n in A2, B2.
      assert (SUM : (count (fun c => (bin_of c <=? k2)%Z) l + count (fun c => (k2 + 1 <=? bin_of c)%Z) l = zlen l)%Z).
      { clear. induction l as [|a l0 IH]; [reflexivity|]. rewrite !count_cons, zlen_cons, <- IH.
        destruct (bin_of a <=? k2)%Z eqn:E1, (k2 + 1 <=? bin_of a)%Z eqn:E2; lia. }
      apply (f_equal IZR) in SUM. rewrite plus_IZR in SUM. fold n in SUM. pose proof (N_R (zlen l) Hl) as HN. fold n in HN.
      assert (e <= 126 / 1000) by (unfold e; fold n; lra). assert (0 <= B2R threshold / 1000 <= 4 / 10) by (destruct Ht; lra).
      assert (n * (B2R threshold / 1000) * (1 + e) <= n * (4 / 10) * (1 + 126 / 1000)).
      { apply Rmult_le_compat; try lra. - apply Rmult_le_pos; lra. - unfold e; fold n; lra. - apply Rmult_le_compat_l; lra. }
      lra.
    Qed.
  End Against.
End Bins.

(** * The formula *)

Lemma level255 k : (0 <= k <= 255)%Z ->
  let v := fdiv (ofZ k) (ofZ 255) in fin v /\ 0 <= B2R v <= 1 /\ Rabs (B2R v - IZR k / 255) <= / 33554432.
Proof.
  intros Hk v. destruct (ofZ_val k ltac:(lia)) as [F R]. destruct (ofZ_val 255 ltac:(lia)) as [F' R'].
  assert (B : 0 <= IZR k / 255 <= 1) by (assert (0 <= IZR k <= 255) by (split; apply IZR_le; lia); lra).
  destruct (fdiv_num (ofZ k) (ofZ 255) 0 1) as [[P N] E]; auto with fin fmt. { rewrite R'. lra. } { rewrite R, R'. exact B. }
  fold v in P, N, E. rewrite R, R' in E. split; [exact P|]. split; [exact N|]. rewrite E. apply (uo_err 1); [apply uo_1|]. rewrite Rabs_right; lra.
Qed.
Lemma limited_ratio N D N' D' a d : 0 < D -> 0 < D' -> Rabs (N' - N) <= a -> Rabs (D' - D) <= d ->
  Rabs (limited (N' / D') - limited (N / D)) <= (a + d) / D.
Proof.
  intros HD HD' HN Hd. apply Rabs_le_iff in HN, Hd.
  set (s := limited (N' / D')). set (t := limited (N / D)).
  assert (Hs : 0 <= s <= 1) by apply limited_range. assert (Ht : 0 <= t <= 1) by apply limited_range.
  assert (E : D * ((a + d) / D) = a + d) by (field; lra).
  assert (S1 : 0 < s -> s * D' <= N').
  { intros H. assert (s <= N' / D') by (unfold s, limited, Rmax, Rmin in *; repeat destruct Rle_dec; lra).
    replace N' with (N' / D' * D') by (field; lra). apply Rmult_le_compat_r; lra. }
  assert (S2 : s < 1 -> N' <= s * D').
  { intros H. assert (N' / D' <= s) by (unfold s, limited, Rmax, Rmin in *; repeat destruct Rle_dec; lra).
    replace N' with (N' / D' * D') at 1 by (field; lra). apply Rmult_le_compat_r; lra. }
  assert (T1 : 0 < t -> t * D <= N).
  { intros H. assert (t <= N / D) by (unfold t, limited, Rmax, Rmin in *; repeat destruct Rle_dec; lra).
    replace N with (N / D * D) by (field; lra). apply Rmult_le_compat_r; lra. }
  assert (T2 : t < 1 -> N <= t * D).
  { intros H. assert (N / D <= t) by (unfold t, limited, Rmax, Rmin in *; repeat destruct Rle_dec; lra).
    replace N with (N / D * D) at 1 by (field; lra). apply Rmult_le_compat_r; lra. }
  apply Rabs_le_iff. split; apply Rmult_le_reg_l with D; auto.
  - rewrite Ropp_mult_distr_r_reverse, E. destruct (Rle_lt_dec t s) as [L|L]; [nra|].
    specialize (S2 ltac:(lra)). specialize (T1 ltac:(lra)). nra.
  - rewrite E. destruct (Rle_lt_dec s t) as [L|L]; [nra|].
    specialize (S1 ltac:(lra)). specialize (T2 ltac:(lra)). nra.
Qed.
Lemma gamma_formula_1 v : 0 <= v -> gamma_formula 1 v = v.
Proof. intros H. unfold gamma_formula. destruct (Req_EM_T v 0); [lra|]. rewrite Rinv_1. apply Rpower_1. lra. Qed.
Lemma usual_1 : usual_gamma f1.
Proof. split; [reflexivity|]. rewrite f1_R. lra. Qed.
Lemma in01_of v : fin v -> 0 <= B2R v <= 1 -> in01 v.
Proof. intros F B. split; [apply fle_R|apply fle_R]; auto with fin; rewrite ?f0_R, ?f1_R; lra. Qed.

Lemma stretched_level L lo hi v : accurate_powf L -> in01 v -> (0 <= lo <= 255)%Z -> (0 <= hi <= 255)%Z -> (lo < hi)%Z ->
  close (/ 32768) (limited (stretched lo hi (B2R v))) (clamp (level_value L (fdiv (ofZ lo) (ofZ 255)) (fdiv (ofZ hi) (ofZ 255)) f1 v)).
Proof.
  intros AL Hv Hlo Hhi LT. destruct (level255 lo Hlo) as (F1 & B1 & E1). destruct (level255 hi Hhi) as (F2 & B2 & E2).
  set (b := fdiv (ofZ lo) (ofZ 255)) in *. set (w := fdiv (ofZ hi) (ofZ 255)) in *.
  assert (Dz : 1 <= IZR hi - IZR lo) by (rewrite <- minus_IZR; apply IZR_le; lia).
  pose proof E1 as E1'. pose proof E2 as E2'. apply Rabs_le_iff in E1', E2'.
  destruct (level_meaning L b w f1 v AL Hv (in01_of _ F1 B1) (in01_of _ F2 B2)) as (t & T1 & T2 & T3); [lra|apply usual_1|].
  rewrite f1_R, gamma_formula_1 in T3 by lra. unfold stretched. set (D := IZR hi / 255 - IZR lo / 255) in *. assert (HD : / 255 <= D) by (unfold D; lra).
  assert (LR : Rabs (limited ((B2R v - B2R b) / (B2R w - B2R b)) - limited ((B2R v - IZR lo / 255) / D)) <= (/ 33554432 + / 16777216) / D).
  { apply limited_ratio; [lra|lra| |]; apply Rabs_le_iff; unfold D; lra. }
  assert (IB : (/ 33554432 + / 16777216) / D <= (/ 33554432 + / 16777216) * 255).
  { apply Rmult_le_compat_l; [lra|]. rewrite <- (Rinv_inv 255). apply Rinv_le_contravar; lra. }
  destruct T3 as [T3 T4]. split; [exact T3|]. apply Rabs_le_iff in T2, T4, LR. apply Rabs_le_iff. lra.
Qed.

Lemma uo_65536 : unit_ok 65536 (/ 512).
Proof. exists 16%Z. split; [lia|]. split; reflexivity. Qed.
Lemma eps_factor : close 0 32768 (fdiv f1 EPSILON).
Proof. split; [vm_compute; reflexivity|]. fval (fdiv f1 EPSILON) H. rewrite H. apply Rabs_le_iff. lra. Qed.
Lemma diff_zero b : fin b -> flt (fabs (fsub b b)) f32_EPSILON = true.
Proof.
  intros F. destruct (fsub_exact b b) as [A B]; auto. { replace (B2R b - B2R b) with 0 by lra. apply fmt_0. }
  apply flt_R; [now apply fabs_fin|reflexivity|]. rewrite fabs_R, B. replace (B2R b - B2R b) with 0 by lra. rewrite Rabs_R0. fval f32_EPSILON H. rewrite H. lra.
Qed.
Lemma flat_level L k v : accurate_powf L -> in01 v -> (0 <= k <= 255)%Z ->
  close (/ 128) (limited (32768 * (B2R v - IZR k / 255))) (clamp (level_value L (fdiv (ofZ k) (ofZ 255)) (fdiv (ofZ k) (ofZ 255)) f1 v)).
Proof.
  intros AL Hv Hk. destruct (level255 k Hk) as (F & B & E). set (b := fdiv (ofZ k) (ofZ 255)) in *.
  destruct (in01_R v Hv) as [Fv V]. unfold level_value. cbv zeta. rewrite diff_zero by exact F. pose proof eps_factor as C2. set (f := fdiv f1 EPSILON) in *.
  assert (Kr : 0 <= IZR k / 255 <= 1) by (assert (0 <= IZR k <= 255) by (split; apply IZR_le; lia); lra).
  assert (C1 : close (0 + / 33554432 + / 33554432) (B2R v - IZR k / 255) (fsub v b)).
  { assert (Cv : close 0 (B2R v) v) by (split; [exact Fv|apply Rabs_le_iff; lra]).
    assert (Cb : close (/ 33554432) (IZR k / 255) b) by (split; assumption).
    pose proof E as E'. apply Rabs_le_iff in E'.
    assert (NB : Rabs (B2R v - B2R b) <= 1) by (apply Rabs_le_iff; lra).
    destruct (fsub_ok v b 1) as [A1 A2]; auto with fin fmt. split; [exact A1|]. rewrite A2.
    pose proof (uo_err 1 _ _ uo_1 NB) as X. apply Rabs_le_iff in X. apply Rabs_le_iff. lra. }
  pose proof (close_mul 65536 (/ 512) 1 32768 _ _ _ _ _ _ uo_65536 C1 C2 ltac:(apply Rabs_le_iff; lra) ltac:(apply Rabs_le_iff; lra) ltac:(lra)) as C3.
  apply close_clamp in C3. set (x := clamp (fmul (fsub v b) f)) in *. destruct C3 as [FX X].
  rewrite (Rmult_comm 32768). destruct (inv_close f1 usual_1) as (I1 & I2 & I3). rewrite f1_R in I3.
  assert (X01 : 0 <= B2R x <= 1).
  { apply (in01_R x). apply clamp_in01. destruct (is_nan (fmul (fsub v b) f)) eqn:N; [|reflexivity].
    apply clamp_nan in N. unfold x in FX. destruct clamp; discriminate. }
  pose proof (pow_close L x (fdiv f1 f1) 1 AL FX X01 I1 I2 ltac:(lra) I3) as [P1 P2]. rewrite gamma_formula_1 in P2 by lra.
  assert (CP : close (/ 128) (limited ((B2R v - IZR k / 255) * 32768)) (powf L x (fdiv f1 f1))).
  { split; [exact P1|]. apply Rabs_le_iff in X, P2. apply Rabs_le_iff. lra. }
  apply close_clamp in CP. rewrite (limited_id (limited _)) in CP by apply limited_range. exact CP.
Qed.

(** * The image *)

Lemma stretched_full v : stretched 0 255 v = v.
Proof. unfold stretched. field. Qed.
Lemma brightness_bin_range c : (0 <= brightness_bin c <= 255)%Z.
Proof. apply fcast_range. lia. Qed.

Lemma stretch_real L (b : PixelBuffer Rgb) threshold : accurate_powf L -> valid b -> (1 <= zlen (data b) <= 1048576)%Z ->
  (forall c, In c (data b) -> in_gamut c) -> is_finite threshold = true -> B2R threshold = 0 \/ / 1048576 <= B2R threshold <= 400 ->
  exists r lo hi, stretch_contrast L b threshold = Ok r /\ valid r /\ width r = width b /\ height r = height b /\
    dark_level brightness_bin (data b) (B2R threshold / 1000) ((IZR (zlen (data b)) + 300) / 8388608) lo /\
    bright_level brightness_bin (data b) (B2R threshold / 1000) ((IZR (zlen (data b)) + 300) / 8388608) hi /\ (lo <= hi)%Z /\
    forall m x y, inside b x y -> exists c o, get_pixel m b x y = Ok c /\ get_pixel m r x y = Ok o /\
      ((lo < hi)%Z -> channelwise (/ 32768) (fun v => limited (stretched lo hi v)) c o) /\
      (lo = hi -> channelwise (/ 128) (fun v => limited (32768 * (v - IZR lo / 255))) c o).
Proof.
  intros AL V Hn G Ft Ht. destruct (stretch_spec_l L b threshold V) as (r & lo & hi & E & Vr & W & H & BP & WP & R).
  destruct (dark_found brightness_bin brightness_bin_range (data b) threshold Hn Ft Ht lo BP) as (k1 & -> & D1).
  destruct (bright_found brightness_bin brightness_bin_range (data b) threshold Hn Ft Ht hi WP) as (k2 & -> & D2).
  pose proof (dark_below_bright brightness_bin (data b) threshold Hn Ht k1 k2 D1 D2) as LE.
  exists r, k1, k2. split; [exact E|]. split; [exact Vr|]. split; [exact W|]. split; [exact H|]. split; [exact D1|]. split; [exact D2|]. split; [exact LE|].
  intros m x y I. destruct (get_pixel_inside m b x y V I) as (c & P). assert (IN : In c (data b)) by (rewrite get_pixel_eq in P by auto; eapply idx_In; exact P).
  destruct (G c IN) as (g0 & g1 & g2 & _). assert (R1 : (0 <= k1 <= 255)%Z) by apply D1. assert (R2 : (0 <= k2 <= 255)%Z) by apply D2.
  destruct (flt f0 (fdiv (ofZ k1) (ofZ 255)) || flt (fdiv (ofZ k2) (ofZ 255)) f1) eqn:T.
  - exists c, (with_level L (fdiv (ofZ k1) (ofZ 255)) (fdiv (ofZ k2) (ofZ 255)) f1 c).
    split; [exact P|]. split; [rewrite R by exact I; rewrite P; reflexivity|]. split.
    + intros LT. unfold with_level, map_channels, channelwise. cbn [d0 d1 d2 d3].
      split; [now apply stretched_level|]. split; [now apply stretched_level|]. split; [now apply stretched_level|]. reflexivity.
    + intros <-. unfold with_level, map_channels, channelwise. cbn [d0 d1 d2 d3].
      split; [now apply flat_level|]. split; [now apply flat_level|]. split; [now apply flat_level|]. reflexivity.
  - apply orb_false_iff in T. destruct T as [T1 T2].
    destruct (level255 k1 R1) as (F1 & B1 & E1). destruct (level255 k2 R2) as (F2 & B2 & E2).
    apply flt_Rf in T1; auto with fin. apply flt_Rf in T2; auto with fin. rewrite f0_R in T1. rewrite f1_R in T2. apply Rabs_le_iff in E1, E2.
    assert (Z1 : k1 = 0%Z).
    { assert (IZR k1 < 1) by lra. apply (lt_IZR k1 1) in H0. lia. }
    assert (Z2 : k2 = 255%Z).
    { assert (254 < IZR k2) by lra. apply (lt_IZR 254 k2) in H0. lia. }
    exists c, c. split; [exact P|]. split; [rewrite R; exact P|]. subst k1 k2. split; [|lia]. intros _.
    destruct (in01_R _ g0) as [f0' v0]. destruct (in01_R _ g1) as [f1' v1]. destruct (in01_R _ g2) as [f2' v2].
    unfold channelwise. rewrite !stretched_full, !limited_id by assumption.
    split; [split; [assumption|apply Rabs_le_iff; lra]|]. split; [split; [assumption|apply Rabs_le_iff; lra]|]. split; [split; [assumption|apply Rabs_le_iff; lra]|]. reflexivity.
Qed.

(** An image of one colour *)
Lemma count_const {A} (p : A -> bool) (l : list A) a : (forall x, In x l -> x = a) -> count p l = if p a then zlen l else 0%Z.
Proof.
  induction l as [|x l IH]; intros H; [destruct (p a); reflexivity|]. rewrite count_cons, zlen_cons, IH by (intros y Hy; apply H; right; exact Hy).
  rewrite (H x (or_introl eq_refl)). destruct (p a); lia.
Qed.
Lemma plain_level {A} (bin_of : A -> Z) (l : list A) a t e k1 k2 : (forall x, In x l -> x = a) -> (0 <= bin_of a <= 255)%Z -> (1 <= zlen l)%Z -> 0 <= t <= / 2 -> 0 <= e <= / 2 ->
  dark_level bin_of l t e k1 -> bright_level bin_of l t e k2 -> k1 = bin_of a /\ k2 = bin_of a.
Proof.
  intros H R Hl Ht He (A1 & A2 & A3) (B1 & B2 & B3). rewrite (count_const _ l a H) in A2. rewrite (count_const _ l a H) in B2.
  assert (Ln : 1 <= IZR (zlen l)) by (apply IZR_le; exact Hl).
  assert (P0 : 0 <= IZR (zlen l) * t * (1 - e)) by (apply Rmult_le_pos; [apply Rmult_le_pos|]; lra).
  assert (P1 : IZR (zlen l) * t * (1 + e) < IZR (zlen l)).
  { apply Rle_lt_trans with (IZR (zlen l) * / 2 * (3 / 2)); [|lra]. apply Rmult_le_compat; try lra. - apply Rmult_le_pos; lra. - apply Rmult_le_compat_l; lra. }
  split.
  - destruct (bin_of a <=? k1)%Z eqn:E1; [|cbn in A2; lra]. destruct (Z.eq_dec k1 (bin_of a)) as [|N]; [auto|exfalso].
    specialize (A3 (bin_of a) ltac:(lia)). rewrite (count_const _ l a H), Z.leb_refl in A3. lra.
  - destruct (k2 <=? bin_of a)%Z eqn:E1; [|cbn in B2; lra]. destruct (Z.eq_dec k2 (bin_of a)) as [|N]; [auto|exfalso].
    specialize (B3 (bin_of a) ltac:(lia)). rewrite (count_const _ l a H), Z.leb_refl in B3. lra.
Qed.

Lemma grey_to_white L (b : PixelBuffer Rgb) threshold : accurate_powf L -> valid b -> (1 <= zlen (data b) <= 1048576)%Z ->
  (forall c, In c (data b) -> c = mkC (dec 1 2) (dec 1 2) (dec 1 2) f1) -> is_finite threshold = true -> B2R threshold = 0 \/ / 1048576 <= B2R threshold <= 400 ->
  exists r, stretch_contrast L b threshold = Ok r /\ forall m x y, inside b x y ->
    exists o, get_pixel m r x y = Ok o /\ channelwise (/ 128) (fun _ => 1) (mkC (dec 1 2) (dec 1 2) (dec 1 2) f1) o.
Proof.
  intros AL V Hn Gr Ft Ht. destruct (stretch_real L b threshold AL V Hn) as (r & lo & hi & E & _ & _ & _ & D1 & D2 & _ & P); auto.
  { intros c Hc. rewrite (Gr c Hc). repeat split; vm_compute; reflexivity. }
  assert (HN : 1 <= IZR (zlen (data b)) <= 1048576) by (split; apply IZR_le; lia).
  destruct (plain_level brightness_bin (data b) _ (B2R threshold / 1000) ((IZR (zlen (data b)) + 300) / 8388608) lo hi Gr (brightness_bin_range _) ltac:(lia) ltac:(destruct Ht; lra) ltac:(lra) D1 D2) as [K1 K2].
  assert (K : brightness_bin (mkC (dec 1 2) (dec 1 2) (dec 1 2) f1) = 127%Z) by (vm_compute; reflexivity). rewrite K in K1, K2. subst lo hi.
  exists r. split; [exact E|]. intros m x y I. destruct (P m x y I) as (c & o & Pc & Po & _ & Q).
  exists o. split; [exact Po|]. specialize (Q eq_refl).
  assert (IN : In c (data b)) by (rewrite get_pixel_eq in Pc by auto; eapply idx_In; exact Pc). rewrite (Gr c IN) in Q.
  unfold channelwise in *. cbn [d0 d1 d2 d3] in *. fval (dec 1 2) Hh.
  assert (LH : limited (32768 * (B2R (dec 1 2) - 127 / 255)) = 1) by (apply limited_hi; rewrite Hh; lra). rewrite LH in Q. exact Q.
Qed.

Lemma four_levels (c1 c2 c3 : Rgb) : brightness_bin c1 = 63%Z -> brightness_bin c2 = 127%Z -> brightness_bin c3 = 191%Z ->
  let l := [c1; c2; c2; c3] in
  dark_level brightness_bin l 0 0 63 /\ bright_level brightness_bin l 0 0 191 /\
  dark_level brightness_bin l (300 / 1000) 0 127 /\ bright_level brightness_bin l (300 / 1000) 0 127.
Proof.
  intros A B D l. unfold l.
  assert (LN : @zlen Rgb [c1; c2; c2; c3] = 4%Z) by reflexivity.
  assert (LO : forall k, @count Rgb (fun a => (brightness_bin a <=? k)%Z) [c1; c2; c2; c3] = ((if 63 <=? k then 1 else 0) + ((if 127 <=? k then 1 else 0) + ((if 127 <=? k then 1 else 0) + ((if 191 <=? k then 1 else 0) + 0))))%Z).
  { intros k. rewrite !count_cons, A, B, D. reflexivity. }
  assert (HI : forall k, @count Rgb (fun a => (k <=? brightness_bin a)%Z) [c1; c2; c2; c3] = ((if k <=? 63 then 1 else 0) + ((if k <=? 127 then 1 else 0) + ((if k <=? 127 then 1 else 0) + ((if k <=? 191 then 1 else 0) + 0))))%Z).
  { intros k. rewrite !count_cons, A, B, D. reflexivity. }
  unfold dark_level, bright_level. rewrite LN.
  split; [|split; [|split]].
  1,2: split; [lia|]; split; [rewrite ?LO, ?HI; apply Rlt_le_trans with 1; [lra|apply IZR_le; cbn; lia]|].
  3,4: split; [lia|]; split; [rewrite ?LO, ?HI; apply Rlt_le_trans with 2; [lra|apply IZR_le; cbn; lia]|].
  - intros j Hj. rewrite LO. replace (4 * 0 * (1 + 0)) with 0 by lra. apply IZR_le. destruct (63 <=? j)%Z eqn:E1, (127 <=? j)%Z eqn:E2, (191 <=? j)%Z eqn:E3; lia.
  - intros j Hj. rewrite HI. replace (4 * 0 * (1 + 0)) with 0 by lra. apply IZR_le. destruct (j <=? 63)%Z eqn:E1, (j <=? 127)%Z eqn:E2, (j <=? 191)%Z eqn:E3; lia.
  - intros j Hj. rewrite LO. apply Rle_trans with 1; [apply IZR_le; destruct (63 <=? j)%Z eqn:E1, (127 <=? j)%Z eqn:E2, (191 <=? j)%Z eqn:E3; lia|lra].
  - intros j Hj. rewrite HI. apply Rle_trans with 1; [apply IZR_le; destruct (j <=? 63)%Z eqn:E1, (j <=? 127)%Z eqn:E2, (j <=? 191)%Z eqn:E3; lia|lra].
Qed.
