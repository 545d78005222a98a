(** Proofs about histograms (C43-C45). *)
From Coq Require Import ZArith Reals List Bool Lia Lra.
From Flocq Require Import Core IEEE754.BinarySingleNaN.
From Verif Require Import Base BaseLemmas PixelBuffer BufferSpec PixelBufferProofs F32 F32Lemmas Color ColorSpec ColorProofs.
From Verif Require Import Kernel KernelSpec GaussProofs Gauss2Proofs FilterProofs DrawingProofs ResampleProofs Ops OpsSpec.
Import ListNotations.
Open Scope Z_scope.

(** ** Levels *)
Lemma n255 : fin (ofZ 255) /\ B2R (ofZ 255) = 255%R.
Proof. apply (ofZ_val 255). lia. Qed.

Lemma clamp_cast hi w : 255 <= hi -> fcast 0 hi (fclamp w f0 (ofZ 255)) = fcast 0 255 w.
Proof.
  intros Hhi. destruct n255 as [F5 R5]. unfold fclamp.
  destruct (is_finite w) eqn:Fw.
  2:{ destruct w as [s|[|]| |]; try discriminate.
      - change (flt (B754_infinity true) f0) with true. cbv iota. rewrite (cast_int 0 hi f0 0); auto with fin. cbn [fcast]. lia.
      - change (flt (B754_infinity false) f0) with false. change (flt (ofZ 255) (B754_infinity false)) with true.
        cbv iota. rewrite (cast_int 0 hi (ofZ 255) 255); auto. cbn [fcast]. lia.
      - change (flt B754_nan f0) with false. change (flt (ofZ 255) B754_nan) with false. reflexivity. }
  assert (T : (B2R w < 0 \/ 255 < B2R w \/ 0 <= B2R w <= 255)%R) by lra.
  rewrite (fcast_fin 0 255 w) by exact Fw.
  pose proof (Btrunc_correct 24 128 e128 w) as B. rewrite fix0_round in B. apply eq_IZR in B.
  destruct T as [T|[T|T]].
  - replace (flt w f0) with true by (symmetry; apply flt_R; auto with fin).
    rewrite (cast_int 0 hi f0 0); auto with fin. rewrite B.
    assert (Ztrunc (B2R w) <= 0). { rewrite <- (Ztrunc_IZR 0). apply Ztrunc_le. lra. } lia.
  - replace (flt w f0) with false by (symmetry; apply flt_Rf; auto with fin; rewrite f0_R; lra).
    replace (flt (ofZ 255) w) with true by (symmetry; apply flt_R; auto; rewrite R5; lra).
    rewrite (cast_int 0 hi (ofZ 255) 255); auto. rewrite B.
    assert (255 <= Ztrunc (B2R w)). { rewrite <- (Ztrunc_IZR 255). apply Ztrunc_le. lra. } lia.
  - replace (flt w f0) with false by (symmetry; apply flt_Rf; auto with fin; rewrite f0_R; lra).
    replace (flt (ofZ 255) w) with false by (symmetry; apply flt_Rf; auto; rewrite R5; lra).
    rewrite fcast_fin by exact Fw. rewrite B.
    assert (0 <= Ztrunc (B2R w) <= 255).
    { split; [rewrite <- (Ztrunc_IZR 0)|rewrite <- (Ztrunc_IZR 255)]; apply Ztrunc_le; lra. } lia.
Qed.

Lemma bin_eq v : bin v = as_u8 (fmul v (ofZ 255)).
Proof. unfold bin, as_u8. apply clamp_cast. lia. Qed.
Lemma level_eq v : f_as_usize (fclamp (fround (fmul v (ofZ 255))) f0 (ofZ 255)) = level v.
Proof. unfold f_as_usize, level, as_u8. apply clamp_cast. lia. Qed.
Lemma level_range v : 0 <= level v <= 255.
Proof. apply fcast_range. lia. Qed.
Lemma bin_range v : 0 <= bin v <= 255.
Proof. rewrite bin_eq. apply fcast_range. lia. Qed.

Lemma level_mono v w : in01 v -> in01 w -> (B2R v <= B2R w)%R -> level v <= level w.
Proof.
  intros V W H. apply in01_num in V. apply in01_num in W. destruct n255 as [F5 R5].
  unfold level, as_u8.
  destruct (fmul_num v (ofZ 255) 0 255) as [[A _] A']; auto with fmt; [apply V|destruct V; rewrite R5; nra|].
  destruct (fmul_num w (ofZ 255) 0 255) as [[B _] B']; auto with fmt; [apply W|destruct W; rewrite R5; nra|].
  destruct (fround_val _ A) as [A1 A2]. destruct (fround_val _ B) as [B1 B2].
  rewrite (cast_int _ _ _ _ A1 A2), (cast_int _ _ _ _ B1 B2).
  assert (ZnearestA (B2R (fmul v (ofZ 255))) <= ZnearestA (B2R (fmul w (ofZ 255)))); [|lia].
  apply (@Zrnd_le ZnearestA _). rewrite A', B', R5. apply rnd_le. nra.
Qed.

(** ** Counting *)
Lemma count_cons {A} (p : A -> bool) a l : count p (a :: l) = (if p a then 1 else 0) + count p l.
Proof. unfold count. cbn [filter]. destruct (p a); rewrite ?zlen_cons; lia. Qed.
Lemma count_nonneg {A} (p : A -> bool) l : 0 <= count p l.
Proof. apply zlen_nonneg. Qed.
Lemma count_le_len {A} (p : A -> bool) l : count p l <= zlen l.
Proof. induction l; [reflexivity|]. rewrite count_cons, zlen_cons. destruct (p a); lia. Qed.
Lemma count_mono {A} (p q : A -> bool) l : (forall a, p a = true -> q a = true) -> count p l <= count q l.
Proof. intros H. induction l; [reflexivity|]. rewrite !count_cons. specialize (H a).
  destruct (p a), (q a); lia. Qed.
Lemma count_all {A} (p : A -> bool) l : (forall a, p a = true) -> count p l = zlen l.
Proof. intros H. induction l; [reflexivity|]. rewrite count_cons, zlen_cons, H. lia. Qed.
Lemma count_ext {A} (p q : A -> bool) l : (forall a, p a = q a) -> count p l = count q l.
Proof. intros H. unfold count. f_equal. apply filter_ext. auto. Qed.

Lemma iter_succ_comm {A} n (f : A -> A) x : Nat.iter n f (f x) = f (Nat.iter n f x).
Proof. induction n; [reflexivity|]. change (f (Nat.iter n f (f x)) = f (f (Nat.iter n f x))). now rewrite IHn. Qed.
Lemma iter_S {A} n (f : A -> A) x : Nat.iter (S n) f x = f (Nat.iter n f x).
Proof. reflexivity. Qed.

(** A loop that applies [st] to the cell selected by each item. *)
Lemma tally {A} (key : A -> Z) (st : f32 -> f32) (l : list A) : forall h,
  (forall a, 0 <= key a < zlen h) ->
  exists h', for_ l (fun a h => old <- idx h (key a); upd h (key a) (st old)) h = Ok h' /\ zlen h' = zlen h /\
    forall i v, idx h i = Ok v -> idx h' i = Ok (Nat.iter (Z.to_nat (count (fun a => key a =? i) l)) st v).
Proof.
  induction l as [|a l IH]; intros h K.
  - exists h. repeat split; auto.
  - cbn [for_]. destruct (idx_ok h (key a) (K a)) as [old Eo]. rewrite Eo. cbn [bind].
    destruct (upd_ok h (key a) (st old) (K a)) as (h1 & E1 & L1 & I1). rewrite E1. cbn [bind].
    destruct (IH h1) as (h' & E & Ln & P). { intros. rewrite L1. apply K. }
    exists h'. split; [exact E|]. split; [congruence|].
    intros i v Hv. rewrite count_cons. pose proof (count_nonneg (fun a => key a =? i) l).
    specialize (I1 i). destruct (i =? key a) eqn:Ei.
    + apply Z.eqb_eq in Ei. subst i. rewrite Z.eqb_refl, Z.add_comm, Z2Nat.inj_add by lia.
      change (Z.to_nat 1) with 1%nat. rewrite Nat.add_1_r, iter_S.
      rewrite (P _ _ I1). rewrite Eo in Hv. apply Ok_inj in Hv. subst v. rewrite iter_succ_comm. reflexivity.
    + rewrite (Z.eqb_sym (key a)), Ei. cbn [Z.add]. apply P. now rewrite I1.
Qed.

Lemma tally256 {A} (key : A -> Z) (st : f32 -> f32) (l : list A) : (forall a, 0 <= key a <= 255) ->
  for_ l (fun a h => old <- idx h (key a); upd h (key a) (st old)) (repeat f0 256) =
  Ok (map (fun k => Nat.iter (Z.to_nat (count (fun a => key a =? k) l)) st f0) (zrange 0 256)).
Proof.
  intros K. destruct (tally key st l (repeat f0 256)) as (h & E & Ln & P).
  { intros a. specialize (K a). rewrite zlen_repeat. lia. }
  rewrite E. f_equal. apply list_ext.
  - rewrite Ln, zlen_repeat, zlen_map, zrange_zlen; lia.
  - intros i Hi. rewrite Ln, zlen_repeat in Hi. rewrite (P i f0) by (apply idx_repeat; lia).
    rewrite idx_map, idx_zrange by lia. reflexivity.
Qed.

(** ** C45: shares *)
Lemma get_color_values_eq b : get_color_values b = Ok (shares brightness_bin (data b)).
Proof.
  unfold get_color_values, shares.
  rewrite (for_ext _ _ (fun c h => old <- idx h (brightness_bin c); upd h (brightness_bin c) (fadd old (fdiv f1 (ofZ (zlen (data b))))))).
  - rewrite (tally256 brightness_bin (fun old => fadd old (fdiv f1 (ofZ (zlen (data b)))))); [reflexivity|].
    intros a. unfold brightness_bin. rewrite <- bin_eq. apply bin_range.
  - intros a s _. cbv zeta. rewrite bin_eq. reflexivity.
Qed.

Lemma first_above_spec t : forall l agg (f : Z -> Z) j,
  (forall i, 0 <= i < zlen l -> exists v, idx l i = Ok (f (j + i), v)) ->
  (exists k, 0 <= k < zlen l /\ flt t (fold_left fadd (firstn (Z.to_nat (k + 1)) (map snd l)) agg) = true /\
     (forall i, 0 <= i < k -> flt t (fold_left fadd (firstn (Z.to_nat (i + 1)) (map snd l)) agg) = false) /\
     first_above t agg l = fdiv (ofZ (f (j + k))) (ofZ 255)) \/
  ((forall i, 0 <= i < zlen l -> flt t (fold_left fadd (firstn (Z.to_nat (i + 1)) (map snd l)) agg) = false) /\
     first_above t agg l = f1).
Proof.
  induction l as [|[i v] l IH]; intros agg f j P.
  - right. split; [|reflexivity]. intros i Hi. unfold zlen in Hi. cbn in Hi. lia.
  - assert (i = f j).
    { destruct (P 0) as [w Hw]; [rewrite zlen_cons; pose proof (zlen_nonneg l); lia|].
      unfold idx in Hw. cbn in Hw. rewrite Z.add_0_r in Hw. apply Ok_inj in Hw. congruence. }
    subst i. assert (S1 : forall k, 0 <= k -> fold_left fadd (firstn (Z.to_nat (k + 1)) (map snd ((f j, v) :: l))) agg =
       fold_left fadd (firstn (Z.to_nat k) (map snd l)) (fadd agg v)).
    { intros k Hk. rewrite Z2Nat.inj_add by lia. rewrite Nat.add_comm. reflexivity. }
    cbn [first_above]. cbv zeta. destruct (flt t (fadd agg v)) eqn:T.
    + left. exists 0. rewrite zlen_cons. pose proof (zlen_nonneg l).
      split; [lia|]. split; [rewrite S1 by lia; exact T|]. split; [intros; lia|]. now rewrite Z.add_0_r.
    + destruct (IH (fadd agg v) f (j + 1)) as [(k & K1 & K2 & K3 & K4)|(K1 & K2)]; [| |].
      { intros i Hi. destruct (P (i + 1)) as [w Hw]; [rewrite zlen_cons; lia|]. exists w.
        replace (j + 1 + i) with (j + (i + 1)) by lia. rewrite <- Hw.
        change ((f j, v) :: l) with ([(f j, v)] ++ l). rewrite idx_app_r by (unfold zlen; cbn; lia). f_equal. unfold zlen; cbn; lia. }
      * left. exists (k + 1). rewrite zlen_cons. split; [lia|].
        split; [rewrite S1 by lia; exact K2|]. split.
        -- intros i Hi. rewrite S1 by lia. destruct (Z.eq_dec i 0) as [->|Ne]; [exact T|].
           replace i with (i - 1 + 1) by lia. apply K3. lia.
        -- rewrite K4. do 3 f_equal. lia.
      * right. split; [|exact K2]. intros i Hi. rewrite zlen_cons in Hi. rewrite S1 by lia.
        destruct (Z.eq_dec i 0) as [->|Ne]; [exact T|]. replace i with (i - 1 + 1) by lia. apply K1. lia.
Qed.

Lemma indexed_snd {A} (l : list A) : map snd (indexed l) = l.
Proof.
  unfold indexed. assert (L : length (zrange 0 (zlen l)) = length l).
  { apply Nat2Z.inj. fold (zlen (zrange 0 (zlen l))). rewrite zrange_zlen by (pose proof (zlen_nonneg l); lia). unfold zlen. lia. }
  revert L. generalize (zrange 0 (zlen l)). induction l; intros [|z r] H; try discriminate; [reflexivity|].
  cbn. rewrite IHl; auto.
Qed.
Lemma indexed_idx {A} (l : list A) i : 0 <= i < zlen l -> exists v, idx (indexed l) i = Ok (i, v) /\ idx l i = Ok v.
Proof.
  intros H. destruct (idx_ok l i H) as [v Hv]. exists v. split; [|exact Hv].
  assert (Hz : idx (zrange 0 (zlen l)) i = Ok i) by (rewrite idx_zrange; [f_equal|]; lia).
  unfold indexed. revert Hz Hv. generalize (zrange 0 (zlen l)). intros zs.
  unfold idx. destruct (i <? 0); [discriminate|]. generalize (Z.to_nat i). clear H. intros n. revert zs l.
  induction n; intros [|z zs] [|a l]; cbn; try discriminate.
  - intros H1 H2. apply Ok_inj in H1. apply Ok_inj in H2. now subst.
  - apply IHn.
Qed.
Lemma indexed_zlen {A} (l : list A) : zlen (indexed l) = zlen l.
Proof. rewrite <- (zlen_map snd (indexed l)), indexed_snd. reflexivity. Qed.

Lemma black_point_ok t l : black_point t l (get_min_value l t).
Proof.
  unfold get_min_value, black_point, first_exceeding, never_exceeding, sum_to.
  destruct (first_above_spec t (indexed l) f0 (fun i => i) 0) as [(k & K1 & K2 & K3 & K4)|(K1 & K2)].
  - intros i Hi. rewrite indexed_zlen in Hi. destruct (indexed_idx l i Hi) as [v [Hv _]]. eauto.
  - rewrite indexed_zlen, indexed_snd in *. left. exists k. rewrite K4. auto.
  - rewrite indexed_zlen, indexed_snd in *. right. auto.
Qed.
Lemma nth_error_rev_ {A} (l : list A) : forall n, (n < length l)%nat -> nth_error (rev l) n = nth_error l (length l - S n).
Proof.
  induction l as [|a l IH]; intros n H; cbn [length] in H; [lia|]. cbn [rev length].
  destruct (Nat.eq_dec n (length l)) as [->|Ne].
  - rewrite nth_error_app2 by (rewrite rev_length; lia). rewrite rev_length, Nat.sub_diag. now rewrite Nat.sub_diag.
  - rewrite nth_error_app1 by (rewrite rev_length; lia). rewrite IH by lia.
    replace (S (length l) - S n)%nat with (S (length l - S n)) by lia. reflexivity.
Qed.
Lemma white_point_ok t l : zlen l = 256 -> white_point t l (get_max_value l t).
Proof.
  intros L. unfold get_max_value, white_point, first_exceeding, never_exceeding, sum_to.
  assert (RZ : zlen (rev (indexed l)) = 256) by (unfold zlen; rewrite rev_length; fold (zlen (indexed l)); rewrite indexed_zlen; auto).
  assert (RM : map snd (rev (indexed l)) = rev l) by (rewrite map_rev, indexed_snd; reflexivity).
  assert (RL : zlen (rev l) = 256) by (unfold zlen; rewrite rev_length; exact L).
  destruct (first_above_spec t (rev (indexed l)) f0 (fun i => 255 - i) 0) as [(k & K1 & K2 & K3 & K4)|(K1 & K2)].
  - intros i Hi. rewrite RZ in Hi. destruct (indexed_idx l (255 - i)) as [v [Hv _]]; [lia|]. exists v.
    rewrite idx_nth in * by lia.
    assert (length (indexed l) = 256%nat) by (pose proof (indexed_zlen l); unfold zlen in *; lia).
    rewrite nth_error_rev_ by lia. replace (length (indexed l) - S (Z.to_nat i))%nat with (Z.to_nat (255 - i)) by lia.
    rewrite Z.add_0_l. exact Hv.
  - rewrite RZ, RM in *. left. exists k. rewrite RL, K4. auto.
  - rewrite RZ, RM in *. right. rewrite RL. auto.
Qed.
