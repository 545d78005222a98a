(** Proofs about equalisation and contrast stretching (C43-C45). *)
From Coq Require Import ZArith Reals List Bool Lia Lra.
From Flocq Require Import Core IEEE754.BinarySingleNaN.
From Verif Require Import Base BaseLemmas PixelBuffer BufferSpec PixelBufferProofs F32 F32Lemmas Color ColorSpec ColorProofs.
From Verif Require Import Kernel KernelSpec Kernel2Proofs GaussProofs Gauss2Proofs FilterProofs DrawingProofs ResampleProofs Ops OpsSpec OpsProofs.
Import ListNotations.
Open Scope Z_scope.

(** ** Adding small amounts *)
Lemma two24 : rnd 16777217 = 16777216%R.
Proof.
  fval (ofZ 16777216) A. fval (fadd (ofZ 16777216) f1) B.
  assert (F : fin (ofZ 16777216)) by reflexivity.
  destruct (fadd_num (ofZ 16777216) f1 0 16777218) as [_ C]; auto with fin fmt.
  { replace 16777218%R with (IZR 8388609 * bpow radix2 1)%R by (simpl; lra). apply fmt_F2R; lia. }
  { rewrite f1_R, A. lra. }
  rewrite B, f1_R, A in C. replace 16777217%R with (8388608 * 2 + 1)%R by lra.
  rewrite <- C. lra.
Qed.
Lemma fmt24 k : (0 <= k <= 16777215)%Z -> fmt (IZR k * 16777216).
Proof. intros. replace 16777216%R with (bpow radix2 24) by (simpl; lra). apply fmt_F2R; lia. Qed.

Lemma bump s d : num 0 16777216 s -> num 0 1 d ->
  num 0 16777216 (fadd s d) /\ B2R (fadd s d) = rnd (B2R s + B2R d) /\ (B2R s <= B2R (fadd s d) /\ B2R d <= B2R (fadd s d))%R.
Proof.
  intros [Fs Hs] [Fd Hd].
  destruct (fadd_ok s d (IZR 2 * 16777216)) as [A B]; auto.
  { apply fmt24; lia. } { rewrite Rabs_pos_eq; lra. }
  assert (C : (B2R s <= B2R (fadd s d) /\ B2R d <= B2R (fadd s d))%R).
  { rewrite B. split; apply rnd_lo; try apply fmt_B2R; lra. }
  split; [|split]; auto. split; [auto|]. split; [lra|]. rewrite B, <- two24. apply rnd_le. lra.
Qed.

(** ** Counting by adding 1 *)
Definition cnt (n : nat) : f32 := Nat.iter n (fun old => fadd old f1) f0.
Lemma num1 : num 0 1 f1. Proof. split; [auto with fin|]. rewrite f1_R. lra. Qed.
Lemma cnt_num n : num 0 16777216 (cnt n).
Proof. induction n; [split; [reflexivity|]; cbn; lra|]. unfold cnt in *. rewrite iter_S. apply bump; auto using num1. Qed.
Lemma cnt_val n : (Z.of_nat n <= 16777215)%Z -> B2R (cnt n) = IZR (Z.of_nat n).
Proof.
  induction n; intros H; [reflexivity|]. unfold cnt in *. rewrite iter_S.
  destruct (bump _ f1 (cnt_num n) num1) as (_ & E & _). unfold cnt in E. rewrite E, IHn by lia. rewrite f1_R, <- plus_IZR.
  rewrite rnd_id by (apply fmt_IZR; lia). f_equal. lia.
Qed.

Definition counts {A} (key : A -> Z) (l : list A) : list f32 :=
  map (fun k => cnt (Z.to_nat (count (fun a => key a =? k) l))) (zrange 0 256).
Lemma counts_zlen {A} (key : A -> Z) l : zlen (counts key l) = 256.
Proof. unfold counts. rewrite zlen_map, zrange_zlen; lia. Qed.
Lemma counts_idx {A} (key : A -> Z) l i : 0 <= i < 256 ->
  idx (counts key l) i = Ok (cnt (Z.to_nat (count (fun a => key a =? i) l))).
Proof. intros. unfold counts. rewrite idx_map, idx_zrange by lia. reflexivity. Qed.

Lemma count_channel_eq (b : PixelBuffer col) ch pick : (forall c, chan c ch = Ok (pick c)) ->
  count_channel b ch = Ok (counts (fun c => level (pick c)) (data b)).
Proof.
  intros P. unfold count_channel.
  rewrite (for_ext _ _ (fun c h => old <- idx h (level (pick c)); upd h (level (pick c)) (fadd old f1))).
  - apply (tally256 (fun c => level (pick c)) (fun old => fadd old f1)). intros a. apply level_range.
  - intros a s _. rewrite P. cbn [bind]. cbv zeta. rewrite level_eq. reflexivity.
Qed.

(** ** Running sums *)
Definition psum (h : list f32) (i : Z) : f32 := fold_left fadd (firstn (Z.to_nat i) h) f0.
Lemma psum_succ h i v : idx h i = Ok v -> psum h (i + 1) = fadd (psum h i) v.
Proof.
  intros H. pose proof (idx_inv _ _ _ H) as B. unfold psum. rewrite Z2Nat.inj_add by lia. change (Z.to_nat 1) with 1%nat.
  rewrite Nat.add_1_r. rewrite idx_nth in H by lia. destruct (nth_error h (Z.to_nat i)) eqn:E; [|discriminate].
  apply Ok_inj in H. subst f.
  assert (F : firstn (S (Z.to_nat i)) h = firstn (Z.to_nat i) h ++ [v]).
  { clear B. revert h E. induction (Z.to_nat i) as [|n IH]; intros [|a h] E; try discriminate.
    - cbn in *. congruence.
    - cbn [firstn app]. f_equal. apply IH. exact E. }
  rewrite F, fold_left_app. reflexivity.
Qed.
Lemma cumulate_idx px : forall h s i, 0 <= i < zlen h ->
  idx (cumulate px s h) i = Ok (fdiv (fold_left fadd (firstn (Z.to_nat (i + 1)) h) s) px).
Proof.
  induction h as [|v h IH]; intros s i H; [unfold zlen in H; cbn in H; lia|].
  cbn [cumulate]. cbv zeta. rewrite zlen_cons in H. rewrite Z2Nat.inj_add by lia. change (Z.to_nat 1) with 1%nat.
  rewrite Nat.add_1_r. cbn [firstn fold_left].
  destruct (Z.eq_dec i 0) as [->|Ne]; [reflexivity|].
  change (fdiv (fadd s v) px :: cumulate px (fadd s v) h) with ([fdiv (fadd s v) px] ++ cumulate px (fadd s v) h).
  rewrite idx_app_r by (unfold zlen; cbn; lia). replace (i - zlen [fdiv (fadd s v) px]) with (i - 1) by (unfold zlen; cbn; lia).
  rewrite IH by lia. do 4 f_equal. lia.
Qed.
Lemma cumulate_zlen px : forall h s, zlen (cumulate px s h) = zlen h.
Proof. induction h; intros s; [reflexivity|]. cbn [cumulate]. cbv zeta. rewrite !zlen_cons, IHh. reflexivity. Qed.

Section Sums.
  Context {A : Type} (key : A -> Z) (l : list A).
  Notation h := (counts key l).
  Lemma psum_num i : 0 <= i <= 256 -> num 0 (IZR i * 16777216) (psum h i).
  Proof.
    intros [H0 H]. revert H. pattern i. apply Zlt_0_ind; [|exact H0]. clear i H0. intros i IH H0 H.
    destruct (Z.eq_dec i 0) as [->|Ne]; [split; [reflexivity|]; cbn; lra|].
    specialize (IH (i - 1) ltac:(lia) ltac:(lia)). replace i with (i - 1 + 1) at 2 by lia.
    rewrite (psum_succ _ _ _ (counts_idx key l (i - 1) ltac:(lia))).
    match goal with |- num _ _ (fadd _ (cnt ?n)) => pose proof (cnt_num n) as [F R] end. destruct IH as [F' R'].
    rewrite minus_IZR in R'.
    destruct (fadd_num _ _ 0 (IZR i * 16777216) F' F) as [N _]; auto with fmt.
    - apply fmt24. lia.
    - lra.
  Qed.
  Lemma psum_step i : 0 <= i < 256 -> (B2R (psum h i) <= B2R (psum h (i + 1)))%R.
  Proof.
    intros H. rewrite (psum_succ _ _ _ (counts_idx key l i ltac:(lia))).
    match goal with |- context [cnt ?n] => pose proof (cnt_num n) as [F R] end.
    destruct (psum_num i ltac:(lia)) as [F' R'].
    assert (B : (0 <= IZR i <= 255)%R) by (split; apply IZR_le; lia).
    destruct (fadd_num _ _ 0 (IZR 257 * 16777216) F' F) as [N E]; auto with fmt.
    - apply fmt24. lia.
    - lra.
    - rewrite E. apply rnd_lo; [apply fmt_B2R|]; auto. lra.
  Qed.
  Lemma psum_mono i j : 0 <= i <= j -> j <= 256 -> (B2R (psum h i) <= B2R (psum h j))%R.
  Proof.
    intros [H0 H] J. assert (K : forall n, i + Z.of_nat n <= 256 -> (B2R (psum h i) <= B2R (psum h (i + Z.of_nat n)))%R).
    { induction n; intros B. rewrite Z.add_0_r. lra. specialize (IHn ltac:(lia)).
      pose proof (psum_step (i + Z.of_nat n) ltac:(lia)) as S1. replace (i + Z.of_nat (S n)) with (i + Z.of_nat n + 1) by lia. lra. }
    specialize (K (Z.to_nat (j - i))). rewrite Z2Nat.id in K by lia. replace (i + (j - i)) with j in K by lia. apply K. lia.
  Qed.
  Lemma psum_val i : zlen l < 16777216 -> (forall a, 0 <= key a) -> 0 <= i <= 256 ->
    B2R (psum h i) = IZR (count (fun a => key a <? i) l).
  Proof.
    intros N K [H0 H]. revert H. pattern i. apply Zlt_0_ind; [|exact H0]. clear i H0. intros i IH H0 H.
    destruct (Z.eq_dec i 0) as [->|Ne].
    { cbn. f_equal. symmetry. clear IH. induction l; [reflexivity|]. rewrite count_cons. specialize (K a) as Ka.
      replace (key a <? 0) with false by lia. rewrite IHl0; [reflexivity|]. rewrite zlen_cons in N. lia. }
    specialize (IH (i - 1) ltac:(lia) ltac:(lia)). replace i with (i - 1 + 1) at 1 by lia.
    rewrite (psum_succ _ _ _ (counts_idx key l (i - 1) ltac:(lia))).
    pose proof (count_le_len (fun a => key a =? i - 1) l). pose proof (count_nonneg (fun a => key a =? i - 1) l).
    pose proof (count_le_len (fun a => key a <? i) l). pose proof (count_nonneg (fun a => key a <? i) l).
    assert (SP : count (fun a => key a <? i) l = count (fun a => key a <? i - 1) l + count (fun a => key a =? i - 1) l).
    { clear. induction l; [reflexivity|]. rewrite !count_cons, IHl0.
      destruct (Z.ltb_spec (key a) i), (Z.ltb_spec (key a) (i - 1)), (Z.eqb_spec (key a) (i - 1)); lia. }
    pose proof (cnt_val (Z.to_nat (count (fun a => key a =? i - 1) l)) ltac:(lia)) as CV. rewrite Z2Nat.id in CV by lia.
    destruct (fadd_exact (psum h (i - 1)) (cnt (Z.to_nat (count (fun a => key a =? i - 1) l)))) as [_ E].
    - apply (num_fin _ _ _ (psum_num (i - 1) ltac:(lia))).
    - apply (num_fin _ _ _ (cnt_num _)).
    - rewrite IH, CV, <- plus_IZR. apply fmt_IZR. lia.
    - rewrite E, IH, CV, <- plus_IZR. f_equal. lia.
  Qed.
End Sums.

(** ** Normalisation *)
Lemma fold_fmax_R : forall l x, fin x -> Forall fin l ->
  fin (fold_left fmax l x) /\ B2R (fold_left fmax l x) = fold_left Rmax (map B2R l) (B2R x).
Proof. induction l as [|a l IH]; intros x Fx H; [auto|]. inversion H; subst. cbn [fold_left map].
  destruct (fmax_val x a) as [F E]; auto. rewrite <- E. apply IH; auto. Qed.
Lemma fold_fmin_R : forall l x, fin x -> Forall fin l ->
  fin (fold_left fmin l x) /\ B2R (fold_left fmin l x) = fold_left Rmin (map B2R l) (B2R x).
Proof. induction l as [|a l IH]; intros x Fx H; [auto|]. inversion H; subst. cbn [fold_left map].
  destruct (fmin_val x a) as [F E]; auto. rewrite <- E. apply IH; auto. Qed.
Lemma fold_Rmax_is : forall l x M, (x <= M)%R -> (forall v, In v l -> (v <= M)%R) -> In M (x :: l) -> fold_left Rmax l x = M.
Proof. induction l as [|a l IH]; intros x M Hx H I.
  - destruct I as [->|[]]. reflexivity.
  - cbn [fold_left]. apply IH; [apply Rmax_lub; auto; apply H; left; auto|intros; apply H; right; auto|].
    assert (a <= M)%R by (apply H; left; auto).
    destruct I as [->|[->|I]]; [left; apply Rmax_left; auto|left; apply Rmax_right; auto|right; auto]. Qed.
Lemma fold_Rmin_is : forall l x M, (M <= x)%R -> (forall v, In v l -> (M <= v)%R) -> In M (x :: l) -> fold_left Rmin l x = M.
Proof. induction l as [|a l IH]; intros x M Hx H I.
  - destruct I as [->|[]]. reflexivity.
  - cbn [fold_left]. apply IH; [apply Rmin_glb; auto; apply H; left; auto|intros; apply H; right; auto|].
    assert (M <= a)%R by (apply H; left; auto).
    destruct I as [->|[->|I]]; [left; apply Rmin_left; auto|left; apply Rmin_right; auto|right; auto]. Qed.

Lemma div_01 a d : (0 <= a <= d)%R -> (0 < d)%R -> (0 <= a / d <= 1)%R.
Proof. intros H D. split; [apply Rle_mult_inv_pos; lra|].
  apply (Rmult_le_reg_r d); [lra|]. unfold Rdiv. rewrite Rmult_assoc, Rinv_l by lra. lra. Qed.
Lemma eps_val : fin f32_EPSILON /\ B2R f32_EPSILON = (/ 8388608)%R.
Proof. split; [reflexivity|]. fval f32_EPSILON H. rewrite H. lra. Qed.

Definition norm_R (lo hi v : R) : R :=
  if Rlt_dec (rnd (hi - lo)) (/ 8388608) then 0%R else rnd (rnd (v - lo) / rnd (hi - lo)).

Lemma normalise_ok (h : list f32) n : zlen h = n + 1 -> 0 <= n ->
  (forall i, 0 <= i <= n -> exists v, idx h i = Ok v /\ num 0 8589934592 v) ->
  (forall i j v w, 0 <= i <= j -> idx h i = Ok v -> idx h j = Ok w -> (B2R v <= B2R w)%R) ->
  forall i v a z, idx h i = Ok v -> idx h 0 = Ok a -> idx h n = Ok z ->
    exists w, idx (normalise_table h) i = Ok w /\ fin w /\ B2R w = norm_R (B2R a) (B2R z) (B2R v).
Proof.
  intros L Hn P Mo i v a z Hv Ha Hz.
  assert (Fa : Forall fin h).
  { apply Forall_forall. intros x I. apply In_idx in I. destruct I as (j & Hj & E). destruct (P j ltac:(lia)) as (x' & E' & N).
    rewrite E in E'. apply Ok_inj in E'. subst. apply N. }
  assert (Pos : forall x, In x h -> (0 <= B2R x <= 8589934592)%R).
  { intros x I. apply In_idx in I. destruct I as (j & Hj & E). destruct (P j ltac:(lia)) as (x' & E' & N).
    rewrite E in E'. apply Ok_inj in E'. subst. apply N. }
  assert (Lo : forall x, In x h -> (B2R a <= B2R x)%R).
  { intros x I. apply In_idx in I. destruct I as (j & Hj & E). apply (Mo 0 j); auto; lia. }
  assert (Hi : forall x, In x h -> (B2R x <= B2R z)%R).
  { intros x I. apply In_idx in I. destruct I as (j & Hj & E). apply (Mo j n); auto; lia. }
  pose proof (idx_In _ _ _ Ha) as Ia. pose proof (idx_In _ _ _ Hz) as Iz. pose proof (idx_In _ _ _ Hv) as Iv.
  unfold normalise_table. cbv zeta.
  destruct (fold_fmax_R h f0) as [FM RM]; auto with fin.
  destruct (fold_fmin_R h f32_MAX) as [Fm Rm]; [reflexivity|auto|].
  rewrite (fold_Rmax_is _ _ (B2R z)) in RM.
  2:{ rewrite f0_R. apply Pos. auto. }
  2:{ intros r I. apply in_map_iff in I. destruct I as (x & <- & I). apply Hi. auto. }
  2:{ right. now apply in_map. }
  rewrite (fold_Rmin_is _ _ (B2R a)) in Rm.
  2:{ rewrite MAX_R. destruct (Pos a Ia). pose proof (bpow_le radix2 34 127 ltac:(lia)) as H1. pose proof (bpow_le radix2 104 126 ltac:(lia)) as H2.
      replace (bpow radix2 34) with 17179869184%R in H1 by (simpl; lra).
      replace (bpow radix2 128) with (2 * bpow radix2 127)%R by (change 128 with (1 + 127); rewrite (bpow_plus radix2 1 127); simpl (bpow radix2 1); lra).
      replace (bpow radix2 127) with (2 * bpow radix2 126)%R in * by (change 127 with (1 + 126); rewrite (bpow_plus radix2 1 126); simpl (bpow radix2 1); lra).
      change (128 - 24) with 104. lra. }
  2:{ intros r I. apply in_map_iff in I. destruct I as (x & <- & I). apply Lo. auto. }
  2:{ right. now apply in_map. }
  assert (BIG : fmt 8589934592) by (replace 8589934592%R with (IZR 512 * 16777216)%R by lra; apply fmt24; lia).
  pose proof (Pos a Ia). pose proof (Pos z Iz). pose proof (Pos v Iv).
  pose proof (Lo z Iz). pose proof (Lo v Iv). pose proof (Hi v Iv).
  destruct (fsub_num _ _ 0 8589934592 FM Fm) as [[FD RD] ED]; auto with fmt. { rewrite RM, Rm. lra. }
  rewrite RM, Rm in ED. destruct eps_val as [Fe Re]. unfold norm_R.
  destruct (flt (fsub (fold_left fmax h f0) (fold_left fmin h f32_MAX)) f32_EPSILON) eqn:T.
  - exists f0. rewrite idx_map, Hv. split; [reflexivity|]. split; [reflexivity|].
    apply flt_R in T; auto. rewrite ED, Re in T. destruct (Rlt_dec _ _); [reflexivity|lra].
  - apply flt_Rf in T; auto. rewrite ED, Re in T. rewrite idx_map, Hv. cbn [bind]. eexists. split; [reflexivity|].
    destruct (Rlt_dec _ _); [lra|].
    assert (Fv : fin v) by (rewrite Forall_forall in Fa; auto).
    destruct (fsub_num v (fold_left fmin h f32_MAX) 0 8589934592 Fv Fm) as [[FN RN] EN]; auto with fmt. { rewrite Rm. lra. }
    rewrite Rm in EN. rewrite ED in RD.
    assert (LE : (rnd (B2R v - B2R a) <= rnd (B2R z - B2R a))%R) by (apply rnd_le; lra).
    assert (PD : (0 < rnd (B2R z - B2R a))%R) by lra.
    destruct (fdiv_num _ _ 0 1 FN FD) as [[FQ _] EQ]; auto with fmt.
    { rewrite ED. lra. } { rewrite ED, EN. apply div_01; lra. }
    split; [exact FQ|]. rewrite EQ, ED, EN. reflexivity.
Qed.

Lemma norm_R_range a z v : (a <= v <= z)%R -> (0 <= norm_R a z v <= 1)%R.
Proof.
  intros H. unfold norm_R. destruct (Rlt_dec _ _); [lra|].
  assert (rnd (v - a) <= rnd (z - a))%R by (apply rnd_le; lra).
  assert (0 <= rnd (v - a))%R by (apply rnd_lo; auto with fmt; lra).
  destruct (div_01 (rnd (v - a)) (rnd (z - a))); try lra.
  split; [apply rnd_lo|apply rnd_hi]; auto with fmt.
Qed.
Lemma norm_R_mono a z v w : (a <= v)%R -> (v <= w)%R -> (w <= z)%R -> (norm_R a z v <= norm_R a z w)%R.
Proof.
  intros. unfold norm_R. destruct (Rlt_dec _ _); [lra|]. apply rnd_le. apply Rmult_le_compat_r.
  - apply Rlt_le, Rinv_0_lt_compat. lra.
  - apply rnd_le. lra.
Qed.

(** ** The table of a channel *)
Lemma channel_table_ok m (b : PixelBuffer col) ch pick : valid b -> 0 < zlen (data b) -> (forall c, chan c ch = Ok (pick c)) ->
  exists t f, channel_table m b ch = Ok t /\
    (forall v, exists w, pick_value t v = Ok w /\ in01 w /\ B2R w = f (level v)) /\
    (forall i j, 0 <= i <= j -> j <= 255 -> (f i <= f j)%R) /\
    (zlen (data b) < 16777216 -> forall v, f (level v) = equalized pick (data b) v).
Proof.
  intros V NE P. destruct (valid_bounds b V) as (_ & _ & BN & EN).
  unfold channel_table. rewrite (count_channel_eq b ch pick P). cbn [bind]. rewrite u32_ok by lia. cbn [bind].
  set (key := fun c => level (pick c)). set (px := ofZ (width b * height b)). set (h := counts key (data b)).
  destruct (ofZ_big (width b * height b) ltac:(lia)) as [Fpx Rpx]. fold px in Fpx, Rpx.
  assert (N1 : (1 <= IZR (width b * height b))%R) by (apply IZR_le; lia).
  assert (PX : (/ 2 <= B2R px)%R). { unfold ee in Rpx. nra. }
  assert (BIG : fmt 8589934592) by (replace 8589934592%R with (IZR 512 * 16777216)%R by lra; apply fmt24; lia).
  set (q := fun i => fdiv (psum h (i + 1)) px).
  assert (Q : forall i, 0 <= i <= 255 -> num 0 8589934592 (q i) /\ B2R (q i) = rnd (B2R (psum h (i + 1)) / B2R px)).
  { intros i Hi. destruct (psum_num key (data b) (i + 1) ltac:(lia)) as [F R]. fold h in F, R.
    assert (IZR (i + 1) <= 256)%R by (apply IZR_le; lia).
    apply fdiv_num; auto with fmt; [lra|]. split; [apply Rle_mult_inv_pos; lra|].
    apply (Rmult_le_reg_r (B2R px)); [lra|]. unfold Rdiv. rewrite Rmult_assoc, Rinv_l by lra. nra. }
  assert (QI : forall i, 0 <= i <= 255 -> idx (cumulate px f0 h) i = Ok (q i)).
  { intros i Hi. rewrite cumulate_idx by (unfold h; rewrite counts_zlen; lia). reflexivity. }
  assert (QM : forall i j, 0 <= i <= j -> j <= 255 -> (B2R (q i) <= B2R (q j))%R).
  { intros i j Hi Hj. destruct (Q i ltac:(lia)) as [_ ->]. destruct (Q j ltac:(lia)) as [_ ->].
    apply rnd_le. apply Rmult_le_compat_r; [apply Rlt_le, Rinv_0_lt_compat; lra|]. apply psum_mono; lia. }
  assert (ZL : zlen (cumulate px f0 h) = 255 + 1) by (rewrite cumulate_zlen; unfold h; apply counts_zlen).
  set (f := fun i => norm_R (B2R (q 0)) (B2R (q 255)) (B2R (q i))).
  exists (normalise_table (cumulate px f0 h)), f. split; [reflexivity|].
  assert (T : forall i, 0 <= i <= 255 -> exists w, idx (normalise_table (cumulate px f0 h)) i = Ok w /\ fin w /\ B2R w = f i).
  { intros i Hi. apply (normalise_ok _ 255 ZL ltac:(lia)); try (apply QI; lia).
    - intros j Hj. exists (q j). split; [apply QI; lia|apply Q; lia].
    - intros j k v w Hjk Hj Hk. pose proof (idx_inv _ _ _ Hk) as B. rewrite QI in Hj by lia. rewrite QI in Hk by lia.
      apply Ok_inj in Hj. apply Ok_inj in Hk. subst. apply QM; lia. }
  split; [|split].
  - intros v. destruct (T (level v) (level_range v)) as (w & E & F & R). exists w.
    split; [exact E|]. split; [|exact R]. apply in01_num. split; [exact F|]. rewrite R. apply norm_R_range.
    split; apply QM; pose proof (level_range v); lia.
  - intros i j Hi Hj. apply norm_R_mono; apply QM; lia.
  - intros SM v. assert (KP : forall a, 0 <= key a) by (intros a; apply level_range).
    destruct (ofZ_val (width b * height b) ltac:(lia)) as [_ Epx]. fold px in Epx.
    assert (CD : forall i, 0 <= i <= 255 -> B2R (q i) = cdf pick (data b) i).
    { intros i Hi. destruct (Q i Hi) as [_ ->]. unfold h. rewrite psum_val by (auto; lia). rewrite Epx, <- EN. unfold cdf.
      do 3 f_equal. apply count_ext. intros a. unfold key. apply Bool.eq_iff_eq_true. rewrite Z.ltb_lt, Z.leb_le. lia. }
    assert (C255 : cdf pick (data b) 255 = 1%R).
    { unfold cdf. rewrite count_all by (intros a; apply Z.leb_le; apply level_range). rewrite EN. unfold Rdiv. rewrite Rinv_r by lra.
      apply rnd_id. auto with fmt. }
    unfold f, norm_R, equalized. cbv zeta. pose proof (level_range v). rewrite !CD by lia. rewrite C255. reflexivity.
Qed.

(** ** Maps whose function never panics *)
Lemma map_total {S T R} (F : S -> T -> res (S * R)) (g : T -> R) s (b : PixelBuffer T) :
  (forall c, In c (data b) -> F s c = Ok (s, g c)) ->
  map_colors F s b = Ok (s, convert g b).
Proof.
  intros H. unfold map_colors, convert.
  assert (E : map_st F (data b) s = Ok (s, map g (data b))).
  { induction (data b) as [|c l IH]; [reflexivity|]. cbn [map_st]. rewrite H by (left; auto). cbn [bind].
    rewrite IH by (intros; apply H; right; auto). reflexivity. }
  rewrite E. reflexivity.
Qed.
Lemma convert_ok {T R} (g : T -> R) (b : PixelBuffer T) : valid b ->
  valid (convert g b) /\ width (convert g b) = width b /\ height (convert g b) = height b /\
  forall m x y, inside b x y -> get_pixel m (convert g b) x y = bind (get_pixel m b x y) (fun c => Ok (g c)).
Proof.
  intros V. assert (V' : valid (convert g b)).
  { destruct V as [V1 V2]. split; cbn [convert width height data] in *; [auto|]. rewrite zlen_map. auto. }
  split; [auto|]. split; [auto|]. split; [auto|].
  intros m x y I. rewrite !get_pixel_eq by auto. cbn [convert width data]. apply idx_map.
Qed.
