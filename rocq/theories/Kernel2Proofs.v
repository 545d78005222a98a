(** Identity kernels, Gaussian kernels as averages, and the operations built
    on neighbourhoods. *)
From Coq Require Import ZArith List Bool Lia Reals Lra Psatz.
From Flocq Require Import Core.Core IEEE754.BinarySingleNaN.
From Flocq Require Import Plus_error Relative.
From Verif Require Import Base PixelBuffer BaseLemmas BufferSpec PixelBufferProofs.
From Verif Require Import F32 Color F32Lemmas ColorSpec ColorProofs Kernel KernelSpec KernelProofs.
From Verif Require Import ComposeProofs.
Import ListNotations.
Open Scope R_scope.

Lemma is_number_fin v : is_number v -> fin v.
Proof.
  intros [H1 H2]. apply (fle_between (fneg f32_MAX) v f32_MAX); auto; vm_compute; reflexivity.
Qed.

(** * Sums with a single non-zero coefficient *)

Definition chan_sum (pick : Rgb -> f32) (l : list (f32 * Rgb)) (acc : f32) : f32 :=
  fold_left (fun acc '(k, c) => fadd acc (fmul k (pick c))) l acc.

Lemma chan_sum_zeros pick l acc : fin acc ->
  (forall k c, In (k, c) l -> k = f0 /\ fin (pick c)) ->
  fin (chan_sum pick l acc) /\ B2R (chan_sum pick l acc) = B2R acc.
Proof.
  revert acc. induction l as [|[k c] l IH]; intros acc Fa H; [auto|].
  cbn [chan_sum fold_left]. destruct (H k c) as [-> Fc]; [left; auto|].
  destruct (fmul_0_l f0 (pick c) f0_fin Fc f0_R) as [F1 R1].
  destruct (fadd_0_r acc _ Fa F1 R1) as [F2 R2].
  destruct (IH _ F2) as [F3 R3]; [intros; apply H; right; auto|].
  unfold chan_sum in F3, R3. split; [auto|]. rewrite R3. auto.
Qed.

Lemma chan_sum_app pick l1 l2 acc : chan_sum pick (l1 ++ l2) acc = chan_sum pick l2 (chan_sum pick l1 acc).
Proof. apply fold_left_app. Qed.

Lemma chan_sum_single pick l1 l2 c :
  (forall k c, In (k, c) (l1 ++ l2) -> k = f0 /\ fin (pick c)) -> fin (pick c) ->
  same (chan_sum pick (l1 ++ (f1, c) :: l2) f0) (pick c).
Proof.
  intros H Fc. rewrite chan_sum_app.
  destruct (chan_sum_zeros pick l1 f0 f0_fin) as [F1 R1]; [intros; apply H; apply in_or_app; auto|].
  cbn [chan_sum fold_left]. fold (chan_sum pick l2 (fadd (chan_sum pick l1 f0) (fmul f1 (pick c)))).
  destruct (fmul_1_l (pick c) Fc) as [F2 R2].
  destruct (fadd_0_l _ _ F1 F2) as [F3 R3]; [rewrite R1; apply f0_R|].
  destruct (chan_sum_zeros pick l2 _ F3) as [F4 R4]; [intros; apply H; apply in_or_app; auto|].
  apply same_R; auto. rewrite R4, R3. auto.
Qed.

Lemma identity_concat N : concat (identity_kernel N) =
  map (fun '(tx, ty) => if ((tx =? N / 2) && (ty =? N / 2))%Z then f1 else f0) (row_major N N).
Proof.
  unfold identity_kernel, row_major. rewrite flat_map_concat_map, concat_map, map_map. f_equal.
  apply map_ext. intros y. rewrite map_map. reflexivity.
Qed.

Lemma identity_square N : (0 <= N)%Z -> square N (identity_kernel N).
Proof.
  intros H. split.
  - unfold identity_kernel. rewrite zlen_map, zrange_zlen; lia.
  - apply Forall_forall. intros r Hr. unfold identity_kernel in Hr. apply in_map_iff in Hr.
    destruct Hr as [y [<- _]]. rewrite zlen_map, zrange_zlen; lia.
Qed.

Lemma In_combine_idx {A B} (l : list A) (d : list B) a b : In (a, b) (combine l d) ->
  exists n, nth_error l n = Some a /\ nth_error d n = Some b.
Proof.
  revert d. induction l as [|x l IH]; intros [|y d] H; cbn in H; try contradiction.
  destruct H as [H | H].
  - inversion H; subst. exists 0%nat. auto.
  - destruct (IH d H) as [n Hn]. exists (S n). auto.
Qed.

Lemma identity_pixel m (b : PixelBuffer Rgb) N x y ps c : valid b -> inside b x y -> (0 < N <= 65535)%Z ->
  (forall c, In c (data b) -> numeric c) ->
  neighbourhood m b N N x y = Ok ps -> get_pixel m b x y = Ok c ->
  same_color (weighted_sum (combine (concat (identity_kernel N)) ps)) c.
Proof.
  intros V I HN Num Hps Hc.
  assert (HN2 : (0 <= N / 2 < N)%Z) by (split; [apply Z.div_pos; lia|apply Z.div_lt_upper_bound; lia]).
  set (i0 := (N / 2 + N / 2 * N)%Z).
  assert (Hi0 : (0 <= i0 < N * N)%Z) by (apply pos_bounds; auto).
  assert (Lr : length (row_major N N) = length ps).
  { unfold neighbourhood in Hps. apply map_res_length in Hps. auto. }
  assert (Hr0 : idx (row_major N N) i0 = Ok (N / 2, N / 2)%Z) by (apply row_major_idx; auto).
  assert (Hn0 : nth_error (row_major N N) (Z.to_nat i0) = Some (N / 2, N / 2)%Z).
  { rewrite idx_nth in Hr0 by lia. destruct (nth_error (row_major N N) (Z.to_nat i0)); inversion Hr0; auto. }
  assert (Hp0 : nth_error ps (Z.to_nat i0) = Some c).
  { unfold neighbourhood in Hps. destruct (map_res_nth _ _ _ _ _ Hps Hn0) as [c' [E1 E2]].
    rewrite E1. f_equal. cbv beta iota in E2.
    assert (G : get_pixel m b x y = Ok c').
    { rewrite <- E2. f_equal; unfold inside in I; lia. }
    rewrite Hc in G. inversion G; auto. }
  set (kf := fun '(tx, ty) => if ((tx =? N / 2) && (ty =? N / 2))%Z then f1 else f0).
  rewrite identity_concat. fold kf.
  assert (Hl : nth_error (combine (map kf (row_major N N)) ps) (Z.to_nat i0) = Some (f1, c)).
  { assert (CN : forall (A B : Type) (l : list A) (d : list B) n a bb, nth_error l n = Some a -> nth_error d n = Some bb -> nth_error (combine l d) n = Some (a, bb)).
    { clear. intros A B. induction l as [|p l IH]; intros [|q d] [|n] a bb H1 H2; cbn in *; try discriminate.
      - inversion H1; inversion H2; auto.
      - apply IH; auto. }
    apply CN; [|auto]. rewrite (map_nth_error kf _ _ Hn0). unfold kf. rewrite Z.eqb_refl. reflexivity. }
  destruct (nth_error_split _ _ Hl) as [l1 [l2 [El Ll]]].
  assert (Z0 : forall k q, In (k, q) (l1 ++ l2) -> k = f0 /\ numeric q).
  { intros k q Hin.
    assert (Hn : exists n, n <> Z.to_nat i0 /\ nth_error (combine (map kf (row_major N N)) ps) n = Some (k, q)).
    { apply in_app_or in Hin. rewrite El. destruct Hin as [Hin | Hin]; apply In_nth_error in Hin; destruct Hin as [n Hn].
      - exists n. assert (n < length l1)%nat by (apply nth_error_Some; congruence).
        split; [lia|]. rewrite nth_error_app1 by auto. auto.
      - exists (length l1 + S n)%nat. split; [lia|]. rewrite nth_error_app2 by lia.
        replace (length l1 + S n - length l1)%nat with (S n) by lia. auto. }
    destruct Hn as [n [Ne Hn]].
    assert (Hn1 : nth_error (map kf (row_major N N)) n = Some k /\ nth_error ps n = Some q).
    { clear - Hn. revert ps n Hn. induction (map kf (row_major N N)) as [|a l IH]; intros [|p ps] [|n] Hn; cbn in *; try discriminate.
      - inversion Hn; auto.
      - apply IH; auto. }
    destruct Hn1 as [Hk Hq].
    destruct (nth_error (row_major N N) n) as [[tx ty]|] eqn:Er.
    2:{ rewrite (proj2 (nth_error_None (map kf (row_major N N)) n)) in Hk; [discriminate|].
        rewrite map_length. apply nth_error_None. auto. }
    rewrite (map_nth_error kf _ _ Er) in Hk. inversion Hk; subst k. clear Hk.
    assert (In (tx, ty) (row_major N N)) as Hin2 by (eapply nth_error_In; eauto).
    apply row_major_In in Hin2. destruct Hin2 as [Hx Hy].
    split.
    - unfold kf. destruct (Z.eqb_spec tx (N / 2)); [|reflexivity]. destruct (Z.eqb_spec ty (N / 2)); [|reflexivity].
      subst. exfalso. apply Ne.
      pose proof (row_major_NoDup N N) as ND. eapply NoDup_nth_error; [exact ND| |].
      + apply nth_error_Some. congruence.
      + congruence.
    - apply Num. unfold neighbourhood in Hps. destruct (map_res_nth _ _ _ _ _ Hps Er) as [q' [E1 E2]].
      rewrite Hq in E1. inversion E1; subst q'. cbv beta iota in E2. apply (data_In m); auto.
      eexists _, _. split; [|exact E2]. unfold inside in *; lia. }
  assert (Nc : numeric c) by (apply Num; apply (data_In m); eauto).
  rewrite El. unfold weighted_sum, same_color. cbn [d0 d1 d2 d3]. unfold weighted_channel.
  destruct Nc as [N0 [N1 [N2 N3]]].
  split; [|split; [|split]]; apply chan_sum_single; try (apply is_number_fin; assumption);
    intros k q Hin; destruct (Z0 k q Hin) as [-> [Q0 [Q1 [Q2 Q3]]]]; split; auto; apply is_number_fin; assumption.
Qed.

Lemma identity_lemma m (b : PixelBuffer Rgb) N : valid b -> (0 < N <= 65535)%Z ->
  (forall c, In c (data b) -> numeric c) ->
  exists r, apply_kernel m N (identity_kernel N) b = Ok r /\
    apply_kernel_dyn m (mkKD (concat (identity_kernel N)) N N) b = Ok r /\
    valid r /\ width r = width b /\ height r = height b /\
    forall x y c, inside b x y -> get_pixel m b x y = Ok c ->
      exists c', get_pixel m r x y = Ok c' /\ same_color c' c.
Proof.
  intros V HN Num.
  destruct (apply_kernel_lemma m m b N (identity_kernel N) V) as [r [E [Vr [W [H P]]]]]; [lia|apply identity_square; lia|].
  destruct (static_dyn_same m m b N (identity_kernel N) V HN) as [r' [E' Ed]]; [apply identity_square; lia|].
  rewrite E in E'. assert (r = r') by (inversion E'; auto). subst r'.
  exists r. repeat (split; [auto|]).
  intros x y c I Hc. destruct (P x y I) as [ps [Hps Hr]]. eexists. split; [exact Hr|].
  apply (identity_pixel m b N x y ps c); auto.
Qed.

Lemma MAX_R : B2R f32_MAX = (bpow radix2 128 - bpow radix2 (128 - 24))%R.
Proof.
  assert (E : F2R (Float radix2 (Zpower 2 24 - 1) 104) = (bpow radix2 128 - bpow radix2 (128 - 24))%R).
  { unfold F2R. cbn [Fnum Fexp]. rewrite minus_IZR. change (Zpower 2 24) with (Zpower radix2 24). rewrite IZR_Zpower by lia.
    replace (128 - 24)%Z with 104%Z by lia. replace (bpow radix2 128) with (bpow radix2 24 * bpow radix2 104)%R by (rewrite <- bpow_plus; f_equal; lia). ring. }
  rewrite <- E. reflexivity.
Qed.

Lemma fin_is_number v : fin v -> is_number v.
Proof.
  intros F. assert (FM : fin f32_MAX) by reflexivity.
  pose proof (abs_B2R_le_emax_minus_prec 24 128 p24 v) as B. apply Rabs_le_inv in B.
  split; apply fle_R; auto using fneg_fin; rewrite ?fneg_R, MAX_R; lra.
Qed.
