(** Gaussian kernels: the table, its normalisation, and the blur as an
    average of pixels. *)
From Coq Require Import ZArith List Bool Lia Reals Lra Psatz.
From Flocq Require Import Core.Core IEEE754.BinarySingleNaN.
From Flocq Require Import Plus_error Relative.
From Verif Require Import Base PixelBuffer BaseLemmas BufferSpec PixelBufferProofs.
From Verif Require Import F32 Color F32Lemmas ColorSpec ColorProofs Kernel KernelSpec KernelProofs.
From Verif Require Import ComposeProofs ResampleProofs Kernel2Proofs.
Import ListNotations.
Open Scope R_scope.

(** * The table *)

Lemma fadd_comm x y : fadd x y = fadd y x.
Proof.
  destruct (is_finite x) eqn:Fx, (is_finite y) eqn:Fy.
  - pose proof (Bplus_correct 24 128 p24 e128 mode_NE x y Fx Fy) as A.
    pose proof (Bplus_correct 24 128 p24 e128 mode_NE y x Fy Fx) as B.
    rewrite (Rplus_comm (B2R y)) in B.
    fold (fadd x y) in A. fold (fadd y x) in B.
    destruct (Rlt_bool _ _).
    + destruct A as (A1 & A2 & A3). destruct B as (B1 & B2 & B3).
      apply f_inj; auto; [congruence|]. rewrite A3, B3.
      rewrite (andb_comm (Bsign x)). reflexivity.
    + destruct A as [A1 A2]. destruct B as [B1 B2]. apply B2SF_inj. rewrite A1, B1, A2. reflexivity.
  - destruct x, y; try discriminate; try reflexivity; destruct s, s0; reflexivity.
  - destruct x, y; try discriminate; try reflexivity; destruct s, s0; reflexivity.
  - destruct x, y; try discriminate; try reflexivity; destruct s, s0; reflexivity.
Qed.

Lemma gaussian_value_sym L s x y : gaussian_value L s x y = gaussian_value L s y x.
Proof. unfold gaussian_value. rewrite (fadd_comm (fmul (ofZ x) (ofZ x))). reflexivity. Qed.

Lemma upd_all (l : list (Z * f32)) d s : NoDup (map fst l) ->
  (forall i v, In (i, v) l -> (0 <= i < zlen d)%Z) ->
  exists d', for_ l (fun '(i, v) '(d, s) => d' <- upd d i v; Ok (d', fadd s v)) (d, s)
      = Ok (d', fold_left fadd (map snd l) s) /\
    zlen d' = zlen d /\ (forall i v, In (i, v) l -> idx d' i = Ok v) /\
    (forall i, ~ In i (map fst l) -> idx d' i = idx d i).
Proof.
  revert d s. induction l as [|[i v] l IH]; intros d s ND B.
  - exists d. cbn. repeat split; auto. intros ? ? [].
  - cbn [map fst] in ND. apply NoDup_cons_iff in ND. destruct ND as [NI ND].
    destruct (upd_ok d i v) as [d1 [E1 [L1 P1]]]; [apply (B i v); left; auto|].
    destruct (IH d1 (fadd s v) ND) as [d' [E [Ln [P Q]]]].
    { intros j w Hj. rewrite L1. apply (B j w). right; auto. }
    exists d'. cbn [for_]. rewrite E1. cbn [bind]. rewrite E. cbn [map snd fold_left].
    split; [reflexivity|]. split; [congruence|]. split.
    + intros j w [Hj | Hj]; [inversion Hj; subst j w|auto]. rewrite Q by auto. rewrite P1, Z.eqb_refl. reflexivity.
    + intros j Hj. cbn [map fst] in Hj. rewrite Q by (intros C; apply Hj; right; auto).
      rewrite P1. destruct (Z.eqb_spec j i) as [-> | N]; [|reflexivity]. exfalso. apply Hj. left; auto.
Qed.

(** Coefficients before normalisation, row by row. *)
Lemma gauss_vals_eq L N sigma : gauss_vals L N sigma =
  map (fun '(tx, ty) => gaussian_value L (gaussian_s sigma) (tx - N / 2) (ty - N / 2)) (row_major N N).
Proof. reflexivity. Qed.

Lemma zrange_shift a b k : zrange (a + k) (b + k) = map (fun z => (z + k)%Z) (zrange a b).
Proof.
  unfold zrange. replace (b + k - (a + k))%Z with (b - a)%Z by lia.
  generalize (Z.to_nat (b - a)). intros n. revert a. induction n as [|n IH]; intros a; [reflexivity|].
  cbn [zseq map]. f_equal. rewrite <- IH. f_equal. lia.
Qed.

Lemma gaussian_table L m N sigma : (0 < N <= 65535)%Z ->
  new_gaussian_dyn L m N sigma =
    Ok (mkKD (map (fun v => fdiv v (fold_left fadd (gauss_vals L N sigma) f0)) (gauss_vals L N sigma)) N N).
Proof.
  intros HN. unfold new_gaussian_dyn.
  assert (Z.quot N 2 = N / 2)%Z as -> by (apply Z.quot_div_nonneg; lia).
  rewrite u32_ok by nia. cbn [bind]. cbv zeta.
  set (o := (N / 2)%Z).
  set (l := flat_map (fun tx => map (fun ty => ((tx + ty * N)%Z, gaussian_value L (gaussian_s sigma) (tx - o) (ty - o))) (zrange 0 N)) (zrange 0 N)).
  match goal with |- bind ?e _ = _ =>
    replace e with (for_ l (fun '(i, v) '(d, s) => d' <- upd d i v; Ok (d', fadd s v)) (repeat f0 (Z.to_nat (N * N)), f0)) end.
  2:{ unfold l. rewrite flat_map_concat_map, for_concat, for_map.
      replace (zrange (- o) (N - o)) with (map (fun z => (z + - o)%Z) (zrange 0 N)).
      2:{ rewrite <- zrange_shift. f_equal; lia. }
      rewrite for_map. apply for_ext. intros tx s Hx. rewrite !for_map. apply for_ext. intros ty [d' s'] Hy.
      replace (tx + - o + o + (ty + - o + o) * N)%Z with (tx + ty * N)%Z by lia.
      reflexivity. }
  assert (MF : map fst l = flat_map (fun tx => map (fun ty => (tx + ty * N)%Z) (zrange 0 N)) (zrange 0 N)).
  { unfold l. rewrite !flat_map_concat_map, concat_map, map_map. f_equal. apply map_ext. intros tx. rewrite map_map. reflexivity. }
  assert (MS : map snd l = gauss_vals L N sigma).
  { unfold l, gauss_vals, row_major. rewrite !flat_map_concat_map, !concat_map, !map_map. f_equal.
    apply map_ext. intros tx. rewrite !map_map. apply map_ext. intros ty. cbn [snd]. apply gaussian_value_sym. }
  destruct (upd_all l (repeat f0 (Z.to_nat (N * N))) f0) as [d' [E [Ln [P _]]]].
  { rewrite MF.
    replace (flat_map (fun tx => map (fun ty => (tx + ty * N)%Z) (zrange 0 N)) (zrange 0 N))
      with (map (fun '(ty, tx) => (tx + ty * N)%Z) (row_major N N)).
    2:{ unfold row_major. rewrite !flat_map_concat_map, concat_map, map_map. f_equal.
        apply map_ext. intros tx. rewrite map_map. reflexivity. }
    apply NoDup_map_inj; [|apply row_major_NoDup].
    intros [a b] [a' b'] Ha Hb Eq. apply row_major_In in Ha. apply row_major_In in Hb.
    apply pos_inj in Eq; try lia. destruct Eq; subst; auto. }
  { intros i v Hi. rewrite zlen_repeat. rewrite Z2Nat.id by nia. unfold l in Hi. apply in_flat_map in Hi.
    destruct Hi as [tx [Hx Hi]]. apply in_map_iff in Hi. destruct Hi as [ty [Eq Hy]]. inversion Eq; subst.
    apply zrange_In in Hx. apply zrange_In in Hy. apply pos_bounds; lia. }
  rewrite E. cbn [bind]. rewrite MS.
  assert (D : d' = gauss_vals L N sigma).
  { rewrite zlen_repeat, Z2Nat.id in Ln by nia. apply list_ext.
    - rewrite Ln. unfold gauss_vals. rewrite zlen_map, row_major_length by lia. reflexivity.
    - intros j Hj. rewrite Ln in Hj. rewrite (pos_split N j) by lia.
      assert (Hx' : (0 <= j mod N < N)%Z) by (apply Z.mod_pos_bound; lia).
      assert (Hy' : (0 <= j / N < N)%Z) by (apply div_bound; lia).
      set (a := (j mod N)%Z) in *. set (bb := (j / N)%Z) in *. clearbody a bb. clear Hj j.
      unfold gauss_vals. rewrite idx_map, row_major_idx by auto. cbn [bind].
      apply P. unfold l. apply in_flat_map. exists a. split; [apply zrange_In; lia|].
      apply in_map_iff. exists bb. split; [reflexivity|apply zrange_In; lia]. }
  rewrite D. unfold kernel_dyn_new. rewrite u32_ok by nia. cbn [bind].
  rewrite assert_true; [reflexivity|]. apply Z.eqb_eq. rewrite zlen_map.
  unfold gauss_vals. rewrite zlen_map, row_major_length; lia.
Qed.

(** * Rounded sums of non-negative numbers *)

Definition rsum (l : list R) : R := fold_right Rplus 0 l.
Lemma rsum_nonneg l : (forall r, In r l -> 0 <= r) -> 0 <= rsum l.
Proof. induction l as [|r l IH]; intros H; cbn; [lra|]. pose proof (H r (or_introl eq_refl)).
  assert (0 <= rsum l) by (apply IH; intros; apply H; right; auto). unfold rsum in *. lra. Qed.
Lemma rsum_le {A} (f g : A -> R) l : (forall a, In a l -> f a <= g a) -> rsum (map f l) <= rsum (map g l).
Proof. induction l as [|a l IH]; intros H; cbn; [lra|]. pose proof (H a (or_introl eq_refl)).
  assert (rsum (map f l) <= rsum (map g l)) by (apply IH; intros; apply H; right; auto). unfold rsum in *. lra. Qed.
Lemma rsum_In r l : (forall r, In r l -> 0 <= r) -> In r l -> r <= rsum l.
Proof. induction l as [|q l IH]; intros H I; [destruct I|]; destruct I as [-> | I]; cbn.
  - assert (0 <= rsum l) by (apply rsum_nonneg; intros; apply H; right; auto). unfold rsum in *. lra.
  - pose proof (H q (or_introl eq_refl)). assert (r <= rsum l) by (apply IH; auto; intros; apply H; right; auto).
    unfold rsum in *. lra. Qed.
Lemma rsum_lin {A} (f : A -> R) a b l : rsum (map (fun x => a * f x + b) l) = a * rsum (map f l) + b * INR (length l).
Proof. induction l as [|x l IH]; [cbn; lra|]. cbn [map rsum fold_right length]. fold (rsum (map (fun x => a * f x + b) l)).
  fold (rsum (map f l)). rewrite IH, S_INR. lra. Qed.

Lemma rnd_plus_rel x y : fmt x -> fmt y -> 0 <= x + y ->
  (x + y) * (1 - ee) <= rnd (x + y) <= (x + y) * (1 + ee).
Proof.
  intros [X _] [Y _] P.
  destruct (@FLT_plus_error_N_ex radix2 (-149) 24 p24 (fun z => negb (Z.even z)) x y X Y) as [eps [He E]].
  assert (U : u_ro radix2 24 = ee).
  { unfold u_ro. change (- (24) + 1)%Z with (-23)%Z. apply bpow_m23. }
  change (rnd (x + y) = (x + y) * (1 + eps)) in E. rewrite E.
  assert (B : Rabs eps <= ee).
  { apply Rle_trans with (1 := He). rewrite U. apply div_le; unfold ee; lra. }
  apply Rabs_le_inv in B. split; apply Rmult_le_compat_l; lra.
Qed.

Lemma pow_up n : 0 <= INR n * ee <= 1 -> (1 + ee) ^ n * (1 - INR n * ee) <= 1.
Proof.
  induction n as [|n IH]; intros H; [cbn; lra|].
  rewrite S_INR in *. assert (0 < ee) by (unfold ee; lra). pose proof (pos_INR n).
  assert (I : (1 + ee) ^ n * (1 - INR n * ee) <= 1) by (apply IH; nra).
  cbn [pow]. assert (P : 0 < (1 + ee) ^ n) by (apply pow_lt; lra).
  assert ((1 + ee) * (1 - (INR n + 1) * ee) <= 1 - INR n * ee) by nra.
  nra.
Qed.
Lemma pow_dn n : 1 - INR n * ee <= (1 - ee) ^ n.
Proof.
  induction n as [|n IH]; [cbn; lra|]. rewrite S_INR. cbn [pow]. assert (0 < ee < 1) by (unfold ee; lra).
  pose proof (pos_INR n). destruct (Rle_or_lt (1 - INR n * ee) 0).
  - assert (0 <= (1 - ee) ^ n) by (apply pow_le; lra). nra.
  - nra.
Qed.

Lemma fold_sum_rel l a M : fin a -> 0 <= B2R a ->
  (forall v, In v l -> fin v /\ 0 <= B2R v) -> fmt M ->
  (B2R a + rsum (map B2R l)) * (1 + ee) ^ (length l) <= M ->
  fin (fold_left fadd l a) /\
  (B2R a + rsum (map B2R l)) * (1 - ee) ^ (length l) <= B2R (fold_left fadd l a)
    <= (B2R a + rsum (map B2R l)) * (1 + ee) ^ (length l).
Proof.
  revert a. induction l as [|v l IH]; intros a Fa Pa Hl FM HM.
  - cbn in *. split; [auto|]. lra.
  - cbn [map rsum fold_right length fold_left] in *. fold (rsum (map B2R l)) in *.
    destruct (Hl v (or_introl eq_refl)) as [Fv Pv].
    assert (Pl : 0 <= rsum (map B2R l)).
    { apply rsum_nonneg. intros r Hr. apply in_map_iff in Hr. destruct Hr as [w [<- Hw]]. apply Hl. right; auto. }
    set (S := rsum (map B2R l)) in *. clearbody S.
    assert (E0 : 0 < ee < / 2) by (unfold ee; lra).
    assert (P1 : 1 <= (1 + ee) ^ length l) by (apply pow_R1_Rle; lra).
    cbn [pow] in *.
    set (q := (1 + ee) ^ length l) in *.
    assert (Q0 : 1 <= (1 + ee) * q) by (clear - E0 P1; nra).
    assert (Q1 : B2R a + B2R v <= M).
    { apply Rle_trans with (2 := HM). apply Rle_trans with ((B2R a + (B2R v + S)) * 1); [lra|].
      apply Rmult_le_compat_l; lra. }
    destruct (fadd_num a v 0 M) as [[Fs Rs] Es]; auto with fmt; [lra|].
    pose proof (rnd_plus_rel (B2R a) (B2R v) (fmt_B2R a) (fmt_B2R v) ltac:(lra)) as Rr.
    rewrite <- Es in Rr.
    destruct (IH (fadd a v) Fs (proj1 Rs)) as [F B]; auto.
    { intros w Hw. apply Hl. right; auto. }
    { apply Rle_trans with (2 := HM). replace ((B2R a + (B2R v + S)) * ((1 + ee) * q)) with (((B2R a + B2R v + S) * (1 + ee)) * q) by ring.
      apply Rmult_le_compat_r; [lra|]. nra. }
    split; [auto|]. fold q in B. set (p := (1 - ee) ^ length l) in *.
    assert (Pp : 0 <= p) by (apply pow_le; lra). split.
    + apply Rle_trans with (2 := proj1 B). replace ((B2R a + (B2R v + S)) * ((1 - ee) * p)) with (((B2R a + B2R v + S) * (1 - ee)) * p) by ring.
      apply Rmult_le_compat_r; [lra|]. nra.
    + apply Rle_trans with (1 := proj2 B). replace ((B2R a + (B2R v + S)) * ((1 + ee) * q)) with (((B2R a + B2R v + S) * (1 + ee)) * q) by ring.
      apply Rmult_le_compat_r; [lra|]. nra.
Qed.

(** The rounded sum is at least every summand. *)
Lemma fold_sum_ge l a M : fin a -> 0 <= B2R a -> fmt M ->
  (forall v, In v l -> fin v /\ 0 <= B2R v <= M) -> 0 <= M ->
  B2R a <= M * 16777216 -> fmt (M * 16777216) -> (forall r, r <= M * 16777216 -> rnd (r + M) <= M * 16777216) ->
  fmt (M * 16777216 + M) \/ fmt (M * 33554432) ->
  fin (fold_left fadd l a) /\ B2R a <= B2R (fold_left fadd l a) <= M * 16777216 /\
  forall v, In v l -> B2R v <= B2R (fold_left fadd l a).
Proof.
  revert a. induction l as [|v l IH]; intros a Fa Pa FM Hl PM Ha F24 Sat Big.
  - cbn. split; [auto|]. split; [lra|]. intros ? [].
  - destruct (Hl v (or_introl eq_refl)) as [Fv Pv]. cbn [fold_left].
    assert (S : fin (fadd a v) /\ B2R (fadd a v) = rnd (B2R a + B2R v)).
    { destruct Big as [Big | Big]; eapply fadd_ok; eauto; rewrite Rabs_pos_eq; lra. }
    destruct S as [Fs Es].
    assert (Ra : B2R a <= B2R (fadd a v)) by (rewrite Es; apply rnd_lo; auto with fmt; lra).
    assert (Rv : B2R v <= B2R (fadd a v)) by (rewrite Es; apply rnd_lo; auto with fmt; lra).
    assert (Rm : B2R (fadd a v) <= M * 16777216).
    { rewrite Es. apply Rle_trans with (rnd (B2R a + M)); [apply rnd_le; lra|]. apply Sat; auto. }
    destruct (IH (fadd a v)) as [F [B C]]; auto; [lra|intros; apply Hl; right; auto|].
    split; [auto|]. split; [lra|]. intros w [<- | Hw]; [lra|auto].
Qed.

Lemma rnd_sat : rnd (16777216 + 1) = 16777216.
Proof.
  assert (F : fmt 16777216).
  { replace 16777216 with (IZR 1 * bpow radix2 24) by (rewrite bpow_pos; change (Z.pow_pos 2 24) with 16777216%Z; lra). apply fmt_F2R; lia. }
  destruct (fadd_num (ofZ 16777216) f1 0 33554432) as [_ E].
  { reflexivity. } { reflexivity. } { apply fmt_0. }
  { replace 33554432 with (IZR 1 * bpow radix2 25) by (rewrite bpow_pos; change (Z.pow_pos 2 25) with 33554432%Z; lra). apply fmt_F2R; lia. }
  { fval (ofZ 16777216) H. rewrite H, f1_R. lra. }
  assert (H : B2R (ofZ 16777216) = 16777216) by (fval (ofZ 16777216) H; rewrite H; lra).
  rewrite H, f1_R in E. rewrite <- E.
  fval (fadd (ofZ 16777216) f1) H2. rewrite H2. lra.
Qed.

Lemma fmt_2_24 : fmt 16777216.
Proof. replace 16777216 with (IZR 1 * bpow radix2 24) by (rewrite bpow_pos; change (Z.pow_pos 2 24) with 16777216%Z; lra). apply fmt_F2R; lia. Qed.
Lemma fmt_2_25 : fmt 33554432.
Proof. replace 33554432 with (IZR 1 * bpow radix2 25) by (rewrite bpow_pos; change (Z.pow_pos 2 25) with 33554432%Z; lra). apply fmt_F2R; lia. Qed.

Lemma fold_sum_unit l a : fin a -> 0 <= B2R a <= 16777216 -> (forall v, In v l -> num 0 1 v) ->
  num 0 16777216 (fold_left fadd l a) /\ B2R a <= B2R (fold_left fadd l a) /\
  forall v, In v l -> B2R v <= B2R (fold_left fadd l a).
Proof.
  intros Fa Pa Hl.
  destruct (fold_sum_ge l a 1) as [F [B C]]; auto with fmt; try lra.
  - replace (1 * 16777216) with 16777216 by lra. apply fmt_2_24.
  - intros r Hr. rewrite Rmult_1_l in *. apply Rle_trans with (rnd (16777216 + 1)); [apply rnd_le; lra|]. rewrite rnd_sat. lra.
  - right. replace (1 * 33554432) with 33554432 by lra. apply fmt_2_25.
  - split; [split; [auto|lra]|]. split; [lra|auto].
Qed.

(** * The coefficients *)

Lemma fsqrt_num x lo hi : fin x -> 0 <= B2R x -> fmt lo -> fmt hi -> lo <= sqrt (B2R x) <= hi ->
  num lo hi (fsqrt x) /\ B2R (fsqrt x) = rnd (sqrt (B2R x)).
Proof.
  intros F P Fl Fh H. pose proof (Bsqrt_correct 24 128 p24 e128 mode_NE x) as (A & B & _).
  fold (fsqrt x) in A, B. fold (rnd (sqrt (B2R x))) in A.
  split; [|exact A]. split.
  - unfold fin. rewrite B. destruct x as [s| s | | s m e pf]; try discriminate; [reflexivity|].
    destruct s; [|reflexivity]. exfalso. pose proof (F2R_lt_0 radix2 (Float radix2 (Zneg m) e) eq_refl).
    change (B2R (B754_finite true m e pf)) with (F2R (Float radix2 (Zneg m) e)) in P. lra.
  - rewrite A. split; [apply rnd_lo|apply rnd_hi]; tauto.
Qed.

Lemma PI_val : fin fPI /\ B2R fPI = 13176795 / 4194304.
Proof. fval fPI H. rewrite H. split; [auto|lra]. Qed.

Lemma bp n v : Z.pow_pos 2 n = v -> bpow radix2 (Zpos n) = IZR v.
Proof. intros <-. apply bpow_pos. Qed.
Lemma fmt_2_72 : fmt (bpow radix2 72).
Proof. rewrite <- (Rmult_1_l (bpow radix2 72)). apply (fmt_F2R 1 72); lia. Qed.

Definition s_lo : R := / 1099511627776.
Definition s_hi : R := 4398046511104.

Lemma gauss_denominator s : fin s -> s_lo <= B2R s <= s_hi ->
  fin (fmul fPI s) /\ 3 * B2R s <= B2R (fmul fPI s) <= 4 * B2R s.
Proof.
  intros F H. destruct PI_val as [FP RP]. unfold s_lo, s_hi in *.
  destruct (fmul_ok fPI s (bpow radix2 72)) as [A B]; auto using fmt_2_72.
  { rewrite RP, Rabs_pos_eq by (apply Rmult_le_pos; lra).
    apply Rle_trans with (bpow radix2 45); [|apply bpow_le; lia]. rewrite (bp 45 35184372088832 eq_refl). lra. }
  split; [auto|]. rewrite B.
  assert (R : (1 - ee) * (B2R fPI * B2R s) <= rnd (B2R fPI * B2R s) <= (1 + ee) * (B2R fPI * B2R s)).
  { apply rnd_rel_pos. rewrite RP. lra. }
  rewrite RP in R |- *. unfold ee in R. lra.
Qed.

Lemma gauss_argument s x y : fin s -> s_lo <= B2R s <= s_hi ->
  (-32767 <= x <= 32767)%Z -> (-32767 <= y <= 32767)%Z ->
  let r := fsqrt (fadd (fmul (ofZ x) (ofZ x)) (fmul (ofZ y) (ofZ y))) in
  let a := fdiv (fneg (fmul r r)) s in
  fin a /\ B2R a <= 0 /\ (x = 0%Z -> y = 0%Z -> B2R a = 0).
Proof.
  intros F H Hx Hy. cbv zeta.
  destruct (ofZ_val x ltac:(lia)) as [Fx Rx]. destruct (ofZ_val y ltac:(lia)) as [Fy Ry].
  assert (Sq : forall z, (-32767 <= z <= 32767)%Z -> 0 <= IZR z * IZR z <= 1073741824).
  { intros z Hz. rewrite <- mult_IZR. split; apply IZR_le; nia. }
  assert (F30 : fmt 1073741824).
  { replace 1073741824 with (IZR 1 * bpow radix2 30) by (rewrite (bp 30 1073741824 eq_refl); lra). apply fmt_F2R; lia. }
  destruct (fmul_num (ofZ x) (ofZ x) 0 1073741824) as [[F1 R1] E1]; auto with fmt; [rewrite Rx; auto|].
  destruct (fmul_num (ofZ y) (ofZ y) 0 1073741824) as [[F2 R2] E2]; auto with fmt; [rewrite Ry; auto|].
  destruct (fadd_num _ _ 0 2147483648 F1 F2) as [[F3 R3] E3]; auto using fmt_2_31 with fmt; [lra|].
  assert (F16 : fmt 65536).
  { replace 65536 with (IZR 1 * bpow radix2 16) by (rewrite (bp 16 65536 eq_refl); lra). apply fmt_F2R; lia. }
  destruct (fsqrt_num _ 0 65536 F3 (proj1 R3)) as [[F4 R4] E4]; auto with fmt.
  { split; [apply sqrt_pos|]. replace 65536 with (sqrt (65536 * 65536)) by (apply sqrt_square; lra).
    apply sqrt_le_1_alt. lra. }
  set (r := fsqrt _) in *.
  assert (F32' : fmt 4294967296).
  { replace 4294967296 with (IZR 1 * bpow radix2 32) by (rewrite (bp 32 4294967296 eq_refl); lra). apply fmt_F2R; lia. }
  destruct (fmul_num r r 0 4294967296 F4 F4) as [[F5 R5] E5]; auto with fmt; [clear - R4; nra|].
  unfold s_lo, s_hi in *.
  assert (Inv : 0 < / B2R s <= 1099511627776).
  { split; [apply Rinv_0_lt_compat; lra|]. rewrite <- (Rinv_inv 1099511627776). apply Rinv_le_contravar; lra. }
  destruct (fdiv_num (fneg (fmul r r)) s (- bpow radix2 72) 0) as [[F6 R6] E6]; auto with fin fmt.
  { lra. } { apply fmt_opp, fmt_2_72. }
  { rewrite fneg_R. unfold Rdiv. split.
    - replace (bpow radix2 72) with (4294967296 * 1099511627776) by (rewrite (bp 72 4722366482869645213696 eq_refl); lra).
      clear - R5 Inv. nra.
    - clear - R5 Inv. nra. }
  split; [auto|]. split; [lra|].
  intros -> ->. rewrite E6, fneg_R.
  assert (Z5 : B2R (fmul r r) = 0).
  { rewrite E5, E4, E3, E1, ?E2, Rx. rewrite Rmult_0_l, rnd_0, Rplus_0_r, rnd_0, sqrt_0, rnd_0, Rmult_0_l, rnd_0. reflexivity. }
  rewrite Z5. replace (- 0 / B2R s) with 0 by (unfold Rdiv; lra). apply rnd_0.
Qed.

Lemma gauss_coefficient L s x y : exp_ok L -> fin s -> s_lo <= B2R s <= s_hi ->
  (-32767 <= x <= 32767)%Z -> (-32767 <= y <= 32767)%Z ->
  let V := rnd (1 / B2R (fmul fPI s)) in
  num 0 V (gaussian_value L s x y) /\ (x = 0%Z -> y = 0%Z -> B2R (gaussian_value L s x y) = V) /\
  / (5 * B2R s) <= V <= / (2 * B2R s).
Proof.
  intros [X1 X2] F H Hx Hy V.
  destruct (gauss_denominator s F H) as [FD RD]. destruct (gauss_argument s x y F H Hx Hy) as [Fa [Ra Za]].
  unfold gaussian_value. set (a := fdiv (fneg _) s) in *.
  set (D := fmul fPI s) in *. unfold s_lo, s_hi in *.
  assert (P : 0 < / B2R D) by (apply Rinv_0_lt_compat; lra).
  assert (Q1 : / (4 * B2R s) <= / B2R D) by (apply Rinv_le_contravar; lra).
  assert (Q2 : / B2R D <= / (3 * B2R s)) by (apply Rinv_le_contravar; lra).
  assert (IS : 0 < / B2R s <= 1099511627776).
  { split; [apply Rinv_0_lt_compat; lra|]. rewrite <- (Rinv_inv 1099511627776). apply Rinv_le_contravar; lra. }
  assert (IS2 : / 4398046511104 <= / B2R s) by (apply Rinv_le_contravar; lra).
  rewrite Rinv_mult in Q1, Q2.
  assert (VB : (1 - ee) * (1 / B2R D) <= V <= (1 + ee) * (1 / B2R D)).
  { assert (0 <= 1 / B2R D) by (unfold Rdiv; lra).
    destruct (Rle_or_lt (/ 1000000000000) (1 / B2R D)) as [G | G]; [apply rnd_rel_pos; auto|].
    assert (B2 : Rabs (rnd (1 / B2R D) - 1 / B2R D) <= ee * Rabs (1 / B2R D)).
    { apply rnd_rel. rewrite Rabs_pos_eq by auto. apply Rle_trans with (bpow radix2 (-60)); [apply bpow_le; lia|].
      rewrite bpow_neg. change (Z.pow_pos 2 60) with 1152921504606846976%Z. unfold Rdiv. lra. }
    rewrite (Rabs_pos_eq (1 / B2R D)) in B2 by auto. apply Rabs_le_inv in B2. fold V in B2. lra. }
  assert (In01 : in01 (fexp_ L a)).
  { apply X1. apply fle_R; [auto|apply f0_fin|]. rewrite f0_R. lra. }
  apply in01_num in In01. destruct In01 as [Fe Re].
  assert (V1 : 1 / B2R D <= bpow radix2 72).
  { apply Rle_trans with (bpow radix2 45); [|apply bpow_le; lia]. rewrite (bp 45 35184372088832 eq_refl). unfold Rdiv. lra. }
  destruct (fdiv_num (fexp_ L a) D 0 (bpow radix2 72)) as [[Fv Rv] Ev]; auto using fmt_2_72 with fmt; [lra| |].
  { unfold Rdiv in *. clear - Re P V1. split; [nra|]. apply Rle_trans with (2 := V1). nra. }
  split; [|split].
  - split; [auto|]. split; [lra|]. rewrite Ev. apply rnd_le. unfold Rdiv. apply Rmult_le_compat_r; lra.
  - intros E1 E2. specialize (Za E1 E2). rewrite Ev. unfold V. f_equal. f_equal.
    assert (SM : same (fexp_ L a) f1). { apply X2. apply feq_R; [auto|apply f0_fin|]. rewrite f0_R. auto. }
    unfold same in SM. apply feq_R in SM; auto with fin. rewrite SM. apply f1_R.
  - unfold Rdiv in VB. rewrite !Rinv_mult. unfold ee in VB. clear - VB Q1 Q2 IS. split; nra.
Qed.

(** * Blur as an average *)

Lemma gauss_vals_range L r sigma : exp_ok L -> (0 <= r <= 32767)%Z ->
  let s := gaussian_s sigma in fin s -> s_lo <= B2R s <= s_hi ->
  exists V, (forall v, In v (gauss_vals L (2 * r + 1) sigma) -> num 0 V v) /\
    (exists v, In v (gauss_vals L (2 * r + 1) sigma) /\ B2R v = V) /\
    / (5 * B2R s) <= V <= / (2 * B2R s).
Proof.
  intros X Hr s F H. exists (rnd (1 / B2R (fmul fPI s))).
  assert (O : ((2 * r + 1) / 2 = r)%Z) by (symmetry; apply (Z.div_unique _ 2 _ 1); lia).
  unfold gauss_vals. rewrite O. fold s. split; [|split].
  - intros v Hv. apply in_map_iff in Hv. destruct Hv as [[tx ty] [<- Ht]]. apply row_major_In in Ht.
    apply (gauss_coefficient L s (tx - r) (ty - r)); auto; lia.
  - exists (gaussian_value L s 0 0). split.
    + apply in_map_iff. exists (r, r). split; [rewrite Z.sub_diag; reflexivity|]. apply row_major_In. lia.
    + apply (gauss_coefficient L s 0 0); auto; lia.
  - apply (gauss_coefficient L s 0 0); auto; lia.
Qed.

Lemma weighted_channel_fold pick l :
  weighted_channel pick l = fold_left fadd (map (fun p => fmul (fst p) (pick (snd p))) l) f0.
Proof.
  unfold weighted_channel. generalize f0. induction l as [|[k c] l IH]; intros a; [reflexivity|].
  cbn [map fold_left fst snd]. apply IH.
Qed.

Lemma div_by_sum v S : num 0 (B2R S) v -> fin S -> 0 < B2R S -> num 0 1 (fdiv v S).
Proof.
  intros [Fv Rv] FS PS. apply fdiv_num; auto with fmt; [lra|]. apply div_01; auto.
Qed.

Lemma mul_unit x y : num 0 1 x -> num 0 1 y -> num 0 1 (fmul x y).
Proof. intros [Fx Rx] [Fy Ry]. apply fmul_num; auto with fmt. nra. Qed.

(** Coefficients and channels in [0, 1]: the sum saturates at 2^24. *)
Lemma weighted_unit pick l : (forall k c, In (k, c) l -> num 0 1 k /\ num 0 1 (pick c)) ->
  num 0 16777216 (weighted_channel pick l).
Proof.
  intros H. rewrite weighted_channel_fold.
  apply (fold_sum_unit _ f0); [apply f0_fin|rewrite f0_R; lra|].
  intros v Hv. apply in_map_iff in Hv. destruct Hv as [[k c] [<- Hk]]. cbn [fst snd].
  destruct (H k c Hk). apply mul_unit; auto.
Qed.

Lemma gauss_weights_unit vals V : (forall v, In v vals -> num 0 V v) -> (exists v, In v vals /\ B2R v = V) ->
  0 < V <= 1 -> let S := fold_left fadd vals f0 in forall v, In v vals -> num 0 1 (fdiv v S).
Proof.
  intros H [v0 [I0 E0]] HV S v Hv.
  destruct (fold_sum_unit vals f0) as [[F R] [_ G]]; [apply f0_fin|rewrite f0_R; lra|
    intros w Hw; apply (num_weak 0 V); [auto|lra|lra]|].
  fold S in F, R, G. pose proof (G v0 I0). pose proof (G v Hv). destruct (H v Hv) as [Fv Rv].
  apply div_by_sum; [split; [auto|lra]|auto|lra].
Qed.

Definition eta : R := bpow radix2 (-150).
Lemma eta_small : 0 < eta <= / 1125899906842624.
Proof.
  unfold eta. split; [apply bpow_gt_0|]. apply Rle_trans with (bpow radix2 (-50)); [apply bpow_le; lia|].
  rewrite bpow_neg. change (Z.pow_pos 2 50) with 1125899906842624%Z. lra.
Qed.

Lemma rnd_any x : 0 <= x -> x * (1 - ee) - eta <= rnd x <= x * (1 + ee) + eta.
Proof.
  intros P. assert (0 < eta) by apply eta_small. assert (0 < ee) by (unfold ee; lra).
  destruct (Rle_or_lt (bpow radix2 (-126)) x) as [G | G].
  - pose proof (rnd_rel x) as B. rewrite !(Rabs_pos_eq x) in B by auto. specialize (B G). apply Rabs_le_inv in B. lra.
  - pose proof (rnd_err x (-125) ltac:(lia)) as B. rewrite Rabs_pos_eq in B by auto.
    assert (x <= bpow radix2 (-125)).
    { apply Rle_trans with (bpow radix2 (-126)); [lra|apply bpow_le; lia]. }
    specialize (B H1). change (-125 - 25)%Z with (-150)%Z in B. fold eta in B. apply Rabs_le_inv in B.
    assert (0 <= x * ee) by (apply Rmult_le_pos; lra). lra.
Qed.

Lemma average_lemma pick (vals : list f32) (ps : list Rgb) V lo hi :
  length vals = length ps -> (1 <= INR (length vals) <= 1048576) ->
  (forall v, In v vals -> num 0 V v) -> (exists v, In v vals /\ B2R v = V) ->
  / 100000000000000 <= V <= 1099511627776 ->
  0 <= lo -> hi <= 1 -> (forall c, In c ps -> num lo hi (pick c)) ->
  let S := fold_left fadd vals f0 in
  let e := (INR (length vals) + 1) / 4194304 in
  num (lo - e) (hi + e) (weighted_channel pick (combine (map (fun v => fdiv v S) vals) ps)).
Proof.
  intros Len HK Hv [v0 [I0 E0]] HV Plo Phi Hc S e.
  set (K := INR (length vals)) in *.
  assert (LE : 0 < ee <= / 16777216) by (unfold ee; lra).
  pose proof eta_small as HE.
  set (Sx := rsum (map B2R vals)).
  assert (Nn : forall r, In r (map B2R vals) -> 0 <= r).
  { intros r Hr. apply in_map_iff in Hr. destruct Hr as [w [<- Hw]]. apply (Hv w Hw). }
  assert (Slo : V <= Sx). { rewrite <- E0. apply rsum_In; auto. apply in_map; auto. }
  assert (Shi : Sx <= V * K).
  { unfold Sx. apply Rle_trans with (rsum (map (fun v => 0 * B2R v + V) vals)).
    - apply rsum_le. intros v I. pose proof (Hv v I) as [_ ?]. lra.
    - rewrite (rsum_lin B2R 0 V). rewrite Rmult_0_l, Rplus_0_l. apply Rle_refl. }
  assert (KE : K * ee <= / 16) by (unfold ee; lra).
  assert (PU : (1 + ee) ^ length vals * (1 - K * ee) <= 1) by (apply pow_up; fold K; split; [apply Rmult_le_pos; lra|lra]).
  assert (PD : 1 - K * ee <= (1 - ee) ^ length vals) by apply pow_dn.
  set (A := (1 + ee) ^ length vals) in *. set (B := (1 - ee) ^ length vals) in *.
  assert (A1 : 1 <= A) by (apply pow_R1_Rle; lra).
  assert (A2 : A <= 2) by (clear - PU KE A1; nra).
  assert (B0 : 0 < B) by lra.
  assert (B1 : B <= 1). { unfold B. apply Rle_trans with (1 ^ length vals); [apply pow_incr; lra|rewrite pow1; lra]. }
  assert (VK : 0 <= V * K <= 1152921504606846976) by (clear - HV HK; nra).
  destruct (fold_sum_rel vals f0 (bpow radix2 72)) as [FS RS]; [apply f0_fin|rewrite f0_R; lra| |apply fmt_2_72| |].
  { intros v I. destruct (Hv v I) as [? ?]. split; [auto|lra]. }
  { rewrite f0_R, Rplus_0_l. fold Sx A. rewrite (bp 72 4722366482869645213696 eq_refl).
    assert (0 <= Sx) by lra. assert (Sx * A <= Sx * 2) by (apply Rmult_le_compat_l; lra). lra. }
  rewrite f0_R, Rplus_0_l in RS. fold Sx A B S in RS. fold S in FS.
  assert (PS : 0 < B2R S).
  { apply Rlt_le_trans with (2 := proj1 RS). apply Rmult_lt_0_compat; lra. }
  (* ratio of the exact to the rounded sum *)
  set (Q := Sx / B2R S).
  assert (QS : Q * B2R S = Sx) by (unfold Q, Rdiv; rewrite Rmult_assoc, Rinv_l; lra).
  assert (Q0 : 0 < Q) by (apply Rdiv_lt_0_compat; lra).
  assert (QB : Q * B <= 1).
  { apply Rmult_le_reg_r with (B2R S); auto. replace (Q * B * B2R S) with ((Q * B2R S) * B) by ring. rewrite QS. lra. }
  assert (QA : 1 <= Q * A).
  { apply Rmult_le_reg_r with (B2R S); auto. replace (Q * A * B2R S) with ((Q * B2R S) * A) by ring. rewrite QS. lra. }
  (* every product *)
  set (ws := combine (map (fun v => fdiv v S) vals) ps).
  set (qs := combine vals ps).
  assert (WS : ws = map (fun p => (fdiv (fst p) S, snd p)) qs).
  { unfold ws, qs. clearbody S. clear. revert ps. induction vals as [|v vals IH]; intros [|c ps]; cbn; auto. f_equal. apply IH. }
  assert (PP : forall p, In p qs ->
    fin (fmul (fdiv (fst p) S) (pick (snd p))) /\ 0 <= B2R (fmul (fdiv (fst p) S) (pick (snd p))) /\
    lo * (1 - ee) * (1 - ee) / B2R S * B2R (fst p) - 2 * eta <= B2R (fmul (fdiv (fst p) S) (pick (snd p)))
    <= hi * (1 + ee) * (1 + ee) / B2R S * B2R (fst p) + 3 * eta).
  { intros [v c] I. cbn [fst snd].
    pose proof (in_combine_l _ _ _ _ I) as Iv. pose proof (in_combine_r _ _ _ _ I) as Ic.
    destruct (Hv v Iv) as [Fv Rv]. destruct (Hc c Ic) as [Fc Rc].
    assert (Rvs : 0 <= B2R v / B2R S <= 2).
    { assert (IP : 0 < / B2R S) by (apply Rinv_0_lt_compat; auto).
      split; [unfold Rdiv; apply Rmult_le_pos; lra|].
      apply div_le; auto. assert (/ 2 * Sx <= B2R S).
      { apply Rle_trans with (2 := proj1 RS). rewrite (Rmult_comm (/ 2)). apply Rmult_le_compat_l; lra. }
      lra. }
    destruct (fdiv_num v S 0 2) as [[Fw Rw] Ew]; auto with fmt; [lra|].
    pose proof (rnd_any _ (proj1 Rvs)) as Aw. rewrite <- Ew in Aw.
    set (w := fdiv v S) in *. set (x := B2R v / B2R S) in *.
    assert (0 <= B2R w * B2R (pick c) <= 2).
    { clear - Rw Rc Plo Phi. split; [apply Rmult_le_pos; lra|]. nra. }
    destruct (fmul_num w (pick c) 0 2) as [[Fp Rp] Ep]; auto with fmt.
    split; [auto|]. split; [lra|].
    pose proof (rnd_any _ (proj1 H)) as Ap. rewrite <- Ep in Ap.
    replace (lo * (1 - ee) * (1 - ee) / B2R S * B2R v) with (lo * (1 - ee) * (1 - ee) * x) by (unfold x; field; lra).
    replace (hi * (1 + ee) * (1 + ee) / B2R S * B2R v) with (hi * (1 + ee) * (1 + ee) * x) by (unfold x; field; lra).
    set (p := B2R (fmul w (pick c))) in *. set (y := B2R (pick c)) in *. set (z := B2R w) in *.
    clearbody x p y z. clear - Aw Ap LE HE Plo Phi Rc Rvs Rw.
    assert (hi0 : 0 <= hi) by lra.
    split.
    - assert (z * lo <= z * y) by (apply Rmult_le_compat_l; lra).
      assert (z * lo * (1 - ee) <= z * y * (1 - ee)) by (apply Rmult_le_compat_r; lra).
      assert ((x * (1 - ee) - eta) * (lo * (1 - ee)) <= z * (lo * (1 - ee))).
      { apply Rmult_le_compat_r; [apply Rmult_le_pos; lra|lra]. }
      assert (eta * (lo * (1 - ee)) <= eta * 1).
      { apply Rmult_le_compat_l; [lra|]. assert (lo * (1 - ee) <= 1 * 1) by (apply Rmult_le_compat; lra). lra. }
      lra.
    - assert (z * y <= z * hi) by (apply Rmult_le_compat_l; lra).
      assert (z * y * (1 + ee) <= z * hi * (1 + ee)) by (apply Rmult_le_compat_r; lra).
      assert (z * (hi * (1 + ee)) <= (x * (1 + ee) + eta) * (hi * (1 + ee))).
      { apply Rmult_le_compat_r; [apply Rmult_le_pos; lra|lra]. }
      assert (eta * (hi * (1 + ee)) <= eta * 2).
      { apply Rmult_le_compat_l; [lra|]. assert (hi * (1 + ee) <= 1 * 2) by (apply Rmult_le_compat; lra). lra. }
      lra. }
  rewrite weighted_channel_fold. fold ws. rewrite WS, map_map.
  set (f := fun p : f32 * Rgb => fmul (fdiv (fst p) S) (pick (snd p))) in *.
  change (map (fun x => fmul (fst (fdiv (fst x) S, snd x)) (pick (snd (fdiv (fst x) S, snd x)))) qs) with (map f qs).
  assert (Lq : length (map f qs) = length vals).
  { rewrite map_length. unfold qs. rewrite combine_length. lia. }
  set (T := rsum (map B2R (map f qs))).
  assert (MF : map B2R (map f qs) = map (fun p => B2R (f p)) qs) by apply map_map.
  assert (SQ : rsum (map (fun p : f32 * Rgb => B2R (fst p)) qs) = Sx).
  { unfold Sx. f_equal. unfold qs. clear - Len. revert ps Len.
    induction vals as [|v vals IH]; intros [|c ps] Len; cbn in *; try discriminate; auto. f_equal. apply IH. lia. }
  assert (Lqs : INR (length qs) = K). { unfold K. f_equal. rewrite map_length in Lq. auto. }
  assert (Tlo : lo * (1 - ee) * (1 - ee) * Q - 2 * eta * K <= T).
  { unfold T. rewrite MF. apply Rle_trans with (rsum (map (fun p => lo * (1 - ee) * (1 - ee) / B2R S * B2R (fst p) + - (2 * eta)) qs)).
    - rewrite (rsum_lin (fun p : f32 * Rgb => B2R (fst p))), SQ, Lqs. unfold Q. apply Req_le. field. lra.
    - apply rsum_le. intros p I. destruct (PP p I) as [_ [_ [G _]]]. apply Rle_trans with (2 := G). apply Rle_refl. }
  assert (Thi : T <= hi * (1 + ee) * (1 + ee) * Q + 3 * eta * K).
  { unfold T. rewrite MF. apply Rle_trans with (rsum (map (fun p => hi * (1 + ee) * (1 + ee) / B2R S * B2R (fst p) + 3 * eta) qs)).
    - apply rsum_le. intros p I. destruct (PP p I) as [_ [_ [_ G]]]. apply Rle_trans with (1 := G). apply Rle_refl.
    - rewrite (rsum_lin (fun p : f32 * Rgb => B2R (fst p))), SQ, Lqs. unfold Q. apply Req_le. field. lra. }
  assert (T0 : 0 <= T).
  { apply rsum_nonneg. intros r Hr. rewrite MF in Hr. apply in_map_iff in Hr. destruct Hr as [p [<- I]]. apply (PP p I). }
  assert (Q2 : Q <= 2) by (clear - QB PD KE Q0; nra).
  assert (Hhi : lo <= hi).
  { destruct ps as [|c ps']; [cbn in Len; destruct vals; [destruct I0|discriminate]|].
    pose proof (Hc c (or_introl eq_refl)) as [_ ?]. lra. }
  assert (EK : eta * K <= / 1000000000).
  { apply Rle_trans with (/ 1125899906842624 * 1048576); [apply Rmult_le_compat; lra|lra]. }
  assert (T9 : T <= 9).
  { assert (hi0 : 0 <= hi) by lra. assert (hi * (1 + ee) <= 1 * (1 + ee)) by (apply Rmult_le_compat_r; lra).
    assert (hi * (1 + ee) * (1 + ee) <= 2).
    { apply Rle_trans with (1 * (1 + ee) * (1 + ee)); [apply Rmult_le_compat_r; lra|]. clear - LE. nra. }
    assert (0 <= hi * (1 + ee) * (1 + ee)) by (apply Rmult_le_pos; [apply Rmult_le_pos; lra|lra]).
    assert (hi * (1 + ee) * (1 + ee) * Q <= 2 * 2) by (apply Rmult_le_compat; lra). lra. }
  destruct (fold_sum_rel (map f qs) f0 (bpow radix2 72)) as [FO RO]; [apply f0_fin|rewrite f0_R; lra| |apply fmt_2_72| |].
  { intros v I. apply in_map_iff in I. destruct I as [p [<- I]]. destruct (PP p I) as [? [? _]]. auto. }
  { rewrite f0_R, Rplus_0_l, Lq. fold T A. rewrite (bp 72 4722366482869645213696 eq_refl).
    assert (T * A <= 9 * 2) by (apply Rmult_le_compat; lra). lra. }
  rewrite f0_R, Rplus_0_l, Lq in RO. fold T A B in RO.
  split; [exact FO|]. set (O := B2R (fold_left fadd (map f qs) f0)) in *.
  assert (KK : 0 < K) by lra.
  unfold e. clearbody O T A B Q K. clear - RO Tlo Thi T0 QB QA Q0 Q2 PU PD A1 A2 B0 B1 KE LE HE EK HK Plo Phi Hhi.
  set (t := (2 * K + 2) * ee).
  assert (Ht : 0 < t <= / 7) by (unfold t; unfold ee in *; lra).
  assert (He : (K + 1) / 4194304 = 2 * t) by (unfold t, ee; lra).
  rewrite He.
  assert (E3 : 6 * (eta * K) <= / 2 * t).
  { assert (eta * K <= / 1125899906842624 * K) by (apply Rmult_le_compat_r; lra). unfold t, ee. lra. }
  assert (ee2 : 0 <= ee * ee <= ee * / 16) by (clear - LE; nra).
  split.
  - (* lower *)
    apply Rle_trans with (2 := proj1 RO).
    assert (G1 : (lo * (1 - ee) * (1 - ee) * Q - 2 * eta * K) * B <= T * B) by (apply Rmult_le_compat_r; lra).
    apply Rle_trans with (2 := G1).
    assert (QA' : 1 - K * ee <= Q).
    { assert (Q * A * (1 - K * ee) <= Q) . { replace (Q * A * (1 - K * ee)) with (Q * (A * (1 - K * ee))) by ring. rewrite <- (Rmult_1_r Q) at 2. apply Rmult_le_compat_l; lra. }
      assert (1 * (1 - K * ee) <= Q * A * (1 - K * ee)) by (apply Rmult_le_compat_r; lra). lra. }
    set (u := K * ee) in *.
    assert (Hu : 0 <= u) by (unfold u; apply Rmult_le_pos; lra).
    assert (Et : t = 2 * u + 2 * ee) by (unfold t, u; ring).
    assert (C1 : (1 - ee) * (1 - ee) >= 1 - 2 * ee) by lra.
    assert (C2 : (1 - u) * (1 - u) >= 1 - 2 * u) by (clear; nra).
    assert (C3 : (1 - 2 * ee) * (1 - 2 * u) >= 1 - t) by (rewrite Et; clear - Hu LE; nra).
    assert (C4 : 1 - t <= (1 - ee) * (1 - ee) * (Q * B)).
    { assert ((1 - u) * (1 - u) <= Q * B) by (apply Rmult_le_compat; lra).
      assert ((1 - 2 * ee) * (1 - 2 * u) <= (1 - ee) * (1 - ee) * (Q * B)) by (apply Rmult_le_compat; lra). lra. }
    assert (C5 : lo * (1 - t) <= lo * ((1 - ee) * (1 - ee) * (Q * B))) by (apply Rmult_le_compat_l; lra).
    assert (C6 : eta * K * B <= eta * K * 1) by (apply Rmult_le_compat_l; [apply Rmult_le_pos; lra|lra]).
    assert (C7 : lo * t <= 1 * t) by (apply Rmult_le_compat_r; lra).
    lra.
  - (* upper *)
    apply Rle_trans with (1 := proj2 RO).
    assert (G1 : T * A <= (hi * (1 + ee) * (1 + ee) * Q + 3 * eta * K) * A) by (apply Rmult_le_compat_r; lra).
    apply Rle_trans with (1 := G1).
    set (u := K * ee) in *.
    assert (Hu : 0 <= u) by (unfold u; apply Rmult_le_pos; lra).
    assert (Et : t = 2 * u + 2 * ee) by (unfold t, u; ring).
    assert (QB' : Q * (1 - u) <= 1).
    { apply Rle_trans with (Q * B); [apply Rmult_le_compat_l; lra|auto]. }
    assert (C1 : (Q * A) * ((1 - u) * (1 - u)) <= 1).
    { replace (Q * A * ((1 - u) * (1 - u))) with ((Q * (1 - u)) * (A * (1 - u))) by ring.
      apply Rle_trans with (1 * 1); [|lra]. apply Rmult_le_compat; try lra.
      - apply Rmult_le_pos; lra.
      - apply Rmult_le_pos; lra. }
    assert (C2 : (1 + ee) * (1 + ee) * (1 - 2 * ee) <= 1) by (clear - LE ee2; nra).
    set (X := (1 + ee) * (1 + ee) * (Q * A)).
    assert (X0 : 0 <= X) by (unfold X; apply Rmult_le_pos; [apply Rmult_le_pos; lra|apply Rmult_le_pos; lra]).
    assert (C3 : X * ((1 - 2 * ee) * ((1 - u) * (1 - u))) <= 1).
    { unfold X. replace ((1 + ee) * (1 + ee) * (Q * A) * ((1 - 2 * ee) * ((1 - u) * (1 - u)))) with (((1 + ee) * (1 + ee) * (1 - 2 * ee)) * ((Q * A) * ((1 - u) * (1 - u)))) by ring.
      apply Rle_trans with (1 * 1); [|lra]. apply Rmult_le_compat; try lra.
      - apply Rmult_le_pos; [apply Rmult_le_pos; lra|lra].
      - apply Rmult_le_pos; [apply Rmult_le_pos; lra|apply Rmult_le_pos; lra]. }
    assert (C4 : 1 - t <= (1 - 2 * ee) * ((1 - u) * (1 - u))).
    { assert (1 - 2 * u <= (1 - u) * (1 - u)) by (clear; nra).
      assert ((1 - 2 * ee) * (1 - 2 * u) <= (1 - 2 * ee) * ((1 - u) * (1 - u))) by (apply Rmult_le_compat_l; lra).
      rewrite Et. clear - H H0 Hu LE. nra. }
    assert (C5 : X * (1 - t) <= 1).
    { apply Rle_trans with (2 := C3). apply Rmult_le_compat_l; lra. }
    assert (C6 : X <= 1 + 3 / 2 * t) by (clear - C5 Ht X0; nra).
    assert (C7 : hi * X <= hi * (1 + 3 / 2 * t)) by (apply Rmult_le_compat_l; lra).
    assert (C8 : hi * (3 / 2 * t) <= 1 * (3 / 2 * t)) by (apply Rmult_le_compat_r; lra).
    assert (C9 : eta * K * A <= eta * K * 2) by (apply Rmult_le_compat_l; [apply Rmult_le_pos; lra|lra]).
    replace ((hi * (1 + ee) * (1 + ee) * Q + 3 * eta * K) * A) with (hi * X + 3 * (eta * K * A)) by (unfold X; ring).
    lra.
Qed.
