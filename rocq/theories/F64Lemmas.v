(** Lemmas about f64 arithmetic: each operation has a small error. *)
From Coq Require Import ZArith Reals Lra Lia Bool Psatz List.
From Flocq Require Import Core.Core IEEE754.BinarySingleNaN Relative.
From Verif Require Import F32 F32Lemmas Color ColorSpec ColorProofs MeaningSpec Approx OpMeaningProofs HslMeaning NumpyProofs EnhanceSpec.
Open Scope R_scope.

Notation dx := (SpecFloat.fexp 53 1024).
(** 2^-53 *)
Notation V64 := (/ 9007199254740992).
Definition rnd64 (r : R) : R := round radix2 dx (round_mode mode_NE) r.
Definition fin64 (x : f64) : Prop := is_finite x = true.
#[global] Instance dx_valid : Valid_exp dx.
Proof. apply fexp_correct. reflexivity. Qed.
#[global] Instance dx_mono : Monotone_exp dx.
Proof. apply fexp_monotone. Qed.

Lemma rnd64_rel r : Rabs (rnd64 r - r) <= V64 * Rabs r + bpow radix2 (-1000).
Proof.
  destruct (Rle_dec (bpow radix2 (-1022)) (Rabs r)) as [H|H].
  - assert (E : Rabs (rnd64 r - r) <= / 2 * bpow radix2 (- (53) + 1) * Rabs r).
    { unfold rnd64. simpl round_mode. apply (relative_error_N_FLT radix2 (-1074) 53); [reflexivity|exact H]. }
    change (- (53) + 1)%Z with (-52)%Z in E. rewrite bpow_neg in E. change (Z.pow_pos 2 52) with 4503599627370496%Z in E.
    replace (/ 2 * / 4503599627370496) with V64 in E by lra. pose proof (bpow_ge_0 radix2 (-1000)). lra.
  - assert (E : Rabs (rnd64 r - r) <= / 2 * bpow radix2 (-1074)).
    { destruct (Req_dec r 0) as [->|N0].
      - unfold rnd64. rewrite round_0 by typeclasses eauto. rewrite Rminus_0_r, Rabs_R0. pose proof (bpow_ge_0 radix2 (-1074)). lra.
      - apply Rnot_le_lt in H. unfold rnd64. simpl round_mode. eapply Rle_trans; [apply error_le_half_ulp; typeclasses eauto|].
        apply Rmult_le_compat_l; [lra|]. rewrite ulp_neq_0 by exact N0. apply bpow_le. unfold cexp.
        change dx with (FLT_exp (-1074) 53). unfold FLT_exp. pose proof (mag_le_bpow radix2 r (-1022) N0 H). lia. }
    assert (bpow radix2 (-1074) <= bpow radix2 (-1000)) by (apply bpow_le; lia). pose proof (bpow_ge_0 radix2 (-1000)). pose proof (Rabs_pos r). lra.
Qed.
Lemma tiny64 : 0 < bpow radix2 (-1000) <= / 1000000000000000000000000000000000000000000.
Proof.
  split; [apply bpow_gt_0|]. eapply Rle_trans; [apply (bpow_le radix2 (-1000) (-140)); lia|].
  rewrite bpow_neg. apply Rinv_le_contravar; [lra|]. apply IZR_le. vm_compute. discriminate.
Qed.
Notation T64 := (/ 1000000000000000000000000000000000000000000).
(** 2^90 *)
Notation MAXM := (1237940039285380274899124224).
Lemma big90 : 1 + 2 * MAXM < bpow radix2 1024.
Proof.
  apply Rlt_le_trans with (bpow radix2 100); [|apply bpow_le; lia].
  rewrite bpow_pos. change (Z.pow_pos 2 100) with 1267650600228229401496703205376%Z. lra.
Qed.
Lemma rnd64_M r M : Rabs r <= M -> M <= MAXM -> Rabs (rnd64 r) < bpow radix2 1024 /\ Rabs (rnd64 r - r) <= V64 * M + T64.
Proof.
  intros H G. pose proof (rnd64_rel r) as E. pose proof tiny64. pose proof big90. pose proof (Rabs_pos r).
  assert (E' : Rabs (rnd64 r - r) <= V64 * M + T64) by lra. split; [|exact E'].
  pose proof (Rabs_triang (rnd64 r - r) r) as Q. replace (rnd64 r - r + r) with (rnd64 r) in Q by lra. lra.
Qed.
Lemma dadd_val x y M : fin64 x -> fin64 y -> Rabs (B2R x + B2R y) <= M -> M <= MAXM ->
  fin64 (dadd x y) /\ Rabs (B2R (dadd x y) - (B2R x + B2R y)) <= V64 * M + T64.
Proof.
  intros Fx Fy H G. destruct (rnd64_M _ _ H G) as [A E]. pose proof (Bplus_correct 53 1024 p53 e1024 mode_NE x y Fx Fy) as B.
  rewrite Rlt_bool_true in B by exact A. destruct B as (B1 & B2 & _). split; [exact B2|]. unfold dadd. rewrite B1. exact E.
Qed.
Lemma dsub_val x y M : fin64 x -> fin64 y -> Rabs (B2R x - B2R y) <= M -> M <= MAXM ->
  fin64 (dsub x y) /\ Rabs (B2R (dsub x y) - (B2R x - B2R y)) <= V64 * M + T64.
Proof.
  intros Fx Fy H G. destruct (rnd64_M _ _ H G) as [A E]. pose proof (Bminus_correct 53 1024 p53 e1024 mode_NE x y Fx Fy) as B.
  rewrite Rlt_bool_true in B by exact A. destruct B as (B1 & B2 & _). split; [exact B2|]. unfold dsub. rewrite B1. exact E.
Qed.
Lemma dmul_val x y M : fin64 x -> fin64 y -> Rabs (B2R x * B2R y) <= M -> M <= MAXM ->
  fin64 (dmul x y) /\ Rabs (B2R (dmul x y) - (B2R x * B2R y)) <= V64 * M + T64.
Proof.
  intros Fx Fy H G. destruct (rnd64_M _ _ H G) as [A E]. pose proof (Bmult_correct 53 1024 p53 e1024 mode_NE x y) as B.
  rewrite Rlt_bool_true in B by exact A. destruct B as (B1 & B2 & _). unfold fin64, dmul. rewrite B2, B1. unfold fin64 in *. rewrite Fx, Fy. auto.
Qed.
Lemma ddiv_val x y M : fin64 x -> fin64 y -> B2R y <> 0 -> Rabs (B2R x / B2R y) <= M -> M <= MAXM ->
  fin64 (ddiv x y) /\ Rabs (B2R (ddiv x y) - (B2R x / B2R y)) <= V64 * M + T64.
Proof.
  intros Fx Fy N H G. destruct (rnd64_M _ _ H G) as [A E]. pose proof (Bdiv_correct 53 1024 p53 e1024 mode_NE x y N) as B.
  rewrite Rlt_bool_true in B by exact A. destruct B as (B1 & B2 & _). unfold fin64, ddiv. rewrite B2, B1. unfold fin64 in *. auto.
Qed.
Lemma rnd64_IZR z : (Z.abs z <= 2 ^ 53)%Z -> rnd64 (IZR z) = IZR z.
Proof.
  intros H. apply round_generic; [typeclasses eauto|]. destruct (Z.eq_dec (Z.abs z) (2 ^ 53)) as [E|E].
  - apply generic_format_abs_inv. rewrite <- abs_IZR, E. change (2 ^ 53)%Z with (radix2 ^ 53)%Z. rewrite IZR_Zpower by lia. apply generic_format_bpow. vm_compute. discriminate.
  - apply (generic_format_FLT radix2 (-1074) 53). exists (Float radix2 z 0); simpl; [unfold F2R; simpl; lra | | lia].
    change (Z.pow_pos 2 53) with (2 ^ 53)%Z. lia.
Qed.
Lemma ofZ64_val z : (Z.abs z <= 2 ^ 53)%Z -> fin64 (ofZ64 z) /\ B2R (ofZ64 z) = IZR z.
Proof.
  intros H. pose proof (binary_normalize_correct 53 1024 p53 e1024 mode_NE z 0 false) as B. cbv zeta in B.
  assert (E : F2R (Float radix2 z 0) = IZR z) by (unfold F2R; simpl; lra).
  rewrite E in B. fold (rnd64 (IZR z)) in B. rewrite (rnd64_IZR z H) in B.
  rewrite Rlt_bool_true in B.
  - unfold fin64. tauto.
  - rewrite <- abs_IZR. eapply Rle_lt_trans; [apply IZR_le, H|]. change (2 ^ 53)%Z with (radix2 ^ 53)%Z. rewrite IZR_Zpower by lia. apply bpow_lt. lia.
Qed.
Lemma wide x : fin x -> fin64 (f32_to_f64 x) /\ B2R (f32_to_f64 x) = B2R x.
Proof. intros F. destruct (wide_ok x) as (_ & A & _ & B). unfold fin64. rewrite A. auto. Qed.
Lemma narrow x M : fin64 x -> fmt M -> Rabs (B2R x) <= M -> fin (f64_to_f32 x) /\ B2R (f64_to_f32 x) = rnd (B2R x).
Proof. intros F FM H. destruct (narrow_ok x) as [_ N]. destruct (N F (rnd_small _ M FM H)) as (A & B & _). auto. Qed.
Lemma dlt_R x y : fin64 x -> fin64 y -> dlt x y = true <-> B2R x < B2R y.
Proof. intros A B. unfold dlt. rewrite Bltb_correct by auto. case Rlt_bool_spec; intuition; try discriminate; lra. Qed.
Lemma val_sf64 (c : f64) s m e : B2SF c = SpecFloat.S754_finite s m e ->
  fin64 c /\ B2R c = IZR (cond_Zopp s (Zpos m)) * bpow radix2 e.
Proof. intros H. rewrite <- SF2R_B2SF, H. split; [|reflexivity].
  unfold fin64. destruct c; simpl in *; congruence. Qed.
Ltac dval c H :=
  let v := eval vm_compute in (B2SF c) in
  match v with
  | SpecFloat.S754_finite ?s ?m ?e =>
    let Hf := fresh H "fin" in
    assert (Hf : fin64 c /\ B2R c = IZR (cond_Zopp s (Zpos m)) * bpow radix2 e)
      by (apply val_sf64; vm_cast_no_check (eq_refl v));
    destruct Hf as [Hf H]; cbn [cond_Zopp] in H;
    rewrite ?bpow_neg, ?bpow_pos in H;
    let zz := match type of H with context [Z.pow_pos 2 ?p] => constr:(Z.pow_pos 2 p) | _ => constr:(0%Z) end in
    let zv := eval vm_compute in zz in
    try change zz with zv in H
  end.

(** ** Sums of a list, number by number *)
Lemma sum_error {F A} (val : F -> R) (ok : F -> Prop) (add : F -> F -> F) (t : A -> F) (e K M : R) :
  (forall x y, ok x -> ok y -> Rabs (val x + val y) <= M -> ok (add x y) /\ Rabs (val (add x y) - (val x + val y)) <= e) -> 0 <= K -> 0 <= e ->
  forall l s, ok s -> Forall (fun a => ok (t a) /\ Rabs (val (t a)) <= K) l -> Rabs (val s) + INR (length l) * (K + e) <= M ->
  let o := fold_left (fun s a => add s (t a)) l s in
  ok o /\ Rabs (val o - (val s + sum_of (fun a => val (t a)) l)) <= INR (length l) * e.
Proof.
  intros H K0 E0. induction l as [|a l IH]; intros s Os FA B; cbn [fold_left].
  - split; auto. unfold sum_of. cbn [length INR fold_right]. rewrite Rplus_0_r, Rmult_0_l. replace (val s - val s) with 0 by lra. rewrite Rabs_R0. lra.
  - inversion FA as [|? ? [Oa Ka] FA']; subst. change (length (a :: l)) with (S (length l)) in *. rewrite S_INR in *.
    pose proof (pos_INR (length l)) as N. assert (N' : 0 <= INR (length l) * (K + e)) by (apply Rmult_le_pos; lra).
    pose proof (Rabs_triang (val s) (val (t a))) as TR.
    destruct (H s (t a) Os Oa) as [O1 E1]; [lra|].
    pose proof (Rabs_triang (val (add s (t a)) - (val s + val (t a))) (val s + val (t a))) as T2.
    replace (val (add s (t a)) - (val s + val (t a)) + (val s + val (t a))) with (val (add s (t a))) in T2 by lra.
    destruct (IH (add s (t a)) O1 FA') as [O2 E2]; [lra|]. split; [exact O2|].
    change (sum_of (fun a => val (t a)) (a :: l)) with (val (t a) + sum_of (fun a => val (t a)) l).
    set (o := fold_left _ l _) in *. clearbody o. apply Rabs_le_iff in E1, E2. apply Rabs_le_iff. lra.
Qed.
