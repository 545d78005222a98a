(** Proofs for C101: the temperature that [optimize_color_temperature] picks. *)
From Coq Require Import Reals Lra Lia ZArith Bool Psatz List.
From Flocq Require Import Core.Core IEEE754.BinarySingleNaN.
From Verif Require Import Base BaseLemmas F32 F32Lemmas PixelBuffer BufferSpec PixelBufferProofs Color ColorSpec ColorProofs MeaningSpec ConvSpec OpsSpec TempSpec EnhanceSpec Approx OpMeaningProofs HslMeaning LabCurve F64Lemmas Kernel Ops HistogramProofs TemperatureProofs Enhance.
Import ListNotations.
Open Scope R_scope.

Lemma cosh_ge1 x : 1 <= cosh x.
Proof. unfold cosh. pose proof (exp_pos x). pose proof (exp_pos (- x)). assert (exp x * exp (- x) = 1) by (rewrite <- exp_plus, Rplus_opp_r; apply exp_0). set (a := exp x) in *. set (b := exp (- x)) in *. clearbody a b. destruct (Rle_lt_dec 1 ((a + b) / 2)); [assumption|exfalso]. assert (b < 2 - a) by lra. assert (a * b < a * (2 - a)) by (apply Rmult_lt_compat_l; lra). pose proof (Rle_0_sqr (a - 1)) as Q. unfold Rsqr in Q. lra. Qed.
Lemma cosh_sinh x : cosh x * cosh x - sinh x * sinh x = 1.
Proof. unfold cosh, sinh. assert (exp x * exp (- x) = 1) by (rewrite <- exp_plus, Rplus_opp_r; apply exp_0). lra. Qed.
Lemma tanh_deriv x : derivable_pt_lim tanh x (/ (cosh x * cosh x)).
Proof.
  pose proof (cosh_ge1 x). pose proof (derivable_pt_lim_div sinh cosh x _ _ (derivable_pt_lim_sinh x) (derivable_pt_lim_cosh x) ltac:(lra)) as D.
  replace (/ (cosh x * cosh x)) with ((cosh x * cosh x - sinh x * sinh x) / (Rsqr (cosh x))); [exact D|].
  rewrite cosh_sinh. unfold Rsqr. field. lra.
Qed.
Lemma tanh_lip a b : Rabs (tanh a - tanh b) <= Rabs (a - b).
Proof.
  assert (W : forall a b, a < b -> Rabs (tanh b - tanh a) <= Rabs (b - a)).
  { clear a b. intros a b H. destruct (MVT_cor2 tanh (fun x => / (cosh x * cosh x)) a b H) as (c & E & _); [intros; apply tanh_deriv|].
    rewrite E, Rabs_mult. pose proof (cosh_ge1 c). assert (1 <= cosh c * cosh c) by nra.
    assert (/ (cosh c * cosh c) <= 1) by (rewrite <- Rinv_1; apply Rinv_le_contravar; lra).
    assert (0 < / (cosh c * cosh c)) by (apply Rinv_0_lt_compat; lra).
    rewrite (Rabs_right (/ _)) by lra. rewrite <- (Rmult_1_l (Rabs (b - a))) at 2. apply Rmult_le_compat_r; [apply Rabs_pos|lra]. }
  destruct (Rtotal_order a b) as [H|[->|H]].
  - rewrite (Rabs_minus_sym (tanh a)), (Rabs_minus_sym a). now apply W.
  - rewrite !Rminus_diag_eq by reflexivity. lra.
  - now apply W.
Qed.
Lemma tanh_bound x : Rabs (tanh x) <= 1.
Proof.
  unfold tanh. pose proof (cosh_ge1 x). pose proof (exp_pos x). pose proof (exp_pos (- x)). apply Rabs_le_iff. unfold Rdiv.
  assert (I : 0 < / cosh x) by (apply Rinv_0_lt_compat; lra). assert (J : cosh x * / cosh x = 1) by (apply Rinv_r; lra).
  assert (A : sinh x <= cosh x) by (unfold sinh, cosh; lra). assert (B : - cosh x <= sinh x) by (unfold sinh, cosh; lra). split; nra.
Qed.
Definition redness (c : Rgb) : R := B2R (d0 c) - B2R (d2 c).
Lemma red_term c : in_gamut c -> let t := dsub (f32_to_f64 (d0 c)) (f32_to_f64 (d2 c)) in
  fin64 t /\ Rabs (B2R t) <= 1 /\ Rabs (B2R t - redness c) <= V64 + T64.
Proof.
  intros (G0 & _ & G2 & _). cbv zeta. apply in01_R in G0, G2. destruct G0 as [F0 H0]. destruct G2 as [F2 H2].
  destruct (wide _ F0) as [A0 E0]. destruct (wide _ F2) as [A2 E2].
  destruct (dsub_val (f32_to_f64 (d0 c)) (f32_to_f64 (d2 c)) 1) as [FD ED]; auto; try lra. { rewrite E0, E2. apply Rabs_le_iff. lra. }
  split; [exact FD|]. rewrite E0, E2, Rmult_1_r in ED. split; [|exact ED].
  pose proof (Bminus_correct 53 1024 p53 e1024 mode_NE _ _ A0 A2) as B. rewrite E0, E2 in B. fold (rnd64 (B2R (d0 c) - B2R (d2 c))) in B.
  assert (R1 : Rabs (rnd64 (B2R (d0 c) - B2R (d2 c))) <= 1).
  { apply Rabs_le_iff. split.
    - change (-1) with (IZR (-1)). rewrite <- (rnd64_IZR (-1)) at 1 by lia. apply round_le; [typeclasses eauto..|lra].
    - rewrite <- (rnd64_IZR 1) at 1 by lia. apply round_le; [typeclasses eauto..|lra]. }
  rewrite Rlt_bool_true in B. { destruct B as (B1 & _). unfold dsub. rewrite B1. exact R1. } pose proof big90. lra.
Qed.
Lemma mean_near {A} (f g : A -> R) l e : l <> nil -> Forall (fun a => Rabs (f a - g a) <= e) l -> Rabs (mean f l - mean g l) <= e.
Proof.
  intros N H. assert (S : Rabs (sum_of f l - sum_of g l) <= INR (length l) * e).
  { clear N. induction H as [|a l H _ IH]; [unfold sum_of; cbn; rewrite Rminus_diag_eq, Rabs_R0 by reflexivity; lra|]. change (length (a :: l)) with (S (length l)). rewrite S_INR.
    change (sum_of f (a :: l)) with (f a + sum_of f l). change (sum_of g (a :: l)) with (g a + sum_of g l). apply Rabs_le_iff in IH, H. apply Rabs_le_iff. lra. }
  assert (P : 1 <= INR (length l)) by (rewrite INR_zlen; apply IZR_le, len_pos, N). unfold mean. apply div_near; [lra|exact S].
Qed.
Lemma mean_abs {A} (f : A -> R) l K : l <> nil -> Forall (fun a => Rabs (f a) <= K) l -> Rabs (mean f l) <= K.
Proof.
  intros N H. replace (mean f l) with (mean f l - mean (fun _ => 0) l). { apply mean_near; auto. eapply Forall_impl; [|exact H]. intros a Q. cbv beta. rewrite Rminus_0_r. exact Q. }
  assert (Z : sum_of (fun _ : A => 0) l = 0). { clear. induction l as [|a l IH]; [reflexivity|]. change (0 + sum_of (fun _ : A => 0) l = 0). rewrite IH. lra. }
  unfold mean at 2. rewrite Z. unfold Rdiv. rewrite Rmult_0_l. lra.
Qed.
Lemma optimize_temperature L (b : PixelBuffer Rgb) factor tint : accurate_tanh L -> valid b -> nonempty b -> Forall in_gamut (data b) ->
  fin factor -> Rabs (B2R factor) <= 2 -> exists t : f32, fin t /\
  Rabs (B2R t - (6500 - tanh (mean redness (data b)) * (4000 * B2R factor))) <= / 400 /\
  optimize_color_temperature L b factor tint = change_color_temperature L b (ofZ 6500) t tint.
Proof.
  intros AT Vb Nb G Ff Hf. pose proof (len_ok b Vb) as LN.
  assert (N : data b <> nil). { intros Q. destruct Vb as [_ LL]. rewrite Q in LL. change (zlen (@nil Rgb)) with 0%Z in LL. destruct Nb. nia. }
  assert (TR : Forall (fun c => let t := dsub (f32_to_f64 (d0 c)) (f32_to_f64 (d2 c)) in fin64 t /\ Rabs (B2R t) <= 1 /\ Rabs (B2R t - redness c) <= V64 + T64) (data b)).
  { eapply Forall_impl; [|exact G]. exact red_term. }
  pose proof (mean64 (fun c => dsub (f32_to_f64 (d0 c)) (f32_to_f64 (d2 c))) (data b) N (proj2 LN)) as MM.
  specialize (MM ltac:(eapply Forall_impl; [|exact TR]; cbv zeta; intros c (Q1 & Q2 & _); exact (conj Q1 Q2))).
  pose proof (mean_near (fun c => B2R (dsub (f32_to_f64 (d0 c)) (f32_to_f64 (d2 c)))) redness (data b) (V64 + T64) N) as MN.
  specialize (MN ltac:(eapply Forall_impl; [|exact TR]; cbv zeta; intros c (_ & _ & Q3); exact Q3)).
  assert (MB : Rabs (mean redness (data b)) <= 1).
  { apply mean_abs; auto. eapply Forall_impl; [|exact G]. intros c (G0 & _ & G2 & _). apply in01_R in G0, G2. unfold redness. apply Rabs_le_iff. lra. }
  set (M := mean redness (data b)). set (M' := mean (fun c : col => B2R (dsub (f32_to_f64 (d0 c)) (f32_to_f64 (d2 c)))) (data b)).
  set (avg := ddiv (fold_left (fun sum c => dadd sum (dsub (f32_to_f64 (d0 c)) (f32_to_f64 (d2 c)))) (data b) (ofZ64 0)) (ofZ64 (zlen (data b)))).
  assert (HA : fin64 avg /\ Rabs (B2R avg - M') <= / 8387000) by exact MM. assert (HM : Rabs (M' - M) <= V64 + T64) by exact MN. assert (HB0 : Rabs M <= 1) by exact MB.
  clear MM MN MB. rename HM into MN, HB0 into MB. destruct HA as [FA EA].
  exists (f64_to_f32 (dsub (ofZ64 6500) (dmul (dtanh L avg) (dmul (f32_to_f64 factor) (ofZ64 4000))))).
  assert (EQ : optimize_color_temperature L b factor tint = change_color_temperature L b (ofZ 6500)
     (f64_to_f32 (dsub (ofZ64 6500) (dmul (dtanh L avg) (dmul (f32_to_f64 factor) (ofZ64 4000))))) tint) by (unfold optimize_color_temperature; cbv zeta; reflexivity).
  rewrite <- and_assoc. split; [|exact EQ]. clear EQ. clearbody avg M M'.
  apply Rabs_le_iff in EA, MN. pose proof MB as MB'. apply Rabs_le_iff in MB'.
  destruct (AT avg FA) as [FT ET]. { apply Rabs_le_iff. lra. }
  rewrite (pow_IZR 2 40) in ET. change (2 ^ Z.of_nat 40)%Z with 1099511627776%Z in ET.
  pose proof (tanh_lip (B2R avg) M) as TL. assert (AM : Rabs (B2R avg - M) <= / 8386000) by (apply Rabs_le_iff; lra).
  assert (TT : Rabs (B2R (dtanh L avg) - tanh M) <= / 8385000).
  { assert (Q : Rabs (tanh (B2R avg) - tanh M) <= / 8386000) by lra. apply Rabs_le_iff in Q, ET. apply Rabs_le_iff. lra. }
  set (h := dtanh L avg) in *. clearbody h. clear ET TL AM EA MN MB MB'. pose proof (tanh_bound M) as TB. set (TM := tanh M) in *. clearbody TM. apply Rabs_le_iff in TB.
  destruct (wide factor Ff) as [FW EW]. destruct (ofZ64_val 4000 ltac:(lia)) as [F4 E4]. destruct (ofZ64_val 6500 ltac:(lia)) as [F6 E6].
  pose proof Hf as Hf'. apply Rabs_le_iff in Hf'. apply Rabs_le_iff in TT.
  destruct (dmul_val (f32_to_f64 factor) (ofZ64 4000) 8000) as [FP EP]; auto; try lra. { rewrite EW, E4. apply Rabs_le_iff. lra. } rewrite EW, E4 in EP.
  set (p := dmul (f32_to_f64 factor) (ofZ64 4000)) in *. clearbody p. apply Rabs_le_iff in EP.
  assert (HB : Rabs (B2R h * B2R p) <= 1001 / 1000 * 8001) by (apply abs_mul_le; apply Rabs_le_iff; lra).
  destruct (dmul_val h p (1001 / 1000 * 8001)) as [FQ EQ]; auto; try lra.
  set (q := dmul h p) in *. clearbody q. apply Rabs_le_iff in HB, EQ.
  assert (D1 : Rabs ((B2R h - TM) * B2R p) <= / 8385000 * 8001) by (apply abs_mul_le; apply Rabs_le_iff; lra).
  assert (D2 : Rabs (TM * (B2R p - 4000 * B2R factor)) <= 1 * / 100000000) by (apply abs_mul_le; apply Rabs_le_iff; lra).
  assert (D3 : Rabs (TM * (4000 * B2R factor)) <= 1 * 8000) by (apply abs_mul_le; apply Rabs_le_iff; lra).
  apply Rabs_le_iff in D1, D2, D3.
  destruct (dsub_val (ofZ64 6500) q 15000) as [FS ES]; auto; try lra. { rewrite E6. apply Rabs_le_iff. lra. } rewrite E6 in ES.
  set (s := dsub (ofZ64 6500) q) in *. clearbody s. apply Rabs_le_iff in ES.
  assert (SB : Rabs (B2R s) <= 16000) by (apply Rabs_le_iff; lra).
  destruct (narrow s (bpow radix2 126)) as [Fn En]; auto. { apply (uo_fmt _ _ uo_big). } { rewrite big_R, p126. lra. }
  split; [exact Fn|]. rewrite En. pose proof (rnd_rel_abs (B2R s)) as RR. pose proof p140. apply Rabs_le_iff in RR. apply Rabs_le_iff. lra.
Qed.
