(** Levels with the points exchanged (C124). *)
From Coq Require Import Reals Lra Lia ZArith List Bool String.
From Flocq Require Import Core.Core IEEE754.BinarySingleNaN.
From Verif Require Import Base PixelBuffer BufferSpec F32 Color ColorSpec Codec CodecSpec Image Commands CommandsSpec Cli CliSpec Ops OpsSpec Kernel KernelSpec
  MeaningSpec IdealPowf StretchSpec ReopenSpec ResaveSpec EndSpec OrderSpec PixelBufferProofs F32Lemmas ColorProofs Approx OpMeaningProofs OpsProofs QuantProofs StretchProofs
  HslOps CommandsProofs BaseLemmas HistogramProofs GaussProofs Gauss2Proofs SrgbMeaning ReopenProofs EndProofs OrderFloat OrderProofs.
Import ListNotations.
Open Scope R_scope.

Lemma reversed_factor b w : in01 b -> in01 w -> fle w b = true -> flt (fabs (fsub w b)) f32_EPSILON = false -> fin (fdiv f1 (fsub w b)) /\ B2R (fdiv f1 (fsub w b)) <= 0.
Proof.
  intros Hb Hw H E. apply in01_R in Hb, Hw. destruct Hb as [Fb B], Hw as [Fw W]. apply fle_R in H; auto.
  destruct (fsub_ok w b 1) as [A1 A2]; auto with fin fmt. { apply Rabs_le_iff. lra. }
  assert (A3 : B2R (fsub w b) <= 0) by (rewrite A2; apply rnd_hi; auto with fmt; lra).
  apply flt_Rf in E; [|now apply fabs_fin|reflexivity]. rewrite fabs_R, Rabs_left1 in E by lra.
  fval f32_EPSILON HE. rewrite HE in E. set (d := fsub w b) in *. assert (P : / 8388608 <= - B2R d) by lra.
  assert (J : 0 < / - B2R d <= 8388608). { split; [apply Rinv_0_lt_compat; lra|]. rewrite <- (Rinv_inv 8388608). apply Rinv_le_contravar; lra. }
  rewrite Rinv_opp in J.
  destruct (fdiv_ok f1 d 8388608) as [A4 A5]; auto with fin. { lra. } { apply fmt_IZR; lia. } { rewrite f1_R. unfold Rdiv. rewrite Rmult_1_l, Rabs_left1; lra. }
  split; [exact A4|]. rewrite A5. apply rnd_hi; auto with fmt. rewrite f1_R. unfold Rdiv. lra.
Qed.
Lemma reversed_level L : bounded_powf L -> monotone_powf L -> forall b w g, in01 b -> in01 w -> fle w b = true -> flt (fabs (fsub w b)) f32_EPSILON = false -> usual_gamma g ->
  tone_curve false (with_level L b w g).
Proof.
  intros BP MP b w g Hb Hw H E U. destruct (inv_pos g U) as [F P]. destruct (reversed_factor b w Hb Hw H E) as [Ff Pf].
  assert (Fm : forall v, in01 v -> fin (fsub v b)). { intros v V. apply fsub_finite; auto using in01_fin. apply in01_R in Hb. apply Rabs_le_iff. lra. }
  assert (N : forall v, in01 v -> is_nan (fmul (fsub v b) (fdiv f1 (fsub w b))) = false) by (intros v V; apply fmul_key; auto).
  unfold with_level. apply curve_down; unfold level_value; cbv zeta; rewrite E.
  - intros v V. apply in01_nn, powf_01; auto. apply clamp_01; auto.
  - intros v w' V W' H'. apply powf_le; auto; try (apply clamp_01; auto). apply clamp_le; auto.
    apply fmul_ge; auto. apply fsub_le; auto using in01_fin.
Qed.
Lemma near_level L : bounded_powf L -> monotone_powf L -> forall b w g, in01 b -> in01 w -> flt (fabs (fsub w b)) f32_EPSILON = true -> usual_gamma g ->
  tone_curve true (with_level L b w g).
Proof.
  intros BP MP b w g Hb Hw E U. destruct (inv_pos g U) as [F P].
  assert (Q : fin (fdiv f1 EPSILON) /\ 0 <= B2R (fdiv f1 EPSILON)). { destruct eps_factor as [A C]. split; [exact A|]. apply Rabs_le_iff in C. lra. }
  destruct Q as [Ff Pf].
  assert (Fm : forall v, in01 v -> fin (fsub v b)). { intros v V. apply fsub_finite; auto using in01_fin. apply in01_R in Hb. apply Rabs_le_iff. lra. }
  assert (N : forall v, in01 v -> is_nan (fmul (fsub v b) (fdiv f1 EPSILON)) = false) by (intros v V; apply fmul_key; auto).
  unfold with_level. apply curve_up; unfold level_value; cbv zeta; rewrite E.
  - intros v V. apply in01_nn, powf_01; auto. apply clamp_01; auto.
  - intros v w' V W' H'. apply powf_le; auto; try (apply clamp_01; auto). apply clamp_le; auto.
    apply fmul_le; auto. apply fsub_le; auto using in01_fin.
Qed.

Lemma any_level L : bounded_powf L -> monotone_powf L -> forall b w g, in01 b -> in01 w -> usual_gamma g ->
  (exists up, tone_curve up (with_level L b w g)) /\
  (/ 8388608 <= B2R b - B2R w -> tone_curve false (with_level L b w g)) /\
  (B2R b - B2R w <= / 16777216 -> tone_curve true (with_level L b w g)).
Proof.
  intros BP MP b w g Hb Hw U. pose proof (in01_R _ Hb) as [Fb B]. pose proof (in01_R _ Hw) as [Fw W].
  destruct (fsub_ok w b 1) as [A1 A2]; auto with fin fmt. { apply Rabs_le_iff. lra. }
  fval f32_EPSILON HE.
  assert (UP : fle b w = true -> tone_curve true (with_level L b w g)) by (intros H; apply level_curve; auto).
  split; [|split].
  - destruct (fle b w) eqn:C; [exists true; auto|]. destruct (flt (fabs (fsub w b)) f32_EPSILON) eqn:E; [exists true; now apply near_level|].
    exists false. apply reversed_level; auto. apply fle_R; auto. destruct (Rle_lt_dec (B2R w) (B2R b)) as [G|G]; [exact G|].
    exfalso. assert (fle b w = true) by (apply fle_R; auto; lra). congruence.
  - intros D. assert (B2R (fsub w b) <= - / 8388608). { rewrite A2. apply rnd_hi; [|lra]. fval (fsub f0 f32_EPSILON) HN. replace (- / 8388608) with (B2R (fsub f0 f32_EPSILON)) by (rewrite HN, opp_IZR; lra). apply fmt_B2R. }
    apply reversed_level; auto; [apply fle_R; auto; lra|].
    destruct (flt (fabs (fsub w b)) f32_EPSILON) eqn:E; [exfalso|reflexivity]. apply flt_R in E; [|now apply fabs_fin|reflexivity]. rewrite fabs_R, Rabs_left1, HE in E by lra. lra.
  - intros D. destruct (fle b w) eqn:C; [auto|]. apply near_level; auto.
    assert (G : B2R w < B2R b). { destruct (Rlt_le_dec (B2R w) (B2R b)) as [G|G]; [exact G|]. exfalso. assert (fle b w = true) by (apply fle_R; auto). congruence. }
    assert (- / 16777216 <= B2R (fsub w b)). { rewrite A2. apply rnd_lo; [|lra]. fval (fsub f0 (fdiv f32_EPSILON f2)) HN. replace (- / 16777216) with (B2R (fsub f0 (fdiv f32_EPSILON f2))) by (rewrite HN, opp_IZR; lra). apply fmt_B2R. }
    assert (B2R (fsub w b) <= 0) by (rewrite A2; apply rnd_hi; auto with fmt; lra).
    apply flt_R; [now apply fabs_fin|reflexivity|]. rewrite fabs_R, Rabs_left1, HE by lra. lra.
Qed.

Lemma hair_level L : accurate_powf L -> bounded_powf L -> forall b w, b = dec 1 2 -> w = fsub b (fdiv f32_EPSILON (ofZ 4)) ->
  in01 b /\ in01 w /\ flt w b = true /\ ~ tone_curve false (with_level L b w f1).
Proof.
  intros AP BP b w -> ->. split; [split; vm_compute; reflexivity|]. split; [split; vm_compute; reflexivity|]. split; [vm_compute; reflexivity|].
  set (w := fsub (dec 1 2) (fdiv f32_EPSILON (ofZ 4))). intros (h & _ & D & H).
  assert (I0 : in01 f0) by (split; reflexivity). assert (I1 : in01 f1) by (split; vm_compute; reflexivity).
  assert (G : in_gamut (mkC f0 f1 f0 f1)) by (vm_compute; tauto).
  specialize (H _ G). unfold with_level, map_channels in H. 
  assert (H0 := f_equal (@d0) H). assert (H1 := f_equal (@d1) H). cbn [d0 d1] in H0, H1. clear H.
  specialize (D f0 f1 I0 I1 eq_refl). cbv beta iota in D. 
  assert (E : flt (fabs (fsub w (dec 1 2))) f32_EPSILON = true) by (vm_compute; reflexivity).
  assert (Fy : fin (fdiv f1 f1) /\ B2R (fdiv f1 f1) = 1). { fval (fdiv f1 f1) Y. split; [exact Yfin|]. rewrite Y. lra. }
  destruct Fy as [Fy Ey].
  set (x0 := clamp (fmul (fsub f0 (dec 1 2)) (fdiv f1 EPSILON))) in *. set (x1 := clamp (fmul (fsub f1 (dec 1 2)) (fdiv f1 EPSILON))) in *.
  assert (L0 : level_value L (dec 1 2) w f1 f0 = powf L x0 (fdiv f1 f1)) by (unfold level_value; cbv zeta; rewrite E; reflexivity).
  assert (L1 : level_value L (dec 1 2) w f1 f1 = powf L x1 (fdiv f1 f1)) by (unfold level_value; cbv zeta; rewrite E; reflexivity).
  assert (X0 : fin x0 /\ B2R x0 = 0).
  { split; [vm_compute; reflexivity|]. rewrite <- SF2R_B2SF. assert (Z0 : B2SF x0 = SpecFloat.S754_zero false) by (vm_compute; reflexivity). rewrite Z0. reflexivity. }
  assert (X1 : fin x1 /\ B2R x1 = 1).
  { unfold x1. fval (clamp (fmul (fsub f1 (dec 1 2)) (fdiv f1 EPSILON))) Y. split; [exact Yfin|]. rewrite Y. lra. }
  assert (J0 : in01 x0) by (split; vm_compute; reflexivity). assert (J1 : in01 x1) by (split; vm_compute; reflexivity).
  clearbody x0 x1. destruct X0 as [F0 X0], X1 as [F1 X1].
  assert (P0 : in01 (powf L x0 (fdiv f1 f1))) by (apply BP; auto; rewrite Ey; lra).
  assert (P1 : in01 (powf L x1 (fdiv f1 f1))) by (apply BP; auto; rewrite Ey; lra).
  assert (YR : 0 < B2R (fdiv f1 f1) <= 1000) by lra.
  destruct (AP x0 (fdiv f1 f1) F0 Fy YR) as [_ A0]. destruct (AP x1 (fdiv f1 f1) F1 Fy YR) as [A1 _].
  specialize (A0 X0). rewrite X1, Ey in A1. specialize (A1 ltac:(lra)). rewrite Rpower_1 in A1 by lra.
  rewrite L0, ColorProofs.clamp_id in H0 by exact P0. rewrite L1, ColorProofs.clamp_id in H1 by exact P1. rewrite <- H0, <- H1 in D.
  destruct A0 as [Q0 A0], A1 as [Q1 A1]. apply fle_R in D; auto. apply Rabs_le_iff in A0, A1.
  assert (/ 2 ^ 100 <= / 2). { apply Rinv_le_contravar; [lra|]. rewrite <- (pow_1 2) at 1. apply Rle_pow; [lra|lia]. }
  lra.
Qed.
