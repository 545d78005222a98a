(** Proofs for C98: what [optimize_saturation] does to a pixel. *)
From Coq Require Import Reals Lra Lia ZArith Bool Psatz List.
From Flocq Require Import Core.Core IEEE754.BinarySingleNaN.
From Verif Require Import Base BaseLemmas F32 F32Lemmas PixelBuffer BufferSpec PixelBufferProofs Color ColorSpec ColorProofs MeaningSpec ConvSpec EnhanceSpec Approx OpMeaningProofs HslMeaning HslOps HsvMeaning SrgbMeaning LinearConv LabCurve LabMeaning LchMeaning F64Lemmas Kernel Ops Gauss2Proofs HistogramProofs TemperatureProofs Enhance.
Open Scope R_scope.

Lemma gamma_at_range g l : / 2 <= g <= 2 -> - / 1000 <= l <= 1001 / 1000 -> 49 / 100 <= gamma_at g l <= 2.
Proof.
  intros G L. unfold gamma_at. assert (0 <= Rabs (2 * l - 1) <= 1002 / 1000) by (split; [apply Rabs_pos|]; apply Rabs_le_iff; lra).
  set (q := Rabs (2 * l - 1)) in *. clearbody q. nra.
Qed.
(** The exponent of the code. *)
Lemma gamma_pow_close g l : fin g -> / 2 <= B2R g <= 2 -> fin l -> - / 1000 <= B2R l <= 1001 / 1000 ->
  exists k : f32, get_gamma_pow g l = fdiv f1 k /\ fin k /\ Rabs (B2R k - gamma_at (B2R g) (B2R l)) <= 8 * U /\ usual_gamma k.
Proof.
  intros Fg G Fl L. unfold get_gamma_pow. cbv zeta.
  replace (flt g f0) with false. 2:{ symmetry. apply flt_Rf; auto with fin. rewrite f0_R. lra. }
  eexists. split; [reflexivity|]. change (dec 5 10) with (dec 1 2).
  destruct (sub_val l (dec 1 2) (502 / 1000)) as [F1 E1]; auto with fin; try lra. { rewrite half_R. apply Rabs_le_iff. lra. } rewrite half_R in E1.
  set (a := fsub l (dec 1 2)) in *. clearbody a. pose proof (fabs_fin a F1) as FA. pose proof (fabs_R a) as EA.
  set (b := fabs a) in *. clearbody b.
  assert (B1 : Rabs (B2R b - Rabs (B2R l - / 2)) <= U * (502 / 1000) + T).
  { rewrite EA. eapply Rle_trans; [apply Rabs_triang_inv2|]. exact E1. }
  assert (B2 : 0 <= Rabs (B2R l - / 2) <= 502 / 1000) by (split; [apply Rabs_pos|]; apply Rabs_le_iff; lra).
  assert (E2L : Rabs (2 * B2R l - 1) = 2 * Rabs (B2R l - / 2)).
  { replace (2 * B2R l - 1) with (2 * (B2R l - / 2)) by lra. rewrite Rabs_mult, (Rabs_right 2) by lra. reflexivity. }
  set (q := Rabs (B2R l - / 2)) in *. clearbody q. apply Rabs_le_iff in B1.
  destruct (mul_val b f2 (1005 / 1000)) as [F2 E2]; auto with fin; try lra. { rewrite f2_R. apply Rabs_le_iff. lra. } rewrite f2_R in E2.
  set (d := fmul b f2) in *. clearbody d. apply Rabs_le_iff in E2.
  destruct (sub_val f1 d (1001 / 1000)) as [F3 E3]; auto with fin; try lra. { rewrite f1_R. apply Rabs_le_iff. lra. } rewrite f1_R in E3.
  set (w := fsub f1 d) in *. clearbody w. apply Rabs_le_iff in E3.
  destruct (sub_val g f1 1) as [F4 E4]; auto with fin; try lra. { rewrite f1_R. apply Rabs_le_iff. lra. } rewrite f1_R in E4.
  set (x := fsub g f1) in *. clearbody x. apply Rabs_le_iff in E4.
  assert (PB : Rabs (B2R x * B2R w) <= 1001 / 1000 * (1002 / 1000)) by (apply abs_mul_le; apply Rabs_le_iff; lra).
  destruct (mul_val x w (1001 / 1000 * (1002 / 1000))) as [F5 E5]; auto; try lra.
  set (p := fmul x w) in *. clearbody p. apply Rabs_le_iff in E5, PB.
  assert (D1 : Rabs ((B2R x - (B2R g - 1)) * B2R w) <= (U * 1 + T) * (1002 / 1000)) by (apply abs_mul_le; apply Rabs_le_iff; lra).
  assert (D2 : Rabs ((B2R g - 1) * (B2R w - (1 - 2 * q))) <= 1 * (7 / 2 * U)) by (apply abs_mul_le; apply Rabs_le_iff; lra).
  assert (GR : Rabs ((B2R g - 1) * (1 - 2 * q)) <= 1 * (1001 / 1000)) by (apply abs_mul_le; apply Rabs_le_iff; lra).
  apply Rabs_le_iff in D1, D2, GR.
  destruct (add_val f1 p (2002 / 1000)) as [F6 E6]; auto with fin; try lra. { rewrite f1_R. apply Rabs_le_iff. lra. } rewrite f1_R in E6.
  set (k := fadd f1 p) in *. clearbody k. apply Rabs_le_iff in E6.
  assert (E : Rabs (B2R k - gamma_at (B2R g) (B2R l)) <= 8 * U) by (unfold gamma_at; rewrite E2L; apply Rabs_le_iff; lra).
  split; [exact F6|]. split; [exact E|]. split; [exact F6|].
  pose proof (gamma_at_range (B2R g) (B2R l) G L). apply Rabs_le_iff in E. lra.
Qed.
Lemma sat_pow_close L g l s : accurate_powf L -> fin g -> / 2 <= B2R g <= 2 -> fin l -> - / 1000 <= B2R l <= 1001 / 1000 -> fin s ->
  close (/ 262144) (gamma_formula (gamma_at (B2R g) (B2R l)) (limited (B2R s))) (powf L (clamp s) (get_gamma_pow g l)).
Proof.
  intros AL Fg G Fl Lr Fs. destruct (gamma_pow_close g l Fg G Fl Lr) as (k & -> & Fk & Ek & Uk).
  destruct (inv_close k Uk) as (I1 & I2 & I3). destruct (clamp_R s Fs) as [C1 C2]. pose proof (limited_range (B2R s)) as LR.
  pose proof (pow_close L (clamp s) (fdiv f1 k) (B2R k) AL C1 ltac:(rewrite C2; exact LR) I1 I2 (proj2 Uk) I3) as K. rewrite C2 in K.
  pose proof (gamma_at_range (B2R g) (B2R l) G Lr) as GA. pose proof Ek as Ek'. apply Rabs_le_iff in Ek'.
  pose proof (gamma_shift (limited (B2R s)) (B2R k) (gamma_at (B2R g) (B2R l)) (8 * U) (48 / 100) LR ltac:(lra) ltac:(lra) Ek ltac:(lra)) as SH.
  eapply close_weak; [exact (close_move _ _ _ _ _ K SH)|]. replace (8 * U / (48 / 100)) with (50 / 3 * U) by field. lra.
Qed.
Lemma pow_01 L g l s : bounded_powf L -> fin g -> / 2 <= B2R g <= 2 -> fin l -> - / 1000 <= B2R l <= 1001 / 1000 -> fin s ->
  in01 (powf L (clamp s) (get_gamma_pow g l)).
Proof.
  intros BL Fg G Fl Lr Fs. destruct (gamma_pow_close g l Fg G Fl Lr) as (k & -> & Fk & Ek & Uk).
  destruct (inv_close k Uk) as (I1 & I2 & I3). apply BL; auto; [apply clamp_in01; destruct s; auto; discriminate|].
  assert (0 < / B2R k) by (apply Rinv_0_lt_compat; destruct Uk; lra). apply Rabs_le_iff in I3. lra.
Qed.

(** ** HSL *)
Lemma saturate_hsl_meaning L g c : accurate_powf L -> bounded_powf L -> in_gamut c -> fin g -> / 2 <= B2R g <= 2 ->
  let h := rgb_to_hsl c in let o := saturate_hsl L g c in
  is_hsl (/ 131072) (B2R (d0 h)) (gamma_formula (gamma_at (B2R g) (B2R (d2 h))) (B2R (d1 h))) (B2R (d2 h)) o /\ d3 o = d3 c.
Proof.
  intros AL BL G Fg Gr. cbv zeta. destruct (rgb_to_hsl_range c G) as (R0 & R1 & R2 & _). unfold saturate_hsl. cbv zeta.
  pose proof (in01_R _ R1) as [F1 H1]. pose proof (in01_R _ R2) as [F2 H2].
  pose proof (sat_pow_close L g (d2 (rgb_to_hsl c)) (d1 (rgb_to_hsl c)) AL Fg Gr F2 ltac:(lra) F1) as K. rewrite (limited_id _ H1) in K.
  pose proof (pow_01 L g (d2 (rgb_to_hsl c)) (d1 (rgb_to_hsl c)) BL Fg Gr F2 ltac:(lra) F1) as I.
  pose proof (gamma_at_range (B2R g) (B2R (d2 (rgb_to_hsl c))) Gr ltac:(lra)) as GA.
  apply (hsl_set c _ _ _ 0 (/ 262144) 0); auto using circ_0, abs_0; try (now apply in01_R); [apply gamma_formula_01; lra | apply K | lra].
Qed.

(** ** HSV *)
Lemma hsv_channel_lip k s s' v es : 0 <= k <= 1 -> 0 <= v <= 1 -> Rabs (s - s') <= es -> Rabs (hsv_channel k s v - hsv_channel k s' v) <= es.
Proof.
  intros K Hv E. unfold hsv_channel. replace (v * (1 - s * (1 - k)) - v * (1 - s' * (1 - k))) with ((s - s') * (- (v * (1 - k)))) by ring.
  rewrite <- (Rmult_1_r es). apply abs_mul_le; auto. apply Rabs_le_iff. nra.
Qed.
Lemma hsv_parts c : in_gamut c -> in01 (d1 (rgb_to_hsv c)) /\ in01 (d2 (rgb_to_hsv c)) /\ (in01 (d0 (rgb_to_hsv c)) \/ B2R (d1 (rgb_to_hsv c)) = 0).
Proof.
  intros G. assert (DD : {flt (rgb_min c) (rgb_max c) = true} + {flt (rgb_min c) (rgb_max c) = false}) by (destruct flt; auto).
  destruct DD as [D|D]. { destruct (rgb_to_hsv_range c G (or_introl D)) as (A & B & C' & _). tauto. }
  pose proof G as (G0 & G1 & G2 & G3). apply in01_num in G0, G1, G2.
  destruct (rgb_max_val c G0 G1 G2) as (NM & M0 & M1 & M2 & MX). destruct (rgb_min_val c G0 G1 G2) as (Nm & m0 & m1 & m2 & MN).
  pose proof NM as [FM HM]. pose proof Nm as [Fm Hm]. apply flt_Rf in D; auto.
  rewrite hsv_value. assert (I2 : in01 (rgb_max c)) by (apply in01_num; exact NM).
  assert (S0 : in01 (d1 (rgb_to_hsv c)) /\ B2R (d1 (rgb_to_hsv c)) = 0); [|tauto].
  assert (Fe : fin EPSILON) by reflexivity.
  unfold rgb_to_hsv. cbv zeta. destruct (_ || _) eqn:Hb; cbn [d1]; [|split; [apply in01_f0|apply f0_R]].
  destruct (fsub_ok (rgb_max c) (rgb_min c) 1) as [FD ED]; auto with fmt. { apply Rabs_le_iff. lra. }
  replace (B2R (rgb_max c) - B2R (rgb_min c)) with 0 in ED by lra. rewrite rnd_0 in ED.
  assert (Me : / 32768 <= B2R (rgb_max c)).
  { apply orb_true_iff in Hb. destruct Hb as [Hb|Hb]; apply fle_R in Hb; auto; rewrite EPS_R in Hb; lra. }
  destruct (fdiv_num (fsub (rgb_max c) (rgb_min c)) (rgb_max c) 0 1) as [ND EQ]; auto with fmt. { lra. } { rewrite ED. unfold Rdiv. rewrite Rmult_0_l. lra. }
  rewrite ED in EQ. unfold Rdiv in EQ. rewrite Rmult_0_l, rnd_0 in EQ. split; [apply in01_num; exact ND | exact EQ].
Qed.
Lemma saturate_hsv_meaning L g c : accurate_powf L -> bounded_powf L -> in_gamut c -> fin g -> / 2 <= B2R g <= 2 ->
  let h := rgb_to_hsv c in let o := saturate_hsv L g c in
  is_hsv (/ 131072) (B2R (d0 h)) (gamma_formula (gamma_at (B2R g) (B2R (d2 h))) (B2R (d1 h))) (B2R (d2 h)) o /\ d3 o = d3 c.
Proof.
  intros AL BL G Fg Gr. cbv zeta. destruct (hsv_parts c G) as (R1 & R2 & R0). unfold saturate_hsv. cbv zeta.
  pose proof (in01_R _ R1) as [F1 H1]. pose proof (in01_R _ R2) as [F2 H2]. destruct G as (_ & _ & _ & G3).
  pose proof (sat_pow_close L g (d2 (rgb_to_hsv c)) (d1 (rgb_to_hsv c)) AL Fg Gr F2 ltac:(lra) F1) as K. rewrite (limited_id _ H1) in K.
  pose proof (pow_01 L g (d2 (rgb_to_hsv c)) (d1 (rgb_to_hsv c)) BL Fg Gr F2 ltac:(lra) F1) as I.
  pose proof (gamma_at_range (B2R g) (B2R (d2 (rgb_to_hsv c))) Gr ltac:(lra)) as GA.
  set (s := powf L _ _) in *. set (sr := gamma_formula _ _) in *.
  destruct R0 as [R0|Z].
  - destruct (hsv_to_rgb_meaning (mkC (d0 (rgb_to_hsv c)) s (d2 (rgb_to_hsv c)) (alpha c))) as [(A & B & D) E].
    { repeat split; first [apply R0|apply I|apply R2|apply G3]. }
    cbn [d0 d1 d2 d3] in *. split; [|exact E]. destruct K as [_ K].
    split; [|split]; (eapply close_weak; [eapply close_move; [eassumption|apply (hsv_channel_lip _ _ sr); [apply hue_01; unfold hue_fun; auto|exact H2|exact K]]|lra]).
  - assert (SR : sr = 0). { unfold sr, gamma_formula. destruct Req_EM_T; [reflexivity|contradiction]. }
    assert (S0 : fle s f0 = true).
    { destruct (gamma_pow_close g (d2 (rgb_to_hsv c)) Fg Gr F2 ltac:(lra)) as (k & Ek & Fk & _ & Uk). destruct (inv_close k Uk) as (I1 & I2 & I3).
      destruct (clamp_R (d1 (rgb_to_hsv c)) F1) as [C1 C2]. rewrite (limited_id _ H1), Z in C2.
      assert (0 < / B2R k) by (apply Rinv_0_lt_compat; destruct Uk; lra). apply Rabs_le_iff in I3.
      destruct (AL (clamp (d1 (rgb_to_hsv c))) (fdiv f1 k) C1 I1 ltac:(lra)) as [_ Z0]. destruct (Z0 C2) as [FZ EZ]. apply Rabs_le_iff in EZ.
      unfold s. rewrite Ek. apply fle_R; auto with fin. rewrite f0_R. lra. }
    rewrite (hsv_dull (mkC (d0 (rgb_to_hsv c)) s (d2 (rgb_to_hsv c)) (alpha c))) by exact S0. cbn [d0 d1 d2 d3]. split; [|reflexivity].
    unfold is_hsv, hsv_channel. rewrite SR. rewrite !Rmult_0_l, Rminus_0_r, Rmult_1_r.
    split; [|split]; (split; [exact F2|]; cbn [d0 d1 d2]; apply Rabs_le_iff; lra).
Qed.

(** ** LCh *)
Lemma lch_light L c : accurate_powf L -> accurate_powf_above L -> accurate_angles L -> in_gamut c ->
  let h := to_lch L D65 O2 KRgb c in fin (d0 h) /\ - / 1000 <= B2R (d0 h) <= 1001 / 1000 /\ num 0 8 (d1 h).
Proof.
  intros AL AA AN G. cbv zeta. destruct (gamut_xyz c G) as [XR WR]. specialize (WR D65 O2). cbn [white] in WR. destruct (xyz_rows c (in_gamut_to c G)) as ([_ X] & [_ Y] & [_ Z]).
  unfold to_lch, to_lab. cbn [to_xyz to_rgb]. set (x := apply_matrix c RGB_TO_XYZ) in *.
  pose proof (lab_meaning L D65 O2 x AL AA XR) as H. cbn [white] in H. destruct H as ([FA A] & _).
  assert (HR : let '(w0, w1, w2) := white D65 O2 in B2R (d0 x) / w0 <= 14 / 10 /\ B2R (d1 x) / w1 <= 14 / 10 /\ B2R (d2 x) / w2 <= 14 / 10) by (cbn [white]; lra).
  destruct (lab_bound L D65 O2 x AL AA XR HR) as ((F0 & F1 & F2) & BA & BB). set (lab := xyz_to_lab L D65 O2 x) in *.
  destruct (radius _ _ BA BB) as (r & R & ER). destruct (polar L lab r AN F1 F2 ltac:(lra) ER) as ([FC Cr] & _).
  change (d0 (lab_to_lch L lab)) with (d0 lab). split; [exact FA|]. split.
  - destruct G as (G0 & G1 & G2 & _). apply in01_R in G0, G1, G2. unfold y_of in Y. apply Rabs_le_iff in Y. unfold lab_l in A. apply Rabs_le_iff in A.
    set (y := B2R (d1 x) / 1) in *. assert (YR : - / 2000000 <= y <= 1000001 / 1000000) by (unfold y; lra). clearbody y.
    assert (UP : lab_curve y <= 1000001 / 1000000) by (apply curve_le; lra).
    assert (LOW : 15999 / 116000 <= lab_curve y).
    { destruct (Rlt_le_dec y (8856 / 1000000)) as [Q|Q]; [rewrite curve_low by exact Q; lra|]. destruct (curve_high y Q) as (-> & B & _). lra. }
    lra.
  - split; [exact FC|]. assert (N0 : 0 <= B2R (d1 (lab_to_lch L lab))).
    { unfold lab_to_lch. cbn [d1]. unfold lab_to_lch in FC. cbn [d1] in FC. set (q := fadd _ _) in *. unfold fsqrt in *. 
      destruct (Bsqrt_correct 24 128 p24 e128 mode_NE q) as (E & _). rewrite E. rewrite <- (round_0 radix2 (SpecFloat.fexp 24 128) (round_mode mode_NE)). apply round_le; [typeclasses eauto..|apply sqrt_pos]. }
    apply Rabs_le_iff in Cr. lra.
Qed.
Lemma saturate_lch_meaning L g c : accurate_powf L -> accurate_powf_above L -> accurate_angles L -> in_gamut c -> fin g -> / 2 <= B2R g <= 2 ->
  let h := to_lch L D65 O2 KRgb c in exists ch,
  saturate_lch L g c = to_rgb L (KLch D65 O2) (mkC (d0 h) ch (d2 h) (d3 c)) /\
  close (/ 131072) (gamma_formula (gamma_at (B2R g) (B2R (d0 h))) (limited (B2R (d1 h)))) ch.
Proof.
  intros AL AA AN G Fg Gr. cbv zeta. destruct (lch_light L c AL AA AN G) as (F0 & L0 & [F1 _]).
  exists (powf L (clamp (d1 (to_lch L D65 O2 KRgb c))) (get_gamma_pow g (d0 (to_lch L D65 O2 KRgb c)))).
  split; [unfold saturate_lch, raw_new_with_alpha, alpha; reflexivity|]. eapply close_weak; [apply sat_pow_close; assumption|lra].
Qed.
