(** Blur and unsharp: finite results, averages, radius 0, radii that are too
    large. *)
From Coq Require Import ZArith List Bool Lia Reals Lra Psatz.
From Flocq Require Import Core.Core IEEE754.BinarySingleNaN.
From Verif Require Import Base PixelBuffer BaseLemmas BufferSpec PixelBufferProofs EnumProofs.
From Verif Require Import F32 Color F32Lemmas ColorSpec ColorProofs Kernel KernelSpec KernelProofs.
From Verif Require Import ComposeProofs ResampleProofs Kernel2Proofs GaussProofs.
Import ListNotations.
Open Scope R_scope.

(** * The effective sigma *)

Definition sig_lo : R := / 1048576.
Definition sig_hi : R := 1048576.

Lemma gaussian_s_range sigma : fin sigma -> sig_lo <= B2R sigma <= sig_hi ->
  fin (gaussian_s sigma) /\ s_lo <= B2R (gaussian_s sigma) <= s_hi /\
  (/ 2 <= B2R sigma -> / 2 <= B2R (gaussian_s sigma)).
Proof.
  intros F H. unfold sig_lo, sig_hi, s_lo, s_hi, gaussian_s in *.
  assert (E : fmt (2 * B2R sigma)).
  { destruct (fmt_B2R sigma) as [G _]. split.
    - rewrite Rmult_comm. change 2 with (bpow radix2 1). apply generic_format_FLT. apply FLT_format_generic in G; [|reflexivity].
      destruct G as [g G1 G2 G3]. exists (Float radix2 (Fnum g) (Fexp g + 1)).
      + rewrite G1. unfold F2R. cbn [Fnum Fexp]. rewrite bpow_plus. ring.
      + exact G2.
      + cbn [Fexp]. lia.
    - rewrite Rabs_pos_eq by lra. apply Rle_lt_trans with (bpow radix2 30); [|apply bpow_lt; lia].
      rewrite (bp 30 1073741824 eq_refl). lra. }
  destruct (fmul_exact f2 sigma) as [F1 E1]; auto with fin; [rewrite f2_R; auto|]. rewrite f2_R in E1.
  assert (Pr : 2 * B2R sigma * B2R sigma <= 2199023255552 /\ / 549755813888 <= 2 * B2R sigma * B2R sigma).
  { split; [|]; clear - H; nra. }
  destruct (fmul_ok (fmul f2 sigma) sigma (bpow radix2 72)) as [F2 E2]; auto using fmt_2_72.
  { rewrite E1, Rabs_pos_eq by lra. apply Rle_trans with (bpow radix2 45); [|apply bpow_le; lia].
    rewrite (bp 45 35184372088832 eq_refl). lra. }
  rewrite E1 in E2. split; [auto|]. rewrite E2.
  pose proof (rnd_rel_pos (2 * B2R sigma * B2R sigma) ltac:(lra)) as R.
  split; [unfold ee in R; lra|]. intros G. apply rnd_lo; [apply fmt_half|]. clear - G. nra.
Qed.

Lemma default_sigma_val r : (0 <= r <= 32767)%Z ->
  fin (get_default_sigma (2 * r + 1)) /\ B2R (get_default_sigma (2 * r + 1)) = IZR r / 2.
Proof.
  intros H. unfold get_default_sigma.
  destruct (ofZ_val (2 * r + 1) ltac:(lia)) as [F R].
  destruct (fsub_exact (ofZ (2 * r + 1)) f1) as [F1 E1]; auto with fin.
  { rewrite R, f1_R, plus_IZR. replace (IZR (2 * r) + 1 - 1) with (IZR (2 * r)) by lra. apply fmt_IZR. lia. }
  rewrite R, f1_R, plus_IZR, mult_IZR in E1.
  destruct (fdiv_exact (fsub (ofZ (2 * r + 1)) f1) (ofZ 4)) as [F2 E2]; auto with fin.
  { rewrite four_R. lra. }
  { rewrite E1, four_R. replace ((2 * IZR r + 1 - 1) / 4) with (IZR r / IZR (2 ^ 1)) by (change (2 ^ 1)%Z with 2%Z; lra).
    apply fmt_dyad; lia. }
  split; [auto|]. rewrite E2, E1, four_R. lra.
Qed.

Lemma sigma_ok_range r sigma : (0 <= r <= 32767)%Z -> sigma_ok r sigma ->
  let s := sigma_or_default sigma (2 * r + 1) in fin s /\ sig_lo <= B2R s <= sig_hi.
Proof.
  intros Hr. unfold sigma_ok, sigma_or_default, sig_lo, sig_hi. destruct sigma as [s|]; intros H.
  - destruct H as [H1 H2].
    assert (F : fin s) by (apply (fle_between (dec 1 1000000) s (ofZ 1000000)); auto; reflexivity).
    split; [auto|]. apply fle_R in H1; [|reflexivity|auto]. apply fle_R in H2; [|auto|reflexivity].
    rewrite (ofZ_R 1000000) in H2 by lia. fval (dec 1 1000000) HD. rewrite HD in H1. lra.
  - destruct (default_sigma_val r Hr) as [F E]. split; [auto|]. rewrite E.
    assert (1 <= IZR r <= 32767) by (split; apply IZR_le; lia). lra.
Qed.

(** * Pixels of the blurred image *)

Lemma neighbourhood_In {T} m (b : PixelBuffer T) w h x y ps : valid b -> inside b x y ->
  neighbourhood m b w h x y = Ok ps -> forall c, In c ps -> In c (data b).
Proof.
  intros V I H c Hc. apply In_nth_error in Hc. destruct Hc as [n Hn].
  unfold neighbourhood in H. pose proof (map_res_length _ _ _ H) as Ln.
  destruct (nth_error (row_major w h) n) as [[tx ty]|] eqn:Er.
  2:{ apply nth_error_None in Er. assert (n < length ps)%nat by (apply nth_error_Some; congruence). lia. }
  destruct (map_res_nth _ _ _ _ _ H Er) as [q [E1 E2]]. rewrite Hn in E1. inversion E1; subst q.
  cbv beta iota in E2. apply (data_In m); auto. eexists _, _. split; [|exact E2]. unfold inside in *. lia.
Qed.

Lemma row_major_INR N : (0 <= N)%Z -> INR (length (row_major N N)) = IZR (N * N).
Proof. intros H. rewrite INR_IZR_INZ. f_equal. apply (row_major_length N N); lia. Qed.

Lemma weighted_sum_channel pick l : channel pick -> pick (weighted_sum l) = weighted_channel pick l.
Proof. intros [-> | [-> | [-> | ->]]]; reflexivity. Qed.

Lemma blur_conv L m (b : PixelBuffer Rgb) r sigma : valid b -> (0 <= r <= 32767)%Z ->
  let vals := gauss_vals L (2 * r + 1) (sigma_or_default sigma (2 * r + 1)) in
  exists out, gaussian_blur L m b r sigma = Ok out /\
    is_convolution m b (2 * r + 1) (2 * r + 1) (map (fun v => fdiv v (fold_left fadd vals f0)) vals) out.
Proof.
  intros V Hr vals. destruct (blur_is_dyn L m m b r sigma V Hr) as [k [Ek Eb]].
  rewrite gaussian_table in Ek by lia. inversion Ek; subst k. rewrite Eb.
  apply apply_kernel_dyn_lemma; auto; try lia; try nia.
  rewrite zlen_map. unfold vals, gauss_vals. rewrite zlen_map, row_major_length; lia.
Qed.

Lemma blur_average L m (b : PixelBuffer Rgb) r sigma pick lo hi : exp_ok L -> valid b ->
  (0 <= r <= 500)%Z -> sigma_ok r sigma -> channel pick -> 0 <= lo -> hi <= 1 ->
  (forall c, In c (data b) -> num lo hi (pick c)) ->
  let e := (IZR ((2 * r + 1) * (2 * r + 1)) + 1) / 4194304 in
  exists out, gaussian_blur L m b r sigma = Ok out /\ valid out /\
    width out = width b /\ height out = height b /\
    forall x y c, get_pixel m out x y = Ok c -> inside b x y -> num (lo - e) (hi + e) (pick c).
Proof.
  intros X V Hr Hs Cp Plo Phi Hc e.
  destruct (sigma_ok_range r sigma ltac:(lia) Hs) as [Fs Rs].
  destruct (gaussian_s_range _ Fs Rs) as [Fg [Rg _]].
  destruct (gauss_vals_range L r _ X ltac:(lia) Fg Rg) as [Vm [V1 [V2 V3]]].
  destruct (blur_conv L m b r sigma V ltac:(lia)) as [out [E [Vo [W [H P]]]]].
  exists out. split; [auto|]. split; [auto|]. split; [auto|]. split; [auto|].
  intros x y c Hp I. destruct (P x y I) as [ps [Hps Hr']]. rewrite Hp in Hr'. inversion Hr'; subst c. clear Hr'.
  rewrite weighted_sum_channel by auto.
  set (vals := gauss_vals L (2 * r + 1) (sigma_or_default sigma (2 * r + 1))) in *.
  assert (Ln : length vals = length (row_major (2 * r + 1) (2 * r + 1))) by (unfold vals, gauss_vals; apply map_length).
  assert (Lk : INR (length vals) = IZR ((2 * r + 1) * (2 * r + 1))) by (rewrite Ln; apply row_major_INR; lia).
  unfold e. rewrite <- Lk.
  apply (average_lemma pick vals ps Vm); auto.
  - rewrite Ln. unfold neighbourhood in Hps. symmetry. symmetry. apply map_res_length in Hps. auto.
  - rewrite Lk. split; apply IZR_le; nia.
  - unfold s_lo, s_hi in Rg.
    assert (I1 : / (2 * B2R (gaussian_s (sigma_or_default sigma (2 * r + 1)))) <= / (2 * / 1099511627776)) by (apply Rinv_le_contravar; lra).
    assert (I2 : / (5 * 4398046511104) <= / (5 * B2R (gaussian_s (sigma_or_default sigma (2 * r + 1))))) by (apply Rinv_le_contravar; lra).
    lra.
  - intros c Hin. apply Hc. eapply neighbourhood_In; eauto.
Qed.

Lemma gamut_channel pick c : channel pick -> in_gamut c -> num 0 1 (pick c).
Proof. intros [-> | [-> | [-> | ->]]] (G0 & G1 & G2 & G3); apply in01_num; auto. Qed.

Lemma default_coefficients L r : exp_ok L -> (1 <= r <= 32767)%Z ->
  let vals := gauss_vals L (2 * r + 1) (sigma_or_default None (2 * r + 1)) in
  forall k, In k (map (fun v => fdiv v (fold_left fadd vals f0)) vals) -> num 0 1 k.
Proof.
  intros X Hr vals k Hk.
  destruct (sigma_ok_range r None ltac:(lia)) as [Fs Rs]; [cbn; lia|].
  destruct (gaussian_s_range _ Fs Rs) as [Fg [Rg Hg]].
  assert (Half : / 2 <= B2R (gaussian_s (sigma_or_default None (2 * r + 1)))).
  { apply Hg. unfold sigma_or_default. destruct (default_sigma_val r ltac:(lia)) as [_ ->].
    assert (1 <= IZR r) by (apply IZR_le; lia). lra. }
  destruct (gauss_vals_range L r _ X ltac:(lia) Fg Rg) as [Vm [V1 [V2 V3]]]. fold vals in V1, V2.
  assert (P5 : 0 < / (5 * B2R (gaussian_s (sigma_or_default None (2 * r + 1))))) by (apply Rinv_0_lt_compat; lra).
  assert (P2 : / (2 * B2R (gaussian_s (sigma_or_default None (2 * r + 1)))) <= / 1) by (apply Rinv_le_contravar; lra).
  rewrite Rinv_1 in P2.
  apply in_map_iff in Hk. destruct Hk as [v [<- Hv]].
  apply (gauss_weights_unit vals Vm); auto. lra.
Qed.

Lemma sum_in_range pick L r ps : exp_ok L -> (1 <= r <= 32767)%Z -> channel pick ->
  (forall c, In c ps -> in_gamut c) ->
  let vals := gauss_vals L (2 * r + 1) (sigma_or_default None (2 * r + 1)) in
  num 0 16777216 (pick (weighted_sum (combine (map (fun v => fdiv v (fold_left fadd vals f0)) vals) ps))).
Proof.
  intros X Hr Cp G vals. rewrite weighted_sum_channel by auto. apply weighted_unit.
  intros k c I. split.
  - apply (default_coefficients L r); auto. eapply in_combine_l; eauto.
  - apply gamut_channel; auto. apply G. eapply in_combine_r; eauto.
Qed.

Lemma blur_finite L m (b : PixelBuffer Rgb) r : exp_ok L -> valid b -> (1 <= r <= 32767)%Z ->
  (forall c, In c (data b) -> in_gamut c) ->
  exists out, gaussian_blur L m b r None = Ok out /\ valid out /\
    width out = width b /\ height out = height b /\
    forall x y c pick, inside b x y -> get_pixel m out x y = Ok c -> channel pick -> num 0 16777216 (pick c).
Proof.
  intros X V Hr G. destruct (blur_conv L m b r None V ltac:(lia)) as [out [E [Vo [W [H P]]]]].
  exists out. split; [auto|]. split; [auto|]. split; [auto|]. split; [auto|].
  intros x y c pick I Hp Cp. destruct (P x y I) as [ps [Hps Hr']]. rewrite Hp in Hr'. inversion Hr'; subst c.
  apply sum_in_range; auto. intros c Hin. apply G. eapply neighbourhood_In; eauto.
Qed.

(** * Unsharp *)

Lemma Ok_inj {A} (a b : A) : Ok a = Ok b -> a = b.
Proof. intros H. inversion H. reflexivity. Qed.

Lemma unsharp_lemma L m (b : PixelBuffer Rgb) r factor sigma : valid b -> (0 <= r <= 32767)%Z ->
  let vals := gauss_vals L (2 * r + 1) (sigma_or_default sigma (2 * r + 1)) in
  exists out, unsharp L m b r factor sigma = Ok out /\ valid out /\ width out = width b /\ height out = height b /\
    forall x y, inside b x y -> exists c ps, get_pixel m b x y = Ok c /\
      neighbourhood m b (2 * r + 1) (2 * r + 1) x y = Ok ps /\
      let s := weighted_sum (combine (map (fun v => fdiv v (fold_left fadd vals f0)) vals) ps) in
      get_pixel m out x y = Ok (rgb_new_with_alpha (sharpen factor (d0 c) (d0 s)) (sharpen factor (d1 c) (d1 s))
                                  (sharpen factor (d2 c) (d2 s)) (sharpen factor (d3 c) (d3 s))).
Proof.
  intros V Hr vals. unfold unsharp. rewrite blur_size_ok by lia. cbn [bind]. cbv zeta.
  rewrite gaussian_table by lia. cbn [bind]. fold vals.
  set (kd := map _ vals).
  assert (Px : forall x y, inside b x y -> exists ps, neighbourhood m b (2 * r + 1) (2 * r + 1) x y = Ok ps /\
     get_kernel_value m b x y (mkKD kd (2 * r + 1) (2 * r + 1)) = Ok (weighted_sum (combine kd ps))).
  { intros x y I. apply get_kernel_value_eq; auto; try lia; try nia.
    unfold kd. rewrite zlen_map. unfold vals, gauss_vals. rewrite zlen_map, row_major_length; lia. }
  destruct (map_colors_enumerated_ok b (fun x y c =>
    bl <- get_kernel_value m b x y (mkKD kd (2 * r + 1) (2 * r + 1));
    Ok (rgb_new_with_alpha (sharpen factor (d0 c) (d0 bl)) (sharpen factor (d1 c) (d1 bl))
                           (sharpen factor (d2 c) (d2 bl)) (sharpen factor (d3 c) (d3 bl))))) as [out [E [Vo [W [H P]]]]]; auto.
  { intros m' x y c I _. destruct (Px x y I) as [ps [_ Ev]]. rewrite Ev. cbn [bind]. eauto. }
  exists out. split; [exact E|]. split; [auto|]. split; [auto|]. split; [auto|].
  intros x y I. destruct (get_pixel_inside m b x y V I) as [c Ec]. destruct (Px x y I) as [ps [Hps Ev]].
  exists c, ps. split; [auto|]. split; [auto|]. rewrite (P m x y I), Ec. cbn [bind]. rewrite Ev. reflexivity.
Qed.

Lemma sharpen_gamut factor v s : fin factor -> num 0 1 v -> num 0 16777216 s -> in01 (clamp (sharpen factor v s)).
Proof.
  intros Ff [Fv Rv] [Fs Rs]. apply clamp_in01. unfold sharpen.
  destruct (fsub_num v s (-16777216) 1) as [[F1 R1] _]; auto with fmt.
  { apply fmt_opp, fmt_2_24. } { lra. }
  apply fadd_not_nan; [auto|]. apply fmul_not_nan; auto.
Qed.

Lemma sharp_color_gamut factor c s : fin factor -> in_gamut c -> (forall pick, channel pick -> num 0 16777216 (pick s)) ->
  in_gamut (rgb_new_with_alpha (sharpen factor (d0 c) (d0 s)) (sharpen factor (d1 c) (d1 s))
                               (sharpen factor (d2 c) (d2 s)) (sharpen factor (d3 c) (d3 s))).
Proof.
  intros Ff G SR. unfold rgb_new_with_alpha, in_gamut. cbn [d0 d1 d2 d3]. unfold channel in SR.
  split; [|split; [|split]]; apply sharpen_gamut; auto;
    first [apply (gamut_channel d0) | apply (gamut_channel d1) | apply (gamut_channel d2) | apply (gamut_channel d3)
          | apply (SR d0) | apply (SR d1) | apply (SR d2) | apply (SR d3)]; unfold channel; auto.
Qed.

Lemma unsharp_gamut L m (b : PixelBuffer Rgb) r factor : exp_ok L -> valid b -> (1 <= r <= 32767)%Z ->
  fin factor -> (forall c, In c (data b) -> in_gamut c) ->
  exists out, unsharp L m b r factor None = Ok out /\ valid out /\ width out = width b /\ height out = height b /\
    forall c, In c (data out) -> in_gamut c.
Proof.
  intros X V Hr Ff G. destruct (unsharp_lemma L m b r factor None V ltac:(lia)) as [out [E [Vo [W [H P]]]]].
  exists out. split; [auto|]. split; [auto|]. split; [auto|]. split; [auto|].
  intros c Hc. apply (data_In m) in Hc; auto. destruct Hc as [x [y [I Hp]]].
  assert (I' : inside b x y) by (unfold inside in *; lia).
  destruct (P x y I') as [c0 [ps [Ec [Hps Hr']]]]. cbv zeta in Hr'. rewrite Hp in Hr'. apply Ok_inj in Hr'. subst c.
  assert (G0 : in_gamut c0) by (apply G; apply (data_In m); eauto).
  assert (Gp : forall c, In c ps -> in_gamut c) by (intros q Hq; apply G; eapply neighbourhood_In; eauto).
  apply sharp_color_gamut; auto. intros pick Hpick. exact (sum_in_range pick L r ps X Hr Hpick Gp).
Qed.

Lemma sharpen_0 f v s : fin f -> B2R f = 0 -> num 0 1 v -> num 0 16777216 s -> same (clamp (sharpen f v s)) v.
Proof.
  intros Ff Rf [Fv Rv] [Fs Rs]. unfold sharpen.
  destruct (fsub_num v s (-16777216) 1) as [[F1 R1] _]; auto with fmt.
  { apply fmt_opp, fmt_2_24. } { lra. }
  destruct (fmul_0_r (fsub v s) f F1 Ff Rf) as [F2 R2].
  destruct (fadd_0_r v _ Fv F2 R2) as [F3 R3].
  rewrite clamp_id; [apply same_R; auto|]. apply in01_num. split; [auto|]. rewrite R3. auto.
Qed.

Lemma sharp_color_0 f c s : fin f -> B2R f = 0 -> in_gamut c -> (forall pick, channel pick -> num 0 16777216 (pick s)) ->
  same_color (rgb_new_with_alpha (sharpen f (d0 c) (d0 s)) (sharpen f (d1 c) (d1 s))
                                 (sharpen f (d2 c) (d2 s)) (sharpen f (d3 c) (d3 s))) c.
Proof.
  intros Ff Zf G SR. unfold rgb_new_with_alpha, same_color. cbn [d0 d1 d2 d3]. unfold channel in SR.
  split; [|split; [|split]]; apply sharpen_0; auto;
    first [apply (gamut_channel d0) | apply (gamut_channel d1) | apply (gamut_channel d2) | apply (gamut_channel d3)
          | apply (SR d0) | apply (SR d1) | apply (SR d2) | apply (SR d3)]; unfold channel; auto.
Qed.

Lemma unsharp_0 L m (b : PixelBuffer Rgb) r factor : exp_ok L -> valid b -> (1 <= r <= 32767)%Z ->
  feq factor f0 = true -> (forall c, In c (data b) -> in_gamut c) ->
  exists out, unsharp L m b r factor None = Ok out /\ valid out /\ width out = width b /\ height out = height b /\
    forall x y c, inside b x y -> get_pixel m b x y = Ok c ->
      exists c', get_pixel m out x y = Ok c' /\ same_color c' c.
Proof.
  intros X V Hr Hf G. destruct (unsharp_lemma L m b r factor None V ltac:(lia)) as [out [E [Vo [W [H P]]]]].
  assert (Ff : fin factor).
  { clear - Hf. unfold feq, Beqb in Hf. destruct factor as [?|[|]| |]; try discriminate; reflexivity. }
  assert (Rf : B2R factor = 0). { apply feq_R in Hf; auto with fin. }
  exists out. split; [auto|]. split; [auto|]. split; [auto|]. split; [auto|].
  intros x y c I Hp. destruct (P x y I) as [c0 [ps [Ec [Hps Hr']]]]. rewrite Hp in Ec. apply Ok_inj in Ec. subst c0.
  cbv zeta in Hr'. eexists. split; [exact Hr'|].
  assert (G0 : in_gamut c) by (apply G; apply (data_In m); eauto).
  assert (Gp : forall c, In c ps -> in_gamut c) by (intros q Hq; apply G; eapply neighbourhood_In; eauto).
  apply sharp_color_0; auto. intros pick Hpick. exact (sum_in_range pick L r ps X Hr Hpick Gp).
Qed.

(** * Radius 0 with the default sigma *)

Lemma fadd_nan_r x : fadd x B754_nan = B754_nan.
Proof. destruct x; reflexivity. Qed.
Lemma is_nan_eq (x : f32) : is_nan x = true -> x = B754_nan.
Proof. destruct x; try discriminate. reflexivity. Qed.

Lemma gauss_vals_0 L : is_nan (fexp_ L fnan) = true -> gauss_vals L 1 (sigma_or_default None 1) = [fnan].
Proof.
  intros H. apply is_nan_eq in H.
  assert (R : row_major 1 1 = [(0, 0)%Z]) by reflexivity.
  rewrite gauss_vals_eq, R. cbn [map]. f_equal. change (0 - 1 / 2)%Z with 0%Z. unfold gaussian_value.
  assert (A : B2SF (fdiv (fneg (fmul (fsqrt (fadd (fmul (ofZ 0) (ofZ 0)) (fmul (ofZ 0) (ofZ 0)))) (fsqrt (fadd (fmul (ofZ 0) (ofZ 0)) (fmul (ofZ 0) (ofZ 0)))))) (gaussian_s (sigma_or_default None 1))) = SpecFloat.S754_nan)
    by (vm_compute; reflexivity).
  destruct (fdiv _ (gaussian_s _)); try discriminate. unfold fnan in H. rewrite H. reflexivity.
Qed.

Lemma combine_one {A B} (a : A) (l : list B) : length l = 1%nat -> exists b, l = [b] /\ combine [a] l = [(a, b)].
Proof. destruct l as [|b [|]]; try discriminate. intros _. exists b. auto. Qed.

Lemma nan_weight (c : Rgb) : weighted_sum [(fnan, c)] = mkC fnan fnan fnan fnan.
Proof. reflexivity. Qed.

Lemma nb_one {T} m (b : PixelBuffer T) x y ps : neighbourhood m b 1 1 x y = Ok ps -> length ps = 1%nat.
Proof. intros H. unfold neighbourhood in H. apply map_res_length in H. rewrite H. reflexivity. Qed.

Lemma blur_0 L m (b : PixelBuffer Rgb) : is_nan (fexp_ L fnan) = true -> valid b ->
  exists out, gaussian_blur L m b 0 None = Ok out /\ width out = width b /\ height out = height b /\
    forall x y, inside b x y -> get_pixel m out x y = Ok (mkC fnan fnan fnan fnan).
Proof.
  intros N V. destruct (blur_conv L m b 0 None V ltac:(lia)) as [out [E [Vo [W [H P]]]]].
  exists out. repeat (split; [auto|]). intros x y I. destruct (P x y I) as [ps [Hps Hr]]. rewrite Hr.
  change (2 * 0 + 1)%Z with 1%Z in *. rewrite (gauss_vals_0 L N). cbn [map fold_left].
  destruct (combine_one (fdiv fnan (fadd f0 fnan)) ps (nb_one _ _ _ _ _ Hps)) as [c [_ ->]]. reflexivity.
Qed.

Lemma unsharp_radius_0 L m (b : PixelBuffer Rgb) factor : is_nan (fexp_ L fnan) = true -> valid b ->
  exists out, unsharp L m b 0 factor None = Ok out /\ width out = width b /\ height out = height b /\
    forall x y, inside b x y -> get_pixel m out x y = Ok (mkC fnan fnan fnan fnan).
Proof.
  intros N V. destruct (unsharp_lemma L m b 0 factor None V ltac:(lia)) as [out [E [Vo [W [H P]]]]].
  exists out. repeat (split; [auto|]). intros x y I. destruct (P x y I) as [c [ps [_ [Hps Hr]]]]. rewrite Hr.
  change (2 * 0 + 1)%Z with 1%Z in *. rewrite (gauss_vals_0 L N). cbn [map fold_left].
  destruct (combine_one (fdiv fnan (fadd f0 fnan)) ps (nb_one _ _ _ _ _ Hps)) as [q [_ ->]].
  change (fdiv fnan (fadd f0 fnan)) with fnan. rewrite nan_weight. cbn [d0 d1 d2 d3].
  assert (SN : forall v, sharpen factor v fnan = fnan).
  { intros v. unfold sharpen. assert (fsub v fnan = fnan) as -> by (destruct v; reflexivity).
    assert (fmul fnan factor = fnan) as -> by (destruct factor; reflexivity). apply fadd_nan_r. }
  rewrite !SN. reflexivity.
Qed.

(** * Radii that are too large *)

Lemma for_Ok_inv {A S} (l : list A) (f : A -> S -> res S) (P : S -> Prop) s s' :
  for_ l f s = Ok s' -> P s -> (forall a s s', In a l -> P s -> f a s = Ok s' -> P s') ->
  P s' /\ forall a, In a l -> exists t t', P t /\ f a t = Ok t'.
Proof.
  revert s. induction l as [|a l IH]; intros s H P0 Step.
  - inversion H; subst. split; [auto|]. intros ? [].
  - cbn [for_] in H. destruct (f a s) as [s1|] eqn:E; [|discriminate]. cbn [bind] in H.
    assert (P1 : P s1) by (eapply Step; eauto; left; auto).
    destruct (IH s1 H P1) as [Q R]. { intros; eapply Step; eauto; right; auto. }
    split; [auto|]. intros a' [<- | I]; [eauto|auto].
Qed.

Lemma upd_Ok_inv {A} (l : list A) i a l' : upd l i a = Ok l' -> (0 <= i < zlen l)%Z /\ zlen l' = zlen l.
Proof.
  intros H. assert (B : (0 <= i < zlen l)%Z).
  { destruct (Z_lt_ge_dec i 0); [rewrite upd_panic in H by lia; discriminate|].
    destruct (Z_lt_ge_dec i (zlen l)); [lia|rewrite upd_panic in H by lia; discriminate]. }
  split; [auto|]. destruct (upd_ok l i a B) as [l2 [E [Ln _]]]. congruence.
Qed.

Lemma gaussian_dyn_panics L m N sigma : (65537 <= N <= 4294967295)%Z -> new_gaussian_dyn L m N sigma = Panic.
Proof.
  intros HN. unfold new_gaussian_dyn.
  destruct m.
  { replace (u32 Checked (N * N)) with (@Panic Z); [reflexivity|].
    unfold u32. destruct (in_u32 (N * N)) eqn:E; [|reflexivity]. exfalso. unfold in_u32 in E. apply andb_true_iff in E. nia. }
  assert (exists n, u32 Wrapping (N * N) = Ok n /\ (0 <= n < 4294967296)%Z) as [n [E Hn]].
  { unfold u32. destruct (in_u32 (N * N)) eqn:E.
    - eexists. split; [reflexivity|]. unfold in_u32 in E. apply andb_true_iff in E. nia.
    - eexists. split; [reflexivity|]. unfold as_u32. apply Z.mod_pos_bound. reflexivity. }
  rewrite E. cbn [bind]. cbv zeta.
  assert (Z.quot N 2 = N / 2)%Z as -> by (apply Z.quot_div_nonneg; lia).
  assert (Ho : (0 <= N / 2 < N)%Z) by (split; [apply Z.div_pos; lia|apply Z.div_lt_upper_bound; lia]).
  set (o := (N / 2)%Z) in *.
  match goal with |- bind ?e _ = _ => destruct e as [[d s]|] eqn:EF; [exfalso|reflexivity] end.
  assert (I1 : forall x (st st' : list f32 * f32), zlen (fst st) = n ->
    for_ (zrange (- o) (N - o)) (fun y '(data, sum) =>
        data' <- upd data (x + o + (y + o) * N)%Z (gaussian_value L (gaussian_s sigma) x y);
        Ok (data', fadd sum (gaussian_value L (gaussian_s sigma) x y))) st = Ok st' ->
    zlen (fst st') = n /\ (forall y, In y (zrange (- o) (N - o)) -> (0 <= x + o + (y + o) * N < n)%Z)).
  { intros x st st' H0 Hf. apply (for_Ok_inv _ _ (fun st => zlen (fst st) = n)) in Hf; auto.
    - destruct Hf as [Q R]. split; [auto|]. intros y Hy. destruct (R y Hy) as [[d1 s1] [t' [Z1 F1]]]. cbn [fst] in Z1.
      destruct (upd d1 _ _) eqn:Eu; [|discriminate]. apply upd_Ok_inv in Eu. rewrite Z1 in Eu. apply Eu.
    - intros y [d1 s1] t' Hy Z1 F1. cbn [fst] in Z1.
      destruct (upd d1 _ _) eqn:Eu; [|discriminate]. apply upd_Ok_inv in Eu. cbn [bind] in F1. inversion F1; subst. cbn [fst]. lia. }
  apply (for_Ok_inv _ _ (fun st => zlen (fst st) = n)) in EF.
  - destruct EF as [_ R]. destruct (R (- o)%Z) as [t [t' [Z1 F1]]]; [apply zrange_In; lia|].
    apply I1 in F1; auto. destruct F1 as [_ B]. specialize (B (N - o - 1)%Z ltac:(apply zrange_In; lia)). nia.
  - cbn [fst]. rewrite zlen_repeat. lia.
  - intros x st st' Hx Z1 F1. apply I1 in F1; auto. apply F1.
Qed.

Lemma blur_panics L m (b : PixelBuffer Rgb) r sigma : (32768 <= r <= 2147483647)%Z ->
  gaussian_blur L m b r sigma = Panic /\ forall factor, unsharp L m b r factor sigma = Panic.
Proof.
  intros Hr. unfold gaussian_blur, unsharp. rewrite blur_size_ok by lia. cbn [bind]. cbv zeta.
  assert (Hn : (65537 <= 2 * r + 1 <= 4294967295)%Z) by lia.
  rewrite gaussian_dyn_panics by auto.
  replace (2 * r + 1 =? 3)%Z with false by (symmetry; apply Z.eqb_neq; lia).
  replace (2 * r + 1 =? 5)%Z with false by (symmetry; apply Z.eqb_neq; lia).
  replace (2 * r + 1 =? 7)%Z with false by (symmetry; apply Z.eqb_neq; lia).
  split; reflexivity.
Qed.
