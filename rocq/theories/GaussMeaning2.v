(** Proofs for C108: sharpening and Sobel edge detection. *)
From Coq Require Import ZArith List Bool Lia Reals Lra Psatz.
From Flocq Require Import Core.Core IEEE754.BinarySingleNaN.
From Verif Require Import Base PixelBuffer BaseLemmas BufferSpec PixelBufferProofs EnumProofs.
From Verif Require Import F32 Color F32Lemmas ColorSpec ColorProofs MeaningSpec Approx Kernel KernelSpec KernelProofs.
From Verif Require Import ComposeProofs ResampleProofs Kernel2Proofs GaussProofs Gauss2Proofs FilterProofs Filter2Proofs EnhanceSpec ResampleSpec ResampleMeaning IdealPowf GaussSpec GaussMeaning.
Import ListNotations.
Open Scope R_scope.

Lemma bell_mean_range sigma r v : 0 < sigma -> (0 <= r)%Z -> (forall i j, 0 <= v i j <= 1) -> 0 <= bell_mean sigma r v <= 1.
Proof.
  intros Hs Hr Hv. unfold bell_mean. set (l := around r). pose proof (fun o : Z * Z => bell_range sigma (fst o) (snd o) Hs) as B.
  assert (P : 0 < sum_of (fun o => bell_curve sigma (fst o) (snd o)) l).
  { apply Rlt_le_trans with (bell_curve sigma 0 0); [apply (B (0, 0)%Z)|].
    apply (sum_In (fun o : Z * Z => bell_curve sigma (fst o) (snd o)) l (0, 0)%Z); [intros o _; apply Rlt_le, B|apply around_center; auto]. }
  split.
  - apply Rmult_le_pos; [|apply Rlt_le, Rinv_0_lt_compat; auto]. apply sum_nonneg. intros o _. pose proof (B o). pose proof (Hv (fst o) (snd o)). apply Rmult_le_pos; lra.
  - apply div_le; [auto|]. rewrite Rmult_1_l. apply sum_mono. intros o _. pose proof (B o). pose proof (Hv (fst o) (snd o)).
    rewrite <- (Rmult_1_r (bell_curve sigma (fst o) (snd o))) at 2. apply Rmult_le_compat_l; lra.
Qed.

Lemma unsharp_real L m (b : PixelBuffer Rgb) r factor sigma pick : exp_ok L -> accurate_exp L -> valid b ->
  (0 <= r <= 500)%Z -> sigma_ok r sigma -> fin factor -> Rabs (B2R factor) <= 32 -> channel pick -> (forall c, In c (data b) -> num 0 1 (pick c)) ->
  exists out, unsharp L m b r factor sigma = Ok out /\ valid out /\ width out = width b /\ height out = height b /\
    forall x y, inside b x y -> exists c o, get_pixel m b x y = Ok c /\ get_pixel m out x y = Ok o /\
      close ((Rabs (B2R factor) + 2) * IZR ((2 * r + 1) * (2 * r + 1)) / 65536)
        (limited (B2R (pick c) + B2R factor * (B2R (pick c) -
           bell_mean (blur_sigma sigma r) r (fun i j => B2R (pick (edge_pixel b (x + i) (y + j))))))) (pick o).
Proof.
  intros X AE V Hr Hs Ff Rf Cp Hc.
  destruct (blur_real L m b r sigma pick X AE V Hr Hs Cp Hc) as (bl & Eb & _ & _ & _ & Pb).
  destruct (blur_conv L m b r sigma V ltac:(lia)) as (bl' & Eb' & _ & _ & _ & Pb'). rewrite Eb in Eb'. apply Ok_inj in Eb'. subst bl'.
  destruct (unsharp_lemma L m b r factor sigma V ltac:(lia)) as (out & E & Vo & W & H & P).
  exists out. split; [auto|]. split; [auto|]. split; [auto|]. split; [auto|].
  intros x y I. destruct (P x y I) as (c & ps & Ec & Eps & Ep). destruct (Pb' x y I) as (ps' & Eps' & Ep').
  rewrite Eps in Eps'. apply Ok_inj in Eps'. subst ps'. destruct (Pb x y I) as (s & Es & Ns). rewrite Ep' in Es. apply Ok_inj in Es. cbv zeta in Ep.
  rewrite Es in Ep. eexists c, _. split; [exact Ec|]. split; [exact Ep|].
  assert (Eq : forall s, pick (rgb_new_with_alpha (sharpen factor (d0 c) (d0 s)) (sharpen factor (d1 c) (d1 s)) (sharpen factor (d2 c) (d2 s)) (sharpen factor (d3 c) (d3 s)))
     = clamp (sharpen factor (pick c) (pick s))) by (intros; destruct Cp as [-> | [-> | [-> | ->]]]; reflexivity).
  rewrite Eq. pose proof (inside_nonempty b x y I) as Ne.
  assert (Ic : In c (data b)) by (rewrite (edge_inside m b x y V I) in Ec; apply Ok_inj in Ec; subst c; apply edge_In; auto).
  destruct (Hc c Ic) as [Fc Rc].
  destruct (sigma_ok_range r sigma ltac:(lia) Hs) as [_ Rs]. cbv zeta in Rs. rewrite sigma_real in Rs by lia. unfold sig_lo in Rs.
  set (G := bell_mean (blur_sigma sigma r) r _) in *.
  assert (RG : 0 <= G <= 1).
  { apply bell_mean_range; [lra|lia|]. intros i j. apply (Hc (edge_pixel b (x + i) (y + j))). apply edge_In; auto. }
  set (n := IZR ((2 * r + 1) * (2 * r + 1))) in *.
  assert (Hn : 1 <= n <= 1002001) by (unfold n; split; apply IZR_le; nia).
  apply close_clamp. unfold sharpen. set (f := Rabs (B2R factor)) in *. assert (f0' : 0 <= f) by apply Rabs_pos.
  pose proof (close_sub 16 _ _ _ _ _ _ _ uo_16 (close_0 (pick c) Fc) Ns) as S1. assert (D1 : Rabs (B2R (pick c) - G) <= 1) by (apply Rabs_le; lra).
  specialize (S1 ltac:(lra)).
  set (e1 := 0 + n / 131072 + / 2097152) in *. assert (He1 : 0 <= e1 <= 8) by (unfold e1; lra).
  assert (Ef : e1 * f <= 8 * 32) by (apply Rmult_le_compat; lra).
  pose proof (close_mul 512 _ 1 f _ _ _ _ _ _ uo_512 S1 (close_0 factor Ff) D1 (Rle_refl _) ltac:(fold f; lra)) as S2. fold f in S2.
  set (e2 := e1 * f + 0 * 1 + e1 * 0 + / 65536) in *. assert (He2 : 0 <= e2 <= 257) by (unfold e2; assert (0 <= e1 * f) by (apply Rmult_le_pos; lra); lra).
  assert (D2 : Rabs ((B2R (pick c) - G) * B2R factor) <= 32).
  { rewrite Rabs_mult. fold f. assert (Rabs (B2R (pick c) - G) * f <= 1 * 32) by (apply Rmult_le_compat; try lra; apply Rabs_pos). lra. }
  pose proof (close_add 512 _ _ _ _ _ _ _ uo_512 (close_0 (pick c) Fc) S2) as S3.
  assert (D3 : Rabs (B2R (pick c) + (B2R (pick c) - G) * B2R factor) <= 33).
  { apply Rabs_le_iff in D2. apply Rabs_le_iff. lra. }
  specialize (S3 ltac:(lra)). rewrite (Rmult_comm (B2R factor)). apply close_weak with (1 := S3).
  unfold e2, e1. assert (0 <= n * f) by (apply Rmult_le_pos; lra). assert (1 * f <= n * f) by (apply Rmult_le_compat_r; lra). lra.
Qed.

(** * Sobel *)

Lemma hyp_lip a b c d : Rabs (sqrt (a * a + b * b) - sqrt (c * c + d * d)) <= Rabs (a - c) + Rabs (b - d).
Proof.
  assert (K : forall a b c d, sqrt (a * a + b * b) <= sqrt (c * c + d * d) + (Rabs (a - c) + Rabs (b - d))).
  { clear. intros a b c d. set (s := sqrt (c * c + d * d)). set (p := Rabs (a - c)). set (q := Rabs (b - d)).
    assert (P : 0 <= p) by apply Rabs_pos. assert (Q : 0 <= q) by apply Rabs_pos.
    assert (S0 : 0 <= s) by apply sqrt_pos.
    assert (SS : s * s = c * c + d * d) by (apply sqrt_sqrt; assert (0 <= c * c) by apply Rle_0_sqr; assert (0 <= d * d) by apply Rle_0_sqr; lra).
    assert (Sc : Rabs c <= s).
    { unfold s. rewrite <- sqrt_Rsqr_abs. apply sqrt_le_1_alt. unfold Rsqr. assert (0 <= d * d) by apply Rle_0_sqr. lra. }
    assert (Sd : Rabs d <= s).
    { unfold s. rewrite <- sqrt_Rsqr_abs. apply sqrt_le_1_alt. unfold Rsqr. assert (0 <= c * c) by apply Rle_0_sqr. lra. }
    assert (A : a * a <= (Rabs c + p) * (Rabs c + p)).
    { assert (T : Rabs a <= Rabs c + p). { replace a with (c + (a - c)) at 1 by ring. apply Rabs_triang. }
      replace (a * a) with (Rabs a * Rabs a) by (rewrite <- Rabs_mult; apply Rabs_pos_eq, Rle_0_sqr).
      apply Rmult_le_compat; auto using Rabs_pos. }
    assert (B : b * b <= (Rabs d + q) * (Rabs d + q)).
    { assert (T : Rabs b <= Rabs d + q). { replace b with (d + (b - d)) at 1 by ring. apply Rabs_triang. }
      replace (b * b) with (Rabs b * Rabs b) by (rewrite <- Rabs_mult; apply Rabs_pos_eq, Rle_0_sqr).
      apply Rmult_le_compat; auto using Rabs_pos. }
    assert (Cc : Rabs c * Rabs c = c * c) by (rewrite <- Rabs_mult; apply Rabs_pos_eq, Rle_0_sqr).
    assert (Dd : Rabs d * Rabs d = d * d) by (rewrite <- Rabs_mult; apply Rabs_pos_eq, Rle_0_sqr).
    replace (s + (p + q)) with (sqrt ((s + (p + q)) * (s + (p + q)))) by (apply sqrt_square; lra).
    apply sqrt_le_1_alt.
    assert (Rabs c * p <= s * p) by (apply Rmult_le_compat_r; auto).
    assert (Rabs d * q <= s * q) by (apply Rmult_le_compat_r; auto).
    assert (0 <= p * q) by (apply Rmult_le_pos; auto). lra. }
  apply Rabs_le. pose proof (K a b c d). pose proof (K c d a b) as K2. rewrite (Rabs_minus_sym c a), (Rabs_minus_sym d b) in K2. lra.
Qed.

Lemma root_near S s d : 0 <= S -> 0 <= s -> 0 <= d -> S * (1 - 3 * ee) - d * d <= s <= S * (1 + 3 * ee) + d * d ->
  Rabs (sqrt s - sqrt S) <= 3 * ee * sqrt S + d.
Proof.
  intros HS Hs Hd H. assert (LE : 0 < ee <= / 16777216) by (unfold ee; lra).
  set (q := sqrt S). assert (Q0 : 0 <= q) by apply sqrt_pos. assert (QQ : q * q = S) by (apply sqrt_sqrt; auto).
  apply Rabs_le. split.
  - destruct (Rle_dec (q * (1 - 3 * ee) - d) 0) as [G | G].
    + pose proof (sqrt_pos s). lra.
    + assert (q * (1 - 3 * ee) - d <= sqrt s); [|lra].
      replace (q * (1 - 3 * ee) - d) with (sqrt ((q * (1 - 3 * ee) - d) * (q * (1 - 3 * ee) - d))) by (apply sqrt_square; lra).
      apply sqrt_le_1_alt. apply Rle_trans with (2 := proj1 H). rewrite <- QQ.
      assert (d * d <= q * (1 - 3 * ee) * d) by (apply Rmult_le_compat_r; lra).
      assert (0 <= q * q) by (apply Rmult_le_pos; auto).
      assert (q * q * ((1 - 3 * ee) * (1 - 3 * ee)) <= q * q * (1 - 3 * ee)).
      { apply Rmult_le_compat_l; [auto|]. rewrite <- (Rmult_1_r (1 - 3 * ee)) at 3. apply Rmult_le_compat_l; lra. }
      lra.
  - assert (sqrt s <= q * (1 + 3 * ee) + d); [|lra].
    assert (P : 0 <= q * (1 + 3 * ee)) by (apply Rmult_le_pos; lra).
    replace (q * (1 + 3 * ee) + d) with (sqrt ((q * (1 + 3 * ee) + d) * (q * (1 + 3 * ee) + d))) by (apply sqrt_square; lra).
    apply sqrt_le_1_alt. apply Rle_trans with (1 := proj2 H). rewrite <- QQ.
    assert (0 <= q * (1 + 3 * ee) * d) by (apply Rmult_le_pos; auto).
    assert (0 <= q * q) by (apply Rmult_le_pos; auto).
    assert (q * q * (1 + 3 * ee) <= q * q * ((1 + 3 * ee) * (1 + 3 * ee))).
    { apply Rmult_le_compat_l; [auto|]. rewrite <- (Rmult_1_r (1 + 3 * ee)) at 1. apply Rmult_le_compat_l; lra. }
    lra.
Qed.

Lemma hypot_near a b : fin a -> fin b -> Rabs (B2R a) <= 72 -> Rabs (B2R b) <= 72 ->
  close (/ 32768) (sqrt (B2R a * B2R a + B2R b * B2R b)) (hypot a b).
Proof.
  intros Fa Fb Ra Rb. assert (LE : 0 < ee <= / 16777216) by (unfold ee; lra). pose proof eta_tiny as HE.
  assert (Sa : 0 <= B2R a * B2R a <= 72 * 72).
  { split; [apply Rle_0_sqr|]. replace (B2R a * B2R a) with (Rabs (B2R a) * Rabs (B2R a)) by (rewrite <- Rabs_mult; apply Rabs_pos_eq, Rle_0_sqr). apply Rmult_le_compat; auto using Rabs_pos. }
  assert (Sb : 0 <= B2R b * B2R b <= 72 * 72).
  { split; [apply Rle_0_sqr|]. replace (B2R b * B2R b) with (Rabs (B2R b) * Rabs (B2R b)) by (rewrite <- Rabs_mult; apply Rabs_pos_eq, Rle_0_sqr). apply Rmult_le_compat; auto using Rabs_pos. }
  destruct (fmul_num a a 0 8192 Fa Fa) as [[F1 R1] E1]; [apply fmt_0|apply fmt_IZR; lia|lra|].
  destruct (fmul_num b b 0 8192 Fb Fb) as [[F2 R2] E2]; [apply fmt_0|apply fmt_IZR; lia|lra|].
  destruct (fadd_num _ _ 0 16384 F1 F2) as [[F3 R3] E3]; [apply fmt_0|apply fmt_IZR; lia|lra|].
  pose proof (rnd_any _ (proj1 Sa)) as B1. pose proof (rnd_any _ (proj1 Sb)) as B2. rewrite <- E1 in B1. rewrite <- E2 in B2.
  set (p := B2R (fmul a a)) in *. set (q := B2R (fmul b b)) in *.
  pose proof (rnd_plus_rel p q (fmt_B2R _) (fmt_B2R _) ltac:(lra)) as B3. rewrite <- E3 in B3.
  set (S := B2R a * B2R a + B2R b * B2R b). set (s := B2R (fadd (fmul a a) (fmul b b))) in *.
  assert (HS : 0 <= S <= 10368) by (unfold S; lra).
  assert (Bpq : S * (1 - ee) - 2 * eta <= p + q <= S * (1 + ee) + 2 * eta) by (unfold S; lra).
  assert (Hs : S * (1 - 3 * ee) - / 1073741824 * / 1073741824 <= s <= S * (1 + 3 * ee) + / 1073741824 * / 1073741824).
  { assert (ee2 : 0 <= ee * ee <= ee * / 16) by (clear - LE; nra). assert (0 <= eta * ee <= eta * 1) by (split; [apply Rmult_le_pos; lra|apply Rmult_le_compat_l; lra]). split.
    - assert ((S * (1 - ee) - 2 * eta) * (1 - ee) <= (p + q) * (1 - ee)) by (apply Rmult_le_compat_r; lra).
      assert (S * (1 - 3 * ee) <= S * ((1 - ee) * (1 - ee))) by (apply Rmult_le_compat_l; lra). lra.
    - assert ((p + q) * (1 + ee) <= (S * (1 + ee) + 2 * eta) * (1 + ee)) by (apply Rmult_le_compat_r; lra).
      assert (S * ((1 + ee) * (1 + ee)) <= S * (1 + 3 * ee)) by (apply Rmult_le_compat_l; lra). lra. }
  assert (Q : 0 <= sqrt s <= 128).
  { split; [apply sqrt_pos|]. replace 128 with (sqrt (128 * 128)) by (apply sqrt_square; lra). apply sqrt_le_1_alt. lra. }
  destruct (fsqrt_num (fadd (fmul a a) (fmul b b)) 0 128 F3 (proj1 R3)) as [[F4 R4] E4]; [apply fmt_0|apply fmt_IZR; lia|fold s; lra|].
  fold s in E4. split; [exact F4|]. change (B2R (hypot a b)) with (B2R (fsqrt (fadd (fmul a a) (fmul b b)))). rewrite E4.
  pose proof (rnd_err (sqrt s) 7 ltac:(lia)) as Er. rewrite (bp 7 128 eq_refl) in Er.
  assert (Hb : bpow radix2 (7 - 25) = / 262144) by (unfold bpow; reflexivity). rewrite Hb in Er. specialize (Er ltac:(rewrite Rabs_pos_eq; lra)).
  pose proof (root_near S s (/ 1073741824) (proj1 HS) (proj1 R3) ltac:(lra) Hs) as N.
  assert (Q2 : 0 <= sqrt S <= 128).
  { split; [apply sqrt_pos|]. replace 128 with (sqrt (128 * 128)) by (apply sqrt_square; lra). apply sqrt_le_1_alt. lra. }
  assert (3 * ee * sqrt S <= 3 * / 16777216 * 128) by (apply Rmult_le_compat; lra).
  apply Rabs_le_iff in Er. apply Rabs_le_iff in N. apply Rabs_le_iff. fold S. lra.
Qed.

Lemma window_nine m (b : PixelBuffer Rgb) x y ps : valid b -> inside b x y -> neighbourhood m b 3 3 x y = Ok ps ->
  ps = [edge_pixel b (x + -1) (y + -1); edge_pixel b (x + 0) (y + -1); edge_pixel b (x + 1) (y + -1);
        edge_pixel b (x + -1) (y + 0); edge_pixel b (x + 0) (y + 0); edge_pixel b (x + 1) (y + 0);
        edge_pixel b (x + -1) (y + 1); edge_pixel b (x + 0) (y + 1); edge_pixel b (x + 1) (y + 1)].
Proof.
  intros V I H. change 3%Z with (2 * 1 + 1)%Z in H. rewrite (neighbourhood_around m b 1 x y V I ltac:(lia)) in H. apply Ok_inj in H. subst ps. reflexivity.
Qed.

Lemma sobel_real m (b : PixelBuffer Rgb) : valid b -> (forall c, In c (data b) -> in_gamut c) ->
  exists out, edge_detection m b Sobel = Ok out /\ valid out /\ width out = width b /\ height out = height b /\
    forall x y, inside b x y -> exists o, get_pixel m out x y = Ok o /\ d3 o = f1 /\
      forall pick, pick = d0 \/ pick = d1 \/ pick = d2 ->
      let v i j := B2R (pick (edge_pixel b (x + i) (y + j))) in
      close (/ 4096) (limited (sqrt (slope_x v ^ 2 + slope_y v ^ 2))) (pick o).
Proof.
  intros V G. destruct (sobel_lemma m b V) as (gx & gy & out & Cx & Cy & E & Vo & W & H & P).
  exists out. split; [auto|]. split; [auto|]. split; [auto|]. split; [auto|].
  intros x y I. destruct (P x y I) as (cx & cy & Ex & Ey & Eo). eexists. split; [exact Eo|]. split; [reflexivity|].
  intros pick Cp v. assert (Cp' : channel pick) by (unfold channel; tauto).
  destruct (conv_channel m b (concat sobel_x) gx pick x y cx V G eq_refl sobel_x_entries Cx I Ex Cp') as (px & Hpx & _ & Fx & Bx & Dx).
  destruct (conv_channel m b (concat sobel_y) gy pick x y cy V G eq_refl sobel_y_entries Cy I Ey Cp') as (py & Hpy & _ & Fy & By & Dy).
  rewrite Hpx in Hpy. apply Ok_inj in Hpy. subst py. apply (window_nine m b x y px V I) in Hpx. subst px.
  assert (Eq : pick (mkC (clamp (hypot (d0 cx) (d0 cy))) (clamp (hypot (d1 cx) (d1 cy))) (clamp (hypot (d2 cx) (d2 cy))) f1) = clamp (hypot (pick cx) (pick cy)))
    by (destruct Cp as [-> | [-> | ->]]; reflexivity).
  rewrite Eq. apply close_clamp.
  assert (X1 : Rabs (B2R (pick cx) - slope_x v) <= / 16384).
  { eapply Rle_trans; [|exact Dx]. apply Req_le. f_equal. f_equal. cbn [concat sobel_x app combine exact_sum fold_right fst snd]. rewrite f0_R, f1_R, f2_R, m1_R, m2_R. unfold slope_x, v. ring. }
  assert (Y1 : Rabs (B2R (pick cy) - slope_y v) <= / 16384).
  { eapply Rle_trans; [|exact Dy]. apply Req_le. f_equal. f_equal. cbn [concat sobel_y app combine exact_sum fold_right fst snd]. rewrite f0_R, f1_R, f2_R, m1_R, m2_R. unfold slope_y, slope_x, v. ring. }
  pose proof (hypot_near _ _ Fx Fy Bx By) as N. 
  pose proof (hyp_lip (B2R (pick cx)) (B2R (pick cy)) (slope_x v) (slope_y v)) as Lp.
  eapply close_weak; [eapply close_move; [exact N|]|].
  - replace (slope_x v ^ 2 + slope_y v ^ 2) with (slope_x v * slope_x v + slope_y v * slope_y v) by ring. eapply Rle_trans; [exact Lp|].
    apply Rplus_le_compat; [exact X1|exact Y1].
  - lra.
Qed.

(** A math library that meets the assumptions. *)
Definition exp_libm (L : libm) : libm :=
  {| powf := powf L; fsin := fsin L; fcos := fcos L; fexp_ := fun x => if is_finite x then rounded (exp (Rmin (B2R x) 0)) else f0;
     ftanh := ftanh L; fatan2 := fatan2 L; dtanh := dtanh L |}.
Lemma exp_min_01 r : 0 <= exp (Rmin r 0) <= 1.
Proof.
  split; [apply Rlt_le, exp_pos|]. rewrite <- exp_0. destruct (Rmin_r r 0) as [H | ->]; [apply Rlt_le, exp_increasing; auto|lra].
Qed.
Lemma exp_libm_ok L : exp_ok (exp_libm L) /\ accurate_exp (exp_libm L).
Proof.
  assert (K : forall x, fin x -> fin (rounded (exp (Rmin (B2R x) 0))) /\ B2R (rounded (exp (Rmin (B2R x) 0))) = rnd (exp (Rmin (B2R x) 0))).
  { intros x _. apply rounded_ok. pose proof (exp_min_01 (B2R x)). rewrite Rabs_pos_eq; lra. }
  split; [split|].
  - intros x _. cbn [fexp_ exp_libm]. destruct (is_finite x) eqn:F.
    + destruct (K x F) as [A B]. apply in01_num. split; [exact A|]. rewrite B. pose proof (exp_min_01 (B2R x)).
      split; [apply rnd_lo; [apply fmt_0|lra]|apply rnd_hi; [apply fmt_1|lra]].
    + apply in01_num. split; [apply f0_fin|rewrite f0_R; lra].
  - intros x E. cbn [fexp_ exp_libm]. assert (F : fin x) by (destruct x as [s|s| |s ? ? ?]; try reflexivity; try (destruct s); discriminate).
    unfold fin in F. rewrite F. destruct (K x F) as [A B]. apply feq_R in E; [|exact F|apply f0_fin]. rewrite f0_R in E.
    apply feq_R; [exact A|reflexivity|]. rewrite B, E, f1_R, Rmin_left, exp_0 by lra. apply rnd_id. apply fmt_1.
  - intros x F R. cbn [fexp_ exp_libm]. rewrite F. destruct (K x F) as [A B]. split; [exact A|]. rewrite B, Rmin_left by lra.
    pose proof (exp_min_01 (B2R x)) as H. rewrite Rmin_left in H by lra.
    pose proof (uo_err _ _ (exp (B2R x)) uo_1 ltac:(apply Rabs_le_iff; lra)). rewrite (pow_IZR 2 22). change (IZR (2 ^ Z.of_nat 22)) with 4194304. lra.
Qed.

(** Radius 0 keeps the value. *)
Lemma bell_mean_0 sigma v : bell_mean sigma 0 v = v 0%Z 0%Z.
Proof.
  assert (A : around 0 = [(0, 0)%Z]) by reflexivity. unfold bell_mean. rewrite A. unfold sum_of. cbn [fold_right fst snd].
  field. unfold bell_curve. pose proof (exp_pos (- (IZR 0 ^ 2 + IZR 0 ^ 2) / (2 * sigma ^ 2))). lra.
Qed.
