(** LCh: the polar form of Lab, and back. *)
From Coq Require Import Reals Lra Lia ZArith Bool Psatz.
From Flocq Require Import Core.Core IEEE754.BinarySingleNaN.
From Verif Require Import F32 F32Lemmas Color ColorSpec ColorProofs MeaningSpec ConvSpec Approx OpMeaningProofs HslMeaning SrgbMeaning LinearConv LabCurve LabMeaning.
Open Scope R_scope.

Lemma sqrt_val x : fin x -> 0 <= B2R x -> fin (fsqrt x) /\ B2R (fsqrt x) = rnd (sqrt (B2R x)).
Proof.
  intros F H. pose proof (Bsqrt_correct 24 128 p24 e128 mode_NE x) as (A & B & _). split; [|exact A].
  unfold fin, fsqrt. rewrite B. destruct x as [s| | |s m e b]; try discriminate; try reflexivity.
  destruct s; [|reflexivity]. exfalso. cbn in H. unfold F2R in H. cbn in H.
  assert (IZR (Z.neg m) < 0) by (apply IZR_lt; reflexivity). pose proof (bpow_gt_0 radix2 e). nra.
Qed.
Lemma sqrt_near s r : 0 <= r <= 10 -> 0 <= s -> Rabs (s - r * r) <= 3 * U * (r * r) + 4 * T -> Rabs (sqrt s - r) <= 2 * U * r + / 10000000000.
Proof.
  intros R S H. pose proof (sqrt_pos s) as Q. pose proof (sqrt_sqrt s S) as E. set (q := sqrt s) in *. clearbody q. subst s. clear S.
  apply Rabs_le_iff in H. apply Rabs_le_iff. split.
  - destruct (Rle_dec (- (2 * U * r + / 10000000000)) (q - r)) as [L|L]; [exact L|]. exfalso. apply Rnot_le_lt in L.
    assert (A : q < r * (1 - 2 * U) - / 10000000000) by lra. assert (r * (1 - 2 * U) - / 10000000000 > 0) by lra.
    assert (q * q < (r * (1 - 2 * U) - / 10000000000) * (r * (1 - 2 * U) - / 10000000000)) by (apply Rmult_le_0_lt_compat; lra). nra.
  - destruct (Rle_dec (q - r) (2 * U * r + / 10000000000)) as [L|L]; [exact L|]. exfalso. apply Rnot_le_lt in L.
    assert ((r * (1 + 2 * U) + / 10000000000) * (r * (1 + 2 * U) + / 10000000000) < q * q) by (apply Rmult_le_0_lt_compat; nra). nra.
Qed.
Lemma mul_rel x y : fin x -> fin y -> Rabs (B2R x * B2R y) <= 10000 -> fin (fmul x y) /\ Rabs (B2R (fmul x y) - B2R x * B2R y) <= U * Rabs (B2R x * B2R y) + T.
Proof. intros Fx Fy H. apply mul_val; auto; lra. Qed.
Lemma chroma_val a b r : fin a -> fin b -> 0 <= r <= 10 -> r * r = B2R a * B2R a + B2R b * B2R b ->
  fin (fsqrt (fadd (fmul a a) (fmul b b))) /\ Rabs (B2R (fsqrt (fadd (fmul a a) (fmul b b))) - r) <= 4 * U * r + / 9000000000.
Proof.
  intros Fa Fb R E. assert (A2 : 0 <= B2R a * B2R a) by nra. assert (B2' : 0 <= B2R b * B2R b) by nra. assert (R2 : r * r <= 100) by nra.
  destruct (mul_rel a a Fa Fa) as [F1 E1]. { rewrite Rabs_right; lra. } destruct (mul_rel b b Fb Fb) as [F2 E2]. { rewrite Rabs_right; lra. }
  rewrite (Rabs_right (B2R a * B2R a)) in E1 by lra. rewrite (Rabs_right (B2R b * B2R b)) in E2 by lra.
  destruct (fmul_ok a a 100 Fa Fa) as [_ G1]. { apply (fmt_IZR 100). lia. } { rewrite Rabs_right; lra. }
  destruct (fmul_ok b b 100 Fb Fb) as [_ G2]. { apply (fmt_IZR 100). lia. } { rewrite Rabs_right; lra. }
  assert (P1 : 0 <= B2R (fmul a a)). { rewrite G1, <- rnd_0. now apply rnd_le. }
  assert (P2 : 0 <= B2R (fmul b b)). { rewrite G2, <- rnd_0. now apply rnd_le. }
  apply Rabs_le_iff in E1, E2.
  destruct (add_val (fmul a a) (fmul b b) (B2R (fmul a a) + B2R (fmul b b)) F1 F2) as [F3 E3]. { rewrite Rabs_right; lra. } { lra. }
  destruct (fadd_ok (fmul a a) (fmul b b) 200 F1 F2) as [_ G3]. { apply (fmt_IZR 200). lia. } { rewrite Rabs_right; lra. }
  assert (P3 : 0 <= B2R (fadd (fmul a a) (fmul b b))). { rewrite G3, <- rnd_0. apply rnd_le. lra. }
  set (s := fadd (fmul a a) (fmul b b)) in *. apply Rabs_le_iff in E3.
  destruct (sqrt_val s F3 P3) as [FQ EQ]. split; [exact FQ|]. rewrite EQ.
  pose proof (sqrt_near (B2R s) r R P3 ltac:(apply Rabs_le_iff; lra)) as N. pose proof (rnd_rel_abs (sqrt (B2R s))) as RR. pose proof p140 as P.
  rewrite (Rabs_right (sqrt (B2R s))) in RR by (apply Rle_ge, sqrt_pos). apply Rabs_le_iff in N, RR. apply Rabs_le_iff. lra.
Qed.
Lemma cos_lip x y : Rabs (cos x - cos y) <= Rabs (x - y).
Proof.
  assert (S : forall x y, x < y -> Rabs (cos y - cos x) <= y - x).
  { clear. intros x y H. destruct (MVT_cor2 cos (fun t => - sin t) x y H) as (c & E & _). { intros. apply derivable_pt_lim_cos. }
    rewrite E. pose proof (SIN_bound c) as B. rewrite Rabs_mult, (Rabs_right (y - x)) by lra.
    assert (Rabs (- sin c) <= 1) by (apply Rabs_le_iff; lra). nra. }
  destruct (Rtotal_order x y) as [H|[->|H]].
  - rewrite Rabs_minus_sym, (Rabs_minus_sym x). rewrite (Rabs_right (y - x)) by lra. now apply S.
  - rewrite !Rminus_diag_eq by reflexivity. lra.
  - rewrite (Rabs_right (x - y)) by lra. now apply S.
Qed.
Lemma sin_lip x y : Rabs (sin x - sin y) <= Rabs (x - y).
Proof. rewrite <- (cos_shift x), <- (cos_shift y). replace (x - y) with (- ((PI / 2 - x) - (PI / 2 - y))) by ring. rewrite Rabs_Ropp. apply cos_lip. Qed.
Lemma mul_close x y r q e : fin x -> fin y -> 0 <= r <= 10 -> Rabs (B2R x - r) <= 4 * U * r + / 9000000000 -> Rabs q <= 1 -> Rabs (B2R y - q) <= e -> 0 <= e <= / 500000 ->
  fin (fmul x y) /\ Rabs (B2R (fmul x y) - r * q) <= r * e + 6 * U * r + / 8000000000.
Proof.
  intros Fx Fy R X Q Y E. pose proof (proj1 (Rabs_le_iff _ _) X) as X'. pose proof (proj1 (Rabs_le_iff _ _) Y) as Y'. pose proof (proj1 (Rabs_le_iff _ _) Q) as Q'.
  assert (K1 : Rabs ((B2R x - r) * B2R y) <= (4 * U * r + / 9000000000) * (1 + / 500000)) by (apply abs_mul_le; [exact X | apply Rabs_le_iff; lra]).
  assert (K2 : Rabs (r * (B2R y - q)) <= r * e) by (apply abs_mul_le; [rewrite Rabs_right; lra | exact Y]).
  assert (K3 : Rabs (B2R x * B2R y) <= ((1 + 4 * U) * r + / 9000000000) * (1 + / 500000)) by (apply abs_mul_le; apply Rabs_le_iff; lra).
  destruct (mul_rel x y Fx Fy) as [FM M]. { lra. } split; [exact FM|].
  apply Rabs_le_iff in K1, K2, M. apply Rabs_le_iff. lra.
Qed.
Lemma polar L lab r : accurate_angles L -> fin (d1 lab) -> fin (d2 lab) -> 0 <= r <= 10 -> r * r = B2R (d1 lab) * B2R (d1 lab) + B2R (d2 lab) * B2R (d2 lab) ->
  let o := lab_to_lch L lab in let a := fmul (d1 o) (fcos L (d2 o)) in let b := fmul (d1 o) (fsin L (d2 o)) in
  (fin (d1 o) /\ Rabs (B2R (d1 o) - r) <= 4 * U * r + / 9000000000) /\
  (exists t, Rabs t <= PI /\ B2R (d1 lab) = r * cos t /\ B2R (d2 lab) = r * sin t /\ close (/ 1048576) t (d2 o)) /\
  (fin a /\ Rabs (B2R a - B2R (d1 lab)) <= 23 / 10000000 * r + / 8000000000) /\ (fin b /\ Rabs (B2R b - B2R (d2 lab)) <= 23 / 10000000 * r + / 8000000000).
Proof.
  intros [SC AT] Fa Fb R E. unfold lab_to_lch. cbn [d1 d2]. cbv zeta.
  destruct (chroma_val _ _ r Fa Fb R E) as [FC C]. set (c := fsqrt _) in *.
  destruct (AT (d2 lab) (d1 lab) Fa Fb) as (t & r' & T1 & R' & EA & EB & [FH H]).
  assert (ER : r' = r).
  { assert (r' * r' = r * r) by (rewrite E, EA, EB; pose proof (sin2_cos2 t) as S; unfold Rsqr in S; nra). nra. }
  subst r'. set (h := fatan2 L (d2 lab) (d1 lab)) in *. pose proof (proj1 (Rabs_le_iff _ _) T1) as T2. pose proof (proj1 (Rabs_le_iff _ _) H) as H2.
  assert (PI4 : PI <= 35 / 10). { pose proof (proj2 (PI_ineq 1)) as P. unfold tg_alt, PI_tg in P. cbn [Nat.mul Nat.add sum_f_R0 pow INR] in P. lra. }
  destruct (SC h FH ltac:(apply Rabs_le_iff; lra)) as [[FS S] [FK K]].
  pose proof (cos_lip (B2R h) t) as L1. pose proof (sin_lip (B2R h) t) as L2.
  assert (C2 : Rabs (B2R (fcos L h) - cos t) <= / 524288). { replace (B2R (fcos L h) - cos t) with ((B2R (fcos L h) - cos (B2R h)) + (cos (B2R h) - cos t)) by ring. eapply Rle_trans; [apply Rabs_triang|]. lra. }
  assert (S2 : Rabs (B2R (fsin L h) - sin t) <= / 524288). { replace (B2R (fsin L h) - sin t) with ((B2R (fsin L h) - sin (B2R h)) + (sin (B2R h) - sin t)) by ring. eapply Rle_trans; [apply Rabs_triang|]. lra. }
  split; [split; [exact FC | exact C]|]. split; [exists t; split; [exact T1|]; split; [exact EA|]; split; [exact EB|]; split; [exact FH | exact H]|].
  destruct (mul_close c (fcos L h) r (cos t) _ FC FK R C ltac:(apply Rabs_le_iff; apply COS_bound) C2 ltac:(lra)) as [FA A].
  destruct (mul_close c (fsin L h) r (sin t) _ FC FS R C ltac:(apply Rabs_le_iff; apply SIN_bound) S2 ltac:(lra)) as [FB B].
  rewrite <- EA in A. rewrite <- EB in B. split; (split; [assumption|lra]).
Qed.
(** A bound on a and b for colours of the gamut. *)
Lemma lab_bound L i o c : accurate_powf L -> accurate_powf_above L -> xyz_range c ->
  (let '(w0, w1, w2) := white i o in B2R (d0 c) / w0 <= 14 / 10 /\ B2R (d1 c) / w1 <= 14 / 10 /\ B2R (d2 c) / w2 <= 14 / 10) ->
  let lab := xyz_to_lab L i o c in
  (fin (d0 lab) /\ fin (d1 lab) /\ fin (d2 lab)) /\ Rabs (B2R (d1 lab)) <= 415 / 100 /\ Rabs (B2R (d2 lab)) <= 166 / 100.
Proof.
  intros AL AA X HR. pose proof (to_lab_val L i o c (112 / 100) AL AA X ltac:(lra)) as H. pose proof (white_range i o) as W.
  destruct (white i o) as [[w0 w1] w2]. destruct W as (W0 & W1 & W2). destruct X as (_ & X & Y & Z). destruct HR as (H0 & H1 & H2).
  pose proof (ratio_pos _ _ W0 X) as P0. pose proof (ratio_pos _ _ W1 Y) as P1. pose proof (ratio_pos _ _ W2 Z) as P2.
  assert (C0 : lab_curve (B2R (d0 c) / w0) <= 112 / 100) by (apply curve_le; lra).
  assert (C1 : lab_curve (B2R (d1 c) / w1) <= 112 / 100) by (apply curve_le; lra).
  assert (C2 : lab_curve (B2R (d2 c) / w2) <= 112 / 100) by (apply curve_le; lra).
  cbv zeta in H. specialize (H C0 C1 C2). destruct H as ((F0 & A0) & (F1 & A1) & (F2 & A2)).
  cbv zeta. split; [auto|]. apply Rabs_le_iff in A1, A2. split; apply Rabs_le_iff; lra.
Qed.
Lemma radius a b : Rabs a <= 415 / 100 -> Rabs b <= 166 / 100 -> exists r, 0 <= r <= 447 / 100 /\ r * r = a * a + b * b.
Proof.
  intros A B. assert (Q : 0 <= a * a + b * b) by nra. exists (sqrt (a * a + b * b)). split; [|now apply sqrt_sqrt].
  split; [apply sqrt_pos|]. apply Rabs_le_iff in A, B. assert (a * a + b * b <= 447 / 100 * (447 / 100)) by nra.
  rewrite <- (sqrt_square (447 / 100)) by lra. now apply sqrt_le_1_alt.
Qed.
Lemma rgb_lch_rgb L i o c : accurate_powf L -> accurate_powf_above L -> accurate_angles L -> in_gamut c ->
  channelwise (/ 2048) (fun v => v) c (to_rgb L (KLch i o) (to_lch L i o KRgb c)).
Proof.
  intros AL AA AN G. cbn [to_rgb]. unfold to_lab, to_lch, to_lab. cbn [to_xyz]. unfold lch_to_xyz.
  destruct (gamut_xyz c G) as [XR WR]. specialize (WR i o). pose proof (xyz_rows c (in_gamut_to c G)) as XB. set (x := apply_matrix c RGB_TO_XYZ) in *.
  assert (HR : let '(w0, w1, w2) := white i o in B2R (d0 x) / w0 <= 14 / 10 /\ B2R (d1 x) / w1 <= 14 / 10 /\ B2R (d2 x) / w2 <= 14 / 10) by (destruct (white i o) as [[w0 w1] w2]; lra).
  destruct (lab_bound L i o x AL AA XR HR) as ((F0 & F1 & F2) & BA & BB). set (lab := xyz_to_lab L i o x) in *.
  destruct (radius _ _ BA BB) as (r & R & ER). destruct (polar L lab r AN F1 F2 ltac:(lra) ER) as (_ & _ & [FA A] & [FB B]).
  set (lch := lab_to_lch L lab) in *. set (a := fmul (d1 lch) (fcos L (d2 lch))) in *. set (b := fmul (d1 lch) (fsin L (d2 lch))) in *.
  cbv zeta in *. fold a b. set (lab' := mkC (d0 lch) a b (alpha lch)).
  destruct (lab_and_back L i o x lab' (104 / 10000000) AL AA XR ltac:(lra) HR) as (E0 & E1 & E2); auto.
  { change (Rabs (B2R a - B2R (d1 lab)) <= 104 / 10000000). lra. } { change (Rabs (B2R b - B2R (d2 lab)) <= 104 / 10000000). lra. }
  set (x' := lab_to_xyz L i o lab') in *.
  assert (XR' : xyz_range x').
  { destruct XB as ([_ X0] & [_ X1] & [_ X2]), E0 as [G0 E0], E1 as [G1 E1], E2 as [G2 E2]. destruct G as (CA & CB & CC & _). apply in01_R in CA, CB, CC.
    unfold x_of, y_of, z_of in *. apply Rabs_le_iff in X0, X1, X2, E0, E1, E2. split; [auto|]. lra. }
  assert (HR' : let '(w0, w1, w2) := white i o in B2R (d0 x') / w0 <= 14 / 10 /\ B2R (d1 x') / w1 <= 14 / 10 /\ B2R (d2 x') / w2 <= 14 / 10).
  { destruct E0 as [_ E0], E1 as [_ E1], E2 as [_ E2]. apply Rabs_le_iff in E0, E1, E2. destruct i, o; cbn [white] in *; lra. }
  destruct (lab_bound L i o x' AL AA XR' HR') as (FF & _ & _).
  destruct (lab_and_back L i o x' (xyz_to_lab L i o x') 0 AL AA XR' ltac:(lra) HR') as (K0 & K1 & K2); auto.
  { rewrite Rminus_diag_eq by reflexivity. rewrite Rabs_R0. lra. } { rewrite Rminus_diag_eq by reflexivity. rewrite Rabs_R0. lra. }
  assert (J0 : close (105 / 1000000) (B2R (d0 x)) (d0 (lab_to_xyz L i o (xyz_to_lab L i o x')))).
  { destruct E0 as [_ E], K0 as [FK K]. split; [exact FK|]. apply Rabs_le_iff in E, K. apply Rabs_le_iff. lra. }
  assert (J1 : close (42 / 1000000) (B2R (d1 x)) (d1 (lab_to_xyz L i o (xyz_to_lab L i o x')))).
  { destruct E1 as [_ E], K1 as [FK K]. split; [exact FK|]. apply Rabs_le_iff in E, K. apply Rabs_le_iff. lra. }
  assert (J2 : close (123 / 1000000) (B2R (d2 x)) (d2 (lab_to_xyz L i o (xyz_to_lab L i o x')))).
  { destruct E2 as [_ E], K2 as [FK K]. split; [exact FK|]. apply Rabs_le_iff in E, K. apply Rabs_le_iff. lra. }
  destruct (rgb_near c _ _ _ _ G J0 J1 J2) as (R0 & R1 & R2); try lra.
  unfold channelwise. split; [|split; [|split]]; try (eapply close_weak; [eassumption|lra]).
  change (d3 (lab_to_xyz L i o (xyz_to_lab L i o x')) = d3 x). rewrite (proj2 (lab_alpha _ _ _ _)), (proj1 (lab_alpha _ _ _ _)).
  unfold x'. rewrite (proj2 (lab_alpha _ _ _ _)). change (d3 lab = d3 x). apply lab_alpha.
Qed.
