(** Proofs for C103: mixing hues as plain numbers. *)
From Coq Require Import Reals Lra Lia ZArith Bool Psatz List.
From Flocq Require Import Core.Core IEEE754.BinarySingleNaN.
From Verif Require Import F32 F32Lemmas Color ColorSpec ColorProofs MeaningSpec ConvSpec BlendSpec Blend BlendProofs Approx OpMeaningProofs HslMeaning LabCurve LinearConv LabMeaning LchMeaning Saturate BlendMeaning.
Import ListNotations.
Open Scope R_scope.

Lemma curve_between v a b : a ^ 3 <= v -> v <= b ^ 3 -> 207 / 1000 <= a -> 207 / 1000 <= b -> a <= lab_curve v <= b.
Proof.
  intros A B LA LB. split; [|apply curve_le; lra]. assert (A3 : (207 / 1000) ^ 3 <= a ^ 3) by (apply pow_incr; lra).
  destruct (curve_high v ltac:(lra)) as (-> & C1 & C2). destruct (Rle_lt_dec a (cube_root v)); [assumption|exfalso]. rewrite <- C2 in A.
  set (q := cube_root v) in *. clearbody q. cbn [pow] in A. assert (q * (q * q) < a * (a * a)); [|lra].
  assert (q * q < a * a) by nra. nra.
Qed.
Lemma lch_bounds L c x0 x1 y0 y1 z0 z1 : accurate_powf L -> accurate_powf_above L -> accurate_angles L -> in_gamut c ->
  let X := x_of (B2R (d0 c)) (B2R (d1 c)) (B2R (d2 c)) / (95047 / 100000) in let Y := y_of (B2R (d0 c)) (B2R (d1 c)) (B2R (d2 c)) in
  let Z := z_of (B2R (d0 c)) (B2R (d1 c)) (B2R (d2 c)) / (108883 / 100000) in
  x0 ^ 3 + / 1000000 <= X <= x1 ^ 3 - / 1000000 -> y0 ^ 3 + / 1000000 <= Y <= y1 ^ 3 - / 1000000 -> z0 ^ 3 + / 1000000 <= Z <= z1 ^ 3 - / 1000000 ->
  207 / 1000 <= x0 -> 207 / 1000 <= y0 -> 207 / 1000 <= z0 -> 207 / 1000 <= x1 -> 207 / 1000 <= y1 -> 207 / 1000 <= z1 ->
  let h := to_lch L D65 O2 KRgb c in exists r t, Rabs t <= PI /\ 0 <= r /\ close (/ 100000) r (d1 h) /\ close (/ 1048576) t (d2 h) /\
  500 * (x0 - y1) / 128 - / 10000 <= r * cos t <= 500 * (x1 - y0) / 128 + / 10000 /\ 200 * (y0 - z1) / 128 - / 10000 <= r * sin t <= 200 * (y1 - z0) / 128 + / 10000 /\
  num ((116 * y0 - 16) / 100 - / 10000) ((116 * y1 - 16) / 100 + / 10000) (d0 h).
Proof.
  intros AL AA AN G. cbv zeta. intros HX HY HZ L1 L2 L3 L4 L5 L6.
  destruct (gamut_xyz c G) as [XR WR]. specialize (WR D65 O2). cbn [white] in WR. destruct (xyz_rows c (in_gamut_to c G)) as ([_ X] & [_ Y] & [_ Z]).
  unfold to_lch, to_lab. cbn [to_xyz to_rgb]. set (x := apply_matrix c RGB_TO_XYZ) in *.
  pose proof (lab_meaning L D65 O2 x AL AA XR) as H. cbn [white] in H. destruct H as ([FL CL] & [FA CA] & [FB CB] & _).
  assert (HR : let '(w0, w1, w2) := white D65 O2 in B2R (d0 x) / w0 <= 14 / 10 /\ B2R (d1 x) / w1 <= 14 / 10 /\ B2R (d2 x) / w2 <= 14 / 10) by (cbn [white]; lra).
  destruct (lab_bound L D65 O2 x AL AA XR HR) as (_ & BA & BB). set (lab := xyz_to_lab L D65 O2 x) in *.
  destruct (radius _ _ BA BB) as (r & R & ER). destruct (polar L lab r AN FA FB ltac:(lra) ER) as ([FC CC] & (t & T & TA & TB & HT) & _).
  exists r, t. split; [exact T|]. split; [lra|]. split. { split; [exact FC|]. lra. } split; [exact HT|].
  apply Rabs_le_iff in X, Y, Z, CL, CA, CB.
  pose proof (curve_between (B2R (d0 x) / (95047 / 100000)) x0 x1 ltac:(lra) ltac:(lra) ltac:(lra) ltac:(lra)) as KX.
  pose proof (curve_between (B2R (d1 x) / 1) y0 y1 ltac:(lra) ltac:(lra) ltac:(lra) ltac:(lra)) as KY.
  pose proof (curve_between (B2R (d2 x) / (108883 / 100000)) z0 z1 ltac:(lra) ltac:(lra) ltac:(lra) ltac:(lra)) as KZ.
  unfold lab_a in CA. unfold lab_b in CB. unfold lab_l in CL. rewrite <- TA, <- TB.
  split; [lra|]. split; [lra|]. split; [exact FL|]. change (d0 (lab_to_lch L lab)) with (d0 lab). lra.
Qed.

(** The way back, for the middle of the range. *)
Lemma lch_back L c a b : accurate_powf L -> accurate_powf_above L -> accurate_angles L -> num (/ 2) 1 (d0 c) -> num 0 1 (d1 c) -> fin (d2 c) -> Rabs (B2R (d2 c)) <= 4 ->
  a = B2R (d1 c) * cos (B2R (d2 c)) -> b = B2R (d1 c) * sin (B2R (d2 c)) -> Rabs a <= / 2 -> Rabs b <= / 2 ->
  let y := (100 * B2R (d0 c) + 16) / 116 in let x := y + 128 * a / 500 in let z := y - 128 * b / 200 in
  let o := to_rgb L (KLch D65 O2) c in x ^ 3 <= 5 / 4 -> z ^ 3 <= 5 / 4 ->
  close (/ 500) (limited (xyz_red (95047 / 100000 * x ^ 3) (y ^ 3) (108883 / 100000 * z ^ 3))) (d0 o).
Proof.
  intros AL AA AN [F0 R0] [F1 R1] F2 R2 -> -> BA BB. cbv zeta. cbn [to_rgb]. unfold to_lab. cbn [to_xyz]. unfold lch_to_xyz. cbv zeta.
  destruct AN as [AN _]. destruct (AN (d2 c) F2 R2) as [[FS CS] [FC CC]].
  assert (M : forall v q, fin v -> Rabs (B2R v - q) <= / 1048576 -> Rabs q <= 1 -> fin (fmul (d1 c) v) /\ Rabs (B2R (fmul (d1 c) v) - B2R (d1 c) * q) <= / 500000).
  { intros v q Fv E Q. destruct (close_mul 2 (/ 16777216) 1 1 0 (/ 1048576) (B2R (d1 c)) q (d1 c) v uo_2 (close_0 _ F1) (conj Fv E) ltac:(rewrite Rabs_pos_eq; lra) Q ltac:(lra)) as [A B]. split; [exact A|]. lra. }
  destruct (M _ _ FC CC ltac:(apply Rabs_le_iff; pose proof (COS_bound (B2R (d2 c))); lra)) as [FA CA].
  destruct (M _ _ FS CS ltac:(apply Rabs_le_iff; pose proof (SIN_bound (B2R (d2 c))); lra)) as [FB CB]. clear M.
  set (a := B2R (d1 c) * cos (B2R (d2 c))) in *. set (b := B2R (d1 c) * sin (B2R (d2 c))) in *. clearbody a b.
  set (lab := mkC (d0 c) (fmul (d1 c) (fcos L (d2 c))) (fmul (d1 c) (fsin L (d2 c))) (alpha c)).
  set (y := (100 * B2R (d0 c) + 16) / 116). set (x := y + 128 * a / 500). set (z := y - 128 * b / 200). intros X3 Z3.
  apply Rabs_le_iff in CA, CB, BA, BB.
  assert (LR : lab_range lab). { split; [auto|]. cbn [d0 d1 d2 lab]. lra. }
  pose proof (xyz_of_lab L D65 O2 lab AL AA LR) as XL. cbn [white] in XL. destruct XL as [([G0 EE0] & [G1 EE1] & [G2 EE2]) _]. change (d0 lab) with (d0 c) in *.
  change (d1 lab) with (fmul (d1 c) (fcos L (d2 c))) in *. change (d2 lab) with (fmul (d1 c) (fsin L (d2 c))) in *. fold y in EE0, EE1, EE2.
  assert (YR : 56 / 100 <= y <= 1) by (unfold y; lra).
  assert (UC : forall p q, Rabs (p - q) <= / 500000 -> 21 / 100 <= q <= 11 / 10 -> 20689303 / 100000000 < p -> Rabs (lab_uncurve p - q ^ 3) <= / 100000).
  { intros p q E Q P. unfold lab_uncurve. destruct Rle_dec as [W|_]; [lra|]. apply Rabs_le_iff in E. cbn [pow]. rewrite !Rmult_1_r.
    replace (p * (p * p) - q * (q * q)) with ((p - q) * (p * p + p * q + q * q)) by ring. assert (0 <= p * p + p * q + q * q <= 5) by nra.
    apply Rabs_le_iff. split; nra. }
  assert (XB : 21 / 100 <= x <= 11 / 10).
  { split; [unfold x; lra|]. destruct (Rle_lt_dec x (11 / 10)); [assumption|exfalso]. assert ((11 / 10) ^ 3 <= x ^ 3) by (apply pow_incr; lra). lra. }
  assert (ZB : 21 / 100 <= z <= 11 / 10).
  { split; [unfold z; lra|]. destruct (Rle_lt_dec z (11 / 10)); [assumption|exfalso]. assert ((11 / 10) ^ 3 <= z ^ 3) by (apply pow_incr; lra). lra. }
  pose proof (UC (y + 128 * B2R (fmul (d1 c) (fcos L (d2 c))) / 500) x ltac:(unfold x; apply Rabs_le_iff; lra) XB ltac:(unfold x in XB; lra)) as UX.
  pose proof (UC y y ltac:(apply Rabs_le_iff; lra) ltac:(lra) ltac:(lra)) as UY.
  pose proof (UC (y - 128 * B2R (fmul (d1 c) (fsin L (d2 c))) / 200) z ltac:(unfold z; apply Rabs_le_iff; lra) ZB ltac:(unfold z in ZB; lra)) as UZ.
  apply Rabs_le_iff in UX, UY, UZ, EE0, EE1, EE2. set (w := lab_to_xyz L D65 O2 lab) in *. clearbody w.
  assert (Y3 : y ^ 3 <= 1) by (rewrite <- (pow1 3); apply pow_incr; lra). assert (0 <= x ^ 3 /\ 0 <= y ^ 3 /\ 0 <= z ^ 3) by (repeat split; apply pow_le; lra).
  assert (XR : xyz_range w) by (split; [auto|]; lra).
  assert (HR : let '(w0, w1, w2) := white D65 O2 in B2R (d0 w) / w0 <= 14 / 10 /\ B2R (d1 w) / w1 <= 14 / 10 /\ B2R (d2 w) / w2 <= 14 / 10) by (cbn [white]; lra).
  destruct (lab_bound L D65 O2 w AL AA XR HR) as (FF & _ & _).
  destruct (lab_and_back L D65 O2 w (xyz_to_lab L D65 O2 w) 0 AL AA XR ltac:(lra) HR) as ([K0 J0] & [K1 J1] & [K2 J2]); auto.
  { rewrite Rminus_diag_eq by reflexivity. rewrite Rabs_R0. lra. } { rewrite Rminus_diag_eq by reflexivity. rewrite Rabs_R0. lra. }
  set (v := lab_to_xyz L D65 O2 (xyz_to_lab L D65 O2 w)) in *. clearbody v. apply Rabs_le_iff in J0, J1, J2.
  destruct (rgb_rows 2 v ltac:(lra)) as (Q & _ & _). { split; [auto|]. split; [|split]; apply Rabs_le_iff; lra. }
  apply close_clamp in Q. eapply close_weak; [eapply close_move; [exact Q|]|].
  2:{ instantiate (1 := / 600). lra. }
  apply limited_lip_e. unfold xyz_red. apply Rabs_le_iff. lra.
Qed.

(** A green and a turquoise, half and half. *)
Lemma quadrant2 t : Rabs t <= PI -> cos t < 0 -> sin t > 0 -> PI / 2 < t <= PI.
Proof.
  intros T C S. apply Rabs_le_iff in T. split; [|lra]. destruct (Rlt_le_dec (PI / 2) t); [assumption|exfalso].
  destruct (Rlt_le_dec t (- (PI / 2))).
  - assert (0 <= sin (- t)) by (apply sin_ge_0; lra). rewrite sin_neg in H. lra.
  - assert (0 <= cos t) by (apply cos_ge_0; lra). lra.
Qed.
Lemma quadrant3 t : Rabs t <= PI -> cos t < 0 -> sin t < 0 -> - PI <= t < - (PI / 2).
Proof. intros T C S. destruct (quadrant2 (- t)); [rewrite Rabs_Ropp; lra|rewrite cos_neg; lra|rewrite sin_neg; lra|]. lra. Qed.
Lemma radius_between r t a0 a1 b0 b1 lo hi : 0 <= r -> a0 <= r * cos t <= a1 -> b0 <= r * sin t <= b1 ->
  0 <= lo -> 0 <= hi -> a1 <= 0 -> 0 <= b0 \/ b1 <= 0 -> lo * lo <= a1 * a1 + Rmin (b0 * b0) (b1 * b1) -> a0 * a0 + Rmax (b0 * b0) (b1 * b1) <= hi * hi -> lo <= r <= hi.
Proof.
  intros R A B L H AN BN LO HI. assert (E : r * r = (r * cos t) * (r * cos t) + (r * sin t) * (r * sin t)).
  { pose proof (sin2_cos2 t) as P. unfold Rsqr in P. replace (r * r) with (r * r * (sin t * sin t + cos t * cos t)) by (rewrite P; ring). ring. }
  set (a := r * cos t) in *. set (b := r * sin t) in *. clearbody a b.
  assert (a1 * a1 <= a * a <= a0 * a0) by nra.
  assert (Rmin (b0 * b0) (b1 * b1) <= b * b <= Rmax (b0 * b0) (b1 * b1)).
  { unfold Rmin, Rmax. repeat destruct Rle_dec; destruct BN; nra. }
  split; nra.
Qed.
Definition green : Rgb := mkC f0 (dec 1 2) (dec 1 4) f1.
Definition turquoise : Rgb := mkC f0 (dec 1 2) (dec 1 2) f1.
Lemma colour_vals : B2R (dec 1 2) = / 2 /\ B2R (dec 1 4) = / 4 /\ B2R f0 = 0 /\ fin (dec 1 2) /\ fin (dec 1 4).
Proof. fval (dec 1 2) H2. fval (dec 1 4) H4. rewrite H2, H4. split; [lra|]. split; [lra|]. split; [reflexivity|]. split; assumption. Qed.
Lemma green_gamut : in_gamut green /\ in_gamut turquoise.
Proof. split; (split; [|split; [|split]]); unfold in01; cbn [d0 d1 d2 d3 alpha]; vm_compute; auto. Qed.
Lemma color_blend_red L : accurate_powf L -> accurate_powf_above L -> accurate_angles L -> / 2 <= B2R (d0 (blend_func L LchColor green turquoise (dec 1 2))).
Proof.
  intros AL AA AN. destruct green_gamut as [G1 G2]. destruct colour_vals as (V2 & V4 & V0 & W2 & W4).
  pose proof (lch_bounds L green (617 / 1000) (618 / 1000) (721 / 1000) (722 / 1000) (648 / 1000) (649 / 1000) AL AA AN G1) as H1.
  pose proof (lch_bounds L turquoise (656 / 1000) (657 / 1000) (7325 / 10000) (7335 / 10000) (7885 / 10000) (7895 / 10000) AL AA AN G2) as H2.
  cbv zeta in H1, H2. unfold green, turquoise in H1, H2. cbn [d0 d1 d2] in H1, H2. rewrite V2, V4, V0 in H1. rewrite V2, V0 in H2. unfold x_of, y_of, z_of in H1, H2. fold green in H1. fold turquoise in H2.
  destruct H1 as (r1 & t1 & T1 & R1 & [FC1 C1] & [FT1 Q1] & HA1 & HB1 & [FL1 L1]); [lra|lra|lra|lra|lra|lra|lra|lra|lra|].
  destruct H2 as (r2 & t2 & T2 & R2 & [FC2 C2] & [FT2 Q2] & HA2 & HB2 & [FL2 L2]); [lra|lra|lra|lra|lra|lra|lra|lra|lra|].
  cbn [blend_func]. unfold blend_lch_color, rgb_lch, lch_rgb. cbv zeta. set (h1 := to_lch L D65 O2 KRgb green) in *. set (h2 := to_lch L D65 O2 KRgb turquoise) in *.
  pose proof (radius_between r1 t1 (-4104 / 10000) (-4022 / 10000) (1124 / 10000) (1158 / 10000) (417 / 1000) (427 / 1000) R1 ltac:(lra) ltac:(lra) ltac:(lra) ltac:(lra) ltac:(lra) ltac:(lra)
    ltac:(unfold Rmin; destruct Rle_dec; lra) ltac:(unfold Rmax; destruct Rle_dec; lra)) as K1.
  pose proof (radius_between r2 t2 (-3029 / 10000) (-2948 / 10000) (-892 / 10000) (-858 / 10000) (3065 / 10000) (316 / 1000) R2 ltac:(lra) ltac:(lra) ltac:(lra) ltac:(lra) ltac:(lra) ltac:(lra)
    ltac:(unfold Rmin; destruct Rle_dec; lra) ltac:(unfold Rmax; destruct Rle_dec; lra)) as K2.
  destruct (quadrant2 t1 T1) as [U1 U2]; [nra|nra|]. destruct (quadrant3 t2 T2) as [U3 U4]; [nra|nra|]. clear HA1 HA2 HB1 HB2.
  pose proof PI_bounds as HP. apply Rabs_le_iff in C1, C2, Q1, Q2.
  assert (NI : num 0 1 (dec 1 2)) by (split; [exact W2|lra]).
  destruct (mix_close 1 (/ 33554432) (d1 h1) (d1 h2) (dec 1 2) uo_1 ltac:(lra) FC1 FC2 ltac:(apply Rabs_le_iff; lra) ltac:(apply Rabs_le_iff; lra) NI) as [FS CS].
  destruct (mix_close 4 (/ 8388608) (d2 h1) (d2 h2) (dec 1 2) uo_4 ltac:(lra) FT1 FT2 ltac:(apply Rabs_le_iff; lra) ltac:(apply Rabs_le_iff; lra) NI) as [FH CH].
  unfold mixed in CS, CH. rewrite V2 in CS, CH. apply Rabs_le_iff in CS, CH.
  set (s := apply_intensity (d1 h1) (d1 h2) (dec 1 2)) in *. set (h := apply_intensity (d2 h1) (d2 h2) (dec 1 2)) in *.
  assert (SB : 361 / 1000 <= B2R s <= 373 / 1000) by lra.
  set (m := (t1 + t2) / 2). assert (HM : Rabs (B2R h - m) <= / 100000) by (unfold m; apply Rabs_le_iff; lra).
  assert (CM : 7071 / 10000 <= cos m <= 1 /\ Rabs (sin m) <= 7072 / 10000).
  { assert (0 <= cos (t1 + t2)) by (apply cos_ge_0; lra). replace (t1 + t2) with (2 * m) in H by (unfold m; lra).
    assert (0 <= cos m) by (apply cos_ge_0; unfold m; lra). pose proof (cos_2a_cos m) as D. pose proof (cos_2a_sin m) as D'. pose proof (COS_bound m).
    split; [split; [nra|lra]|]. apply Rabs_le_iff. split; nra. }
  pose proof (cos_lip (B2R h) m) as CL. pose proof (sin_lip (B2R h) m) as SL. destruct CM as [CM1 CM2]. apply Rabs_le_iff in CM2.
  assert (CH1 : 7070 / 10000 <= cos (B2R h) <= 1). { split; [|apply COS_bound]. pose proof (Rle_trans _ _ _ CL HM) as W. apply Rabs_le_iff in W. lra. }
  assert (SH1 : - (7073 / 10000) <= sin (B2R h) <= 7073 / 10000). { pose proof (Rle_trans _ _ _ SL HM) as W. apply Rabs_le_iff in W. lra. }
  clear CL SL HM CM1 CM2.
  set (c := with_2 (with_1 h1 s) h). assert (D0 : d0 c = d0 h1) by reflexivity. assert (D1 : d1 c = s) by reflexivity. assert (D2 : d2 c = h) by reflexivity. clearbody c.
  assert (AB : 255 / 1000 <= B2R s * cos (B2R h) <= 373 / 1000) by (split; nra). assert (BB : - (264 / 1000) <= B2R s * sin (B2R h) <= 264 / 1000) by (split; nra).
  pose proof (lch_back L c (B2R s * cos (B2R h)) (B2R s * sin (B2R h)) AL AA AN) as K. rewrite D0, D1, D2 in K.
  set (a := B2R s * cos (B2R h)) in *. set (b := B2R s * sin (B2R h)) in *. cbv zeta in K.
  specialize (K ltac:(split; [exact FL1|lra]) ltac:(split; [exact FS|lra]) FH ltac:(apply Rabs_le_iff; lra) eq_refl eq_refl ltac:(apply Rabs_le_iff; lra) ltac:(apply Rabs_le_iff; lra)). clearbody a b.
  set (y := (100 * B2R (d0 h1) + 16) / 116) in *. assert (YB : 7208 / 10000 <= y <= 7222 / 10000) by (unfold y; lra).
  set (x := y + 128 * a / 500) in *. assert (XB : 786 / 1000 <= x <= 82 / 100) by (unfold x; lra).
  set (z := y - 128 * b / 200) in *. assert (ZB : 55 / 100 <= z <= 892 / 1000) by (unfold z; lra).
  assert (X3 : (786 / 1000) ^ 3 <= x ^ 3 <= (82 / 100) ^ 3) by (split; apply pow_incr; lra).
  assert (Y3 : y ^ 3 <= (7222 / 10000) ^ 3) by (apply pow_incr; lra).
  assert (Z3 : z ^ 3 <= (892 / 1000) ^ 3) by (apply pow_incr; lra).
  destruct K as [_ K]; [lra|lra|]. apply Rabs_le_iff in K. apply Rle_trans with (502 / 1000 - / 500); [lra|].
  enough (502 / 1000 <= limited (xyz_red (95047 / 100000 * x ^ 3) (y ^ 3) (108883 / 100000 * z ^ 3))) by lra.
  unfold limited, xyz_red. eapply Rle_trans; [|apply Rmax_r]. apply Rmin_glb; lra.
Qed.
From Verif Require Import IdealPowf IdealLibm.
Lemma full_bounded L : bounded_atan2 (full_libm L).
Proof.
  intros b a Fa Fb. cbn [fatan2 full_libm]. destruct (angle_ok (B2R b) (B2R a)) as (r & H & _). destruct fPI_val as [FP EP]. pose proof PI_bounds.
  destruct (rounded_64 (angle (B2R b) (B2R a)) ltac:(lra)) as [F E]. rewrite E, rnd_abs. apply rnd_hi; [apply fmt_B2R|]. lra.
Qed.
