(** The remaining proofs for C94-C97: greys, white, and the examples. *)
From Coq Require Import Reals Lra Lia ZArith Bool Psatz.
From Flocq Require Import Core.Core IEEE754.BinarySingleNaN.
From Verif Require Import F32 F32Lemmas Color ColorSpec ColorProofs MeaningSpec ConvSpec Approx OpMeaningProofs HslMeaning SrgbMeaning IdealPowf IdealLibm LinearConv LabCurve LabMeaning LchMeaning.
Open Scope R_scope.

Lemma xyz_example_range : channels_to 1 (mkC (dec (-1) 100) (dec 1 2) f1 (dec 1 4)).
Proof.
  fval (dec (-1) 100) A. fval (dec 1 2) B. unfold channels_to. cbn [d0 d1 d2]. split; [auto with fin|]. rewrite A, B, f1_R, opp_IZR.
  repeat split; apply Rabs_le_iff; lra.
Qed.
Lemma yuv_example_range : channels_to 1 (mkC f1 (dec 1 2) f1 f1).
Proof. fval (dec 1 2) B. unfold channels_to. cbn [d0 d1 d2]. split; [auto with fin|]. rewrite B, f1_R. repeat split; apply Rabs_le_iff; lra. Qed.
Lemma curve_1 : lab_curve 1 = 1.
Proof. destruct (curve_high 1 ltac:(lra)) as (-> & _ & _). unfold cube_root, Rpower. now rewrite ln_1, Rmult_0_r, exp_0. Qed.

(** ** Greys *)
Lemma neutral L v a : accurate_powf L -> accurate_powf_above L -> in_gamut (mkC v v v a) ->
  let lab := to_lab L D65 O2 KRgb (mkC v v v a) in
  close (/ 1024) 0 (d1 lab) /\ close (/ 1024) 0 (d2 lab) /\ close (/ 65536) (lab_l (B2R v)) (d0 lab).
Proof.
  intros AL AA G lab. pose proof (gamut_xyz _ G) as [XR _]. pose proof (xyz_rows _ (in_gamut_to _ G)) as ([_ X] & [_ Y] & [_ Z]).
  pose proof (lab_meaning L D65 O2 _ AL AA XR) as H. cbn [white] in H. destruct H as ([FA A] & [FB B] & [FC C] & _).
  change (xyz_to_lab L D65 O2 (apply_matrix (mkC v v v a) RGB_TO_XYZ)) with lab in *. clearbody lab.
  destruct XR as (_ & RX & RY & RZ). set (x := B2R (d0 (apply_matrix (mkC v v v a) RGB_TO_XYZ))) in *. set (y := B2R (d1 (apply_matrix (mkC v v v a) RGB_TO_XYZ))) in *. set (z := B2R (d2 (apply_matrix (mkC v v v a) RGB_TO_XYZ))) in *.
  clearbody x y z. cbn [d0 d1 d2] in X, Y, Z. destruct G as (I & _). cbn [d0] in I. apply in01_R in I. destruct I as [Fv V]. unfold x_of, y_of, z_of in *.
  set (w := B2R v) in *. clearbody w. clear Fv. apply Rabs_le_iff in X, Y, Z, A, B, C. unfold lab_l, lab_a, lab_b, close in *.
  assert (K : forall p q d, 0 <= d -> Rabs (p - q) <= d -> Rabs (lab_curve p - lab_curve q) <= 8 * d + / 3000000).
  { clear. intros p q d D H. apply Rabs_le_iff in H. apply Rabs_le_iff. destruct (Rle_dec p q) as [N|N]; [pose proof (curve_lip p q N); lra|].
    apply Rnot_le_lt in N. pose proof (curve_lip q p ltac:(lra)). lra. }
  pose proof (K (x / (95047 / 100000)) w (17 / 1000000) ltac:(lra) ltac:(apply Rabs_le_iff; lra)) as K1.
  pose proof (K (y / 1) w (/ 2000000) ltac:(lra) ltac:(apply Rabs_le_iff; lra)) as K2.
  pose proof (K (z / (108883 / 100000)) w (72 / 1000000) ltac:(lra) ltac:(apply Rabs_le_iff; lra)) as K3.
  apply Rabs_le_iff in K1, K2, K3. split; [|split]; (split; [assumption|]; apply Rabs_le_iff; lra).
Qed.
Lemma not_neutral L i o a : accurate_powf L -> accurate_powf_above L -> in01 a ->
  let b := d2 (to_lab L i o KRgb (mkC f1 f1 f1 a)) in
  (i <> D65 \/ o <> O2 -> B2R b <= - (7 / 1000)) /\ (i = D50 -> B2R b <= - (15 / 100)).
Proof.
  intros AL AA A b. assert (I1 : in01 f1) by (split; vm_compute; reflexivity).
  assert (G : in_gamut (mkC f1 f1 f1 a)) by (repeat split; first [apply I1 | apply A]).
  pose proof (gamut_xyz _ G) as [XR _]. pose proof (xyz_rows _ (in_gamut_to _ G)) as ([_ X] & [_ Y] & [_ Z]).
  pose proof (lab_meaning L i o _ AL AA XR) as H. cbn [d0 d1 d2] in X, Y, Z. rewrite f1_R in X, Y, Z. unfold x_of, y_of, z_of in *.
  change (xyz_to_lab L i o (apply_matrix (mkC f1 f1 f1 a) RGB_TO_XYZ)) with (to_lab L i o KRgb (mkC f1 f1 f1 a)) in H.
  set (lab := to_lab L i o KRgb (mkC f1 f1 f1 a)) in *. clearbody lab.
  set (y := B2R (d1 (apply_matrix (mkC f1 f1 f1 a) RGB_TO_XYZ))) in *. set (z := B2R (d2 (apply_matrix (mkC f1 f1 f1 a) RGB_TO_XYZ))) in *. clearbody y z.
  apply Rabs_le_iff in Y, Z.
  assert (CY : forall q, q <= 1000001 / 1000000 -> lab_curve q <= 1000001 / 1000000) by (intros q Q; apply curve_le; lra).
  assert (CZ : forall q r, 1 / 2 <= r -> r ^ 3 <= q -> r <= lab_curve q).
  { intros q r R Q. assert (/ 8 <= r ^ 3) by (replace (/ 8) with ((1 / 2) ^ 3) by lra; apply pow_incr; lra).
    destruct (curve_high q ltac:(lra)) as (-> & _ & _). apply cube_root_ge; lra. }
  destruct i, o; cbn [white] in H; destruct H as (_ & _ & [_ B] & _); unfold b; clear b; unfold lab_b in B; apply Rabs_le_iff in B; pose proof (CY (y / 1) ltac:(lra)) as C1.
  - pose proof (CZ (z / (8251883 / 10000000)) (10967 / 10000) ltac:(lra) ltac:(lra)). split; intros; lra.
  - pose proof (CZ (z / (81428015 / 100000000)) (110 / 100) ltac:(lra) ltac:(lra)). split; intros; lra.
  - split; intros Q; [destruct Q as [Q|Q]; now elim Q | discriminate].
  - pose proof (CZ (z / (10730513 / 10000000)) (10048 / 10000) ltac:(lra) ltac:(lra)). split; [intros; lra | discriminate].
  - pose proof (CZ (z / 1) (102 / 100) ltac:(lra) ltac:(lra)). split; [intros; lra | discriminate].
  - pose proof (CZ (z / 1) (102 / 100) ltac:(lra) ltac:(lra)). split; [intros; lra | discriminate].
Qed.
Lemma lab_example_holds :
  (forall L, accurate_powf (full_libm L) /\ accurate_powf_above (full_libm L)) /\ in_gamut (mkC (dec 1 100) (dec 1 2) f1 (dec 1 4)) /\
  xyz_range (mkC (dec 9 10) (dec 1 2) f1 f1) /\ lab_range (mkC (dec 1 2) (dec 1 2) (dec (-1) 2) f1) /\
  lab_l 0 = 0 /\ lab_l 1 = 1 /\ lab_a 1 1 = 0 /\ lab_b (27 / 64) 1 = - (50 / 128).
Proof.
  split; [intros L; split; [exact (full_accurate L) | exact (full_above L)]|]. split; [repeat split; vm_compute; reflexivity|].
  split. { fval (dec 9 10) A. fval (dec 1 2) B. unfold xyz_range. cbn [d0 d1 d2]. split; [auto with fin|]. rewrite A, B, f1_R. lra. }
  split. { fval (dec (-1) 2) A. fval (dec 1 2) B. unfold lab_range. cbn [d0 d1 d2]. split; [auto with fin|]. rewrite A, B, opp_IZR. lra. }
  unfold lab_l, lab_a, lab_b. rewrite curve_1. split; [rewrite curve_low by lra; lra|]. split; [lra|]. split; [lra|].
  destruct (curve_high (27 / 64) ltac:(lra)) as (-> & _ & _).
  assert (cube_root (27 / 64) <= 3 / 4) by (apply cube_root_le; lra). assert (3 / 4 <= cube_root (27 / 64)) by (apply cube_root_ge; lra). lra.
Qed.

(** ** LCh *)
Lemma lch_polar L i o k c : accurate_angles L ->
  let lab := to_lab L i o k c in let lch := to_lch L i o k c in lab_range lab ->
  let a := B2R (d1 lab) in let b := B2R (d2 lab) in
  d0 lch = d0 lab /\ d3 lch = d3 lab /\ close (/ 262144) (sqrt (a * a + b * b)) (d1 lch) /\
  exists t, Rabs t <= PI /\ a = sqrt (a * a + b * b) * cos t /\ b = sqrt (a * a + b * b) * sin t /\ close (/ 1048576) t (d2 lch).
Proof.
  intros AN lab lch LR a b. unfold lch, to_lch. fold lab. destruct LR as ((F0 & F1 & F2) & R0 & R1 & R2).
  split; [reflexivity|]. split; [reflexivity|].
  assert (S : 0 <= a * a + b * b) by nra. assert (B : 0 <= sqrt (a * a + b * b) <= 10).
  { split; [apply sqrt_pos|]. rewrite <- (sqrt_square 10) by lra. apply sqrt_le_1_alt. unfold a, b. nra. }
  destruct (polar L lab (sqrt (a * a + b * b)) AN F1 F2 B) as ((FC & C) & T & _). { now apply sqrt_sqrt. }
  split; [split; [exact FC|]; lra | exact T].
Qed.
Lemma lch_example_holds :
  (forall L, accurate_powf (full_libm L) /\ accurate_powf_above (full_libm L) /\ accurate_angles (full_libm L)) /\
  in_gamut (mkC (dec 1 100) (dec 1 2) f1 (dec 1 4)) /\
  (forall L, lab_range (to_lab (full_libm L) D65 O2 KRgb (mkC f1 f1 f1 f1))).
Proof.
  split; [intros L; split; [exact (full_accurate L) | split; [exact (full_above L) | exact (full_angles L)]]|].
  split; [repeat split; vm_compute; reflexivity|]. intros L.
  assert (I1 : in01 f1) by (split; vm_compute; reflexivity). assert (G : in_gamut (mkC f1 f1 f1 f1)) by (repeat split; apply I1).
  destruct (neutral (full_libm L) f1 f1 (full_accurate L) (full_above L) G) as ([FA A] & [FB B] & [FC C]).
  set (lab := to_lab (full_libm L) D65 O2 KRgb (mkC f1 f1 f1 f1)) in *. clearbody lab. rewrite f1_R in C. unfold lab_l in C. rewrite curve_1 in C.
  apply Rabs_le_iff in A, B, C. split; [auto|]. lra.
Qed.
