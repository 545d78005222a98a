(** Proofs for C113: vibrance. *)
From Coq Require Import Reals Lra Lia ZArith Bool Psatz.
From Flocq Require Import Core.Core IEEE754.BinarySingleNaN.
From Verif Require Import F32 F32Lemmas Color ColorSpec ColorProofs MeaningSpec Approx OpMeaningProofs HslMeaning HslOps LchMeaning BlendMeaning LanczosSpec RoundTripProofs TintProofs DrawSpec.
Open Scope R_scope.

Lemma half_turn_close L v : accurate_sine L -> in01 v -> close (/ 131072) (sin (PI * B2R v)) (fsin L (fmul v fPI)).
Proof.
  intros A V. apply in01_R in V. destruct V as [F B]. destruct fPI_val as [FP EP]. pose proof PI_bounds as PB.
  destruct (fmul_ok v fPI 4 F FP) as [Fw Ew]. { apply (uo_fmt _ _ uo_4). } { rewrite EP, Rabs_pos_eq; nra. }
  assert (E1 : Rabs (rnd (B2R v * B2R fPI) - B2R v * B2R fPI) <= / 8388608). { apply (uo_err _ _ _ uo_4). rewrite EP, Rabs_pos_eq; nra. }
  rewrite <- Ew in E1. set (w := fmul v fPI) in *. clearbody w.
  assert (D : Rabs (B2R w - PI * B2R v) <= / 4000000).
  { apply Rabs_le_iff in E1. apply Rabs_le_iff. rewrite EP in E1. nra. }
  assert (W : Rabs (B2R w) <= 32 / 10). { apply Rabs_le_iff in D. apply Rabs_le_iff. nra. }
  destruct (A w Fw) as [Fs Cs]; [lra|]. rewrite (pow_IZR 2 19) in Cs. change (IZR (2 ^ Z.of_nat 19)) with 524288 in Cs.
  split; [exact Fs|]. pose proof (sin_lip (B2R w) (PI * B2R v)) as SL.
  apply Rabs_le_iff in Cs. assert (SL' : Rabs (sin (B2R w) - sin (PI * B2R v)) <= / 4000000) by lra. apply Rabs_le_iff in SL'. apply Rabs_le_iff. lra.
Qed.

Lemma boost_close L v : accurate_sine L -> in01 v ->
  close (/ 80000) (Rmin (3 / 2 * sin (PI * B2R v)) 1) (fmin (fmul (fsin L (fmul v fPI)) (dec 15 10)) f1).
Proof.
  intros A V. destruct (half_turn_close L v A V) as [F E]. set (s := fsin L (fmul v fPI)) in *. clearbody s. fval (dec 15 10) K.
  pose proof (SIN_bound (PI * B2R v)) as SB. apply Rabs_le_iff in E.
  assert (S2 : Rabs (B2R s * B2R (dec 15 10)) <= 2) by (rewrite K; apply Rabs_le_iff; lra).
  destruct (fmul_ok s (dec 15 10) 2) as [Fm Em]; auto. { apply (uo_fmt _ _ uo_2). }
  pose proof (uo_err _ _ _ uo_2 S2) as Er. rewrite <- Em, K in Er. apply Rabs_le_iff in Er.
  destruct (fmin_val (fmul s (dec 15 10)) f1 Fm) as [Fn En]; auto with fin. split; [exact Fn|]. rewrite En, f1_R. apply Rabs_le_iff.
  unfold Rmin. repeat destruct Rle_dec; lra.
Qed.
Lemma vibrant_close L f h s : accurate_sine L -> in01 h -> in01 s -> fin f -> Rabs (B2R f) <= 1000 ->
  let o := fmax (fmin (fadd s (fmul (fsin L (fmul s fPI)) (fmul f (fmin (fmul (fsin L (fmul h fPI)) (dec 15 10)) f1)))) f1) f0 in
  in01 o /\ close ((1 + Rabs (B2R f)) / 40000) (vibrant (B2R f) (B2R h) (B2R s))
    o.
Proof.
  cbv zeta. intros A H S Ff Bf. destruct (boost_close L h A H) as [F1 E1]. destruct (half_turn_close L s A S) as [F2 E2].
  unfold vibrant. set (x := fsin L (fmul s fPI)) in *. set (m := fmin _ f1) in *. clearbody x m.
  apply in01_R in S. destruct S as [Fs Bs].
  pose proof (SIN_bound (PI * B2R s)) as B2. pose proof (SIN_bound (PI * B2R h)) as B1.
  set (X := sin (PI * B2R s)) in *. set (M := Rmin (3 / 2 * sin (PI * B2R h)) 1) in *.
  assert (BM : Rabs M <= 3 / 2). { unfold M. apply Rabs_le_iff. unfold Rmin. destruct Rle_dec; lra. }
  clearbody M X. clear B1. set (a := Rabs (B2R f)) in *. assert (A0 : 0 <= a) by apply Rabs_pos.
  assert (Em : Rabs (B2R m) <= 151 / 100). { apply Rabs_le_iff in E1, BM. apply Rabs_le_iff. lra. }
  destruct (mul_big f m (a * (151 / 100))) as [Fq Eq]; auto. { apply abs_mul_le; [apply Rle_refl|exact Em]. } { lra. }
  pose proof p140 as P140.
  assert (Eq' : Rabs (B2R (fmul f m) - B2R f * M) <= a * / 79000 + / 1000000000000).
  { replace (B2R (fmul f m) - B2R f * M) with ((B2R (fmul f m) - B2R f * B2R m) + B2R f * (B2R m - M)) by ring.
    eapply Rle_trans; [apply Rabs_triang|]. assert (Rabs (B2R f * (B2R m - M)) <= a * / 80000) by (apply abs_mul_le; [apply Rle_refl|exact E1]). lra. }
  assert (BQ : Rabs (B2R f * M) <= a * (3 / 2)) by (apply abs_mul_le; [apply Rle_refl|exact BM]).
  set (q := fmul f m) in *. clearbody q.
  assert (Bq : Rabs (B2R q) <= a * (152 / 100) + / 1000000). { apply Rabs_le_iff in Eq', BQ. apply Rabs_le_iff. lra. }
  assert (Bx : Rabs (B2R x) <= 101 / 100). { apply Rabs_le_iff in E2. apply Rabs_le_iff. lra. }
  destruct (mul_big x q ((101 / 100) * (a * (152 / 100) + / 1000000))) as [Ft Et]; auto. { apply abs_mul_le; auto. } { lra. }
  set (t := fmul x q) in *. clearbody t.
  assert (Et' : Rabs (B2R t - X * (B2R f * M)) <= a * / 41000 + / 100000000).
  { replace (B2R t - X * (B2R f * M)) with ((B2R t - B2R x * B2R q) + ((B2R x - X) * B2R q + X * (B2R q - B2R f * M))) by ring.
    eapply Rle_trans; [apply Rabs_triang|]. eapply Rle_trans; [apply Rplus_le_compat_l, Rabs_triang|].
    assert (Rabs ((B2R x - X) * B2R q) <= / 131072 * (a * (152 / 100) + / 1000000)) by (apply abs_mul_le; auto).
    assert (Rabs (X * (B2R q - B2R f * M)) <= 1 * (a * / 79000 + / 1000000000000)) by (apply abs_mul_le; auto; apply Rabs_le_iff; lra). lra. }
  assert (BX : Rabs (X * (B2R f * M)) <= 1 * (a * (3 / 2))) by (apply abs_mul_le; auto; apply Rabs_le_iff; lra).
  assert (Bt : Rabs (B2R s + B2R t) <= 2048). { apply Rabs_le_iff in Et', BX. apply Rabs_le_iff. lra. }
  destruct (fadd_ok s t 4096) as [Fr Er]; auto. { apply (uo_fmt _ _ uo_4k). } { lra. }
  pose proof (rnd_rel_abs (B2R s + B2R t)) as R1. rewrite <- Er in R1. set (r := fadd s t) in *. clearbody r.
  assert (R2 : Rabs (B2R s + B2R t) <= 2 + a * 2). { apply Rabs_le_iff in Et', BX. apply Rabs_le_iff. lra. }
  destruct (fmin_val r f1 Fr) as [Fn En]; auto with fin. destruct (fmax_val _ f0 Fn) as [Fo Eo]; auto with fin. rewrite En, f0_R, f1_R in Eo.
  replace (Rmax (Rmin (B2R r) 1) 0) with (limited (B2R r)) in Eo by (unfold limited; apply Rmax_comm).
  split. { apply in01_num. split; [exact Fo|]. rewrite Eo. apply limited_range. } split; [exact Fo|]. rewrite Eo.
  apply limited_lip_e. apply Rabs_le_iff in Et', R1. apply Rabs_le_iff. lra.
Qed.
Lemma vibrance_meaning L f c : accurate_sine L -> in_gamut c -> fin f -> Rabs (B2R f) <= 1000 ->
  let h := rgb_to_hsl c in
  is_hsl ((1 + Rabs (B2R f)) / 32768) (B2R (d0 h)) (vibrant (B2R f) (B2R (d0 h)) (B2R (d1 h))) (B2R (d2 h)) (with_vibrance L f c) /\ d3 (with_vibrance L f c) = f1.
Proof.
  intros A G F B. cbv zeta. destruct (rgb_to_hsl_range c G) as (R0 & R1 & R2 & _).
  pose proof (vibrant_close L f _ _ A R0 R1 F B) as K. unfold with_vibrance. cbv zeta in K |- *.
  set (s := fmax _ f0) in *. clearbody s. destruct K as [I K].
  apply (hsl_set (mkC f0 f0 f0 f1) _ _ _ 0 ((1 + Rabs (B2R f)) / 40000) 0); auto using circ_0, abs_0; try (now apply in01_R); try apply limited_range.
  - repeat split; reflexivity.
  - apply K.
  - pose proof (Rabs_pos (B2R f)). lra.
Qed.
