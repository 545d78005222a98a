(** Darker and brighter: proofs for C124. *)
From Coq Require Import Reals Lra Lia ZArith List Bool String.
From Flocq Require Import Core.Core IEEE754.BinarySingleNaN.
From Verif Require Import Base PixelBuffer BufferSpec F32 Color ColorSpec Codec CodecSpec Image Commands CommandsSpec Cli CliSpec Ops OpsSpec Kernel KernelSpec
  MeaningSpec IdealPowf StretchSpec ReopenSpec ResaveSpec EndSpec OrderSpec PixelBufferProofs F32Lemmas ColorProofs Approx OpMeaningProofs OpsProofs QuantProofs StretchProofs
  HslOps CommandsProofs BaseLemmas HistogramProofs GaussProofs Gauss2Proofs SrgbMeaning ReopenProofs EndProofs OrderFloat.
Import ListNotations.
Open Scope R_scope.

Lemma in01_fin x : in01 x -> fin x.
Proof. intros H. apply in01_R in H. apply H. Qed.
Lemma mid_fin : fin (dec 1 2). Proof. reflexivity. Qed.
Lemma in01_nn x : in01 x -> is_nan x = false.
Proof. intros H. apply fin_not_nan, in01_fin, H. Qed.
Lemma fle_not_nan x y : fle x y = true -> is_nan x = false /\ is_nan y = false.
Proof. destruct x as [|[]| |], y as [|[]| |]; try discriminate; auto. Qed.
Lemma clamp_01 v : is_nan v = false -> in01 (clamp v).
Proof. apply clamp_in01. Qed.

(** A channelwise function whose curve is a clamped one. *)
Lemma curve_up (h : f32 -> f32) : (forall v, in01 v -> is_nan (h v) = false) ->
  (forall v w, in01 v -> in01 w -> fle v w = true -> fle (h v) (h w) = true) -> tone_curve true (map_channels h).
Proof.
  intros N M. exists (fun v => clamp (h v)). split; [intros v V; apply clamp_01; auto|]. split; [|reflexivity].
  intros v w V W H. apply clamp_le; auto.
Qed.
Lemma curve_down (h : f32 -> f32) : (forall v, in01 v -> is_nan (h v) = false) ->
  (forall v w, in01 v -> in01 w -> fle v w = true -> fle (h w) (h v) = true) -> tone_curve false (map_channels h).
Proof.
  intros N M. exists (fun v => clamp (h v)). split; [intros v V; apply clamp_01; auto|]. split; [|reflexivity].
  intros v w V W H. apply clamp_le; auto.
Qed.

Lemma brightness_curve k : fin k -> tone_curve true (with_brightness k).
Proof.
  intros F. apply curve_up.
  - intros v V. apply fadd_key; auto using in01_fin.
  - intros v w V W H. apply fadd_le; auto using in01_fin.
Qed.
(** The sum of a channel and a number does not overflow. *)
Lemma sum_finite (v k : f32) : Rabs (B2R v) <= 2 -> fin v -> fin k -> fin (fadd v k).
Proof.
  intros V Fv Fk. destruct (fadd_key v k Fv Fk) as [N K].
  assert (B : Rabs (rnd (B2R v + B2R k)) < top).
  { set (x := B2R v + B2R k).
    assert (M : Rabs (B2R k) <= bpow radix2 128 - bpow radix2 104).
    { change 104%Z with (128 - 24)%Z. apply (abs_B2R_le_emax_minus_prec 24 128). reflexivity. }
    assert (E : Rabs x <= bpow radix2 128 - bpow radix2 104 + 2) by (unfold x; eapply Rle_trans; [apply Rabs_triang|]; lra).
    assert (T : bpow radix2 104 = 20282409603651670423947251286016) by (rewrite <- IZR_Zpower by lia; reflexivity).
    assert (X : Rabs x < bpow radix2 128) by lra.
    assert (H : Rabs (rnd x - x) <= / 2 * ulp radix2 fx x) by (unfold rnd; apply error_le_half_ulp; typeclasses eauto).
    assert (U : ulp radix2 fx x <= bpow radix2 104).
    { destruct (Req_dec x 0) as [Z|Z].
      - rewrite Z. apply Rle_trans with (ulp radix2 fx (bpow radix2 127)).
        + apply ulp_le; [typeclasses eauto|typeclasses eauto|]. rewrite Rabs_R0. apply Rabs_pos.
        + rewrite ulp_bpow. apply bpow_le. unfold fx, SpecFloat.fexp, SpecFloat.emin. lia.
      - rewrite ulp_neq_0 by exact Z. apply bpow_le. unfold cexp.
        pose proof (mag_le_bpow radix2 x 128 Z X) as MB. unfold fx, SpecFloat.fexp, SpecFloat.emin. lia. }
    replace (rnd x) with (x + (rnd x - x)) by ring. eapply Rle_lt_trans; [apply Rabs_triang|]. unfold top. lra. }
  destruct (fadd v k) as [s|s| |s m e c] eqn:E; try reflexivity; try discriminate N.
  exfalso. rewrite sat_id in K by lra. apply Rabs_def2 in B. destruct s; cbn [key] in K; lra.
Qed.
Lemma contrast_up k : fin k -> 0 <= B2R k -> tone_curve true (with_contrast k).
Proof.
  intros F P.
  assert (Fm : forall v, in01 v -> fin (fsub v (dec 1 2))).
  { intros v V. apply in01_R in V. destruct V as [Fv V]. destruct (fsub_ok v (dec 1 2) 1) as [A _]; auto with fin fmt. fval (dec 1 2) H. rewrite H. apply Rabs_le_iff. lra. }
  apply curve_up.
  - intros v V. apply fadd_key_inf; [|exact mid_fin]. apply fmul_key; auto.
  - intros v w V W H. apply fadd_le_inf; [apply fmul_key; auto|apply fmul_key; auto|exact mid_fin|].
    apply fmul_le; auto. apply fsub_le; auto using in01_fin, mid_fin.
Qed.
Lemma contrast_down k : fin k -> B2R k <= 0 -> tone_curve false (with_contrast k).
Proof.
  intros F P.
  assert (Fm : forall v, in01 v -> fin (fsub v (dec 1 2))).
  { intros v V. apply in01_R in V. destruct V as [Fv V]. destruct (fsub_ok v (dec 1 2) 1) as [A _]; auto with fin fmt. fval (dec 1 2) H. rewrite H. apply Rabs_le_iff. lra. }
  apply curve_down.
  - intros v V. apply fadd_key_inf; [|exact mid_fin]. apply fmul_key; auto.
  - intros v w V W H. apply fadd_le_inf; [apply fmul_key; auto|apply fmul_key; auto|exact mid_fin|].
    apply fmul_ge; auto. apply fsub_le; auto using in01_fin, mid_fin.
Qed.
Lemma fsub_finite (v k : f32) : fin v -> Rabs (B2R k) <= 2 -> fin k -> fin (fsub v k).
Proof.
  intros Fv V Fk. destruct (fsub_key v k Fv Fk) as [N K].
  assert (B : fin (fadd (fneg k) v)) by (apply sum_finite; auto; [unfold fneg; rewrite B2R_Bopp, Rabs_Ropp; exact V|unfold fin, fneg in *; destruct k; auto]).
  destruct (fadd_key (fneg k) v) as [N' K']; auto. { unfold fin, fneg in *; destruct k; auto. }
  assert (E : key (fsub v k) = key (fadd (fneg k) v)). { rewrite K, K'. unfold fneg. rewrite B2R_Bopp. do 2 f_equal. lra. }
  rewrite (key_fin _ B) in E. pose proof (fin_top (fadd (fneg k) v)) as T. apply Rabs_def2 in T.
  destruct (fsub v k) as [s|s| |s m e c] eqn:Q; try reflexivity; try discriminate N.
  exfalso. destruct s; cbn [key] in E; lra.
Qed.
Lemma brightness_contrast_curve b k : fin b -> fin k -> (0 <= B2R k -> tone_curve true (with_brightness_contrast b k)) /\ (B2R k <= 0 -> tone_curve false (with_brightness_contrast b k)).
Proof.
  intros Fb Fk.
  assert (Fs : forall v, in01 v -> fin (fadd v b)).
  { intros v V. apply in01_R in V. destruct V as [Fv V]. apply sum_finite; auto. apply Rabs_le_iff. lra. }
  assert (Fm : forall v, in01 v -> fin (fsub (fadd v b) (dec 1 2))).
  { intros v V. apply fsub_finite; auto; [|exact mid_fin]. fval (dec 1 2) H. rewrite H. apply Rabs_le_iff. lra. }
  split; intros P; [apply curve_up|apply curve_down].
  1,3: intros v V; apply fadd_key_inf; [|exact mid_fin]; apply fmul_key; auto.
  all: intros v w V W H; apply fadd_le_inf; [apply fmul_key; auto|apply fmul_key; auto|exact mid_fin|].
  1: apply fmul_le; auto. 2: apply fmul_ge; auto.
  all: apply fsub_le; auto using mid_fin; apply fadd_le; auto using in01_fin.
Qed.
Lemma invert_curve : tone_curve false invert.
Proof.
  exists (fun v => fsub f1 v). split; [|split].
  - intros v V. apply in01_R in V. destruct V as [F V]. apply in01_num. destruct (fsub_ok f1 v 1) as [A B]; auto with fin fmt. { rewrite f1_R. apply Rabs_le_iff. lra. }
    split; [exact A|]. rewrite B, f1_R. split; [apply rnd_lo|apply rnd_hi]; auto with fmt; lra.
  - intros v w V W H. apply fsub_le_r; auto using in01_fin with fin.
  - reflexivity.
Qed.

Lemma fle_tr x y z : fle x y = true -> fle y z = true -> fle x z = true.
Proof.
  intros A B. destruct (fle_not_nan _ _ A) as [Nx Ny], (fle_not_nan _ _ B) as [_ Nz].
  apply fle_key in A, B; auto. apply fle_key; auto. lra.
Qed.
Lemma Forall2_impl' {A B} (P Q : A -> B -> Prop) l l' : (forall a b, P a b -> Q a b) -> Forall2 P l l' -> Forall2 Q l l'.
Proof. intros H F. induction F; constructor; auto. Qed.

(** Powers *)
Section Powers.
Variable L : libm.
Hypothesis MP : monotone_powf L.
Hypothesis BP : bounded_powf L.
Lemma inv_pos g : usual_gamma g -> fin (fdiv f1 g) /\ 0 < B2R (fdiv f1 g).
Proof.
  intros U. destruct (inv_close g U) as (A & _ & B). destruct U as [_ U]. split; [exact A|]. apply Rabs_le_iff in B.
  assert (0 < / B2R g) by (apply Rinv_0_lt_compat; lra). lra.
Qed.
Lemma powf_01 x y : in01 x -> fin y -> 0 < B2R y -> in01 (powf L x y).
Proof. intros X F P. exact (BP x y X F P). Qed.
Lemma powf_le x x' y : in01 x -> in01 x' -> fle x x' = true -> fin y -> 0 < B2R y -> fle (powf L x y) (powf L x' y) = true.
Proof. intros X X' H F P. apply MP; auto; [apply X|apply X']. Qed.

Lemma gamma_curve g : usual_gamma g -> tone_curve true (with_gamma L g).
Proof.
  intros U. destruct (inv_pos g U) as [F P]. apply curve_up.
  - intros v V. apply in01_nn, powf_01; auto. apply clamp_01, in01_nn, V.
  - intros v w V W H. apply powf_le; auto; try (apply clamp_01, in01_nn; auto). apply clamp_le; auto using in01_nn.
Qed.
Lemma level_factor b w : in01 b -> in01 w -> fle b w = true ->
  let f := if flt (fabs (fsub w b)) f32_EPSILON then fdiv f1 EPSILON else fdiv f1 (fsub w b) in fin f /\ 0 <= B2R f.
Proof.
  intros Hb Hw H. cbv zeta. apply in01_R in Hb, Hw. destruct Hb as [Fb B], Hw as [Fw W]. apply fle_R in H; auto.
  destruct (flt (fabs (fsub w b)) f32_EPSILON) eqn:E.
  - destruct eps_factor as [A C]. split; [exact A|]. apply Rabs_le_iff in C. lra.
  - destruct (fsub_ok w b 1) as [A1 A2]; auto with fin fmt. { apply Rabs_le_iff. lra. }
    assert (A3 : 0 <= B2R (fsub w b)) by (rewrite A2; apply rnd_lo; auto with fmt; lra).
    apply flt_Rf in E; [|now apply fabs_fin|reflexivity]. rewrite fabs_R, Rabs_right in E by lra.
    fval f32_EPSILON HE. rewrite HE in E. set (d := fsub w b) in *.
    assert (P : / 8388608 <= B2R d) by lra.
    assert (J : 0 < / B2R d <= 8388608).
    { split; [apply Rinv_0_lt_compat; lra|]. rewrite <- (Rinv_inv 8388608). apply Rinv_le_contravar; lra. }
    destruct (fdiv_ok f1 d 8388608) as [A4 A5]; auto with fin. { lra. } { apply fmt_IZR; lia. }
    { rewrite f1_R. unfold Rdiv. rewrite Rmult_1_l, Rabs_right; lra. }
    split; [exact A4|]. rewrite A5. apply rnd_lo; auto with fmt. rewrite f1_R. unfold Rdiv. lra.
Qed.
Lemma level_curve b w g : in01 b -> in01 w -> fle b w = true -> usual_gamma g -> tone_curve true (with_level L b w g).
Proof.
  intros Hb Hw H U. destruct (inv_pos g U) as [F P]. destruct (level_factor b w Hb Hw H) as [Ff Pf].
  assert (Fm : forall v, in01 v -> fin (fsub v b)).
  { intros v V. apply fsub_finite; auto using in01_fin. apply in01_R in Hb. apply Rabs_le_iff. lra. }
  assert (N : forall v, in01 v -> is_nan (fmul (fsub v b) (if flt (fabs (fsub w b)) f32_EPSILON then fdiv f1 EPSILON else fdiv f1 (fsub w b))) = false).
  { intros v V. apply fmul_key; auto. }
  apply curve_up; unfold level_value; cbv zeta.
  - intros v V. apply in01_nn, powf_01; auto. apply clamp_01; auto.
  - intros v w' V W' H'. apply powf_le; auto; try (apply clamp_01; auto). apply clamp_le; auto.
    apply fmul_le; auto. apply fsub_le; auto using in01_fin.
Qed.
Lemma gamma_opt_curve g : usual_gamma g -> tone_curve true (with_gamma_opt L g).
Proof.
  intros U. destruct (inv_pos g U) as [F P].
  assert (Fg : fin (fmul f1 g) /\ 0 < B2R (fmul f1 g)).
  { destruct U as [Fg G]. destruct (fmul_ok f1 g 1000) as [A B]; auto with fin. { apply fmt_IZR; lia. } { rewrite f1_R, Rmult_1_l, Rabs_right; lra. }
    split; [exact A|]. rewrite B, f1_R, Rmult_1_l. rewrite rnd_id; [lra|]. apply fmt_B2R. }
  destruct Fg as [Fg Pg].
  assert (F2 : fin f2) by reflexivity. assert (R2 : B2R f2 = 2) by (fval f2 H; rewrite H; lra).
  assert (Rm : B2R (dec 1 2) = / 2) by (fval (dec 1 2) H; rewrite H; lra).
  assert (Nu : forall v, in01 v -> is_nan (fmul (fsub v (dec 1 2)) f2) = false).
  { intros v V. apply fmul_key; auto. apply fsub_finite; auto using in01_fin, mid_fin. rewrite Rm. apply Rabs_le_iff. lra. }
  assert (Nl : forall v, in01 v -> is_nan (fmul v f2) = false) by (intros v V; apply fmul_key; auto using in01_fin).
  assert (Hf : forall x, in01 x -> fin (fdiv x f2) /\ 0 <= B2R (fdiv x f2) <= / 2).
  { intros x X. apply in01_R in X. destruct X as [Fx X]. assert (G : fmt (/ 2)) by (rewrite <- Rm; apply fmt_B2R). destruct (fdiv_ok x f2 (/ 2)) as [A B]; auto. { lra. } { rewrite R2, Rabs_right; lra. }
    split; [exact A|]. rewrite B, R2. split; [apply rnd_lo|apply rnd_hi]; auto with fmt; lra. }
  set (up := fun v => fdiv (powf L (clamp (fmul (fsub v (dec 1 2)) f2)) (fdiv f1 g)) f2).
  set (lo := fun v => fdiv (powf L (clamp (fmul v f2)) (fmul f1 g)) f2).
  assert (Vu : forall v, in01 v -> fin (up v) /\ 0 <= B2R (up v) <= / 2) by (intros v V; apply Hf, powf_01; auto; apply clamp_01; auto).
  assert (Vl : forall v, in01 v -> fin (lo v) /\ 0 <= B2R (lo v) <= / 2) by (intros v V; apply Hf, powf_01; auto; apply clamp_01; auto).
  assert (Ru : forall v, in01 v -> fin (fadd (up v) (dec 1 2)) /\ / 2 <= B2R (fadd (up v) (dec 1 2))).
  { intros v V. destruct (Vu v V) as [Fu B]. destruct (fadd_ok (up v) (dec 1 2) 1) as [A C]; auto using mid_fin with fmt. { rewrite Rm. apply Rabs_le_iff. lra. }
    split; [exact A|]. rewrite C, Rm. apply rnd_lo; [rewrite <- Rm; apply fmt_B2R|lra]. }
  unfold with_gamma_opt. apply curve_up.
  - intros v V. destruct (flt (dec 1 2) v); apply fin_not_nan; [apply Ru, V|apply Vl, V].
  - intros v w V W H. destruct (flt (dec 1 2) v) eqn:Ev, (flt (dec 1 2) w) eqn:Ew.
    + apply fadd_le; [apply Vu, V|apply Vu, W|exact mid_fin|]. apply fdiv_le; auto; try (rewrite R2; lra); try (apply in01_fin, powf_01; auto; apply clamp_01; auto).
      apply powf_le; auto; try (apply clamp_01; auto). apply clamp_le; auto. apply fmul_le; auto; try (rewrite R2; lra).
      1,2: apply fsub_finite; auto using in01_fin, mid_fin; rewrite Rm; apply Rabs_le_iff; lra.
      apply fsub_le; auto using in01_fin, mid_fin.
    + exfalso. apply flt_R in Ev; auto using in01_fin, mid_fin. apply flt_Rf in Ew; auto using in01_fin, mid_fin. apply fle_R in H; auto using in01_fin. lra.
    + destruct (Vl v V) as [A B], (Ru w W) as [A' B']. apply fle_R; [exact A|exact A'|]. exact (Rle_trans _ _ _ (proj2 B) B').
    + apply fdiv_le; auto; try (rewrite R2; lra); try (apply in01_fin, powf_01; auto; apply clamp_01; auto).
      apply powf_le; auto; try (apply clamp_01; auto). apply clamp_le; auto. apply fmul_le; auto using in01_fin. rewrite R2; lra.
Qed.
End Powers.

(** Composition *)
Lemma curve_same : tone_curve true (fun c => c).
Proof. exists (fun v => v). split; [auto|]. split; [auto|]. intros [] _. reflexivity. Qed.
Lemma curve_gamut up f c : tone_curve up f -> in_gamut c -> in_gamut (f c) /\ d3 (f c) = d3 c.
Proof.
  intros (h & A & _ & B) G. rewrite (B c G). destruct G as (G0 & G1 & G2 & G3). split; [|reflexivity].
  split; [|split; [|split]]; cbn [d0 d1 d2 d3]; auto.
Qed.
Lemma curve_then u1 u2 f g : tone_curve u1 f -> tone_curve u2 g -> tone_curve (Bool.eqb u1 u2) (fun c => g (f c)).
Proof.
  intros F. pose proof F as (h & A1 & M1 & B1). intros (k & A2 & M2 & B2). exists (fun v => k (h v)). split; [auto|]. split.
  - intros v w V W H. pose proof (M1 v w V W H) as Q. destruct u1, u2; cbn [Bool.eqb]; apply M2; auto.
  - intros c G. rewrite B2 by apply (curve_gamut u1 f c F G). rewrite B1 by exact G. reflexivity.
Qed.

(** ** Colours of several channels *)
Lemma fmax_le a a' b b' : fin a -> fin a' -> fin b -> fin b' -> fle a a' = true -> fle b b' = true -> fle (fmax a b) (fmax a' b') = true.
Proof.
  intros A A' B B' H K. destruct (fmax_val a b A B) as [F E], (fmax_val a' b' A' B') as [F' E']. apply fle_R in H, K; auto. apply fle_R; auto.
  rewrite E, E'. unfold Rmax. repeat destruct Rle_dec; lra.
Qed.
Lemma fmin_le a a' b b' : fin a -> fin a' -> fin b -> fin b' -> fle a a' = true -> fle b b' = true -> fle (fmin a b) (fmin a' b') = true.
Proof.
  intros A A' B B' H K. destruct (fmin_val a b A B) as [F E], (fmin_val a' b' A' B') as [F' E']. apply fle_R in H, K; auto. apply fle_R; auto.
  rewrite E, E'. unfold Rmin. repeat destruct Rle_dec; lra.
Qed.
Lemma fin_max a b : fin a -> fin b -> fin (fmax a b). Proof. intros A B. apply fmax_val; auto. Qed.
Lemma fin_min a b : fin a -> fin b -> fin (fmin a b). Proof. intros A B. apply fmin_val; auto. Qed.
(** A weighted sum of the channels. *)
Lemma dot_le c c' k0 k1 k2 : in_gamut c -> in_gamut c' -> not_brighter c c' -> in01 k0 -> in01 k1 -> in01 k2 ->
  fin (fadd (fadd (fmul (d0 c) k0) (fmul (d1 c) k1)) (fmul (d2 c) k2)) /\
  fle (fadd (fadd (fmul (d0 c) k0) (fmul (d1 c) k1)) (fmul (d2 c) k2)) (fadd (fadd (fmul (d0 c') k0) (fmul (d1 c') k1)) (fmul (d2 c') k2)) = true.
Proof.
  intros (G0 & G1 & G2 & _) (G0' & G1' & G2' & _) (H0 & H1 & H2) K0 K1 K2.
  assert (P : forall x k, in01 x -> in01 k -> num 0 1 (fmul x k)) by (intros x k X K; apply mul_unit; apply in01_num; auto).
  assert (S : forall x y, num 0 1 x -> num 0 1 y -> num 0 2 (fadd x y)).
  { intros x y [F X] [F' Y]. apply fadd_num; auto with fmt. lra. }
  assert (M : forall x x' k, in01 x -> in01 x' -> in01 k -> fle x x' = true -> fle (fmul x k) (fmul x' k) = true).
  { intros x x' k X X' K H. apply fmul_le; auto using in01_fin. apply in01_R in K. lra. }
  pose proof (P _ _ G0 K0) as A0. pose proof (P _ _ G1 K1) as A1. pose proof (P _ _ G2 K2) as A2.
  pose proof (P _ _ G0' K0) as B0. pose proof (P _ _ G1' K1) as B1. pose proof (P _ _ G2' K2) as B2.
  pose proof (S _ _ A0 A1) as A01. pose proof (S _ _ B0 B1) as B01. split.
  - destruct A01 as [F X], A2 as [F' Y]. assert (Q : num 0 3 (fadd (fadd (fmul (d0 c) k0) (fmul (d1 c) k1)) (fmul (d2 c) k2))).
    { apply fadd_num; auto with fmt; try lra; apply fmt_IZR; lia. } apply Q.
  - apply fadd_le2; try apply A01; try apply B01; try apply A2; try apply B2; [|now apply M].
    apply fadd_le2; try apply A0; try apply B0; try apply A1; try apply B1; now apply M.
Qed.
Ltac k01 := split; vm_compute; reflexivity.
Lemma gray_le i c c' : i <> Saturation -> in_gamut c -> in_gamut c' -> not_brighter c c' -> fle (gray_value i c) (gray_value i c') = true.
Proof.
  intros NS G G' H. pose proof G as (G0 & G1 & G2 & _). pose proof G' as (G0' & G1' & G2' & _). pose proof H as (H0 & H1 & H2).
  apply in01_fin in G0, G1, G2, G0', G1', G2'.
  assert (MX : fle (rgb_max c) (rgb_max c') = true).
  { unfold rgb_max. apply fmax_le; auto using fin_max with fin. apply fmax_le; auto using fin_max with fin. apply fmax_le; auto with fin. }
  assert (MN : fle (rgb_min c) (rgb_min c') = true).
  { unfold rgb_min. apply fmin_le; auto using fin_min with fin. apply fmin_le; auto using fin_min with fin. apply fmin_le; auto with fin. }
  destruct i; unfold gray_value; auto; try (now elim NS).
  - assert (S1 : forall c, in_gamut c -> num 0 2 (fadd (d0 c) (d1 c)) /\ num 0 3 (fadd (fadd (d0 c) (d1 c)) (d2 c))).
    { intros k (K0 & K1 & K2 & _). apply in01_R in K0, K1, K2. assert (A : num 0 2 (fadd (d0 k) (d1 k))) by (apply fadd_num; try apply K0; try apply K1; auto with fmt; lra).
      split; [exact A|]. destruct A as [F A]. apply fadd_num; auto with fmt; try apply K2; try lra; apply fmt_IZR; lia. }
    destruct (S1 c G) as [A A3], (S1 c' G') as [A' A3']. apply fdiv_le; [apply A3|apply A3'|reflexivity|rewrite ofZ_R by lia; lra|].
    apply fadd_le2; auto; [apply A|apply A'|]. apply fadd_le2; auto.
  - apply dot_le; auto; k01.
  - apply dot_le; auto; k01.
  - assert (F : forall c, in_gamut c -> fin (fadd (rgb_min c) (rgb_max c)) /\ fin (rgb_min c) /\ fin (rgb_max c)).
    { intros k (K0 & K1 & K2 & _). apply in01_num in K0, K1, K2. destruct (rgb_max_val k K0 K1 K2) as [[F X] _], (rgb_min_val k K0 K1 K2) as [[F' Y] _].
      split; [|auto]. assert (Q : num 0 2 (fadd (rgb_min k) (rgb_max k))) by (apply fadd_num; auto with fmt; lra). apply Q. }
    destruct (F c G) as (A & B & C), (F c' G') as (A' & B' & C'). apply fdiv_le; auto; [reflexivity|fval f2 Q; rewrite Q; lra|]. apply fadd_le2; auto.
Qed.
Lemma nb_refl c : in_gamut c -> not_brighter c c.
Proof.
  intros (G0 & G1 & G2 & _). assert (R : forall x, in01 x -> fle x x = true) by (intros x X; apply in01_fin in X; apply fle_R; auto; apply Rle_refl).
  split; [|split]; auto.
Qed.
Lemma sepia_le c c' : in_gamut c -> in_gamut c' -> not_brighter c c' -> not_brighter (with_sepia c) (with_sepia c').
Proof.
  intros G G' H.
  assert (D : forall k0 k1 k2, in01 k0 -> in01 k1 -> in01 k2 ->
    fle (clamp (fadd (fadd (fmul (d0 c) k0) (fmul (d1 c) k1)) (fmul (d2 c) k2))) (clamp (fadd (fadd (fmul (d0 c') k0) (fmul (d1 c') k1)) (fmul (d2 c') k2))) = true).
  { intros k0 k1 k2 K0 K1 K2. destruct (dot_le c c' k0 k1 k2 G G' H K0 K1 K2) as [F LE]. destruct (dot_le c' c' k0 k1 k2 G' G' (nb_refl c' G') K0 K1 K2) as [F' _].
    apply clamp_le; auto using fin_not_nan. }
  unfold with_sepia, rgb_new_with_alpha, not_brighter. cbn [d0 d1 d2]. split; [|split]; apply D; k01.
Qed.
Lemma blend_le o c c' : in_gamut o -> in_gamut c -> in_gamut c' -> not_brighter c c' -> not_brighter (alpha_blend c o) (alpha_blend c' o).
Proof.
  intros (O0 & O1 & O2 & O3) (G0 & G1 & G2 & _) (G0' & G1' & G2' & _) (H0 & H1 & H2).
  assert (A : num 0 1 (fsub f1 (d3 o))).
  { apply in01_R in O3. destruct O3 as [F A]. destruct (fsub_ok f1 (d3 o) 1) as [X Y]; auto with fin fmt. { rewrite f1_R. apply Rabs_le_iff. lra. }
    split; [exact X|]. rewrite Y, f1_R. split; [apply rnd_lo|apply rnd_hi]; auto with fmt; lra. }
  assert (D : forall k x x', in01 k -> in01 x -> in01 x' -> fle x x' = true ->
    fle (clamp (fadd (fmul k (d3 o)) (fmul (fsub f1 (d3 o)) x))) (clamp (fadd (fmul k (d3 o)) (fmul (fsub f1 (d3 o)) x'))) = true).
  { intros k x x' K X X' H. assert (P : num 0 1 (fmul k (d3 o))) by (apply mul_unit; apply in01_num; auto).
    assert (Q : num 0 1 (fmul (fsub f1 (d3 o)) x)) by (apply mul_unit; auto; apply in01_num; auto).
    assert (Q' : num 0 1 (fmul (fsub f1 (d3 o)) x')) by (apply mul_unit; auto; apply in01_num; auto).
    apply clamp_le; [apply fadd_key; [apply P|apply Q]|apply fadd_key; [apply P|apply Q']|].
    apply fadd_le2; try apply P; try apply Q; try apply Q'; [apply fle_R; try apply P; apply Rle_refl|].
    apply fmul_le_l; auto using in01_fin; apply A. }
  unfold alpha_blend, rgb_new_with_alpha, not_brighter, alpha. cbn [d0 d1 d2]. split; [|split]; apply D; auto.
Qed.

(** ** Samples of 8 bits *)
Lemma t2_fin : fin (dec 3130805 1000000000). Proof. reflexivity. Qed.
Lemma inv24 : fin (fdiv f1 (dec 24 10)) /\ 0 < B2R (fdiv f1 (dec 24 10)).
Proof. split; [vm_compute; reflexivity|]. fval (fdiv f1 (dec 24 10)) H. rewrite H. lra. Qed.
Lemma k1055 : fin (dec 1055 1000) /\ 0 <= B2R (dec 1055 1000).
Proof. split; [reflexivity|]. fval (dec 1055 1000) H. rewrite H. lra. Qed.
Lemma k1292 : fin (dec 1292 100) /\ 0 < B2R (dec 1292 100).
Proof. split; [reflexivity|]. fval (dec 1292 100) H. rewrite H. lra. Qed.
Lemma encode_fin L v : accurate_powf L -> in01 v -> is_nan (clamp (linear_to_gamma L v)) = false.
Proof. intros AL I. apply fin_not_nan. apply (encode_meaning L v AL I). Qed.
Lemma nan_clamp v : is_nan (clamp v) = false -> is_nan v = false.
Proof. intros H. destruct (is_nan v) eqn:E; [|reflexivity]. rewrite (clamp_nan v E) in H. congruence. Qed.
Lemma stored_le L v w : accurate_powf L -> bounded_powf L -> monotone_powf L -> in01 v -> in01 w -> fle v w = true ->
  (quant8 (clamp (linear_to_gamma L v)) <= quant8 (clamp (linear_to_gamma L w)))%Z.
Proof.
  intros AL BP MP V W H. pose proof (nan_clamp _ (encode_fin L v AL V)) as NV. pose proof (nan_clamp _ (encode_fin L w AL W)) as NW.
  pose proof (in01_fin v V) as FV. pose proof (in01_fin w W) as FW. destruct inv24 as [Fi Pi]. destruct k1055 as [Fa Pa]. destruct k1292 as [Fb Pb].
  assert (D8 : QuantProofs.depth 255) by (unfold QuantProofs.depth; lia).
  unfold linear_to_gamma in NV, NW |- *. destruct (flt (dec 3130805 1000000000) v) eqn:Ev, (flt (dec 3130805 1000000000) w) eqn:Ew.
  - apply (quant_mono 255 _ _ D8). apply clamp_le; auto. pose proof (powf_01 L BP v _ V Fi Pi) as P. pose proof (powf_01 L BP w _ W Fi Pi) as P'.
    assert (Q : forall x, in01 x -> fin (fmul (dec 1055 1000) x)).
    { intros x X. apply in01_R in X. destruct X as [Fx X]. destruct (fmul_ok (dec 1055 1000) x 2) as [A _]; auto with fmt. fval (dec 1055 1000) HE. rewrite HE. rewrite Rabs_right; nra. }
    apply fsub_le; [apply Q, P|apply Q, P'|reflexivity|]. apply fmul_le_l; auto using in01_fin. apply powf_le; auto.
  - exfalso. apply flt_R in Ev; auto using t2_fin. apply flt_Rf in Ew; auto using t2_fin. apply fle_R in H; auto. lra.
  - assert (A : (quant8 (clamp (fmul (dec 1292 100) v)) <= 10)%Z).
    { assert (C : quant8 (clamp (fmul (dec 1292 100) (dec 3130805 1000000000))) = 10%Z) by (vm_compute; reflexivity). rewrite <- C.
      apply (quant_mono 255 _ _ D8). apply clamp_le; auto. apply fmul_le_l; auto using t2_fin; [lra|]. apply flt_Rf in Ev; auto using t2_fin. apply fle_R; auto using t2_fin. }
    pose proof (byte_of L w AL W) as B. unfold linear_to_gamma in B. rewrite Ew in B. destruct B as [_ [_ B]].
    set (q := quant8 _) in B |- *. apply flt_R in Ew; auto using t2_fin. destruct c_t2 as [_ T2].
    assert (S : 40447 / 1000000 <= srgb_encode (B2R w)).
    { unfold srgb_encode. destruct Rle_dec as [R|R]; [lra|]. pose proof (pow_C (B2R w) ltac:(lra)). lra. }
    assert (IZR 9 < IZR q) by lra. apply lt_IZR in H0. lia.
  - apply (quant_mono 255 _ _ D8). apply clamp_le; auto. apply fmul_le_l; auto. lra.
Qed.
Lemma from_u8_le u v : is_byte u -> is_byte v -> (u <= v)%Z -> fle (from_u8 u) (from_u8 v) = true.
Proof.
  intros U V H. unfold is_byte in *. assert (Fz : forall z, (0 <= z <= 255)%Z -> fin (ofZ z) /\ B2R (ofZ z) = IZR z) by (intros z Z; apply ofZ_val; lia).
  destruct (Fz u U) as [A B], (Fz v V) as [A' B']. apply fdiv_le; auto; [reflexivity|rewrite ofZ_R by lia; lra|]. apply fle_R; auto. rewrite B, B'. apply IZR_le, H.
Qed.
Lemma t1_fin : fin (dec 4045 100000). Proof. reflexivity. Qed.
Lemma loaded_le L u v : accurate_powf L -> bounded_powf L -> monotone_powf L -> is_byte u -> is_byte v -> (u <= v)%Z ->
  fle (clamp (gamma_to_linear L (from_u8 u))) (clamp (gamma_to_linear L (from_u8 v))) = true.
Proof.
  intros AL BP MP U V H. pose proof (from_u8_in01 u U) as IU. pose proof (from_u8_in01 v V) as IV. pose proof (from_u8_le u v U V H) as HF.
  pose proof (in01_fin _ IU) as FU. pose proof (in01_fin _ IV) as FV.
  destruct (decode_meaning L _ AL IU) as [DU EU]. destruct (decode_meaning L _ AL IV) as [DV EV].
  pose proof (nan_clamp _ (fin_not_nan _ DU)) as NU. pose proof (nan_clamp _ (fin_not_nan _ DV)) as NV.
  destruct k1292 as [Fb Pb]. destruct c_t1 as [_ T1].
  destruct (flt (dec 4045 100000) (from_u8 u)) eqn:E1, (flt (dec 4045 100000) (from_u8 v)) eqn:E2.
  - apply clamp_le; auto. unfold gamma_to_linear. rewrite E1, E2. apply flt_R in E1, E2; auto using t1_fin.
    assert (B : forall x, in01 x -> B2R (dec 4045 100000) < B2R x -> in01 (fdiv (fadd x (dec 55 1000)) (dec 1055 1000)) /\ fin (fadd x (dec 55 1000))).
    { intros x X G. apply in01_R in X. destruct X as [Fx X].
      assert (O : fin (dec 1055 1000) /\ B2R (dec 1055 1000) = B2R (fadd f1 (dec 55 1000)) /\ fin (fadd f1 (dec 55 1000))).
      { split; [reflexivity|]. split; [|vm_compute; reflexivity]. fval (dec 1055 1000) h1. fval (fadd f1 (dec 55 1000)) h2. rewrite h1, h2. lra. }
      destruct O as (O1 & O2 & O3). fval (dec 1055 1000) h1. fval (dec 55 1000) h2.
      assert (S : fin (fadd x (dec 55 1000)) /\ B2R (fadd x (dec 55 1000)) = rnd (B2R x + B2R (dec 55 1000))).
      { apply (fadd_ok x (dec 55 1000) 2); auto with fmt. rewrite h2. apply Rabs_le_iff. lra. }
      destruct S as [S1 S2]. split; [|exact S1].
      assert (S3 : 0 <= B2R (fadd x (dec 55 1000)) <= B2R (dec 1055 1000)).
      { rewrite S2. split; [apply rnd_lo; auto with fmt; rewrite h2; lra|]. rewrite O2.
        assert (S4 : B2R (fadd f1 (dec 55 1000)) = rnd (B2R f1 + B2R (dec 55 1000))).
        { apply (fadd_ok f1 (dec 55 1000) 2); auto with fmt fin. rewrite h2, f1_R. apply Rabs_le_iff. lra. }
        rewrite S4. apply rnd_le. rewrite f1_R. lra. }
      apply in01_num. apply div_by_sum; auto. { split; auto. } rewrite h1. lra. }
    destruct (B _ IU E1) as [B1 B2], (B _ IV E2) as [B3 B4].
    assert (Y : fin (dec 24 10) /\ 0 < B2R (dec 24 10)) by (split; [reflexivity|]; fval (dec 24 10) h; rewrite h; lra).
    assert (Q : fin (dec 1055 1000) /\ 0 < B2R (dec 1055 1000)) by (split; [reflexivity|]; fval (dec 1055 1000) h; rewrite h; lra).
    apply (powf_le L MP); [exact B1|exact B3| |apply Y|apply Y]. apply fdiv_le; [exact B2|exact B4|apply Q|apply Q|].
    apply fadd_le; [exact FU|exact FV|reflexivity|exact HF].
  - exfalso. apply flt_R in E1; auto using t1_fin. apply flt_Rf in E2; auto using t1_fin. apply fle_R in HF; auto. lra.
  - apply flt_Rf in E1; auto using t1_fin. apply flt_R in E2; auto using t1_fin.
    pose proof (decoded_light L u AL U) as [_ A]. pose proof (decoded_light L v AL V) as [_ B]. apply Rabs_le_iff in A, B. apply fle_R; auto.
    pose proof (decode_sample 255 u ltac:(left; reflexivity) U) as SU. pose proof (decode_sample 255 v ltac:(left; reflexivity) V) as SV.
    fold (from_u8 u) in SU. fold (from_u8 v) in SV.
    assert (LU : light u <= 30354 / 10000000).
    { assert (XU : (u <= 10)%Z). { destruct (Z_le_gt_dec u 10) as [|G]; [auto|exfalso]. assert (HG : fle (from_u8 11) (from_u8 u) = true) by (apply from_u8_le; unfold is_byte in *; lia).
        apply fle_R in HG; [|(reflexivity || assumption)|(reflexivity || assumption)]. fval (from_u8 11) h. rewrite h in HG. lra. }
      unfold light, srgb_decode. apply IZR_le in XU. destruct Rle_dec; [lra|exfalso; lra]. }
    assert (LV : 313089 / 100000000 <= light v).
    { assert (XV : (11 <= v)%Z). { destruct (Z_le_gt_dec 11 v) as [|G]; [auto|exfalso]. assert (HG : fle (from_u8 v) (from_u8 10) = true) by (apply from_u8_le; unfold is_byte in *; lia).
        apply fle_R in HG; [|(reflexivity || assumption)|(reflexivity || assumption)]. fval (from_u8 10) h. rewrite h in HG. lra. }
      unfold light, srgb_decode. apply IZR_le in XV. destruct Rle_dec; [exfalso; lra|]. apply pow_A. lra. }
    lra.
  - apply clamp_le; auto. unfold gamma_to_linear. rewrite E1, E2. apply fdiv_le; auto.
Qed.

(** ** The program *)
Definition byte_table (L : libm) (h : f32 -> f32) (v : Z) : Z := quant8 (clamp (linear_to_gamma L (h (clamp (gamma_to_linear L (from_u8 v)))))).
Lemma table_curve L (up : bool) (h : f32 -> f32) : accurate_powf L -> bounded_powf L -> monotone_powf L ->
  (forall v, in01 v -> in01 (h v)) -> (forall v w, in01 v -> in01 w -> fle v w = true -> if up then fle (h v) (h w) = true else fle (h w) (h v) = true) ->
  byte_curve up (byte_table L h).
Proof.
  intros AL BP MP H1 H2 u v U V LE.
  assert (I : forall z, is_byte z -> in01 (clamp (gamma_to_linear L (from_u8 z)))) by (intros z Z; exact (clamped_in01 _ _ _ (decode_meaning L _ AL (from_u8_in01 z Z)))).
  pose proof (H2 _ _ (I u U) (I v V) (loaded_le L u v AL BP MP U V LE)) as Q. unfold byte_table. destruct up; apply stored_le; auto.
Qed.
Lemma tone_program {S} (e : env S) (up : bool) cmds f : accurate_powf (e_libm e) -> bounded_powf (e_libm e) -> monotone_powf (e_libm e) ->
  recolouring (e_libm e) cmds f -> tone_curve up f ->
  exists T, byte_curve up T /\ forall text number args wo input output w h raw, ready e wo input output w h raw ->
    command_line text number true (tl args) (CmdOpen input :: cmds ++ [CmdSave output]) ->
    program_recolours e text number args wo w h raw output (fun r g b r' g' b' => is_byte r /\ is_byte g /\ is_byte b /\ r' = T r /\ g' = T g /\ b' = T b).
Proof.
  intros AL BP MP RC TC. pose proof TC as (h & H1 & H2 & H3). exists (byte_table (e_libm e) h). split; [apply table_curve; auto|].
  intros text number args wo input output w ht raw RD CL.
  refine (program_weaker e text number args wo w ht raw output _ _ _ (ready_program e text number args wo input output w ht raw cmds f RD CL RC _)).
  - intros r g b r' g' b' (c & B0 & B1 & B2 & G & C0 & C1 & C2 & -> & -> & ->). rewrite (H3 c G). cbn [d0 d1 d2]. rewrite C0, C1, C2. do 3 (split; [assumption|]). split; [reflexivity|]. split; reflexivity.
  - intros c G. apply (curve_gamut up f c TC G).
Qed.

(** ** Images *)
Lemma stretch_curve L (b : PixelBuffer Rgb) threshold : accurate_powf L -> bounded_powf L -> monotone_powf L -> valid b -> (1 <= zlen (data b) <= 1048576)%Z ->
  is_finite threshold = true -> B2R threshold = 0 \/ / 1048576 <= B2R threshold <= 400 ->
  exists f b', stretch_contrast L b threshold = Ok b' /\ recolored f b b' /\ tone_curve true f.
Proof.
  intros AL BP MP V Hn Ft Ht. destruct (stretch_spec_l L b threshold V) as (r & lo & hi & E & Vr & W & H & BPt & WP & R).
  destruct (dark_found brightness_bin brightness_bin_range (data b) threshold Hn Ft Ht lo BPt) as (k1 & -> & D1).
  destruct (bright_found brightness_bin brightness_bin_range (data b) threshold Hn Ft Ht hi WP) as (k2 & -> & D2).
  pose proof (dark_below_bright brightness_bin (data b) threshold Hn Ht k1 k2 D1 D2) as LE.
  assert (R1 : (0 <= k1 <= 255)%Z) by apply D1. assert (R2 : (0 <= k2 <= 255)%Z) by apply D2.
  destruct (flt f0 (fdiv (ofZ k1) (ofZ 255)) || flt (fdiv (ofZ k2) (ofZ 255)) f1)%bool.
  - exists (with_level L (fdiv (ofZ k1) (ofZ 255)) (fdiv (ofZ k2) (ofZ 255)) f1), r. split; [exact E|]. split.
    + split; [exact Vr|]. split; [exact W|]. split; [exact H|]. intros m x y c I P. rewrite R by exact I. rewrite P. reflexivity.
    + apply level_curve; auto; [exact (from_u8_in01 k1 R1)|exact (from_u8_in01 k2 R2)|exact (from_u8_le k1 k2 R1 R2 LE)|exact usual_1].
  - subst r. exists (fun c => c), b. split; [exact E|]. split; [apply recolored_id, V|exact curve_same].
Qed.

Lemma sum_le l l' a a' : Forall2 (fun x x' => num 0 1 x /\ num 0 1 x' /\ fle x x' = true) l l' -> num 0 16777216 a -> num 0 16777216 a' -> fle a a' = true ->
  fle (fold_left fadd l a) (fold_left fadd l' a') = true.
Proof.
  intros H. revert a a'. induction H as [|x x' l l' (X & X' & LE) H IH]; intros a a' A A' LA; [exact LA|]. cbn [fold_left]. apply IH.
  - destruct A as [Fa A]. destruct (fold_sum_unit [x] a Fa A) as [Q _]; [intros v [<-|[]]; exact X|exact Q].
  - destruct A' as [Fa A']. destruct (fold_sum_unit [x'] a' Fa A') as [Q _]; [intros v [<-|[]]; exact X'|exact Q].
  - apply fadd_le2; try apply A; try apply A'; try apply X; try apply X'; auto.
Qed.
Lemma weighted_le pick ks ps ps' : (forall k, In k ks -> num 0 1 k) -> Forall2 (fun c c' => num 0 1 (pick c) /\ num 0 1 (pick c') /\ fle (pick c) (pick c') = true) ps ps' ->
  fle (weighted_channel pick (combine ks ps)) (weighted_channel pick (combine ks ps')) = true.
Proof.
  intros K H. rewrite !weighted_channel_fold.
  apply sum_le; [|split; [apply f0_fin|rewrite f0_R; lra]|split; [apply f0_fin|rewrite f0_R; lra]|reflexivity].
  revert ks K. induction H as [|c c' ps ps' (P & P' & LE) H IH]; intros [|k ks] K; cbn [combine map fst snd]; try constructor.
  - assert (Kk : num 0 1 k) by (apply K; left; reflexivity). split; [apply mul_unit; auto|]. split; [apply mul_unit; auto|].
    apply fmul_le_l; try apply P; try apply P'; try apply Kk; auto.
  - apply IH. intros q Q. apply K. right. exact Q.
Qed.
Lemma blur_order L m (b b' : PixelBuffer Rgb) r : exp_ok L -> valid b -> valid b' -> (1 <= r <= 32767)%Z ->
  (forall c, In c (data b) -> in_gamut c) -> (forall c, In c (data b') -> in_gamut c) -> image_not_brighter m b b' ->
  exists o o', gaussian_blur L m b r None = Ok o /\ gaussian_blur L m b' r None = Ok o' /\ image_not_brighter m o o'.
Proof.
  intros X V V' Hr G G' (W & H & P).
  destruct (blur_conv L m b r None V ltac:(lia)) as (o & E & Vo & Wo & Ho & Po). destruct (blur_conv L m b' r None V' ltac:(lia)) as (o' & E' & Vo' & Wo' & Ho' & Po').
  exists o, o'. split; [exact E|]. split; [exact E'|]. split; [lia|]. split; [lia|]. intros x y I.
  assert (Ib : inside b x y) by (unfold inside in *; rewrite <- Wo, <- Ho; exact I). assert (Ib' : inside b' x y) by (unfold inside in *; rewrite <- W, <- H; exact Ib).
  destruct (Po x y Ib) as (ps & N & Q). destruct (Po' x y Ib') as (ps' & N' & Q'). do 2 eexists. split; [exact Q|]. split; [exact Q'|].
  pose proof (neighbourhood_In m b _ _ x y ps V Ib N) as IN. pose proof (neighbourhood_In m b' _ _ x y ps' V' Ib' N') as IN'.
  assert (F : Forall2 (fun c c' => In c ps /\ In c' ps' /\ not_brighter c c') ps ps').
  { assert (F : Forall2 not_brighter ps ps').
    { unfold neighbourhood in N, N'. apply map_res_inv in N, N'. revert N'. clear IN IN' Q Q'. revert ps'. induction N as [|[tx ty] c l ps A N IH]; intros ps' N'; inversion N' as [|? c' ? ps'' A' N'']; subst; constructor.
      - rewrite <- W, <- H in A'. match type of A with get_pixel _ _ ?px ?py = _ => destruct (P px py) as (k & k' & K & K' & NB) end.
        { unfold inside in *. lia. } rewrite K in A. rewrite K' in A'. apply Ok_inj in A, A'. subst. exact NB.
      - apply IH, N''. }
    clear - F. induction F as [|c c' ps ps' NB F IH]; constructor; [cbn; auto|]. revert IH. apply Forall2_impl'. cbn. tauto. }
  assert (PK : forall pick, channel pick -> (forall c c', not_brighter c c' -> fle (pick c) (pick c') = true) ->
    Forall2 (fun c c' => num 0 1 (pick c) /\ num 0 1 (pick c') /\ fle (pick c) (pick c') = true) ps ps').
  { intros pick Ch Hp. revert F. apply Forall2_impl'. intros c c' (A & A' & NB). split; [apply gamut_channel; auto|]. split; [apply gamut_channel; auto|]. auto. }
  pose proof (default_coefficients L r X Hr) as DC.
  split; [|split]; unfold weighted_sum; cbn [d0 d1 d2]; apply weighted_le; auto; apply PK; unfold channel; auto; intros c c' (B0 & B1 & B2); auto.
Qed.

(** ** A monotone powf *)
Lemma ideal_monotone L : monotone_powf (ideal_libm L).
Proof.
  intros x x' y Fy Y X0 LE X1. cbn [powf ideal_libm].
  assert (X : in01 x) by (split; [exact X0|exact (fle_tr _ _ _ LE X1)]). assert (X' : in01 x') by (split; [exact (fle_tr _ _ _ X0 LE)|exact X1]).
  apply in01_R in X, X'. destruct X as [F X], X' as [F' X']. apply fle_R in LE; auto.
  assert (N : forall z, fin z -> feq z f0 = false -> B2R z <> 0). { intros z Fz T E. assert (feq z f0 = true) by (apply feq_R; auto with fin). congruence. }
  assert (P : forall z : f32, 0 < B2R z <= 1 -> fin (rounded (Rpower (B2R z) (B2R y))) /\ B2R (rounded (Rpower (B2R z) (B2R y))) = rnd (Rpower (B2R z) (B2R y)) /\ 0 <= Rpower (B2R z) (B2R y)).
  { intros z Z. pose proof (Rpower_01 (B2R z) (B2R y) Z ltac:(lra)) as Q. destruct (rounded_ok (Rpower (B2R z) (B2R y))) as [A B]; [rewrite Rabs_right; lra|]. split; [exact A|]. split; [exact B|lra]. }
  destruct (feq x f0) eqn:E, (feq x' f0) eqn:E'.
  - reflexivity.
  - pose proof (N x' F' E'). destruct (P x' ltac:(lra)) as (A & B & C). apply fle_R; auto with fin. rewrite f0_R, B. apply rnd_lo; auto with fmt.
  - exfalso. pose proof (N x F E). apply feq_R in E'; auto with fin. rewrite f0_R in E'. lra.
  - pose proof (N x F E). pose proof (N x' F' E'). destruct (P x ltac:(lra)) as (A & B & C), (P x' ltac:(lra)) as (A' & B' & C'). apply fle_R; auto. rewrite B, B'. apply rnd_le.
    apply Rpower_mono; lra.
Qed.
