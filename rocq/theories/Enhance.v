(** Proofs for C98: the automatic corrections of lightness and saturation. *)
From Coq Require Import Reals Lra Lia ZArith Bool Psatz List.
From Flocq Require Import Core.Core IEEE754.BinarySingleNaN.
From Verif Require Import Base BaseLemmas F32 F32Lemmas PixelBuffer BufferSpec PixelBufferProofs Color ColorSpec ColorProofs MeaningSpec ConvSpec EnhanceSpec Approx OpMeaningProofs HslMeaning HslOps HsvMeaning SrgbMeaning LinearConv LabCurve LabMeaning LchMeaning F64Lemmas Kernel Ops Gauss2Proofs HistogramProofs TemperatureProofs.
Open Scope R_scope.

(** ** Gammas that are near each other *)
Lemma gamma_shift v g G e m : 0 <= v <= 1 -> 0 < m <= g -> m <= G -> Rabs (g - G) <= e -> e <= m / 2 ->
  Rabs (gamma_formula g v - gamma_formula G v) <= 2 * (e / m).
Proof.
  intros V1 M1 M2 E EM. assert (0 <= e) by (pose proof (Rabs_pos (g - G)); lra).
  assert (D : 0 <= e / m) by (apply div_pos; lra).
  assert (D2 : e / m <= / 2) by (apply (Rmult_le_reg_r m); [lra|]; unfold Rdiv; rewrite Rmult_assoc, Rinv_l by lra; lra).
  unfold gamma_formula. destruct Req_EM_T as [E0|E0]. { replace (0 - 0) with 0 by lra. rewrite Rabs_R0. lra. }
  assert (IG : 0 < / G) by (apply Rinv_0_lt_compat; lra). assert (Ig : 0 < / g) by (apply Rinv_0_lt_compat; lra).
  apply Rpower_rel; auto; try lra.
  replace (/ g - / G) with ((G - g) * (/ g) * / G) by (field; lra).
  rewrite Rabs_mult, (Rabs_right (/ G)) by lra. apply Rmult_le_compat_r; [lra|].
  rewrite Rabs_mult, (Rabs_right (/ g)) by lra. rewrite Rabs_minus_sym. unfold Rdiv.
  apply Rmult_le_compat; auto using Rabs_pos; try lra. apply Rinv_le_contravar; lra.
Qed.

(** ** Lightness *)
Lemma len_ok {A} (b : PixelBuffer A) : valid b -> (0 <= zlen (data b) <= 1073741823)%Z.
Proof. intros [[[A1 A2]|(A1 & A2 & A3)] E]; rewrite E; [rewrite A1; lia|]. nia. Qed.
Lemma len_pos {A} (l : list A) : l <> nil -> (1 <= zlen l)%Z.
Proof. destruct l; [congruence|]. intros _. unfold zlen. change (length (a :: l)) with (S (length l)). lia. Qed.
Lemma INR_zlen {A} (l : list A) : INR (length l) = IZR (zlen l).
Proof. unfold zlen. apply INR_IZR_INZ. Qed.
Lemma mean_range {A} (f : A -> R) l K : l <> nil -> Forall (fun a => 0 <= f a <= K) l -> 0 <= mean f l <= K.
Proof.
  intros N H. assert (S : 0 <= sum_of f l <= INR (length l) * K).
  { clear N. induction H as [|a l H _ IH]; [unfold sum_of; cbn; lra|]. change (length (a :: l)) with (S (length l)). rewrite S_INR.
    change (sum_of f (a :: l)) with (f a + sum_of f l). lra. }
  assert (P : 1 <= INR (length l)) by (rewrite INR_zlen; apply IZR_le, len_pos, N). unfold mean. split; [apply div_pos; lra|].
  apply (Rmult_le_reg_r (INR (length l))); [lra|]. unfold Rdiv. rewrite Rmult_assoc, Rinv_l by lra. lra.
Qed.
Lemma div_near a b n e : 0 < n -> Rabs (a - b) <= n * e -> Rabs (a / n - b / n) <= e.
Proof.
  intros N H. replace (a / n - b / n) with ((a - b) * / n) by (field; lra). assert (0 < / n) by (apply Rinv_0_lt_compat; lra).
  rewrite Rabs_mult, (Rabs_right (/ n)) by lra. apply (Rmult_le_reg_r n); [lra|]. rewrite Rmult_assoc, Rinv_l by lra. lra.
Qed.
(** The mean of numbers in [-1,1], summed up in f64. *)
Lemma mean64 {A} (t : A -> f64) l : l <> nil -> (zlen l <= 1073741823)%Z -> Forall (fun a => fin64 (t a) /\ Rabs (B2R (t a)) <= 1) l ->
  let avg := ddiv (fold_left (fun s a => dadd s (t a)) l (ofZ64 0)) (ofZ64 (zlen l)) in
  fin64 avg /\ Rabs (B2R avg - mean (fun a => B2R (t a)) l) <= / 8387000.
Proof.
  intros N H F. cbv zeta. pose proof (len_pos l N) as P. pose proof (INR_zlen l) as E. set (n := zlen l) in *.
  assert (N1 : 1 <= IZR n <= 1073741823) by (split; apply IZR_le; lia).
  destruct (ofZ64_val 0 ltac:(lia)) as [F0 E0]. destruct (ofZ64_val n ltac:(lia)) as [Fn En].
  set (e := V64 * (IZR n * (1 + / 1000000)) + T64). assert (En1 : 0 <= e <= / 8388000) by (unfold e; lra).
  assert (En2 : IZR n * e <= IZR n * / 1000000) by (apply Rmult_le_compat_l; lra).
  destruct (sum_error (@B2R 53 1024) fin64 dadd t e 1 (IZR n * (1 + / 1000000))) with (l := l) (s := ofZ64 0) as [FS ES]; auto; try lra.
  { intros x y Fx Fy Q. apply dadd_val; auto. lra. }
  { rewrite E0, E, Rabs_R0. lra. }
  set (S := fold_left _ _ _) in *. clearbody S. rewrite E0, E in ES.
  set (m := sum_of (fun a => B2R (t a)) l) in *.
  assert (DN : Rabs (B2R S / IZR n - m / IZR n) <= e) by (apply div_near; [lra|]; replace (B2R S - m) with (B2R S - (0 + m)) by lra; exact ES).
  assert (MB : Rabs (m / IZR n) <= 1).
  { assert (MB : Rabs m <= IZR n * 1).
    { rewrite <- E. unfold m. clear - F. induction F as [|a l H _ IH]; [unfold sum_of; cbn; rewrite Rabs_R0; lra|]. change (length (a :: l)) with (S (length l)). rewrite S_INR.
      change (sum_of (fun a => B2R (t a)) (a :: l)) with (B2R (t a) + sum_of (fun a => B2R (t a)) l). pose proof (Rabs_triang (B2R (t a)) (sum_of (fun a => B2R (t a)) l)). lra. }
    pose proof (div_near m 0 (IZR n) 1 ltac:(lra) ltac:(rewrite Rminus_0_r; exact MB)) as Q. replace (m / IZR n - 0 / IZR n) with (m / IZR n) in Q by (field; lra). exact Q. }
  destruct (ddiv_val S (ofZ64 n) 2) as [FD ED]; auto; try lra. { rewrite En. apply Rabs_le_iff in DN, MB. apply Rabs_le_iff. lra. }
  rewrite En in ED. split; [exact FD|]. unfold mean. rewrite E. fold m. apply Rabs_le_iff in ED, DN. apply Rabs_le_iff. lra.
Qed.
Lemma optimize_lightness_gamma l factor : l <> nil -> (zlen l <= 1073741823)%Z -> Forall in_gamut l -> fin factor -> Rabs (B2R factor) <= 3 / 2 ->
  let avg := ddiv (fold_left (fun sum c => dadd sum (f32_to_f64 (d2 (rgb_to_hsl c)))) l (ofZ64 0)) (ofZ64 (zlen l)) in
  let g := fsub f1 (fmul (fsub (f64_to_f32 avg) (dec 5 10)) factor) in
  fin g /\ Rabs (B2R g - (1 - (mean (fun c => B2R (d2 (rgb_to_hsl c))) l - / 2) * B2R factor)) <= / 1048576.
Proof.
  intros N H G Ff Fb. cbv zeta.
  assert (R : Forall (fun c => fin (d2 (rgb_to_hsl c)) /\ 0 <= B2R (d2 (rgb_to_hsl c)) <= 1) l).
  { eapply Forall_impl; [|exact G]. intros c Gc. destruct (rgb_to_hsl_range c Gc) as (_ & _ & R2 & _). now apply in01_R in R2. }
  destruct (mean64 (fun c => f32_to_f64 (d2 (rgb_to_hsl c))) l N H) as [FA EA].
  { eapply Forall_impl; [|exact R]. intros c [Fc Rc]. destruct (wide _ Fc) as [A B]. split; [exact A|]. rewrite B. apply Rabs_le_iff. lra. }
  set (avg := ddiv _ _) in *. clearbody avg.
  set (m := mean (fun c => B2R (d2 (rgb_to_hsl c))) l).
  assert (EM : mean (fun c => B2R (f32_to_f64 (d2 (rgb_to_hsl c)))) l = m).
  { unfold m, mean. f_equal. clear - R. induction R as [|c l [Fc _] _ IH]; [reflexivity|]. unfold sum_of in *. cbn [fold_right]. rewrite IH. f_equal. apply wide, Fc. }
  rewrite EM in EA. clear EM.
  assert (M : 0 <= m <= 1) by (apply mean_range; auto; eapply Forall_impl; [|exact R]; intros c Q; apply Q).
  clearbody m. apply Rabs_le_iff in EA.
  destruct (narrow avg 2) as [FN EN]; auto with fmt. { apply Rabs_le_iff. lra. }
  pose proof (uo_err 2 _ (B2R avg) uo_2 ltac:(apply Rabs_le_iff; lra)) as E1. rewrite <- EN in E1. apply Rabs_le_iff in E1.
  set (a := f64_to_f32 avg) in *. clearbody a. change (dec 5 10) with (dec 1 2).
  destruct (sub_val a (dec 1 2) (6 / 10)) as [F2 E2]; auto with fin; try lra. { rewrite half_R. apply Rabs_le_iff. lra. } rewrite half_R in E2.
  set (s := fsub a (dec 1 2)) in *. clearbody s. apply Rabs_le_iff in E2.
  assert (SB : Rabs (B2R s) <= 6 / 10) by (apply Rabs_le_iff; lra).
  assert (PB : Rabs (B2R s * B2R factor) <= 6 / 10 * (3 / 2)) by (apply abs_mul_le; assumption).
  destruct (mul_val s factor (6 / 10 * (3 / 2))) as [F3 E3]; auto; try lra.
  set (p := fmul s factor) in *. clearbody p. apply Rabs_le_iff in E3. pose proof PB as PB'. apply Rabs_le_iff in PB'.
  destruct (sub_val f1 p 2) as [F4 E4]; auto with fin; try lra. { rewrite f1_R. apply Rabs_le_iff. lra. } rewrite f1_R in E4.
  split; [exact F4|].
  assert (D : Rabs ((B2R s - (m - / 2)) * B2R factor) <= 3 / 10000000 * (3 / 2)).
  { apply abs_mul_le; auto. apply Rabs_le_iff. lra. }
  apply Rabs_le_iff in D, E4. apply Rabs_le_iff. lra.
Qed.
Lemma lightness_meaning_all L (b : PixelBuffer Rgb) factor : accurate_powf L -> valid b -> Forall in_gamut (data b) -> fin factor -> Rabs (B2R factor) <= 3 / 2 ->
  let gamma := 1 - (mean (fun c => B2R (d2 (rgb_to_hsl c))) (data b) - / 2) * B2R factor in
  exists r, optimize_lightness L b factor = Ok r /\ valid r /\ width r = width b /\ height r = height b /\
  forall m x y c, inside b x y -> get_pixel m b x y = Ok c ->
    exists o, get_pixel m r x y = Ok o /\ channelwise (/ 65536) (gamma_formula gamma) c o.
Proof.
  intros AL Vb G Ff Fb gamma. unfold optimize_lightness. rewrite map_pure_conv. cbv zeta.
  set (g := fsub f1 _). eexists. split; [reflexivity|]. destruct (same_dims_convert (with_gamma L g) b Vb) as (A1 & A2 & A3). split; [exact A1|]. split; [exact A2|]. split; [exact A3|].
  intros m x y c I P. eexists. split; [exact (convert_pixel _ b m x y c Vb I P)|].
  assert (IN : In c (data b)).
  { rewrite get_pixel_eq in P by auto. eapply idx_In; exact P. }
  assert (N : data b <> nil) by (intros E; rewrite E in IN; exact IN).
  pose proof (len_ok b Vb) as LN. assert (HG : fin g /\ Rabs (B2R g - gamma) <= / 1048576) by exact (optimize_lightness_gamma (data b) factor N (proj2 LN) G Ff Fb).
  destruct HG as [Fg Eg]. rewrite Forall_forall in G. pose proof (G c IN) as Gc.
  assert (M : 0 <= mean (fun c => B2R (d2 (rgb_to_hsl c))) (data b) <= 1).
  { apply mean_range; auto. apply Forall_forall. intros d Hd. destruct (rgb_to_hsl_range d (G d Hd)) as (_ & _ & R2 & _). now apply in01_R in R2. }
  assert (B : Rabs ((mean (fun c => B2R (d2 (rgb_to_hsl c))) (data b) - / 2) * B2R factor) <= / 2 * (3 / 2)) by (apply abs_mul_le; auto; apply Rabs_le_iff; lra).
  assert (GB : / 4 <= gamma <= 7 / 4) by (apply Rabs_le_iff in B; unfold gamma; lra). clearbody gamma g. pose proof Eg as Eg'. apply Rabs_le_iff in Eg'.
  assert (UG : usual_gamma g) by (split; [exact Fg|lra]).
  destruct (gamma_meaning L g c AL Gc UG) as (K0 & K1 & K2 & K3). destruct Gc as (G0 & G1 & G2 & _). apply in01_R in G0, G1, G2.
  assert (MV : forall (v d : f32), 0 <= B2R v <= 1 -> close (/ 524288) (gamma_formula (B2R g) (B2R v)) d -> close (/ 65536) (gamma_formula gamma (B2R v)) d).
  { intros v d Hv K. eapply close_weak; [apply (close_move _ _ _ _ _ K (gamma_shift (B2R v) (B2R g) gamma (/ 1048576) (/ 5) Hv ltac:(lra) ltac:(lra) Eg ltac:(lra)))|lra]. }
  split; [|split; [|split]]; try (apply MV; tauto). exact K3.
Qed.

(** ** Sums in f32 *)
Lemma add_big x y M : fin x -> fin y -> Rabs (B2R x + B2R y) <= M -> M <= 1000000000000 ->
  fin (fadd x y) /\ Rabs (B2R (fadd x y) - (B2R x + B2R y)) <= U * M + T.
Proof.
  intros Fx Fy H G. destruct (fadd_ok x y (bpow radix2 126)) as [F E]; auto. { apply (uo_fmt _ _ uo_big). } { rewrite big_R, p126. lra. }
  split; auto. rewrite E. rel (B2R x + B2R y).
Qed.
(** Sums of numbers from 0 to [K], for [K] 1 or 8, never grow above [K] times 2^24. *)
Definition unit_K (K : R) : Prop := K = 1 \/ K = 8.
Lemma K_fmt K k : unit_K K -> (0 <= k <= 16777216)%Z -> fmt (K * IZR k).
Proof.
  intros HK Hk. assert (E : exists j, (0 <= j <= 3)%Z /\ K = bpow radix2 j).
  { destruct HK as [-> | ->]; [exists 0%Z; split; [lia|reflexivity] | exists 3%Z; split; [lia|]]. rewrite bpow_pos. reflexivity. }
  destruct E as (j & J & ->). rewrite Rmult_comm. destruct (Z.eq_dec k 16777216) as [->|N].
  - replace (IZR 16777216 * bpow radix2 j) with (IZR 8388608 * bpow radix2 (j + 1)); [apply fmt_F2R; lia|].
    rewrite bpow_plus. replace (bpow radix2 1) with 2 by reflexivity. lra.
  - apply fmt_F2R; lia.
Qed.
Lemma K_stall K : unit_K K -> rnd (K * 16777216 + K) = K * 16777216.
Proof.
  intros [-> | ->].
  - assert (A : fin (ofZ 16777216) /\ B2R (ofZ 16777216) = 16777216) by (fval (ofZ 16777216) A; split; [assumption|rewrite A; lra]). destruct A as [A1 A2].
    destruct (fadd_ok (ofZ 16777216) f1 (bpow radix2 126)) as [B1 B2]; auto with fin. { apply (uo_fmt _ _ uo_big). }
    { rewrite A2, f1_R, big_R, p126. apply Rabs_le_iff. lra. }
    rewrite A2, f1_R in B2. replace (1 * 16777216 + 1) with (16777216 + 1) by lra. rewrite <- B2.
    clear B1 B2. fval (fadd (ofZ 16777216) f1) CC. rewrite CC. lra.
  - assert (A : fin (ofZ 134217728) /\ B2R (ofZ 134217728) = 134217728) by (fval (ofZ 134217728) A; split; [assumption|rewrite A; lra]). destruct A as [A1 A2].
    destruct (ofZ_val 8 ltac:(lia)) as [E1 E2].
    destruct (fadd_ok (ofZ 134217728) (ofZ 8) (bpow radix2 126)) as [B1 B2]; auto with fin. { apply (uo_fmt _ _ uo_big). }
    { rewrite A2, E2, big_R, p126. apply Rabs_le_iff. lra. }
    rewrite A2, E2 in B2. replace (8 * 16777216 + 8) with (134217728 + 8) by lra. rewrite <- B2.
    clear B1 B2. fval (fadd (ofZ 134217728) (ofZ 8)) CC. rewrite CC. lra.
Qed.
Lemma sum_range {A} (t : A -> f32) K l : unit_K K -> Forall (fun a => num 0 K (t a)) l ->
  forall s k, (0 <= k)%Z -> num 0 (K * 16777216) s -> B2R s <= K * IZR k ->
  let o := fold_left (fun s a => fadd s (t a)) l s in num 0 (K * 16777216) o /\ B2R o <= K * IZR (k + zlen l).
Proof.
  intros HK. induction 1 as [|a l [Fa Ra] _ IH]; intros s k K0 [Fs Rs] B; cbn [fold_left].
  - change (zlen (@nil A)) with 0%Z. rewrite Z.add_0_r. repeat split; tauto.
  - assert (K1 : 1 <= K <= 8) by (destruct HK; lra).
    destruct (fadd_ok s (t a) (bpow radix2 126)) as [F E]; auto. { apply (uo_fmt _ _ uo_big). } { rewrite big_R, p126. apply Rabs_le_iff. lra. }
    assert (Z1 : zlen (a :: l) = (1 + zlen l)%Z) by (unfold zlen; change (length (a :: l)) with (S (length l)); lia).
    assert (LO : 0 <= B2R (fadd s (t a))) by (rewrite E; apply rnd_lo; [apply fmt_0|lra]).
    assert (HI : B2R (fadd s (t a)) <= K * 16777216) by (rewrite E, <- (K_stall K HK); apply rnd_le; lra).
    assert (UP : B2R (fadd s (t a)) <= K * IZR (k + 1)).
    { destruct (Z_le_gt_dec (k + 1) 16777216) as [Q|Q].
      - rewrite E. apply rnd_hi; [apply K_fmt; auto; lia|]. rewrite plus_IZR. lra.
      - eapply Rle_trans; [exact HI|]. apply Rmult_le_compat_l; [lra|]. apply IZR_le. lia. }
    rewrite Z1, Z.add_assoc. apply IH; auto; [lia|]. repeat split; auto.
Qed.
Lemma ofZ_big n : (1 <= n <= 1073741823)%Z -> fin (ofZ n) /\ (if (n <=? 16777216)%Z then B2R (ofZ n) = IZR n else 16777216 <= B2R (ofZ n)).
Proof.
  intros H. pose proof (binary_normalize_correct 24 128 p24 e128 mode_NE n 0 false) as B. cbv zeta in B.
  assert (E : F2R (Float radix2 n 0) = IZR n) by (unfold F2R; simpl; lra). rewrite E in B. fold (rnd (IZR n)) in B.
  assert (N : 1 <= IZR n <= 1073741823) by (split; apply IZR_le; lia).
  rewrite Rlt_bool_true in B. 2:{ apply (rnd_small _ (bpow radix2 126)); [apply (uo_fmt _ _ uo_big)|]. rewrite big_R, p126. apply Rabs_le_iff. lra. }
  destruct B as (B1 & B2 & _). split; [exact B2|]. unfold ofZ, lit. rewrite B1.
  destruct (Z.leb_spec n 16777216) as [Q|Q].
  - apply rnd_id. rewrite <- (Rmult_1_l (IZR n)). apply K_fmt; [now left|lia].
  - apply rnd_lo; [|apply IZR_le; lia]. replace 16777216 with (1 * IZR 16777216) by lra. apply K_fmt; [now left|lia].
Qed.
(** The average is in range whatever the size; its error grows with the size. *)
Lemma mean32 {A} (t : A -> f32) K l : unit_K K -> l <> nil -> (zlen l <= 1073741823)%Z -> Forall (fun a => num 0 K (t a)) l ->
  let avg := fdiv (fold_left (fun s a => fadd s (t a)) l f0) (ofZ (zlen l)) in
  num 0 K avg /\ ((zlen l <= 4194304)%Z -> Rabs (B2R avg - mean (fun a => B2R (t a)) l) <= K * (IZR (zlen l) + 1) / 8388608).
Proof.
  intros HK N H F. cbv zeta. pose proof (len_pos l N) as P. pose proof (INR_zlen l) as E. assert (K1 : 1 <= K <= 8) by (destruct HK; lra).
  destruct (sum_range t K l HK F f0 0%Z ltac:(lia)) as [[FS RS] US]. { split; [reflexivity|]. rewrite f0_R. lra. } { rewrite f0_R. lra. }
  set (S := fold_left _ _ _) in *. rewrite Z.add_0_l in US. set (n := zlen l) in *.
  assert (N1 : 1 <= IZR n <= 1073741823) by (split; apply IZR_le; lia).
  destruct (ofZ_big n ltac:(lia)) as [Fn En]. 
  assert (Q : 0 < B2R (ofZ n) /\ B2R S <= K * B2R (ofZ n)).
  { destruct (Z.leb_spec n 16777216) as [Q|Q]; [rewrite En; lra|]. split; [lra|]. assert (K * 16777216 <= K * B2R (ofZ n)) by (apply Rmult_le_compat_l; lra). lra. }
  destruct Q as [Q1 Q2].
  assert (R : 0 <= B2R S / B2R (ofZ n) <= K).
  { split; [apply div_pos; lra|]. apply (Rmult_le_reg_r (B2R (ofZ n))); [lra|]. unfold Rdiv. rewrite Rmult_assoc, Rinv_l by lra. lra. }
  assert (FK : fmt K) by (replace K with (K * IZR 1) by lra; apply K_fmt; auto; lia).
  destruct (fdiv_num S (ofZ n) 0 K) as [ND ED]; auto with fmt. { lra. }
  split; [exact ND|]. intros HN. replace (n <=? 16777216)%Z with true in En by (symmetry; apply Z.leb_le; lia).
  assert (N2 : IZR n <= 4194304) by (apply IZR_le; lia).
  assert (KN : 1 <= K * IZR n <= 8 * 4194304) by (split; [nra|]; apply Rmult_le_compat; lra).
  set (e := U * (K * IZR n * (3 / 2)) + T).
  assert (e0 : 0 <= e) by (unfold e; lra).
  assert (EB : IZR n * e <= K * IZR n / 2).
  { apply Rle_trans with (IZR n * (K / 2)); [|lra]. apply Rmult_le_compat_l; [lra|]. unfold e. assert (K * IZR n <= K * 4194304) by (apply Rmult_le_compat_l; lra). lra. }
  destruct (sum_error (@B2R 24 128) fin fadd t e K (K * IZR n * (3 / 2))) with (l := l) (s := f0) as [_ ES]; auto with fin; try lra.
  { intros x y Fx Fy Q. apply add_big; auto. lra. }
  { eapply Forall_impl; [|exact F]. intros a [Fa Ra]. split; auto. apply Rabs_le_iff. lra. }
  { rewrite f0_R, E, Rabs_R0. lra. }
  fold S in ES. rewrite f0_R, E in ES. set (m := sum_of (fun a => B2R (t a)) l) in *.
  assert (DN : Rabs (B2R S / IZR n - m / IZR n) <= e) by (apply div_near; [lra|]; replace (B2R S - m) with (B2R S - (0 + m)) by lra; exact ES).
  rewrite En in *. pose proof (rnd_rel_abs (B2R S / IZR n)) as RR. rewrite <- ED in RR. rewrite (Rabs_right (B2R S / IZR n)) in RR by lra. pose proof p140.
  unfold mean. rewrite E. fold m. apply Rabs_le_iff in RR, DN. apply Rabs_le_iff. unfold e in *. lra.
Qed.
