(** Proofs for C107: the tint correction. *)
From Coq Require Import Reals Lra Lia ZArith Bool Psatz List.
From Flocq Require Import Core.Core IEEE754.BinarySingleNaN.
From Verif Require Import Base BaseLemmas F32 F32Lemmas PixelBuffer BufferSpec PixelBufferProofs Color ColorSpec ColorProofs MeaningSpec ConvSpec OpsSpec TempSpec EnhanceSpec TintSpec.
From Verif Require Import Approx OpMeaningProofs HslMeaning SrgbMeaning LabCurve F64Lemmas Kernel Ops HistogramProofs TemperatureProofs Enhance TempProofs TempOpt IdealPowf.
Import ListNotations.
Open Scope R_scope.

(** ** The hyperbolic tangent *)
Lemma one_tanh u : 1 - tanh u = 2 / (exp (2 * u) + 1).
Proof.
  unfold tanh, sinh, cosh. pose proof (exp_pos u). pose proof (exp_pos (- u)). pose proof (exp_pos (2 * u)).
  assert (E : exp (- u) * exp (2 * u) = exp u) by (rewrite <- exp_plus; f_equal; ring).
  set (a := exp u) in *. set (b := exp (- u)) in *. set (c := exp (2 * u)) in *. clearbody a b c. subst a. field. split; [lra|]. nra.
Qed.
Lemma exp_3 n : exp (INR n) <= 3 ^ n.
Proof.
  induction n as [|n IH]; [cbn [INR pow]; rewrite exp_0; lra|]. rewrite S_INR, exp_plus. cbn [pow]. pose proof exp_le_3. pose proof (exp_pos (INR n)). pose proof (exp_pos 1). nra.
Qed.
Lemma one_tanh_ge u n : 2 * u <= INR n -> 2 / (3 ^ n + 1) <= 1 - tanh u.
Proof.
  intros H. rewrite one_tanh. pose proof (exp_3 n) as E. assert (M : exp (2 * u) <= exp (INR n)). { destruct H as [H|H]; [left; now apply exp_increasing|rewrite H; lra]. }
  pose proof (exp_pos (2 * u)). unfold Rdiv. apply Rmult_le_compat_l; [lra|]. apply Rinv_le_contravar; lra.
Qed.
Lemma tanh_0' : tanh 0 = 0.
Proof. unfold tanh. rewrite sinh_0. unfold Rdiv. ring. Qed.
Lemma tanh_pos u : 0 <= u -> 0 <= tanh u.
Proof. intros H. pose proof (one_tanh u) as E. assert (1 <= exp (2 * u)) by (rewrite <- exp_0; destruct H as [H|<-]; [left; apply exp_increasing; lra|rewrite Rmult_0_r; lra]).
  assert (2 / (exp (2 * u) + 1) <= 1) by (apply (Rmult_le_reg_r (exp (2 * u) + 1)); [lra|]; unfold Rdiv; rewrite Rmult_assoc, Rinv_l by lra; lra). lra. Qed.

(** ** The excess *)
Lemma excess_term a b c : in01 a -> in01 b -> in01 c ->
  let t := fsub (fadd (fsub a b) a) c in fin t /\ Rabs (B2R t - (2 * B2R a - B2R b - B2R c)) <= / 2000000 /\ Rabs (B2R t) <= 201 / 100.
Proof.
  intros A B C. apply in01_R in A, B, C. destruct A as [Fa Ra]. destruct B as [Fb Rb]. destruct C as [Fc Rc]. cbv zeta.
  pose proof (close_sub 1 _ 0 0 _ _ _ _ uo_1 (close_0 a Fa) (close_0 b Fb)) as K1.
  assert (Q1 : Rabs (B2R a - B2R b) <= 1) by (apply Rabs_le_iff; lra). specialize (K1 ltac:(lra)).
  pose proof (close_add 4 _ _ 0 _ _ _ _ uo_4 K1 (close_0 a Fa)) as K2. assert (Q2 : Rabs (B2R a - B2R b + B2R a) <= 2) by (apply Rabs_le_iff; lra). specialize (K2 ltac:(lra)).
  pose proof (close_sub 4 _ _ 0 _ _ _ _ uo_4 K2 (close_0 c Fc)) as K3. assert (Q3 : Rabs (B2R a - B2R b + B2R a - B2R c) <= 2) by (apply Rabs_le_iff; lra). specialize (K3 ltac:(lra)).
  destruct K3 as [F E]. split; [exact F|]. apply Rabs_le_iff in E, Q3. split; apply Rabs_le_iff; lra.
Qed.
Definition scale_of (scale : option f32) (k : R) : Prop := match scale with Some s => fin s /\ Rabs (B2R s - k) <= / 33554432 | None => k = 1 end.
Definition excess (term : Rgb -> f32) (scale : option f32) (l : list Rgb) (tint : f32) : f32 :=
  let sum := fold_left (fun sum c => fadd sum (term c)) l f0 in
  let sum := match scale with Some k => fmul k sum | None => sum end in fdiv (fmul sum tint) (ofZ (zlen l)).
Lemma mul_big x y M : fin x -> fin y -> Rabs (B2R x * B2R y) <= M -> M <= 1000000000000 ->
  fin (fmul x y) /\ Rabs (B2R (fmul x y) - B2R x * B2R y) <= U * M + T.
Proof.
  intros Fx Fy H G. destruct (fmul_ok x y (bpow radix2 126)) as [F E]; auto. { apply (uo_fmt _ _ uo_big). } { rewrite big_R, p126. lra. }
  split; auto. rewrite E. rel (B2R x * B2R y).
Qed.
Lemma div_big x y M : fin x -> fin y -> B2R y <> 0 -> Rabs (B2R x / B2R y) <= M -> M <= 1000000000000 ->
  fin (fdiv x y) /\ Rabs (B2R (fdiv x y) - B2R x / B2R y) <= U * M + T.
Proof.
  intros Fx Fy N H G. destruct (fdiv_ok x y (bpow radix2 126)) as [F E]; auto. { apply (uo_fmt _ _ uo_big). } { rewrite big_R, p126. lra. }
  split; auto. rewrite E. rel (B2R x / B2R y).
Qed.
Lemma excess_ok (term : Rgb -> f32) (f : Rgb -> R) scale k l tint : l <> nil -> (zlen l <= 1048576)%Z ->
  Forall (fun c => fin (term c) /\ Rabs (B2R (term c) - f c) <= / 2000000 /\ Rabs (B2R (term c)) <= 201 / 100) l -> scale_of scale k -> 0 < k <= 1 ->
  fin tint -> 0 < B2R tint <= 1 ->
  let u := excess term scale l tint in fin u /\ Rabs (B2R u - B2R tint * (k * mean f l)) <= IZR (zlen l) / 4194304 + / 262144.
Proof.
  intros N H F SC K Ft Rt. cbv zeta. pose proof (len_pos l N) as P. pose proof (INR_zlen l) as E. unfold excess. cbv zeta. set (n := zlen l) in *.
  assert (N1 : 1 <= IZR n <= 1048576) by (split; apply IZR_le; lia). destruct (ofZ_val n ltac:(lia)) as [Fn En].
  set (e := U * (IZR n * (3 / 1)) + T). assert (E0 : 0 <= e <= / 5) by (unfold e; lra). assert (E1 : IZR n * e <= IZR n * / 5) by (apply Rmult_le_compat_l; lra).
  destruct (sum_error (@B2R 24 128) fin fadd term e (201 / 100) (IZR n * 3)) with (l := l) (s := f0) as [FS ES]; auto with fin; try lra.
  { intros x y Fx Fy Q. replace e with (U * (IZR n * 3) + T) by (unfold e; lra). apply add_big; auto. lra. }
  { eapply Forall_impl; [|exact F]. intros a (A1 & _ & A3). split; assumption. }
  { rewrite f0_R, E, Rabs_R0. lra. }
  set (S := fold_left _ _ _) in *. clearbody S. rewrite f0_R, E in ES.
  assert (MN : Rabs (mean (fun c => B2R (term c)) l - mean f l) <= / 2000000) by (apply mean_near; auto; eapply Forall_impl; [|exact F]; intros a (_ & A2 & _); exact A2).
  assert (MB : Rabs (mean (fun c => B2R (term c)) l) <= 201 / 100) by (apply mean_abs; auto; eapply Forall_impl; [|exact F]; intros a (_ & _ & A3); exact A3).
  unfold mean at 1 in MN. unfold mean at 1 in MB. rewrite E in MN, MB. set (m := sum_of (fun c => B2R (term c)) l) in *. set (M := mean f l) in *. clearbody m M.
  assert (DN : Rabs (B2R S / IZR n - m / IZR n) <= e) by (apply div_near; [lra|]; replace (B2R S - m) with (B2R S - (0 + m)) by lra; exact ES).
  (* everything per pixel *)
  set (s := B2R S / IZR n) in *. assert (ESn : B2R S = s * IZR n) by (unfold s; field; lra). clearbody s. clear ES.
  set (mm := m / IZR n) in *. clearbody mm. apply Rabs_le_iff in MN, MB, DN.
  assert (SC' : exists S', match scale with Some k => fmul k S | None => S end = S' /\ fin S' /\ exists s', B2R S' = s' * IZR n /\ Rabs (s' - k * s) <= / 4000000 /\ Rabs s' <= 23 / 10).
  { assert (Hs : Rabs s <= 222 / 100) by (apply Rabs_le_iff; lra). destruct scale as [q|].
    - destruct SC as [Fq Eq]. apply Rabs_le_iff in Eq, Hs.
      assert (Bq : Rabs (B2R q * B2R S) <= 11 / 10 * (222 / 100 * IZR n)). { apply abs_mul_le; [apply Rabs_le_iff; lra|]. rewrite ESn. apply abs_mul_le; [apply Rabs_le_iff; lra|apply Rabs_le_iff; lra]. }
      destruct (mul_big q S (11 / 10 * (222 / 100 * IZR n)) Fq FS Bq) as [Fm Em]; [lra|].
      exists (fmul q S). split; [reflexivity|]. split; [exact Fm|]. exists (B2R (fmul q S) / IZR n). split; [field; lra|].
      assert (D : Rabs (B2R (fmul q S) / IZR n - B2R q * B2R S / IZR n) <= U * 25 / 10). { apply div_near; [lra|]. eapply Rle_trans; [exact Em|]. lra. }
      replace (B2R q * B2R S / IZR n) with (B2R q * s) in D by (rewrite ESn; field; lra).
      assert (D2 : Rabs ((B2R q - k) * s) <= / 33554432 * (222 / 100)) by (apply abs_mul_le; apply Rabs_le_iff; lra).
      assert (D3 : Rabs (k * s) <= 1 * (222 / 100)) by (apply abs_mul_le; apply Rabs_le_iff; lra).
      apply Rabs_le_iff in D, D2, D3. split; apply Rabs_le_iff; lra.
    - cbn in SC. subst k. exists S. split; [reflexivity|]. split; [exact FS|]. exists s. split; [exact ESn|]. apply Rabs_le_iff in Hs. split; apply Rabs_le_iff; lra. }
  destruct SC' as (S' & -> & FS' & s' & ES' & D' & B'). 
  assert (Bt : Rabs (B2R S' * B2R tint) <= 23 / 10 * IZR n * 1). { rewrite ES'. apply abs_mul_le; [apply abs_mul_le; [exact B'|apply Rabs_le_iff; lra]|apply Rabs_le_iff; lra]. }
  destruct (mul_big S' tint (23 / 10 * IZR n * 1) FS' Ft Bt) as [Fp Ep]; [lra|]. set (p := fmul S' tint) in *. clearbody p.
  assert (Dp : Rabs (B2R p / IZR n - B2R S' * B2R tint / IZR n) <= U * 24 / 10). { apply div_near; [lra|]. eapply Rle_trans; [exact Ep|]. lra. }
  replace (B2R S' * B2R tint / IZR n) with (s' * B2R tint) in Dp by (rewrite ES'; field; lra).
  assert (B2 : Rabs (s' * B2R tint) <= 23 / 10 * 1) by (apply abs_mul_le; [exact B'|apply Rabs_le_iff; lra]). pose proof B2 as B2'. pose proof Dp as Dp'. apply Rabs_le_iff in B2', Dp'.
  destruct (div_big p (ofZ n) 3 Fp Fn) as [Fu Eu]; [rewrite En; lra|rewrite En; apply Rabs_le_iff; lra|lra|]. rewrite En in Eu. split; [exact Fu|].
  set (q := B2R p / IZR n) in *. clearbody q.
  assert (X1 : Rabs ((s' - k * s) * B2R tint) <= / 4000000 * 1) by (apply abs_mul_le; [exact D'|apply Rabs_le_iff; lra]).
  assert (X2 : Rabs (k * (s - M) * B2R tint) <= 1 * (e + / 2000000) * 1) by (apply abs_mul_le; [apply abs_mul_le|]; apply Rabs_le_iff; lra).
  apply Rabs_le_iff in X1, X2, Eu. unfold e in *. apply Rabs_le_iff. lra.
Qed.

(** ** The power *)
Lemma tint_gamma L u : accurate_tanh_single L -> fin u -> 0 < B2R u <= 5 / 2 ->
  let p := fdiv f1 (fsub f1 (ftanh L u)) in let G := 1 - tanh (B2R u) in
  fin p /\ 0 < B2R p <= 1000 /\ / 122 <= G <= 1 /\ Rabs (B2R p - / G) <= / 20000 * / G.
Proof.
  intros AT Fu Ru p G. destruct (AT u Fu) as [Fh Eh]; [lra|]. rewrite (pow_IZR 2 22) in Eh. change (IZR (2 ^ Z.of_nat 22)) with 4194304 in Eh.
  assert (HG : / 122 <= G <= 1). { unfold G. pose proof (one_tanh_ge (B2R u) 5 ltac:(cbn [INR]; lra)) as Q. replace (2 / (3 ^ 5 + 1)) with (/ 122) in Q by lra. pose proof (tanh_pos (B2R u) ltac:(lra)). lra. }
  set (h := ftanh L u) in *. clearbody h. apply Rabs_le_iff in Eh. fold G.
  destruct (fsub_ok f1 h 2) as [Fd Ed]; auto using (uo_fmt _ _ uo_2) with fin. { rewrite f1_R. apply Rabs_le_iff. unfold G in HG. lra. }
  rewrite f1_R in Ed. pose proof (uo_err _ _ (1 - B2R h) uo_2 ltac:(apply Rabs_le_iff; unfold G in HG; lra)) as R1. rewrite <- Ed in R1. apply Rabs_le_iff in R1.
  unfold p. set (d := fsub f1 h) in *. clearbody d. assert (D : Rabs (B2R d - G) <= / 3300000) by (apply Rabs_le_iff; unfold G; lra). apply Rabs_le_iff in D. clearbody G.
  assert (Pd : / 123 <= B2R d <= 2) by lra. assert (Id : 0 < / B2R d <= 123). { split; [apply Rinv_0_lt_compat; lra|]. replace 123 with (/ / 123) by lra. apply Rinv_le_contravar; lra. }
  assert (Id2 : / 2 <= / B2R d) by (apply Rinv_le_contravar; lra).
  assert (IG : 0 < / G) by (apply Rinv_0_lt_compat; lra).
  destruct (div_big f1 d 124) as [Fp Ep]; auto with fin; try lra. { rewrite f1_R. unfold Rdiv. rewrite Rmult_1_l. apply Rabs_le_iff. lra. }
  destruct (fdiv_ok f1 d (bpow radix2 126)) as [_ Ep']; auto with fin. { lra. } { apply (uo_fmt _ _ uo_big). } { rewrite f1_R, big_R, p126. unfold Rdiv. rewrite Rmult_1_l. apply Rabs_le_iff. lra. }
  clear Ep. rewrite f1_R in Ep'. unfold Rdiv in Ep'. rewrite Rmult_1_l in Ep'. pose proof (rnd_rel_abs (/ B2R d)) as RR. pose proof p140. rewrite <- Ep' in RR. rewrite (Rabs_right (/ B2R d)) in RR by lra. apply Rabs_le_iff in RR.
  split; [exact Fp|]. split; [lra|]. split; [exact HG|].
  assert (Q : / B2R d - / G = (G - B2R d) * / B2R d * / G) by (field; lra).
  assert (Q1 : Rabs ((G - B2R d) * / B2R d * / G) <= / 3300000 * 123 * / G). { apply abs_mul_le; [apply abs_mul_le; apply Rabs_le_iff; lra|apply Rabs_le_iff; lra]. }
  rewrite <- Q in Q1. apply Rabs_le_iff in Q1. assert (IG1 : 1 <= / G) by (rewrite <- Rinv_1; apply Rinv_le_contravar; lra). apply Rabs_le_iff. lra.
Qed.
Lemma gamma_1 v : 0 <= v -> gamma_formula 1 v = v.
Proof. intros H. unfold gamma_formula. destruct Req_EM_T as [E|E]; [now symmetry|]. rewrite Rinv_1. apply Rpower_1. lra. Qed.
Lemma darkened_pos u v : 0 < u -> darkened u v = gamma_formula (1 - tanh u) v.
Proof. intros H. unfold darkened. rewrite Rmax_right by lra. reflexivity. Qed.
Lemma darkened_neg u v : u <= 0 -> 0 <= v -> darkened u v = v.
Proof. intros H V. unfold darkened. rewrite Rmax_left by lra. rewrite tanh_0', Rminus_0_r. now apply gamma_1. Qed.
Lemma tint_power L u v : accurate_powf L -> accurate_tanh_single L -> fin u -> 0 < B2R u <= 5 / 2 -> num 0 1 v ->
  close (/ 8192) (darkened (B2R u) (B2R v)) (powf L v (fdiv f1 (fsub f1 (ftanh L u)))).
Proof.
  intros AP AT Fu Ru [Fv Rv]. destruct (tint_gamma L u AT Fu Ru) as (Fp & Rp & HG & Ep). cbv zeta in *. rewrite darkened_pos by lra.
  set (p := fdiv f1 (fsub f1 (ftanh L u))) in *. set (G := 1 - tanh (B2R u)) in *. clearbody p G. destruct (AP v p Fv Fp Rp) as [A1 A2].
  assert (IG : 0 < / G) by (apply Rinv_0_lt_compat; lra). unfold gamma_formula. destruct Req_EM_T as [E|E].
  - eapply close_weak; [exact (A2 E)|lra].
  - assert (Rv' : 0 < B2R v <= 1) by lra. eapply close_weak; [eapply close_move; [exact (A1 Rv')|]; apply (Rpower_rel _ (/ G) (B2R p) (/ 20000)); auto; lra|].
    pose proof (Rpower_01 (B2R v) (B2R p) Rv' ltac:(lra)). pose proof p100. lra.
Qed.
Lemma darkened_01 u v : 0 <= v <= 1 -> u <= 5 / 2 -> 0 <= darkened u v <= 1.
Proof. intros V Hu. unfold darkened. apply gamma_formula_01; [exact V|]. assert (Rmax 0 u <= 5 / 2) by (apply Rmax_lub; lra). pose proof (one_tanh_ge (Rmax 0 u) 5 ltac:(cbn [INR]; lra)) as Q. replace (2 / (3 ^ 5 + 1)) with (/ 122) in Q by lra. lra. Qed.
Lemma darkened_lip u v w : u <= 1 -> 0 <= v <= 1 -> 0 <= w <= 1 -> Rabs (darkened u v - darkened u w) <= 5 * Rabs (v - w).
Proof.
  intros Hu V W. unfold darkened. assert (M : Rmax 0 u <= 1) by (apply Rmax_lub; lra). pose proof (Rmax_l 0 u) as M0.
  pose proof (one_tanh_ge (Rmax 0 u) 2 ltac:(cbn [INR]; lra)) as Q. replace (2 / (3 ^ 2 + 1)) with (/ 5) in Q by lra. pose proof (tanh_pos (Rmax 0 u) M0) as TP.
  assert (HG : / 5 <= 1 - tanh (Rmax 0 u) <= 1) by lra. set (G := 1 - tanh (Rmax 0 u)) in *. clearbody G.
  assert (IG : 1 <= / G <= 5). { split; [rewrite <- Rinv_1; apply Rinv_le_contravar; lra|]. replace 5 with (/ / 5) by lra. apply Rinv_le_contravar; lra. }
  assert (Z : forall w, 0 < w <= 1 -> 0 <= Rpower w (/ G) <= w). { intros z Hz. pose proof (Rpower_01 z (/ G) Hz ltac:(lra)). pose proof (Rpower_near z 1 (/ G) Hz ltac:(lra)) as RN. rewrite Rpower_1 in RN by lra. lra. }
  unfold gamma_formula. destruct (Req_EM_T v 0) as [E1|E1], (Req_EM_T w 0) as [E2|E2].
  - rewrite Rminus_eq_0, Rabs_R0. pose proof (Rabs_pos (v - w)). lra.
  - subst v. rewrite !Rminus_0_l, !Rabs_Ropp. pose proof (Z w ltac:(lra)). rewrite !Rabs_right by lra. lra.
  - subst w. rewrite !Rminus_0_r. pose proof (Z v ltac:(lra)). rewrite !Rabs_right by lra. lra.
  - eapply Rle_trans; [apply Rpower_lip; lra|]. apply Rmult_le_compat_r; [apply Rabs_pos|lra].
Qed.

(** ** The image *)
Definition tint_step (L : libm) (on : bool) (p v : f32) : f32 := if on then powf L v p else v.
Lemma tint_pow_excess L term scale (b : PixelBuffer Rgb) tint : flt f0 tint = true -> fin tint ->
  tint_pow L term scale b tint = let u := excess term scale (data b) tint in if flt f0 u then fdiv f1 (fsub f1 (ftanh L u)) else f0.
Proof.
  intros H F. unfold tint_pow. replace (fle tint f0) with false; [reflexivity|]. symmetry. apply not_true_is_false. intros Q. apply flt_R in H; auto with fin. apply fle_R in Q; auto with fin. lra.
Qed.
Lemma map_if (on : bool) f g (b : PixelBuffer Rgb) : (if on then map_pure f b else map_pure g b) = Ok (convert (fun c => if on then f c else g c) b).
Proof. destruct on; apply map_pure_conv. Qed.
Lemma convert_same {A} (b : PixelBuffer A) : convert (fun c => c) b = b.
Proof. unfold convert. rewrite map_id. now destruct b. Qed.
Lemma map_if_id (on : bool) f (b : PixelBuffer Rgb) : (if on then map_pure f b else Ok b) = Ok (convert (fun c => if on then f c else c) b).
Proof. destruct on; [apply map_pure_conv|]. rewrite convert_same. reflexivity. Qed.
Lemma temperature_tint L (b : PixelBuffer Rgb) t t' tint c c' : flt f0 tint = true -> convert_kelvin_to_rgb t = Ok c -> convert_kelvin_to_rgb t' = Ok c' ->
  let pg := fmax (get_green_tint_pow L b tint) f0 in let pr := get_red_tint_pow L b tint in let pb := get_blue_tint_pow L b tint in
  change_color_temperature L b t t' tint = Ok (convert (fun p => if flt f0 pb then with_2 p (powf L (d2 p) pb) else p)
    (convert (fun p => if flt f0 pr then with_0 p (powf L (d0 p) pr) else p)
      (convert (fun p => if flt f0 pg then rgb_new_with_alpha (fmul (d0 p) (fdiv (d0 c) (d0 c'))) (fmul (powf L (d1 p) pg) (fdiv (d1 c) (d1 c'))) (fmul (d2 p) (fdiv (d2 c) (d2 c'))) (alpha p)
                         else rgb_new_with_alpha (fmul (d0 p) (fdiv (d0 c) (d0 c'))) (fmul (d1 p) (fdiv (d1 c) (d1 c'))) (fmul (d2 p) (fdiv (d2 c) (d2 c'))) (alpha p)) b))).
Proof.
  intros T E E'. cbv zeta. unfold change_color_temperature, calculate_factors. rewrite E, E'. cbn [bind]. cbv zeta. rewrite T.
  rewrite map_if. cbn [bind]. rewrite map_if_id. cbn [bind]. rewrite map_if_id. reflexivity.
Qed.
Lemma scaled_near (v c c' : f32) V W W' e : close e V v -> 0 <= V <= 1 -> 0 <= e <= / 4096 -> close (/ 131072) W c -> close (/ 131072) W' c' -> 0 <= W <= 1 -> / 4 <= W' <= 1 ->
  close (/ 4096 + 5 * e) (limited (V * (W / W'))) (clamp (fmul v (fdiv c c'))).
Proof.
  intros I HV He K K' HW HW'.
  assert (IW : 0 < / W' <= 4). { split; [apply Rinv_0_lt_compat; lra|]. apply (Rmult_le_reg_r W'); [lra|]. rewrite Rinv_l by lra. lra. }
  assert (Q : 0 <= W / W' <= 4). { unfold Rdiv. split; [apply Rmult_le_pos; lra|]. replace 4 with (1 * 4) by lra. apply Rmult_le_compat; lra. }
  assert (D : close (/ 131072 * 21) (W / W') (fdiv c c')).
  { eapply close_weak; [apply (close_div 8 _ (/ 4 - / 131072) 4 (/ 131072) (/ 131072) W W' c c' uo_8 K K'); try lra|].
    - rewrite Rabs_right by lra. lra. - apply Rabs_le_iff. lra.
    - replace ((/ 131072 + 4 * / 131072) / (/ 4 - / 131072)) with (5 * 4 / 131068) by field. lra. }
  apply close_clamp. eapply close_weak; [apply (close_mul 8 _ 1 4 e (/ 131072 * 21) _ _ _ _ uo_8 I D)|]; try (apply Rabs_le_iff; lra); lra.
Qed.
Lemma tint_channel L u v : accurate_powf L -> accurate_tanh_single L -> fin u -> B2R u <= 5 / 2 -> num 0 1 v ->
  close (/ 8192) (darkened (B2R u) (B2R v)) (if flt f0 u then powf L v (fdiv f1 (fsub f1 (ftanh L u))) else v).
Proof.
  intros AP AT Fu Ru Hv. destruct (flt f0 u) eqn:Q.
  - apply flt_R in Q; auto with fin. rewrite f0_R in Q. apply tint_power; auto.
  - apply flt_Rf in Q; auto with fin. rewrite f0_R in Q. rewrite darkened_neg by (try lra; apply Hv). eapply close_weak; [apply close_0, Hv|lra].
Qed.
Lemma power_on L u : accurate_tanh_single L -> fin u -> B2R u <= 5 / 2 ->
  let p := if flt f0 u then fdiv f1 (fsub f1 (ftanh L u)) else f0 in flt f0 p = flt f0 u /\ fmax p f0 = p.
Proof.
  intros AT Fu Ru. cbv zeta. destruct (flt f0 u) eqn:Q.
  - apply flt_R in Q; auto with fin. rewrite f0_R in Q. destruct (tint_gamma L u AT Fu ltac:(lra)) as (Fp & Rp & _). cbv zeta in *.
    set (p := fdiv f1 (fsub f1 (ftanh L u))) in *. clearbody p. split; [apply flt_R; auto with fin; rewrite f0_R; lra|].
    unfold fmax. replace (is_nan p) with false by (destruct p; try discriminate; reflexivity). change (is_nan f0) with false. cbv iota.
    replace (flt p f0) with false; [reflexivity|]. symmetry. apply flt_Rf; auto with fin. rewrite f0_R. lra.
  - split; reflexivity.
Qed.
Lemma clamp_num x : fin (clamp x) -> num 0 1 (clamp x).
Proof. intros F. apply in01_num. apply clamp_in01. destruct x; try reflexivity. discriminate F. Qed.
Lemma tint_meaning L (b : PixelBuffer Rgb) t t' tint : accurate_powf L -> accurate_tanh_single L -> valid b -> nonempty b -> Forall in_gamut (data b) ->
  (width b * height b <= 1048576)%Z -> fin tint -> 0 < B2R tint <= 1 -> (3000 <= kelvin t')%Z ->
  exists r ug ur ub, change_color_temperature L b t t' tint = Ok r /\ valid r /\ width r = width b /\ height r = height b /\
  (let e := IZR (width b * height b) / 4194304 + / 262144 in
   Rabs (ug - B2R tint * mean greenness (data b)) <= e /\ Rabs (ur - B2R tint * (/ 4 * mean red_excess (data b))) <= e /\ Rabs (ub - B2R tint * (33 / 100 * mean blue_excess (data b))) <= e) /\
  forall m x y c, inside b x y -> get_pixel m b x y = Ok c -> exists o, get_pixel m r x y = Ok o /\
    close (/ 512) (darkened ur (limited (B2R (d0 c) * (white_red (kelvin t) / white_red (kelvin t'))))) (d0 o) /\
    close (/ 512) (limited (darkened ug (B2R (d1 c)) * (white_green (kelvin t) / white_green (kelvin t')))) (d1 o) /\
    close (/ 512) (darkened ub (limited (B2R (d2 c) * (white_blue (kelvin t) / white_blue (kelvin t'))))) (d2 o) /\ d3 o = d3 c.
Proof.
  intros AP AT Vb Nb G Hn Ft Rt H3. destruct (white_ok t) as (k & E & A0 & A1 & A2 & _). destruct (white_ok t') as (k' & E' & B0 & B1 & B2 & _).
  assert (N : data b <> nil). { intros Q. destruct Vb as [_ LL]. rewrite Q in LL. change (zlen (@nil Rgb)) with 0%Z in LL. destruct Nb. nia. }
  assert (LN : zlen (data b) = (width b * height b)%Z) by (destruct Vb as [_ LL]; lia).
  assert (PT : flt f0 tint = true) by (apply flt_R; auto with fin; rewrite f0_R; lra).
  assert (N1 : 0 <= IZR (width b * height b) <= 1048576) by (split; apply IZR_le; destruct Nb; nia).
  pose proof (excess_ok (fun c => fsub (fadd (fsub (d1 c) (d0 c)) (d1 c)) (d2 c)) greenness None 1 (data b) tint N ltac:(lia)) as XG.
  specialize (XG ltac:(eapply Forall_impl; [|exact G]; intros c (G0 & G1 & G2 & _); exact (excess_term _ _ _ G1 G0 G2)) eq_refl ltac:(lra) Ft Rt).
  pose proof (excess_ok (fun c => fsub (fadd (fsub (d0 c) (d1 c)) (d0 c)) (d2 c)) red_excess (Some (dec 25 100)) (/ 4) (data b) tint N ltac:(lia)) as XR.
  specialize (XR ltac:(eapply Forall_impl; [|exact G]; intros c (G0 & G1 & G2 & _); exact (excess_term _ _ _ G0 G1 G2))).
  specialize (XR ltac:(fval (dec 25 100) Q; split; [assumption|]; rewrite Q; apply Rabs_le_iff; lra) ltac:(lra) Ft Rt).
  pose proof (excess_ok (fun c => fsub (fadd (fsub (d2 c) (d1 c)) (d2 c)) (d0 c)) blue_excess (Some (dec 33 100)) (33 / 100) (data b) tint N ltac:(lia)) as XB.
  specialize (XB ltac:(eapply Forall_impl; [|exact G]; intros c (G0 & G1 & G2 & _); exact (excess_term _ _ _ G2 G1 G0))).
  specialize (XB ltac:(fval (dec 33 100) Q; split; [assumption|]; rewrite Q; apply Rabs_le_iff; lra) ltac:(lra) Ft Rt).
  rewrite LN in *. cbv zeta in XG, XR, XB. rewrite (Rmult_1_l (mean _ _)) in XG.
  assert (MB : forall f : Rgb -> R, (forall c, in_gamut c -> Rabs (f c) <= 2) -> Rabs (B2R tint * mean f (data b)) <= 1 * 2).
  { intros f Hf. apply abs_mul_le; [apply Rabs_le_iff; lra|]. apply mean_abs; auto. eapply Forall_impl; [|exact G]. exact Hf. }
  pose proof (MB greenness ltac:(intros c (G0 & G1 & G2 & _); apply in01_R in G0, G1, G2; unfold greenness; apply Rabs_le_iff; lra)) as MG.
  pose proof (MB red_excess ltac:(intros c (G0 & G1 & G2 & _); apply in01_R in G0, G1, G2; unfold red_excess; apply Rabs_le_iff; lra)) as MR.
  pose proof (MB blue_excess ltac:(intros c (G0 & G1 & G2 & _); apply in01_R in G0, G1, G2; unfold blue_excess; apply Rabs_le_iff; lra)) as MBl. clear MB.
  rewrite (temperature_tint L b t t' tint k k' PT E E'). unfold get_green_tint_pow, get_red_tint_pow, get_blue_tint_pow. rewrite !tint_pow_excess by auto. cbv zeta.
  set (ug := excess _ None _ _) in *. set (ur := excess _ (Some (dec 25 100)) _ _) in *. set (ub := excess _ (Some (dec 33 100)) _ _) in *. clearbody ug ur ub.
  destruct XG as [Fg Eg]. destruct XR as [Fr Er]. destruct XB as [Fb Eb].
  assert (Bg : B2R ug <= 5 / 2) by (apply Rabs_le_iff in Eg, MG; lra). assert (Br : B2R ur <= 1) by (apply Rabs_le_iff in Er, MR; lra). assert (Bb : B2R ub <= 1) by (apply Rabs_le_iff in Eb, MBl; lra).
  destruct (power_on L ug AT Fg Bg) as [Og Mg]. destruct (power_on L ur AT Fr ltac:(lra)) as [Or _]. destruct (power_on L ub AT Fb ltac:(lra)) as [Ob _]. cbv zeta in *. rewrite Mg, Og, Or, Ob.
  eexists. exists (B2R ug), (B2R ur), (B2R ub). split; [reflexivity|].
  match goal with |- context [valid (convert ?h (convert ?g (convert ?f b)))] => destruct (same_dims_convert f b Vb) as (V1 & V2 & V3); destruct (same_dims_convert g _ V1) as (V4 & V5 & V6); destruct (same_dims_convert h _ V4) as (V7 & V8 & V9) end.
  split; [exact V7|]. split; [exact (eq_trans V8 (eq_trans V5 V2))|]. split; [exact (eq_trans V9 (eq_trans V6 V3))|]. split; [split; [exact Eg|split; [exact Er|exact Eb]]|].
  intros m x y c I P. assert (IN : In c (data b)). { rewrite get_pixel_eq in P by auto. eapply idx_In; exact P. }
  eexists. split.
  { eapply convert_pixel; [exact V4|exact I|]. eapply convert_pixel; [exact V1|exact I|]. eapply convert_pixel; [exact Vb|exact I|exact P]. }
  clear V1 V2 V3 V4 V5 V6 V7 V8 V9 P I. rewrite Forall_forall in G. destruct (G c IN) as (G0 & G1 & G2 & G3). clear G IN.
  destruct (white_limited (kelvin t)) as (L0 & L1 & L2). destruct (white_limited (kelvin t')) as (M0 & M1 & M2).
  destruct (whites (kelvin t')) as (N0' & N1' & N2'). { pose proof (kelvin_range t'). lia. }
  pose proof (in01_R _ G1) as [F1 R1].
  pose proof (tint_channel L ug (d1 c) AP AT Fg Bg ltac:(split; assumption)) as CG.
  pose proof (scaled_near _ _ _ _ _ _ _ CG (darkened_01 _ _ R1 Bg) ltac:(lra) A1 B1 L1 ltac:(lra)) as SG.
  pose proof (scaled_channel (d0 c) _ _ _ _ G0 A0 B0 L0 ltac:(lra)) as SR. pose proof (scaled_channel (d2 c) _ _ _ _ G2 A2 B2 L2 ltac:(lra)) as SB.
  set (gr := clamp (fmul (d0 c) (fdiv (d0 k) (d0 k')))) in *. set (gb := clamp (fmul (d2 c) (fdiv (d2 k) (d2 k')))) in *.
  set (R := limited (B2R (d0 c) * _)) in *. set (B := limited (B2R (d2 c) * _)) in *. set (GG := limited (darkened _ _ * _)) in *.
  assert (HR : 0 <= R <= 1) by apply limited_range. assert (HB : 0 <= B <= 1) by apply limited_range.
  assert (Ngr : num 0 1 gr) by (apply clamp_num, SR).
  assert (Ngb : num 0 1 gb) by (apply clamp_num, SB).
  pose proof (tint_channel L ur gr AP AT Fr ltac:(lra) Ngr) as CR. pose proof (tint_channel L ub gb AP AT Fb ltac:(lra) Ngb) as CB.
  assert (ZR : close (/ 512) (darkened (B2R ur) R) (if flt f0 ur then powf L gr (fdiv f1 (fsub f1 (ftanh L ur))) else gr)).
  { eapply close_weak; [eapply close_move; [exact CR|]; apply (darkened_lip (B2R ur) (B2R gr) R Br (proj2 Ngr) HR)|]. destruct SR as [_ SR]. lra. }
  assert (ZB : close (/ 512) (darkened (B2R ub) B) (if flt f0 ub then powf L gb (fdiv f1 (fsub f1 (ftanh L ub))) else gb)).
  { eapply close_weak; [eapply close_move; [exact CB|]; apply (darkened_lip (B2R ub) (B2R gb) B Bb (proj2 Ngb) HB)|]. destruct SB as [_ SB]. lra. }
  assert (A3 : clamp (alpha c) = d3 c) by (apply clamp_id; exact G3).
  unfold rgb_new_with_alpha. destruct (flt f0 ug), (flt f0 ur), (flt f0 ub); cbn [d0 d1 d2 d3 with_0 with_2]; fold gr gb; (split; [exact ZR|split; [eapply close_weak; [exact SG|lra]|split; [exact ZB|exact A3]]]).
Qed.

(** ** Large images *)
Lemma ofZ_large n : (33554432 <= n <= 1073741823)%Z -> fin (ofZ n) /\ 33554432 <= B2R (ofZ n) <= 1073741824.
Proof.
  intros H. pose proof (binary_normalize_correct 24 128 p24 e128 mode_NE n 0 false) as B. cbv zeta in B.
  assert (E : F2R (Float radix2 n 0) = IZR n) by (unfold F2R; simpl; lra). rewrite E in B. fold (rnd (IZR n)) in B.
  assert (N : 33554432 <= IZR n <= 1073741823) by (split; apply IZR_le; lia).
  rewrite Rlt_bool_true in B. 2:{ apply (rnd_small _ (bpow radix2 126)); [apply (uo_fmt _ _ uo_big)|]. rewrite big_R, p126. apply Rabs_le_iff. lra. }
  destruct B as (B1 & B2 & _). split; [exact B2|]. unfold ofZ, lit. rewrite B1. split.
  - apply rnd_lo; [|lra]. replace 33554432 with (8 * IZR 4194304) by lra. apply K_fmt; [now right|lia].
  - apply rnd_hi; [|lra]. replace 1073741824 with (IZR 1 * bpow radix2 30); [apply fmt_F2R; lia|]. rewrite bpow_pos. cbn. lra.
Qed.
Lemma tanh_le u : 0 <= u -> tanh u <= u.
Proof.
  intros H. pose proof (tanh_lip u 0) as Q. rewrite tanh_0', !Rminus_0_r in Q. pose proof (tanh_pos u H). rewrite !Rabs_right in Q by lra. exact Q.
Qed.
Lemma darkened_half u : 0 <= u <= / 2 -> / 4 <= darkened u (/ 2).
Proof.
  intros H. destruct (Req_dec u 0) as [->|N]; [rewrite darkened_neg by lra; lra|]. rewrite darkened_pos by lra. unfold gamma_formula. destruct Req_EM_T as [E|E]; [lra|].
  pose proof (tanh_le u ltac:(lra)). pose proof (tanh_pos u ltac:(lra)).
  replace (/ 4) with (Rpower (/ 2) 2). 2:{ replace 2 with (INR 2) at 2 by (cbn; lra). rewrite Rpower_pow by lra. cbn [pow]. lra. }
  assert (G : / (1 - tanh u) <= 2). { replace 2 with (/ / 2) by lra. apply Rinv_le_contravar; lra. }
  unfold Rpower. assert (L : ln (/ 2) < 0) by (rewrite ln_Rinv by lra; pose proof ln_lt_2; lra).
  assert (Q : 2 * ln (/ 2) <= / (1 - tanh u) * ln (/ 2)) by nra. destruct Q as [Q|Q]; [left; now apply exp_increasing|right; now rewrite Q].
Qed.
Lemma darkened_full : darkened 1 (/ 2) <= / 8.
Proof.
  rewrite darkened_pos by lra. unfold gamma_formula. destruct Req_EM_T as [E|E]; [lra|].
  assert (X : 5 <= exp (2 * 1)).
  { replace (2 * 1) with (/ 2 + / 2 + (/ 2 + / 2)) by lra. rewrite !exp_plus. pose proof (exp_ineq1 (/ 2) ltac:(lra)). set (a := exp (/ 2)) in *. clearbody a.
    assert (9 / 4 <= a * a) by nra. nra. }
  assert (G : 0 < 1 - tanh 1 <= / 3). { rewrite one_tanh. split; [apply Rdiv_lt_0_compat; lra|]. apply (Rmult_le_reg_r (exp (2 * 1) + 1)); [lra|]. unfold Rdiv. rewrite Rmult_assoc, Rinv_l by lra. lra. }
  assert (I : 3 <= / (1 - tanh 1)). { replace 3 with (/ / 3) by lra. apply Rinv_le_contravar; lra. }
  replace (/ 8) with (Rpower (/ 2) 3). 2:{ replace 3 with (INR 3) by (cbn; lra). rewrite Rpower_pow by lra. cbn [pow]. lra. }
  unfold Rpower. assert (L : ln (/ 2) < 0) by (rewrite ln_Rinv by lra; pose proof ln_lt_2; lra).
  assert (Q : / (1 - tanh 1) * ln (/ 2) <= 3 * ln (/ 2)) by nra. destruct Q as [Q|Q]; [left; now apply exp_increasing|right; now rewrite Q].
Qed.
Lemma half_term : num 0 1 (fsub (fadd (fsub (d1 half_green) (d0 half_green)) (d1 half_green)) (d2 half_green)).
Proof. fval (fsub (fadd (fsub (d1 half_green) (d0 half_green)) (d1 half_green)) (d2 half_green)) Q. split; [assumption|]. rewrite Q. lra. Qed.
Lemma large_excess (l : list Rgb) : Forall (fun c => c = half_green) l -> (33554432 <= zlen l <= 1073741823)%Z ->
  let u := excess (fun c => fsub (fadd (fsub (d1 c) (d0 c)) (d1 c)) (d2 c)) None l f1 in fin u /\ 0 <= B2R u <= / 2.
Proof.
  intros G H. cbv zeta. unfold excess.
  pose proof (sum_range (fun c : Rgb => fsub (fadd (fsub (d1 c) (d0 c)) (d1 c)) (d2 c)) 1 l ltac:(now left) ltac:(eapply Forall_impl; [|exact G]; intros c ->; exact half_term) f0 0%Z ltac:(lia)) as S.
  cbv zeta in S. destruct S as [[FS RS] _]. { split; [reflexivity|rewrite f0_R; lra]. } { rewrite f0_R. lra. }
  set (S := fold_left _ l f0) in *. clearbody S. destruct (ofZ_large (zlen l) H) as [Fn Rn]. set (n := ofZ (zlen l)) in *. clearbody n.
  destruct (fmul_ok S f1 (bpow radix2 126)) as [Fm Em]; auto with fin. { apply (uo_fmt _ _ uo_big). } { rewrite f1_R, big_R, p126. apply Rabs_le_iff. lra. }
  rewrite f1_R, Rmult_1_r in Em. assert (Bm : 0 <= B2R (fmul S f1) <= 16777216).
  { rewrite Em. split; [apply rnd_lo; [apply fmt_0|lra]|]. apply rnd_hi; [|lra]. replace 16777216 with (1 * IZR 16777216) by lra. apply K_fmt; [now left|lia]. }
  set (p := fmul S f1) in *. clearbody p.
  assert (In : 0 < / B2R n) by (apply Rinv_0_lt_compat; lra).
  assert (Q : 0 <= B2R p / B2R n <= / 2). { unfold Rdiv. split; [apply Rmult_le_pos; lra|]. apply (Rmult_le_reg_r (B2R n)); [lra|]. rewrite Rmult_assoc, Rinv_l by lra. lra. }
  destruct (fdiv_ok p n 1) as [Fd Ed]; auto; try lra. { apply (uo_fmt _ _ uo_1). } { apply Rabs_le_iff. lra. }
  split; [exact Fd|]. rewrite Ed. split; [apply rnd_lo; [apply fmt_0|lra]|]. apply rnd_hi; [|lra].
  exact (uo_fmt _ _ uo_h).
Qed.
Lemma large_tint L (b : PixelBuffer Rgb) t : accurate_powf L -> accurate_tanh_single L -> valid b -> Forall (fun c => c = half_green) (data b) ->
  (33554432 <= width b * height b)%Z -> (3000 <= kelvin t)%Z ->
  exists r, change_color_temperature L b t t f1 = Ok r /\ valid r /\ width r = width b /\ height r = height b /\
  forall m x y, inside b x y -> exists o, get_pixel m r x y = Ok o /\ / 5 <= B2R (d1 o).
Proof.
  intros AP AT Vb G Hn H3. destruct (white_ok t) as (k & E & A0 & A1 & A2 & _).
  assert (LN : zlen (data b) = (width b * height b)%Z) by (destruct Vb as [_ LL]; lia).
  assert (LM : (width b * height b <= 1073741823)%Z) by (destruct Vb as [VS _]; destruct VS; lia).
  assert (PT : flt f0 f1 = true) by (apply flt_R; auto with fin; rewrite f0_R, f1_R; lra).
  pose proof (large_excess (data b) G ltac:(lia)) as XG. cbv zeta in XG.
  rewrite (temperature_tint L b t t f1 k k PT E E). cbv zeta. unfold get_green_tint_pow. rewrite (tint_pow_excess L _ None) by auto with fin. cbv zeta.
  set (ug := excess _ None _ _) in *. clearbody ug. destruct XG as [Fg Bg].
  destruct (power_on L ug AT Fg ltac:(lra)) as [Og Mg]. cbv zeta in *. rewrite Mg, Og.
  set (pr := get_red_tint_pow _ _ _). set (pb := get_blue_tint_pow _ _ _). clearbody pr pb.
  eexists. split; [reflexivity|].
  match goal with |- context [valid (convert ?h (convert ?g (convert ?f b)))] => destruct (same_dims_convert f b Vb) as (V1 & V2 & V3); destruct (same_dims_convert g _ V1) as (V4 & V5 & V6); destruct (same_dims_convert h _ V4) as (V7 & V8 & V9) end.
  split; [exact V7|]. split; [exact (eq_trans V8 (eq_trans V5 V2))|]. split; [exact (eq_trans V9 (eq_trans V6 V3))|].
  intros m x y I. destruct (get_pixel_inside m b x y Vb I) as (c & P). assert (IN : In c (data b)). { rewrite get_pixel_eq in P by auto. eapply idx_In; exact P. }
  rewrite Forall_forall in G. pose proof (G c IN) as GC.
  eexists. split.
  { eapply convert_pixel; [exact V4|exact I|]. eapply convert_pixel; [exact V1|exact I|]. eapply convert_pixel; [exact Vb|exact I|exact P]. }
  clear V1 V2 V3 V4 V5 V6 V7 V8 V9 P I IN G.
  destruct (white_limited (kelvin t)) as (L0 & L1 & L2). destruct (whites (kelvin t)) as (N0' & N1' & N2'). { pose proof (kelvin_range t). lia. }
  assert (N1 : num 0 1 (d1 c) /\ B2R (d1 c) = / 2). { rewrite GC. change (d1 half_green) with (dec 1 2). fval (dec 1 2) HH. split; [split; [assumption|]|]; rewrite HH; lra. }
  destruct N1 as [N1 V1]. pose proof (tint_channel L ug (d1 c) AP AT Fg ltac:(lra) N1) as CG. rewrite V1 in CG. pose proof (darkened_half _ Bg) as DH.
  pose proof (scaled_near _ _ _ _ _ _ _ CG (darkened_01 (B2R ug) (/ 2) ltac:(lra) ltac:(lra)) ltac:(lra) A1 A1 L1 ltac:(lra)) as SG.
  pose proof (darkened_01 (B2R ug) (/ 2) ltac:(lra) ltac:(lra)) as D1.
  replace (white_green (kelvin t) / white_green (kelvin t)) with 1 in SG by (field; lra). rewrite Rmult_1_r, limited_id in SG by lra.
  unfold rgb_new_with_alpha. destruct SG as [_ SG]. apply Rabs_le_iff in SG.
  destruct (flt f0 ug), (flt f0 pr), (flt f0 pb); cbn [d0 d1 d2 d3 with_0 with_2]; lra.
Qed.
(** ** An accurate math library *)
Definition tint_libm (L : libm) : libm :=
  {| powf := powf (ideal_libm L); fsin := fsin L; fcos := fcos L; fexp_ := fexp_ L; ftanh := fun x => rounded (tanh (B2R x)); fatan2 := fatan2 L; dtanh := dtanh L |}.
Lemma tint_accurate L : accurate_powf (tint_libm L) /\ accurate_tanh_single (tint_libm L).
Proof.
  split; [exact (ideal_accurate L)|]. intros x Fx Rx. cbn [ftanh tint_libm]. pose proof (tanh_pos (B2R x) ltac:(lra)). pose proof (one_tanh_ge (B2R x) 5 ltac:(cbn [INR]; lra)) as Q. replace (2 / (3 ^ 5 + 1)) with (/ 122) in Q by lra.
  destruct (rounded_ok (tanh (B2R x))) as [A B]; [apply Rabs_le_iff; lra|]. split; [exact A|]. rewrite B. rewrite (pow_IZR 2 22). change (IZR (2 ^ Z.of_nat 22)) with 4194304.
  pose proof (uo_err _ _ (tanh (B2R x)) uo_1 ltac:(apply Rabs_le_iff; lra)). lra.
Qed.
Lemma large_mean (l : list Rgb) : l <> nil -> Forall (fun c => c = half_green) l -> mean greenness l = 1.
Proof.
  intros N G. assert (E : greenness half_green = 1). { unfold greenness. change (d1 half_green) with (dec 1 2). change (d0 half_green) with f0. change (d2 half_green) with f0. fval (dec 1 2) EE1. rewrite EE1, f0_R. lra. }
  assert (S : sum_of greenness l = INR (length l)).
  { clear N. induction G as [|c l -> G IH]; [reflexivity|]. change (length (half_green :: l)) with (S (length l)). rewrite S_INR.
    change (sum_of greenness (half_green :: l)) with (greenness half_green + sum_of greenness l). rewrite IH, E. apply Rplus_comm. }
  unfold mean. rewrite S. apply Rinv_r. apply not_0_INR. destruct l; [contradiction|discriminate].
Qed.
