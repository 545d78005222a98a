(** Lemmas for C132. *)
From Coq Require Import Reals ZArith List Lia Lra.
From Flocq Require Import IEEE754.BinarySingleNaN.
From Verif Require Import F32 F32Lemmas Color ColorSpec ColorProofs Approx MeaningSpec DrawSpec PyColor PySpec MethodSpec MethodProofs AdjustSpec.
From Verif Require DrawMeanThm CommandsSpec.
From Verif Require Import LanczosSpec Base PixelBuffer Image Commands ScriptSpec Codec CodecSpec CliSpec EndSpec.
From Verif Require Import ColorThm OpMeaningProofs OpMeaningThm HueThm SrgbMeaning ScriptProofs EndProofs.
Import ListNotations.
Open Scope R_scope.

Lemma or_nan_fin x : in01_or_nan x -> is_finite x = true -> in01 x.
Proof. intros [H|H] F; [|exact H]. destruct x; discriminate. Qed.
Lemma result_gamut L f c e g : clamping_operation L f -> in_gamut c -> channelwise e g c (f c) -> in_gamut (f c).
Proof.
  intros H (_ & _ & _ & G) ((F0 & _) & (F1 & _) & (F2 & _) & A). destruct (operations_clamp L f c H) as (X & Y & Z).
  split; [exact (or_nan_fin _ X F0)|]. split; [exact (or_nan_fin _ Y F1)|]. split; [exact (or_nan_fin _ Z F2)|]. unfold alpha in *. rewrite A. exact G.
Qed.
Lemma gamut_R c : in_gamut c -> (0 <= B2R (d0 c) <= 1) /\ (0 <= B2R (d1 c) <= 1) /\ (0 <= B2R (d2 c) <= 1).
Proof.
  intros (G0 & G1 & G2 & _). assert (K : forall x, in01 x -> 0 <= B2R x <= 1).
  { intros x I. pose proof (in01_fin x I) as F. destruct I as [A B]. apply fle_R in A; [|reflexivity|exact F]. apply fle_R in B; [|exact F|reflexivity]. rewrite f0_R in A. rewrite f1_R in B. lra. }
  split; [|split]; apply K; assumption.
Qed.

(** * From one formula to another *)
Lemma close_more e e' r r' x : close e r x -> Rabs (r - r') <= e' -> close (e + e') r' x.
Proof. intros [F A] B. split; [exact F|]. replace (B2R x - r') with ((B2R x - r) + (r - r')) by lra. eapply Rle_trans; [apply Rabs_triang|lra]. Qed.
Lemma close_weaken e e' r x : close e r x -> e <= e' -> close e' r x.
Proof. intros [F A] B. split; [exact F|lra]. Qed.
Lemma channelwise_id e e' f c o : channelwise e f c o -> in_gamut c -> (forall v, 0 <= v <= 1 -> f v = v) -> e <= e' -> channelwise e' (fun v => v) c o.
Proof.
  intros (A & B & D & X) G H E. destruct (gamut_R c G) as (I & J & K). rewrite (H _ I) in A. rewrite (H _ J) in B. rewrite (H _ K) in D.
  split; [exact (close_weaken _ _ _ _ A E)|]. split; [exact (close_weaken _ _ _ _ B E)|]. split; [exact (close_weaken _ _ _ _ D E)|exact X].
Qed.
(** Two steps. *)
Lemma channelwise_two e1 e2 e f g c o p : channelwise e1 f c o -> channelwise e2 g o p -> not_cut f c ->
  (forall a b, 0 <= a <= 1 -> 0 <= b <= 1 -> Rabs (a - b) <= e1 -> Rabs (g a - g b) <= e) -> in_gamut o ->
  channelwise (e2 + e) (fun v => g (f v)) c p.
Proof.
  intros (A0 & A1 & A2 & A3) (B0 & B1 & B2 & B3) (N0 & N1 & N2) H G. destruct (gamut_R o G) as (I & J & K).
  destruct A0 as [_ A0]. destruct A1 as [_ A1]. destruct A2 as [_ A2].
  split; [apply (close_more _ _ _ _ _ B0); apply H; assumption|]. split; [apply (close_more _ _ _ _ _ B1); apply H; assumption|].
  split; [apply (close_more _ _ _ _ _ B2); apply H; assumption|congruence].
Qed.

(** * Brightness and contrast *)
Lemma channelwise_eq e f g c o : channelwise e f c o -> f (B2R (d0 c)) = g (B2R (d0 c)) -> f (B2R (d1 c)) = g (B2R (d1 c)) -> f (B2R (d2 c)) = g (B2R (d2 c)) -> channelwise e g c o.
Proof. intros (A & B & D & X) E0 E1 E2. split; [rewrite <- E0; exact A|]. split; [rewrite <- E1; exact B|]. split; [rewrite <- E2; exact D|exact X]. Qed.
Lemma cut_limited f c : not_cut f c -> not_cut (fun v => limited (f v)) c.
Proof. intros _. split; [|split]; apply limited_range. Qed.
Lemma two_brightness a b c : in_gamut c -> moderate a -> moderate b -> not_cut (fun v => v + B2R a) c ->
  channelwise (/ 2 ^ 24 + / 2 ^ 24) (fun v => limited (v + (B2R a + B2R b))) c (with_brightness b (with_brightness a c)).
Proof.
  intros G Ma Mb N. pose proof (brightness a c G Ma) as A. pose proof (result_gamut example_libm _ c _ _ (cl_brightness _ a) G A) as G'.
  pose proof (brightness b _ G' Mb) as B.
  assert (C := channelwise_two _ _ (/ 2 ^ 24) _ _ _ _ _ A B (cut_limited _ _ N)
    ltac:(intros x y _ _ E; apply limited_lip_e; replace (x + B2R b - (y + B2R b)) with (x - y) by lra; exact E) G').
  destruct N as (N0 & N1 & N2). apply (channelwise_eq _ _ _ _ _ C); cbv beta; apply f_equal; rewrite limited_id by assumption; lra.
Qed.
Lemma two_contrast a b c : in_gamut c -> moderate a -> moderate b -> not_cut (fun v => (v - / 2) * B2R a + / 2) c ->
  channelwise ((4 + 4 * Rabs (B2R b)) / 2 ^ 24 + Rabs (B2R b) * ((4 + 4 * Rabs (B2R a)) / 2 ^ 24))
    (fun v => limited ((v - / 2) * (B2R a * B2R b) + / 2)) c (with_contrast b (with_contrast a c)).
Proof.
  intros G Ma Mb N. pose proof (contrast a c G Ma) as A. pose proof (result_gamut example_libm _ c _ _ (cl_contrast _ a) G A) as G'.
  pose proof (contrast b _ G' Mb) as B.
  assert (C := channelwise_two _ _ (Rabs (B2R b) * ((4 + 4 * Rabs (B2R a)) / 2 ^ 24)) _ _ _ _ _ A B (cut_limited _ _ N)
    ltac:(intros x y _ _ E; apply limited_lip_e; replace ((x - / 2) * B2R b + / 2 - ((y - / 2) * B2R b + / 2)) with (B2R b * (x - y)) by lra;
      rewrite Rabs_mult; apply Rmult_le_compat_l; [apply Rabs_pos|exact E]) G').
  destruct N as (N0 & N1 & N2). apply (channelwise_eq _ _ _ _ _ C); cbv beta; apply f_equal; rewrite limited_id by assumption; lra.
Qed.

(** * Powers *)
Lemma Rpower_pos x p : 0 < Rpower x p. Proof. apply exp_pos. Qed.
Lemma Rpower_base_le x y p : 0 <= p -> 0 < x <= y -> Rpower x p <= Rpower y p.
Proof. intros P [X [Y| ->]]; [|lra]. destruct P as [P| <-]; [left; apply Rlt_Rpower_l; lra|rewrite !Rpower_O by lra; lra]. Qed.
Lemma Rpower_small x p : 0 < x <= 1 -> p <= 1 -> x <= Rpower x p.
Proof.
  intros [X Y] P. rewrite <- (Rpower_1 x) at 1 by lra. unfold Rpower. destruct (Req_dec x 1) as [->|N]; [rewrite ln_1, !Rmult_0_r; lra|].
  assert (ln x < 0) by (rewrite <- ln_1; apply ln_increasing; lra). destruct (Req_dec p 1) as [->|Q]; [lra|]. left. apply exp_increasing. nra.
Qed.
Lemma power_add x d p : 0 < x -> 0 < d -> 0 < p <= 1 -> Rpower (x + d) p <= Rpower x p + Rpower d p.
Proof.
  intros X D P. assert (S : 0 < x + d) by lra. pose proof (Rpower_pos (x + d) p) as W.
  assert (K : forall y, 0 < y <= x + d -> y / (x + d) * Rpower (x + d) p <= Rpower y p).
  { intros y [Y Z]. assert (Q : 0 < y / (x + d) <= 1). { split; [apply Rdiv_lt_0_compat; lra|]. apply Rmult_le_reg_r with (x + d); [lra|]. unfold Rdiv. rewrite Rmult_assoc, Rinv_l by lra. lra. }
    replace (Rpower y p) with (Rpower (y / (x + d)) p * Rpower (x + d) p).
    - apply Rmult_le_compat_r; [lra|]. apply Rpower_small; [exact Q|lra].
    - rewrite Rpower_mult_distr by lra. f_equal. field. lra. }
  pose proof (K x ltac:(lra)). pose proof (K d ltac:(lra)).
  assert (x / (x + d) * Rpower (x + d) p + d / (x + d) * Rpower (x + d) p = Rpower (x + d) p) by (field; lra). lra.
Qed.
Lemma gamma_zero g : gamma_formula g 0 = 0.
Proof. unfold gamma_formula. destruct (Req_EM_T 0 0); [reflexivity|lra]. Qed.
Lemma gamma_pos g v : 0 < v -> gamma_formula g v = Rpower v (/ g).
Proof. intros H. unfold gamma_formula. destruct (Req_EM_T v 0); [lra|reflexivity]. Qed.
Lemma gamma_range g v : 0 < g -> 0 <= v <= 1 -> 0 <= gamma_formula g v <= 1.
Proof.
  intros G [[V| <-] W]; [|rewrite gamma_zero; lra]. rewrite gamma_pos by exact V. destruct (Rpower_01 v (/ g)); [lra|left; apply Rinv_0_lt_compat; exact G|lra].
Qed.
Lemma power_slope1 q a b : 1 <= q -> 0 < a < b -> b <= 1 -> Rpower b q - Rpower a q <= q * (b - a).
Proof.
  intros Q [A B] U. destruct (MVT_cor2 (fun x => Rpower x q) (fun x => q * Rpower x (q - 1)) a b B) as (c & E & C).
  { intros c C. apply derivable_pt_lim_power. lra. }
  cbv beta in E. rewrite E. apply Rmult_le_compat_r; [lra|]. destruct (Rpower_01 c (q - 1)) as [_ K]; [lra|lra|]. nra.
Qed.
Lemma gamma_one_sided g e a b : 0 < g -> 0 < e -> 0 <= a <= b -> b <= 1 -> b - a <= e -> 0 <= gamma_formula g b - gamma_formula g a <= power_error e g.
Proof.
  intros G E [A B] U D. assert (I : 0 < / g) by (apply Rinv_0_lt_compat; exact G).
  assert (PE : 0 <= power_error e g). { unfold power_error. destruct (Rle_dec 1 g); [left; apply Rpower_pos|]. left. apply Rdiv_lt_0_compat; assumption. }
  destruct (Req_dec a b) as [->|N]; [lra|]. assert (a < b) by lra.
  destruct A as [A| <-].
  - rewrite !gamma_pos by lra. pose proof (Rpower_base_le a b (/ g) ltac:(lra) ltac:(lra)). split; [lra|]. unfold power_error. destruct (Rle_dec 1 g) as [O|O].
    + assert (/ g <= 1) by (rewrite <- Rinv_1; apply Rinv_le_contravar; lra). pose proof (power_add a (b - a) (/ g) A ltac:(lra) ltac:(lra)) as K.
      replace (a + (b - a)) with b in K by lra. pose proof (Rpower_base_le (b - a) e (/ g) ltac:(lra) ltac:(lra)). lra.
    + assert (1 <= / g) by (rewrite <- Rinv_1; apply Rinv_le_contravar; lra). pose proof (power_slope1 (/ g) a b ltac:(lra) ltac:(lra) U).
      unfold Rdiv. assert (/ g * (b - a) <= e * / g) by nra. lra.
  - rewrite gamma_zero, gamma_pos by lra. pose proof (Rpower_pos b (/ g)). split; [lra|]. unfold power_error. destruct (Rle_dec 1 g) as [O|O].
    + pose proof (Rpower_base_le b e (/ g) ltac:(lra) ltac:(lra)). lra.
    + assert (1 <= / g) by (rewrite <- Rinv_1; apply Rinv_le_contravar; lra).
      assert (Rpower b (/ g) <= b). { rewrite <- (Rpower_1 b) at 2 by lra. unfold Rpower. assert (ln b <= 0). { destruct (Req_dec b 1) as [->|]; [rewrite ln_1; lra|]. left. rewrite <- ln_1. apply ln_increasing; lra. }
        destruct (Rle_lt_or_eq_dec (/ g * ln b) (1 * ln b)) as [K|K]; [nra|left; apply exp_increasing; exact K|rewrite K; lra]. }
      unfold Rdiv. nra.
Qed.
Lemma gamma_smooth g e a b : 0 < g -> 0 < e -> 0 <= a <= 1 -> 0 <= b <= 1 -> Rabs (a - b) <= e -> Rabs (gamma_formula g a - gamma_formula g b) <= power_error e g.
Proof.
  intros G E A B D. apply Rabs_le_iff in D. destruct (Rle_dec a b) as [O|O].
  - pose proof (gamma_one_sided g e a b G E ltac:(lra) ltac:(lra) ltac:(lra)). apply Rabs_le_iff. lra.
  - pose proof (gamma_one_sided g e b a G E ltac:(lra) ltac:(lra) ltac:(lra)). apply Rabs_le_iff. lra.
Qed.
Lemma gamma_twice a b v : 0 < a -> 0 < b -> 0 <= v <= 1 -> gamma_formula b (gamma_formula a v) = gamma_formula (a * b) v.
Proof.
  intros A B [[V| <-] W]; [|rewrite !gamma_zero; reflexivity]. rewrite (gamma_pos a) by exact V. rewrite gamma_pos by apply Rpower_pos. rewrite gamma_pos by exact V.
  rewrite Rpower_mult. f_equal. field. lra.
Qed.
Lemma gamma_1 v : 0 <= v <= 1 -> gamma_formula 1 v = v.
Proof. intros [[V| <-] W]; [|apply gamma_zero]. rewrite gamma_pos by exact V. rewrite Rinv_1. apply Rpower_1. exact V. Qed.
Lemma two_gamma L a b c : accurate_powf L -> in_gamut c -> usual_gamma a -> usual_gamma b ->
  channelwise (/ 2 ^ 19 + power_error (/ 2 ^ 19) (B2R b)) (gamma_formula (B2R a * B2R b)) c (with_gamma L b (with_gamma L a c)).
Proof.
  intros P G Ua Ub. pose proof (gamma_power L a c P G Ua) as A. pose proof (result_gamut L _ c _ _ (cl_gamma L a) G A) as G'.
  pose proof (gamma_power L b _ P G' Ub) as B. destruct Ua as [_ Ua]. destruct Ub as [_ Ub]. destruct (gamut_R c G) as (I & J & K).
  assert (N : not_cut (gamma_formula (B2R a)) c) by (split; [|split]; apply gamma_range; (assumption || lra)).
  assert (C := channelwise_two _ _ (power_error (/ 2 ^ 19) (B2R b)) _ _ _ _ _ A B N ltac:(intros x y X Y E; apply gamma_smooth; (assumption || lra)) G').
  apply (channelwise_eq _ _ _ _ _ C); apply gamma_twice; (assumption || lra).
Qed.

(** * Neutral settings *)
Lemma hue_limits t t' : 0 <= t <= 1 -> 0 <= t' <= 1 -> (exists n : Z, t = t' + IZR n) -> hue_red t = hue_red t' /\ hue_green t = hue_green t' /\ hue_blue t = hue_blue t'.
Proof.
  intros H H' (n & E). assert (K : (n = -1 \/ n = 0 \/ n = 1)%Z). { assert (-2 < n < 2)%Z by (split; apply lt_IZR; lra). lia. }
  assert (W : hue_red 0 = hue_red 1 /\ hue_green 0 = hue_green 1 /\ hue_blue 0 = hue_blue 1).
  { unfold hue_red, hue_green, hue_blue. split; [|split].
    - f_equal. rewrite Rabs_left by lra. rewrite Rabs_right by lra. lra.
    - rewrite (limited_lo (2 - Rabs (6 * 1 - 2))), (limited_lo (2 - Rabs (6 * 0 - 2))); [reflexivity|rewrite Rabs_left by lra; lra|rewrite Rabs_right by lra; lra].
    - rewrite (limited_lo (2 - Rabs (6 * 1 - 4))), (limited_lo (2 - Rabs (6 * 0 - 4))); [reflexivity|rewrite Rabs_left by lra; lra|rewrite Rabs_right by lra; lra]. }
  destruct K as [-> |[-> | ->]].
  - assert (t = 0) as -> by lra. assert (t' = 1) as -> by lra. exact W.
  - assert (t = t') as -> by lra. auto.
  - assert (t = 1) as -> by lra. assert (t' = 0) as -> by lra. intuition congruence.
Qed.
Lemma hsl_neutral e h s l h' s' l' c o : in_gamut c -> d3 o = d3 c -> is_hsl (/ 2 ^ 15 + / 2 ^ 19) h s l c -> is_hsl e h' s' l' o ->
  hue_red h = hue_red h' /\ hue_green h = hue_green h' /\ hue_blue h = hue_blue h' -> s = s' -> l = l' -> e <= / 2 ^ 16 -> channelwise (/ 2 ^ 14) (fun v => v) c o.
Proof.
  intros G A (C0 & C1 & C2) (O0 & O1 & O2) (H0 & H1 & H2) <- <- E. rewrite <- H0 in O0. rewrite <- H1 in O1. rewrite <- H2 in O2.
  assert (K : forall r x y, close (/ 2 ^ 15 + / 2 ^ 19) r x -> close e r y -> close (/ 2 ^ 14) (B2R x) y).
  { intros r x y [_ X] [F Y]. split; [exact F|]. apply Rabs_le_iff in X, Y. apply Rabs_le_iff. lra. }
  split; [exact (K _ _ _ C0 O0)|]. split; [exact (K _ _ _ C1 O1)|]. split; [exact (K _ _ _ C2 O2)|exact A].
Qed.
Lemma moderate_01 x : is_finite x = true -> 0 <= B2R x <= 1 -> moderate x.
Proof. intros F H. split; [exact F|]. rewrite Rabs_right by lra. apply Rle_trans with 1; [lra|]. apply pow_R1_Rle. lra. Qed.
Lemma f0_moderate : moderate f0. Proof. apply moderate_01; [reflexivity|]. rewrite f0_R. lra. Qed.
Lemma f1_moderate : moderate f1. Proof. apply moderate_01; [reflexivity|]. rewrite f1_R. lra. Qed.
Lemma f1_usual : usual_gamma f1. Proof. split; [reflexivity|]. rewrite f1_R. lra. Qed.

Lemma neutral_reasonable L f : accurate_powf L -> bounded_powf L -> neutral f -> reasonable L f.
Proof.
  intros A B N. destruct N; cbn [reasonable]; auto using f0_moderate, f1_moderate, f1_usual.
  - split; [exact A|]. split; [split; reflexivity|]. split; [split; reflexivity|]. split; [|exact f1_usual]. rewrite f1_R, f0_R. lra.
  - split; [exact H|]. apply Rabs_le_iff. lra.
Qed.
Lemma neutral_formula L f c o : neutral f -> in_gamut c -> method_formula L f c o -> channelwise (/ 2 ^ 14) (fun v => v) c o.
Proof.
  intros N G M. destruct (hsl_of_colour L c G) as [Hc _]. pose proof (hsl_in_range c G) as GH. change (rgb_to_hsl c) with (to_hsl L KRgb c) in *.
  destruct (gamut_R _ GH) as (Ih & Is & Il).
  destruct N; cbn [method_formula] in M; cbv zeta in M; rewrite ?f0_R, ?f1_R in M.
  - apply (channelwise_id _ _ _ _ _ M G); [|lra]. intros v V. rewrite limited_id; lra.
  - apply (channelwise_id _ _ _ _ _ M G); [|rewrite Rabs_R1; lra]. intros v V. rewrite limited_id; lra.
  - apply (channelwise_id _ _ _ _ _ M G); [|rewrite Rabs_R1, Rabs_R0; lra]. intros v V. rewrite limited_id; lra.
  - apply (channelwise_id _ _ _ _ _ M G); [exact gamma_1|lra].
  - apply (channelwise_id _ _ _ _ _ M G); [|lra]. intros v V. unfold gamma_opt_formula. rewrite Rinv_1. destruct (Rlt_dec (/ 2) v); rewrite gamma_1; lra.
  - destruct M as ((t0 & (T0 & S0) & L0) & (t1 & (T1 & S1) & L1) & (t2 & (T2 & S2) & L2) & A). destruct (gamut_R c G) as (I & J & K).
    rewrite gamma_1 in L0, L1, L2 by assumption.
    assert (X : forall v t x, 0 <= v <= 1 -> Rabs (t - limited ((v - 0) / (1 - 0))) <= / 2 ^ 20 -> close (/ 2 ^ 19) t x -> close (/ 2 ^ 14) v x).
    { intros v t x V S [F D]. split; [exact F|]. replace ((v - 0) / (1 - 0)) with v in S by (field). rewrite limited_id in S by exact V. apply Rabs_le_iff in S, D. apply Rabs_le_iff. lra. }
    split; [exact (X _ _ _ I S0 L0)|]. split; [exact (X _ _ _ J S1 L1)|]. split; [exact (X _ _ _ K S2 L2)|exact A].
  - destruct M as [M A]. apply (hsl_neutral _ _ _ _ _ _ _ _ _ G A Hc M); auto; [rewrite limited_id; lra|lra].
  - destruct M as [M A]. apply (hsl_neutral _ _ _ _ _ _ _ _ _ G A Hc M); auto; [rewrite limited_id; lra|rewrite Rabs_R1; lra].
  - destruct M as [M A]. apply (hsl_neutral _ _ _ _ _ _ _ _ _ G A Hc M); auto; [rewrite gamma_1; [reflexivity|exact Is]|lra].
  - destruct M as [M A]. apply (hsl_neutral _ _ _ _ _ _ _ _ _ G A Hc M); auto; [rewrite limited_id; lra|lra].
  - destruct M as (n & T & M & A). apply (hsl_neutral _ _ _ _ _ _ _ _ _ G A Hc M); auto; [|lra].
    apply hue_limits; [exact Ih|exact T|]. destruct H0 as [-> |[-> | ->]]; [exists (- n)%Z|exists (- n - 1)%Z|exists (- n + 1)%Z]; rewrite ?minus_IZR, ?plus_IZR, ?opp_IZR; lra.
  - destruct M as [M A]. apply (hsl_neutral _ _ _ _ _ _ _ _ _ G A Hc M); auto; rewrite ?limited_id; try lra. rewrite Rmult_1_r. auto.
Qed.
Lemma vibrance_neutral L c : accurate_sine L -> in_gamut c -> d3 c = f1 -> channelwise (/ 2 ^ 13) (fun v => v) c (with_vibrance L f0 c).
Proof.
  intros S G O. destruct (hsl_of_colour L c G) as [(C0 & C1 & C2) _]. pose proof (hsl_in_range c G) as GH. change (rgb_to_hsl c) with (to_hsl L KRgb c) in *.
  destruct (gamut_R _ GH) as (_ & Is & _).
  destruct (DrawMeanThm.vibrance_formula L f0 c S G eq_refl) as [(O0 & O1 & O2) A]. { rewrite f0_R, Rabs_R0. lra. }
  assert (V : vibrant (B2R f0) (B2R (d0 (to_hsl L KRgb c))) (B2R (d1 (to_hsl L KRgb c))) = B2R (d1 (to_hsl L KRgb c))).
  { unfold vibrant. rewrite f0_R, Rmult_0_l, Rmult_0_r, Rplus_0_r. apply limited_id. exact Is. }
  rewrite V in O0, O1, O2. rewrite f0_R, Rabs_R0 in O0, O1, O2.
  assert (K : forall r x y, close (/ 2 ^ 15 + / 2 ^ 19) r x -> close ((1 + 0) / 2 ^ 15) r y -> close (/ 2 ^ 13) (B2R x) y).
  { intros r x y [_ X] [F Y]. split; [exact F|]. apply Rabs_le_iff in X, Y. apply Rabs_le_iff. lra. }
  split; [exact (K _ _ _ C0 O0)|]. split; [exact (K _ _ _ C1 O1)|]. split; [exact (K _ _ _ C2 O2)|]. rewrite O. exact A.
Qed.
Lemma brightness_zero c : in_gamut c -> channelwise 0 (fun v => v) c (with_brightness f0 c).
Proof.
  intros G. pose proof (gamut_R c G) as (I & J & K). destruct (brightness f0 c G f0_moderate) as (_ & _ & _ & A). destruct G as (G0 & G1 & G2 & _).
  assert (X : forall v, in01 v -> 0 <= B2R v <= 1 -> close 0 (B2R v) (clamp (fadd v f0))).
  { intros v V B. pose proof (in01_fin v V) as F. destruct (fadd_0_r v f0 F eq_refl f0_R) as [F' E]. destruct (clamp_01 (fadd v f0) F') as [Fc Ec]; [rewrite E; exact B|].
    split; [exact Fc|]. rewrite Ec, E, Rminus_diag_eq, Rabs_R0 by reflexivity. lra. }
  split; [exact (X _ G0 I)|]. split; [exact (X _ G1 J)|]. split; [exact (X _ G2 K)|exact A].
Qed.

Lemma neutral_forall L f l d : neutral f -> (forall c, In c l -> in_gamut c) -> Forall2 (method_formula L f) l d -> Forall2 (channelwise (/ 2 ^ 14) (fun v => v)) l d.
Proof.
  intros N G H. induction H as [|c o l d M H IH]; [constructor|]. constructor; [exact (neutral_formula L f c o N (G c (or_introl eq_refl)) M)|].
  apply IH. intros x I. apply G. right. exact I.
Qed.
Lemma neutral_command {R} (e : env R) cmd f i w : accurate_powf (e_libm e) -> bounded_powf (e_libm e) -> colour_method cmd f -> neutral f ->
  (forall c, In c (data (buffer i)) -> in_gamut c) ->
  exists d, execute_cmd e cmd (Some i) w = Ok (Some (same_with i d), w, ROk tt) /\ Forall2 (channelwise (/ 2 ^ 14) (fun v => v)) (data (buffer i)) d.
Proof.
  intros A B C N G. destruct (command_computes e cmd f i w C G (neutral_reasonable _ f A B N)) as (d & E & F). exists d. split; [exact E|].
  exact (neutral_forall _ f _ _ N G F).
Qed.

(** * From file to file *)
Lemma encode_of_light v : is_byte v -> srgb_encode (light v) = IZR v / 255.
Proof.
  intros B. unfold light, srgb_decode, srgb_encode. unfold is_byte in B. assert (V : 0 <= IZR v) by (apply (IZR_le 0); lia). destruct (Rle_dec (IZR v / 255) (4045 / 100000)) as [H|H].
  - destruct (Rle_dec _ _) as [_|N]; [|exfalso; apply N; lra]. field.
  - assert (W : (11 <= v)%Z). { destruct (Z_le_gt_dec 11 v) as [K|K]; [exact K|]. exfalso. apply H. assert (IZR v <= 10) by (apply (IZR_le v 10); lia). lra. }
    apply (IZR_le 11) in W. set (y := (IZR v / 255 + 55 / 1000) / (1055 / 1000)). assert (Y : 90475 / 1000000 <= y) by (unfold y; lra).
    pose proof (pow_A y Y) as P. destruct (Rle_dec _ _) as [N|_]; [lra|]. rewrite Rpower_mult. replace (24 / 10 * (10 / 24)) with 1 by lra. rewrite Rpower_1 by lra. unfold y. field.
Qed.
Lemma neutral_op L f : neutral f -> exists k, clamping_operation L k /\ forall c, py_method_call L f c = ROk (k c).
Proof. intros N. destruct N; eexists; (split; [|intros c; reflexivity]); constructor. Qed.
Lemma byte_same v v' : is_byte v -> byte_below (36 / 64) (srgb_encode (light v)) v' -> (v - 1 <= v' <= v)%Z.
Proof.
  intros B (_ & X & Y). rewrite encode_of_light in X, Y by exact B. replace (IZR v / 255 * 255) with (IZR v) in X, Y by field.
  assert (IZR v' < IZR (v + 1)) by (rewrite plus_IZR; lra). assert (IZR (v - 2) < IZR v') by (rewrite minus_IZR; lra). apply lt_IZR in H, H0. lia.
Qed.
Lemma neutral_from_file {S} (e : env S) text number args wo input output w h raw cmd f :
  ready e wo input output w h raw -> bounded_powf (e_libm e) ->
  command_line text number true (tl args) (CmdOpen input :: [cmd] ++ [CmdSave output]) -> colour_method cmd f -> neutral f ->
  program_recolours e text number args wo w h raw output (fun r g b r' g' b' => (r - 1 <= r' <= r)%Z /\ (g - 1 <= g' <= g)%Z /\ (b - 1 <= b' <= b)%Z).
Proof.
  intros RD BP CL CM N. pose proof (proj1 (proj2 (proj2 RD))) as AP. destruct (method_of (e_libm e) cmd f CM) as (g & PF & PG).
  destruct (neutral_op (e_libm e) f N) as (k & CK & PK).
  assert (CH : forall p, in_gamut p -> in_gamut (g p) /\ channelwise (/ 2 ^ 14) (fun v => v) p (g p)).
  { intros p G. destruct (method_computes (e_libm e) f p G (neutral_reasonable _ f AP BP N)) as (o & E & M). pose proof (neutral_formula _ f p o N G M) as C.
    assert (o = g p) as -> by (rewrite PG in E; injection E as <-; reflexivity).
    split; [|exact C]. assert (K : g p = k p) by (specialize (PG p); rewrite PK in PG; injection PG as <-; reflexivity). rewrite K in *.
    exact (result_gamut (e_libm e) k p _ _ CK G C). }
  apply (program_weaker e text number args wo w h raw output) with
    (2 := ready_program e text number args wo input output w h raw [cmd] g RD CL (rec_command _ cmd g [] _ PF (rec_nothing _))
      (fun p G => proj2 (proj2 (proj2 (proj2 (CH p G)))))).
  intros r g0 b r' g' b' (p & Br & Bg & Bb & G & P0 & P1 & P2 & -> & -> & ->). destruct (CH p G) as ((I0 & I1 & I2 & _) & C0 & C1 & C2 & _).
  assert (Q : forall v x y, is_byte v -> x = clamp (gamma_to_linear (e_libm e) (from_u8 v)) -> in01 y -> close (/ 2 ^ 14) (B2R x) y ->
    (v - 1 <= quant8 (clamp (linear_to_gamma (e_libm e) y)) <= v)%Z).
  { intros v x y Bv Ex Iy [Fy Cy]. destruct (decoded_light (e_libm e) v AP Bv) as [_ CL']. rewrite <- Ex in CL'. clear Ex. apply byte_same; [exact Bv|].
    pose proof (light_range v Bv) as LR. apply (stored_light (e_libm e) 36 y (light v) (/ 2 ^ 14 + 23 / 10000000) AP Iy); [|lra|lra|simpl; lra].
    split; [exact Fy|]. apply Rabs_le_iff in Cy, CL'. apply Rabs_le_iff. lra. }
  split; [exact (Q r _ _ Br P0 I0 C0)|]. split; [exact (Q g0 _ _ Bg P1 I1 C1)|exact (Q b _ _ Bb P2 I2 C2)].
Qed.
