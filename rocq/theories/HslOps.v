(** Proofs for C87: operations on hue, saturation and lightness. *)
From Coq Require Import Reals Lra Lia ZArith Bool Psatz.
From Flocq Require Import Core.Core IEEE754.BinarySingleNaN.
From Verif Require Import F32 F32Lemmas Color ColorSpec ColorProofs MeaningSpec Approx OpMeaningProofs HslMeaning.
Open Scope R_scope.

Lemma hsl_channel_lip k k' s s' l l' ek es el :
  0 <= k <= 1 -> 0 <= k' <= 1 -> 0 <= s <= 1 -> 0 <= s' <= 1 -> 0 <= l <= 1 -> 0 <= l' <= 1 ->
  Rabs (k - k') <= ek -> Rabs (s - s') <= es -> Rabs (l - l') <= el ->
  Rabs (hsl_channel k s l - hsl_channel k' s' l') <= ek + es / 2 + 2 * el.
Proof.
  intros K K' S S' L L' EK ES EL. unfold hsl_channel.
  set (w := 1 - Rabs (2 * l - 1)). set (w' := 1 - Rabs (2 * l' - 1)).
  assert (W : 0 <= w <= 1) by (unfold w, Rabs; destruct Rcase_abs; lra).
  assert (W' : 0 <= w' <= 1) by (unfold w', Rabs; destruct Rcase_abs; lra).
  assert (EW : Rabs (w - w') <= 2 * el) by (unfold w, w'; revert EL; unfold Rabs; repeat destruct Rcase_abs; lra).
  assert (A1 : Rabs ((s - s') * (w * (k - / 2))) <= es * (/ 2)).
  { apply abs_mul_le; [exact ES|]. apply Rabs_le_iff. nra. }
  assert (A2 : Rabs ((w - w') * (s' * (k - / 2))) <= 2 * el * (/ 2)).
  { apply abs_mul_le; [exact EW|]. apply Rabs_le_iff. nra. }
  assert (A3 : Rabs ((k - k') * (s' * w')) <= ek * 1).
  { apply abs_mul_le; [exact EK|]. apply Rabs_le_iff. nra. }
  apply Rabs_le_iff in A1, A2, A3, EL. apply Rabs_le_iff. lra.
Qed.

Lemma is_hsl_near e0 e h s l h' s' l' eh es el o :
  is_hsl e0 h s l o ->
  0 <= h <= 1 -> 0 <= h' <= 1 -> 0 <= s <= 1 -> 0 <= s' <= 1 -> 0 <= l <= 1 -> 0 <= l' <= 1 ->
  circ eh h h' -> Rabs (s - s') <= es -> Rabs (l - l') <= el -> e0 + (6 * eh + es / 2 + 2 * el) <= e ->
  is_hsl e h' s' l' o.
Proof.
  intros (A & B & C) H H' S S' L L' EH ES EL E.
  assert (K : forall K, hue_fun K -> Rabs (hsl_channel (K h) s l - hsl_channel (K h') s' l') <= 6 * eh + es / 2 + 2 * el).
  { intros K HK. apply hsl_channel_lip; auto; try (now apply hue_01). now apply hue_circ. }
  three; eapply close_weak; [|exact E| |exact E| |exact E]; eapply close_move; try eassumption; apply K; unfold hue_fun; auto.
Qed.

Lemma factor_close v fac : in01 v -> moderate fac -> close U (limited (B2R v * B2R fac)) (clamp (fmul v fac)).
Proof.
  intros V [Ff Fb]. apply in01_R in V. destruct V as [Fv V].
  destruct (fmul_ok v fac (bpow radix2 126)) as [A B]; auto.
  - apply (uo_fmt _ _ uo_big).
  - rewrite big_R, p126. rewrite p60 in Fb. assert (Rabs (B2R v * B2R fac) <= 1 * 1152921504606846976) by (apply abs_mul_le; [rewrite Rabs_right; lra | exact Fb]). lra.
  - now apply clamp_rnd.
Qed.
Lemma clamped_in01 e r x : close e r (clamp x) -> in01 (clamp x).
Proof.
  intros [F _]. apply clamp_in01. destruct (is_nan x) eqn:N; [|reflexivity].
  apply clamp_nan in N. destruct (clamp x); discriminate.
Qed.

(** The components of a colour, and the colour with changed components. *)
Lemma hsl_set c h s l eh es el h' s' l' e : in_gamut c -> in01 h -> in01 s -> in01 l ->
  0 <= h' <= 1 -> 0 <= s' <= 1 -> 0 <= l' <= 1 ->
  circ eh (B2R h) h' -> Rabs (B2R s - s') <= es -> Rabs (B2R l - l') <= el -> / 262144 + (6 * eh + es / 2 + 2 * el) <= e ->
  let o := hsl_to_rgb (mkC h s l (d3 c)) in is_hsl e h' s' l' o /\ d3 o = d3 c.
Proof.
  intros G H S L H' S' L' EH ES EL E. destruct G as (_ & _ & _ & G).
  destruct (hsl_to_rgb_meaning (mkC h s l (d3 c))) as [A B]. { repeat split; apply H || apply S || apply L || apply G. }
  cbn [d0 d1 d2 d3] in *. split; [|exact B].
  apply in01_R in H, S, L. eapply is_hsl_near; try eassumption; tauto.
Qed.

Lemma circ_0 a : circ 0 a a.
Proof. left. apply Rabs_le_iff. lra. Qed.
Lemma abs_0 a : Rabs (a - a) <= 0.
Proof. apply Rabs_le_iff. lra. Qed.
Lemma saturation_meaning f c : in_gamut c -> moderate f ->
  let h := rgb_to_hsl c in let o := with_saturation f c in
  is_hsl (/ 131072) (B2R (d0 h)) (limited (B2R (d1 h) * B2R f)) (B2R (d2 h)) o /\ d3 o = d3 c.
Proof.
  intros G F. cbv zeta. destruct (rgb_to_hsl_range c G) as (R0 & R1 & R2 & _).
  unfold with_saturation. cbv zeta. pose proof (factor_close _ _ R1 F) as K. pose proof (clamped_in01 _ _ _ K) as I.
  apply (hsl_set c _ _ _ 0 U 0); auto using circ_0, abs_0; try (now apply in01_R); try apply limited_range; [apply K|lra].
Qed.
Lemma stretch_saturation_meaning f c : in_gamut c -> moderate f ->
  let h := rgb_to_hsl c in let o := stretch_saturation f c in
  is_hsl ((1 + Rabs (B2R f)) / 131072) (B2R (d0 h)) (limited ((B2R (d1 h) - / 2) * B2R f + / 2)) (B2R (d2 h)) o /\ d3 o = d3 c.
Proof.
  intros G F. cbv zeta. destruct (rgb_to_hsl_range c G) as (R0 & R1 & R2 & _).
  unfold stretch_saturation. cbv zeta.
  destruct (contrast_meaning f (mkC (d1 (rgb_to_hsl c)) (d1 (rgb_to_hsl c)) (d1 (rgb_to_hsl c)) f1)) as (K & _); auto.
  { repeat split; apply R1 || reflexivity. }
  unfold with_contrast, map_channels in K. cbn [d0 rgb_new_with_alpha rgb_new] in K.
  pose proof (clamped_in01 _ _ _ K) as I. pose proof (Rabs_pos (B2R f)).
  eapply (hsl_set c _ _ _ 0 _ 0); auto using circ_0, abs_0; try (now apply in01_R); try apply limited_range; [apply K|lra].
Qed.
Lemma gamma_saturation_meaning L g c : accurate_powf L -> bounded_powf L -> in_gamut c -> usual_gamma g ->
  let h := rgb_to_hsl c in let o := with_gamma_saturation L g c in
  is_hsl (/ 131072) (B2R (d0 h)) (gamma_formula (B2R g) (B2R (d1 h))) (B2R (d2 h)) o /\ d3 o = d3 c.
Proof.
  intros AL BL G Ug. cbv zeta. destruct (rgb_to_hsl_range c G) as (R0 & R1 & R2 & _).
  unfold with_gamma_saturation. cbv zeta. pose proof (in01_R _ R1) as [F1 H1].
  destruct (clamp_01 _ F1 H1) as [C1 C2]. destruct (inv_close g Ug) as (I1 & I2 & I3).
  assert (0 < / B2R g) by (apply Rinv_0_lt_compat; destruct Ug; lra).
  assert (I0 : 0 < B2R (fdiv f1 g)) by (apply Rabs_le_iff in I3; lra). destruct Ug as [U1 U2].
  pose proof (pow_close L (clamp (d1 (rgb_to_hsl c))) (fdiv f1 g) (B2R g) AL C1 ltac:(lra) I1 I2 U2 I3) as K. rewrite C2 in K.
  apply (hsl_set c _ _ _ 0 (/ 524288) 0); auto using circ_0, abs_0; try (now apply in01_R).
  - apply BL; auto. apply clamp_in01. destruct (d1 (rgb_to_hsl c)); auto; discriminate.
  - apply gamma_formula_01; lra.
  - destruct K as [_ K]. apply Rabs_le_iff in K. apply Rabs_le_iff. lra.
  - lra.
Qed.
Lemma lightness_meaning f c : in_gamut c -> moderate f ->
  let h := rgb_to_hsl c in let o := with_lightness f c in
  is_hsl (/ 131072) (B2R (d0 h)) (B2R (d1 h)) (limited (B2R (d2 h) * B2R f)) o /\ d3 o = d3 c.
Proof.
  intros G F. cbv zeta. destruct (rgb_to_hsl_range c G) as (R0 & R1 & R2 & _).
  unfold with_lightness. cbv zeta. pose proof (factor_close _ _ R2 F) as K. pose proof (clamped_in01 _ _ _ K) as I.
  apply (hsl_set c _ _ _ 0 0 U); auto using circ_0, abs_0; try (now apply in01_R); try apply limited_range; [apply K|lra].
Qed.
Lemma modulate_meaning fh fs fl c : in_gamut c -> moderate fh -> moderate fs -> moderate fl ->
  let h := rgb_to_hsl c in let o := modulate fh fs fl c in
  is_hsl (/ 131072) (limited (B2R (d0 h) * B2R fh)) (limited (B2R (d1 h) * B2R fs)) (limited (B2R (d2 h) * B2R fl)) o /\ d3 o = d3 c.
Proof.
  intros G F0 F1 F2. cbv zeta. destruct (rgb_to_hsl_range c G) as (R0 & R1 & R2 & _).
  unfold modulate. cbv zeta. rewrite rgb_to_hsl_alpha.
  pose proof (factor_close _ _ R0 F0) as K0. pose proof (clamped_in01 _ _ _ K0) as I0.
  pose proof (factor_close _ _ R1 F1) as K1. pose proof (clamped_in01 _ _ _ K1) as I1.
  pose proof (factor_close _ _ R2 F2) as K2. pose proof (clamped_in01 _ _ _ K2) as I2.
  apply (hsl_set c _ _ _ U U U); auto using limited_range; [left; apply K0 | apply K1 | apply K2|lra].
Qed.

Lemma rotated_close h d : in01 h -> fin d -> Rabs (B2R d) <= 360 ->
  in01 (rotated_hue h d) /\ exists n : Z, (-1 <= n <= 1)%Z /\ 0 <= B2R h + B2R d / 360 + IZR n <= 1 /\
  circ (2 * U) (B2R (rotated_hue h d)) (B2R h + B2R d / 360 + IZR n).
Proof.
  intros H Fd D. apply in01_R in H. destruct H as [Fh H]. apply Rabs_le_iff in D.
  destruct (fdiv_ok d (ofZ 360) 1) as [A B]; auto with fin fmt. { rewrite k360_R. lra. } { rewrite k360_R. apply Rabs_le_iff. lra. }
  rewrite k360_R in B. set (x := fdiv d (ofZ 360)) in *.
  pose proof (uo_err 1 _ (B2R d / 360) uo_1 ltac:(apply Rabs_le_iff; lra)) as E. rewrite <- B in E.
  assert (X : -1 <= B2R x <= 1).
  { rewrite B. split; [apply rnd_lo | apply rnd_hi]; try (apply fmt_IZR; lia); lra. }
  destruct (fadd_ok h x 2) as [A2 B2]; auto with fin fmt. { apply Rabs_le_iff. lra. }
  set (y := fadd h x) in *.
  pose proof (uo_err 2 _ (B2R h + B2R x) uo_2 ltac:(apply Rabs_le_iff; lra)) as E2. rewrite <- B2 in E2.
  assert (Y : -1 <= B2R y <= 2).
  { rewrite B2. split; [apply rnd_lo | apply rnd_hi]; try (apply fmt_IZR; lia); lra. }
  apply Rabs_le_iff in E, E2.
  assert (N : exists n : Z, (-1 <= n <= 1)%Z /\ 0 <= B2R h + B2R d / 360 + IZR n <= 1).
  { destruct (Rlt_dec (B2R h + B2R d / 360) 0); [exists 1%Z | destruct (Rlt_dec 1 (B2R h + B2R d / 360)); [exists (-1)%Z | exists 0%Z]]; split; try lia; lra. }
  destruct N as (n & N1 & N2).
  assert (NN : IZR n = -1 \/ IZR n = 0 \/ IZR n = 1).
  { assert (n = -1 \/ n = 0 \/ n = 1)%Z as [->|[->| ->]] by lia; auto. }
  assert (G : fin (rotated_hue h d) /\ 0 <= B2R (rotated_hue h d) <= 1 /\ circ (2 * U) (B2R (rotated_hue h d)) (B2R h + B2R d / 360 + IZR n)).
  { unfold rotated_hue. cbv zeta. fold x y. unfold circ. destruct (fle f1 y) eqn:T; [|destruct (flt y f0) eqn:T2].
    - apply fle_R in T; auto with fin. rewrite f1_R in T.
      destruct (fsub_ok y f1 1) as [A3 B3]; auto with fin fmt. { rewrite f1_R. apply Rabs_le_iff. lra. } rewrite f1_R in B3.
      pose proof (uo_err 1 _ (B2R y - 1) uo_1 ltac:(apply Rabs_le_iff; lra)) as E3. rewrite <- B3 in E3. apply Rabs_le_iff in E3.
      split; [exact A3|]. split. { rewrite B3. split; [apply rnd_lo | apply rnd_hi]; auto with fmt; lra. }
      destruct NN as [NN|[NN|NN]]; rewrite NN in *.
      + left. apply Rabs_le_iff. lra.
      + right; right. apply Rabs_le_iff. lra.
      + exfalso. lra.
    - apply flt_R in T2; auto with fin. rewrite f0_R in T2.
      destruct (fadd_ok y f1 1) as [A3 B3]; auto with fin fmt. { rewrite f1_R. apply Rabs_le_iff. lra. } rewrite f1_R in B3.
      pose proof (uo_err 1 _ (B2R y + 1) uo_1 ltac:(apply Rabs_le_iff; lra)) as E3. rewrite <- B3 in E3. apply Rabs_le_iff in E3.
      split; [exact A3|]. split. { rewrite B3. split; [apply rnd_lo | apply rnd_hi]; auto with fmt; lra. }
      destruct NN as [NN|[NN|NN]]; rewrite NN in *.
      + exfalso. lra.
      + right; left. apply Rabs_le_iff. lra.
      + left. apply Rabs_le_iff. lra.
    - apply fle_Rf in T; auto with fin. rewrite f1_R in T. apply flt_Rf in T2; auto with fin. rewrite f0_R in T2.
      split; [exact A2|]. split; [lra|]. destruct NN as [NN|[NN|NN]]; rewrite NN in *.
      + right; left. apply Rabs_le_iff. lra.
      + left. apply Rabs_le_iff. lra.
      + right; right. apply Rabs_le_iff. lra. }
  destruct G as (G1 & G2 & G3). split; [apply in01_num; split; auto|]. exists n. auto.
Qed.
Lemma hue_rotate_meaning d c : in_gamut c -> fin d -> Rabs (B2R d) <= 360 ->
  let h := rgb_to_hsl c in let o := with_hue_rotate d c in
  exists n : Z, let t := B2R (d0 h) + B2R d / 360 + IZR n in
  0 <= t <= 1 /\ is_hsl (/ 131072) t (B2R (d1 h)) (B2R (d2 h)) o /\ d3 o = d3 c.
Proof.
  intros G F D. cbv zeta. destruct (rgb_to_hsl_range c G) as (R0 & R1 & R2 & _).
  destruct (rotated_close _ d R0 F D) as (I & n & _ & T & C). exists n. split; [exact T|].
  unfold with_hue_rotate. cbv zeta.
  apply (hsl_set c _ _ _ (2 * U) 0 0); auto using abs_0; try (now apply in01_R). lra.
Qed.
