(** Proofs for C120: which palette colour is the nearest. *)
From Coq Require Import Reals ZArith List Bool Lia Lra Psatz.
From Flocq Require Import Core.Core IEEE754.BinarySingleNaN.
From Verif Require Import Base BaseLemmas PixelBuffer BufferSpec PixelBufferProofs F32 F32Lemmas Color ColorSpec ColorProofs MeaningSpec ConvSpec Approx OpMeaningProofs
  HslMeaning HslOps SrgbMeaning LinearConv LabCurve LabMeaning LchMeaning Ops OpsSpec OpsThm GaussMeaning2 PaletteSpec.
Import ListNotations.
Open Scope R_scope.

(** ** Lengths *)
Lemma length3_lip a b c a' b' c' : Rabs (length3 a b c - length3 a' b' c') <= Rabs (a - a') + Rabs (b - b') + Rabs (c - c').
Proof.
  assert (Q : forall a b c, length3 a b c = sqrt (sqrt (a * a + b * b) * sqrt (a * a + b * b) + c * c)).
  { intros x y z. unfold length3. rewrite sqrt_sqrt; [reflexivity|]. nra. }
  rewrite !Q. eapply Rle_trans; [apply hyp_lip|]. apply Rplus_le_compat_r. apply hyp_lip.
Qed.
Lemma length3_pos a b c : 0 <= length3 a b c.
Proof. apply sqrt_pos. Qed.
Lemma length3_le a b c r : 0 <= r -> a * a + b * b + c * c <= r * r -> length3 a b c <= r.
Proof. intros R H. rewrite <- (sqrt_square r R). apply sqrt_le_1_alt, H. Qed.
Lemma length3_ge a b c r : 0 <= r -> r * r <= a * a + b * b + c * c -> r <= length3 a b c.
Proof. intros R H. rewrite <- (sqrt_square r R). apply sqrt_le_1_alt, H. Qed.
Lemma length3_sym a b c a' b' c' : length3 (a - a') (b - b') (c - c') = length3 (a' - a) (b' - b) (c' - c).
Proof. unfold length3. f_equal. ring. Qed.
Lemma lab_dist_sym c q : lab_dist c q = lab_dist q c.
Proof. apply length3_sym. Qed.
Lemma lab_dist_step c q q' : Rabs (lab_dist c q - lab_dist c q') <= Rabs (exact_l q - exact_l q') + Rabs (exact_a q - exact_a q') + Rabs (exact_b q - exact_b q').
Proof.
  unfold lab_dist. eapply Rle_trans; [apply length3_lip|].
  replace (exact_l c - exact_l q - (exact_l c - exact_l q')) with (- (exact_l q - exact_l q')) by ring.
  replace (exact_a c - exact_a q - (exact_a c - exact_a q')) with (- (exact_a q - exact_a q')) by ring.
  replace (exact_b c - exact_b q - (exact_b c - exact_b q')) with (- (exact_b q - exact_b q')) by ring.
  rewrite !Rabs_Ropp. apply Rle_refl.
Qed.

Lemma root_near_k k S s d : 0 <= k <= / 2 -> 0 <= S -> 0 <= s -> 0 <= d -> S * (1 - k) - d * d <= s <= S * (1 + k) + d * d ->
  Rabs (sqrt s - sqrt S) <= k * sqrt S + d.
Proof.
  intros LE HS Hs Hd H. set (q := sqrt S). assert (Q0 : 0 <= q) by apply sqrt_pos. assert (QQ : q * q = S) by (apply sqrt_sqrt; auto).
  apply Rabs_le. split.
  - destruct (Rle_dec (q * (1 - k) - d) 0) as [G | G].
    + pose proof (sqrt_pos s). lra.
    + assert (q * (1 - k) - d <= sqrt s); [|lra].
      replace (q * (1 - k) - d) with (sqrt ((q * (1 - k) - d) * (q * (1 - k) - d))) by (apply sqrt_square; lra).
      apply sqrt_le_1_alt. apply Rle_trans with (2 := proj1 H). rewrite <- QQ.
      assert (d * d <= q * (1 - k) * d) by (apply Rmult_le_compat_r; lra).
      assert (0 <= q * q) by (apply Rmult_le_pos; auto).
      assert (q * q * ((1 - k) * (1 - k)) <= q * q * (1 - k)).
      { apply Rmult_le_compat_l; [auto|]. rewrite <- (Rmult_1_r (1 - k)) at 3. apply Rmult_le_compat_l; lra. }
      lra.
  - assert (sqrt s <= q * (1 + k) + d); [|lra].
    assert (P : 0 <= q * (1 + k)) by (apply Rmult_le_pos; lra).
    replace (q * (1 + k) + d) with (sqrt ((q * (1 + k) + d) * (q * (1 + k) + d))) by (apply sqrt_square; lra).
    apply sqrt_le_1_alt. apply Rle_trans with (1 := proj2 H). rewrite <- QQ.
    assert (0 <= q * (1 + k) * d) by (apply Rmult_le_pos; auto).
    assert (0 <= q * q) by (apply Rmult_le_pos; auto).
    assert (q * q * (1 + k) <= q * q * ((1 + k) * (1 + k))).
    { apply Rmult_le_compat_l; [auto|]. rewrite <- (Rmult_1_r (1 + k)) at 1. apply Rmult_le_compat_l; lra. }
    lra.
Qed.

(** The length of three floats. *)
Lemma add_rel_pos x y : fin x -> fin y -> 0 <= B2R x -> 0 <= B2R y -> B2R x + B2R y <= 10000 ->
  fin (fadd x y) /\ Rabs (B2R (fadd x y) - (B2R x + B2R y)) <= U * (B2R x + B2R y) + T.
Proof.
  intros Fx Fy X Y B. destruct (fadd_ok x y 10000) as [F E]; auto. { apply (fmt_IZR 10000). lia. } { rewrite Rabs_right; lra. }
  split; [exact F|]. rewrite E. pose proof (rnd_rel_abs (B2R x + B2R y)) as H. pose proof p140. rewrite (Rabs_right (B2R x + B2R y)) in H by lra. lra.
Qed.
Lemma rnd_nonneg r : 0 <= r -> 0 <= rnd r.
Proof. intros H. rewrite <- (round_0 radix2 (FLT_exp (3 - 128 - 24) 24) ZnearestE). apply round_le; [apply FLT_exp_valid; reflexivity|apply valid_rnd_N|exact H]. Qed.
Lemma square_val x M : fin x -> Rabs (B2R x) <= M -> M <= 20 ->
  fin (fmul x x) /\ 0 <= B2R (fmul x x) /\ 0 <= B2R x * B2R x <= M * M /\ Rabs (B2R (fmul x x) - B2R x * B2R x) <= U * (B2R x * B2R x) + T.
Proof.
  intros F X M10. assert (S : 0 <= B2R x * B2R x <= M * M).
  { apply Rabs_le_iff in X. split; nra. }
  assert (M2 : M * M <= 400). { pose proof (Rabs_pos (B2R x)). nra. }
  destruct (mul_rel x x F F) as [F' E]. { rewrite Rabs_right; lra. } rewrite (Rabs_right (B2R x * B2R x)) in E by lra.
  split; [exact F'|]. split; [|split; [exact S|exact E]].
  destruct (fmul_ok x x 10000) as [_ E2]; auto. { apply (fmt_IZR 10000). lia. } { rewrite Rabs_right; lra. }
  rewrite E2. apply rnd_nonneg, S.
Qed.
Definition float_length (x y z : f32) : f32 := fsqrt (fadd (fadd (fmul x x) (fmul y y)) (fmul z z)).
Lemma float_length_near x y z : fin x -> fin y -> fin z -> Rabs (B2R x) <= 5 -> Rabs (B2R y) <= 9 -> Rabs (B2R z) <= 4 ->
  close (/ 200000) (length3 (B2R x) (B2R y) (B2R z)) (float_length x y z).
Proof.
  intros Fx Fy Fz X Y Z.
  destruct (square_val x 5 Fx X ltac:(lra)) as (F1 & P1 & S1 & E1). destruct (square_val y 9 Fy Y ltac:(lra)) as (F2 & P2 & S2 & E2).
  destruct (square_val z 4 Fz Z ltac:(lra)) as (F3 & P3 & S3 & E3).
  set (sx := B2R x * B2R x) in *. set (sy := B2R y * B2R y) in *. set (sz := B2R z * B2R z) in *.
  apply Rabs_le_iff in E1, E2, E3.
  destruct (add_rel_pos _ _ F1 F2 P1 P2 ltac:(lra)) as [F4 E4]. apply Rabs_le_iff in E4.
  assert (P4 : 0 <= B2R (fadd (fmul x x) (fmul y y))).
  { destruct (fadd_ok (fmul x x) (fmul y y) 10000) as [_ Q]; auto. { apply (fmt_IZR 10000). lia. } { rewrite Rabs_right; lra. } rewrite Q. apply rnd_nonneg. lra. }
  destruct (add_rel_pos _ _ F4 F3 P4 P3 ltac:(lra)) as [F5 E5]. apply Rabs_le_iff in E5.
  assert (P5 : 0 <= B2R (fadd (fadd (fmul x x) (fmul y y)) (fmul z z))).
  { destruct (fadd_ok (fadd (fmul x x) (fmul y y)) (fmul z z) 10000) as [_ Q]; auto. { apply (fmt_IZR 10000). lia. } { rewrite Rabs_right; lra. } rewrite Q. apply rnd_nonneg. lra. }
  destruct (sqrt_val _ F5 P5) as [F6 E6]. unfold float_length. split; [exact F6|]. rewrite E6.
  set (s := B2R (fadd (fadd (fmul x x) (fmul y y)) (fmul z z))) in *. set (p := B2R (fmul x x)) in *. set (q := B2R (fmul y y)) in *. set (r := B2R (fmul z z)) in *.
  set (pq := B2R (fadd (fmul x x) (fmul y y))) in *. unfold length3. fold sx sy sz. set (S := sx + sy + sz). assert (HS : 0 <= S <= 122) by (unfold S; lra).
  assert (N : Rabs (sqrt s - sqrt S) <= 4 * U * sqrt S + / 1000000000).
  { apply root_near_k; [lra|apply HS|exact P5|lra|]. unfold S. clearbody s p q r pq sx sy sz. split; lra. }
  assert (Q : 0 <= sqrt S <= 12). { split; [apply sqrt_pos|]. rewrite <- (sqrt_square 12) by lra. apply sqrt_le_1_alt. lra. }
  set (t := sqrt S) in *. pose proof (rnd_rel_abs (sqrt s)) as R. pose proof p140 as PT. rewrite (Rabs_right (sqrt s)) in R by (apply Rle_ge, sqrt_pos).
  apply Rabs_le_iff in N, R. apply Rabs_le_iff. set (u := sqrt s) in *. clearbody s p q r pq S u t. lra.
Qed.

(** ** The Lab colours of floats *)
Definition near_lab (c : Rgb) (lab : Lab) : Prop :=
  close (2 / 100000) (exact_l c) (d0 lab) /\ close (7 / 100000) (exact_a c) (d1 lab) /\ close (3 / 100000) (exact_b c) (d2 lab).
Lemma curve_near a b d : Rabs (a - b) <= d -> Rabs (lab_curve a - lab_curve b) <= 8 * d + / 3000000.
Proof.
  intros H. apply Rabs_le_iff in H. apply Rabs_le_iff. destruct (Rle_dec a b) as [C|C].
  - pose proof (curve_lip a b C). lra.
  - pose proof (curve_lip b a ltac:(lra)). lra.
Qed.
Lemma div_near a b w d : 9 / 10 <= w -> Rabs (a - b) <= d -> Rabs (a / w - b / w) <= 10 / 9 * d.
Proof.
  intros W H. replace (a / w - b / w) with ((a - b) * / w) by (unfold Rdiv; ring). rewrite Rabs_mult, (Rabs_right (/ w)) by (apply Rle_ge; left; apply Rinv_0_lt_compat; lra).
  assert (I : / w <= 10 / 9). { replace (10 / 9) with (/ (9 / 10)) by lra. apply Rinv_le_contravar; lra. }
  assert (0 < / w) by (apply Rinv_0_lt_compat; lra). rewrite (Rmult_comm (10 / 9)). apply Rmult_le_compat; auto using Rabs_pos; lra.
Qed.
Lemma lab_near_exact L c : accurate_powf L -> accurate_powf_above L -> in_gamut c -> near_lab c (to_lab L D65 O2 KRgb c).
Proof.
  intros AL AA G. unfold to_lab. change (to_xyz L KRgb c) with (apply_matrix c RGB_TO_XYZ).
  destruct (gamut_xyz c G) as [X _]. destruct (xyz_rows c (in_gamut_to c G)) as ([_ X0] & [_ X1] & [_ X2]).
  pose proof (lab_meaning L D65 O2 (apply_matrix c RGB_TO_XYZ) AL AA X) as M. set (xyz := apply_matrix c RGB_TO_XYZ) in *. cbn [white] in M.
  destruct M as ([F0 M0] & [F1 M1] & [F2 M2] & _).
  assert (C0 := curve_near _ _ _ (div_near _ _ (95047 / 100000) _ ltac:(lra) X0)).
  assert (C1 := curve_near _ _ _ (div_near _ _ 1 _ ltac:(lra) X1)).
  assert (C2 := curve_near _ _ _ (div_near _ _ (108883 / 100000) _ ltac:(lra) X2)).
  assert (E1 : y_of (B2R (d0 c)) (B2R (d1 c)) (B2R (d2 c)) / 1 = ratio_y c) by (unfold ratio_y; field). rewrite E1 in C1.
  fold (ratio_x c) in C0. fold (ratio_z c) in C2. unfold near_lab, exact_l, exact_a, exact_b.
  unfold lab_l, lab_a, lab_b in *. apply Rabs_le_iff in C0, C1, C2, M0, M1, M2.
  split; [|split]; (split; [assumption|]); apply Rabs_le_iff; lra.
Qed.
Lemma gamut_R c : in_gamut c -> (0 <= B2R (d0 c) <= 1) /\ (0 <= B2R (d1 c) <= 1) /\ (0 <= B2R (d2 c) <= 1).
Proof. intros (A & B & C & _). apply in01_R in A, B, C. tauto. Qed.
Lemma curve_range v : 0 <= v <= 1003 / 1000 -> 1379 / 10000 <= lab_curve v <= 1001 / 1000.
Proof.
  intros V. split; [|apply curve_le; lra]. pose proof (curve_lip 0 v (proj1 V)) as H. rewrite (curve_low 0) in H by lra. lra.
Qed.
Lemma exact_range c : in_gamut c -> - / 10 <= exact_l c <= 1003 / 1000 /\ - 34 / 10 <= exact_a c <= 34 / 10 /\ - 14 / 10 <= exact_b c <= 14 / 10.
Proof.
  intros G. destruct (gamut_R c G) as (A & B & C). unfold exact_l, exact_a, exact_b, lab_l, lab_a, lab_b.
  assert (X : 0 <= ratio_x c <= 1003 / 1000) by (unfold ratio_x, x_of; lra).
  assert (Y : 0 <= ratio_y c <= 1003 / 1000) by (unfold ratio_y, y_of; lra).
  assert (Z : 0 <= ratio_z c <= 1003 / 1000) by (unfold ratio_z, z_of; lra).
  apply curve_range in X, Y, Z. lra.
Qed.

Notation lab_of L c := (to_lab L D65 O2 KRgb c).
Lemma delta_e_length a b : delta_e a b = float_length (fsub (d0 a) (d0 b)) (fsub (d1 a) (d1 b)) (fsub (d2 a) (d2 b)).
Proof. reflexivity. Qed.
Lemma sub_near e1 e2 r1 r2 x y : close e1 r1 x -> close e2 r2 y -> Rabs (r1 - r2) + e1 + e2 <= 8 ->
  close (e1 + e2 + / 1500000) (r1 - r2) (fsub x y).
Proof.
  intros [F1 E1] [F2 E2] H. apply Rabs_le_iff in E1, E2.
  assert (B : Rabs (B2R x - B2R y) <= 8).
  { replace (B2R x - B2R y) with ((r1 - r2) + ((B2R x - r1) - (B2R y - r2))) by ring. eapply Rle_trans; [apply Rabs_triang|].
    assert (Rabs (B2R x - r1 - (B2R y - r2)) <= e1 + e2) by (apply Rabs_le_iff; lra). lra. }
  destruct (sub_val x y 8 F1 F2 B ltac:(lra)) as [F E]. split; [exact F|]. pose proof p140. apply Rabs_le_iff in E. apply Rabs_le_iff. lra.
Qed.
Lemma delta_near L c q : accurate_powf L -> accurate_powf_above L -> in_gamut c -> in_gamut q ->
  close (/ 4000) (lab_dist c q) (delta_e (lab_of L c) (lab_of L q)).
Proof.
  intros AL AA G H. rewrite delta_e_length.
  destruct (lab_near_exact L c AL AA G) as (C0 & C1 & C2). destruct (lab_near_exact L q AL AA H) as (Q0 & Q1 & Q2).
  destruct (exact_range c G) as (RC0 & RC1 & RC2). destruct (exact_range q H) as (RQ0 & RQ1 & RQ2).
  assert (B0 : Rabs (exact_l c - exact_l q) <= 12 / 10) by (apply Rabs_le_iff; lra).
  assert (B1 : Rabs (exact_a c - exact_a q) <= 68 / 10) by (apply Rabs_le_iff; lra).
  assert (B2 : Rabs (exact_b c - exact_b q) <= 28 / 10) by (apply Rabs_le_iff; lra).
  pose proof (sub_near _ _ _ _ _ _ C0 Q0 ltac:(lra)) as [F0 D0]. pose proof (sub_near _ _ _ _ _ _ C1 Q1 ltac:(lra)) as [F1 D1].
  pose proof (sub_near _ _ _ _ _ _ C2 Q2 ltac:(lra)) as [F2 D2]. clear C0 C1 C2 Q0 Q1 Q2.
  set (x := fsub (d0 _) (d0 _)) in *. set (y := fsub (d1 _) (d1 _)) in *. set (z := fsub (d2 _) (d2 _)) in *.
  unfold lab_dist. set (l := exact_l c - exact_l q) in *. set (a := exact_a c - exact_a q) in *. set (b := exact_b c - exact_b q) in *.
  clearbody x y z l a b.
  assert (K : Rabs (B2R x) <= 5 /\ Rabs (B2R y) <= 9 /\ Rabs (B2R z) <= 4).
  { apply Rabs_le_iff in B0, B1, B2, D0, D1, D2. split; [|split]; apply Rabs_le_iff; lra. }
  destruct (float_length_near x y z F0 F1 F2 (proj1 K) (proj1 (proj2 K)) (proj2 (proj2 K))) as [F E]. split; [exact F|].
  pose proof (length3_lip (B2R x) (B2R y) (B2R z) l a b) as P. apply Rabs_le_iff in P, E. apply Rabs_le_iff. lra.
Qed.
Lemma lab_dist_bound c q : in_gamut c -> in_gamut q -> lab_dist c q <= 20.
Proof.
  intros G H. destruct (exact_range c G) as (RC0 & RC1 & RC2). destruct (exact_range q H) as (RQ0 & RQ1 & RQ2).
  unfold lab_dist. apply length3_le; [lra|].
  assert (S : forall u M, - M <= u <= M -> u * u <= M * M) by (intros; nra).
  pose proof (S (exact_l c - exact_l q) 2 ltac:(lra)). pose proof (S (exact_a c - exact_a q) 8 ltac:(lra)). pose proof (S (exact_b c - exact_b q) 3 ltac:(lra)). lra.
Qed.
Lemma MAX_big : 10000 < B2R f32_MAX.
Proof.
  assert (H : flt (ofZ 10000) f32_MAX = true) by (vm_compute; reflexivity).
  apply flt_R in H; [|reflexivity|reflexivity]. rewrite ofZ_R in H by lia. exact H.
Qed.
Lemma delta_below L c q : accurate_powf L -> accurate_powf_above L -> in_gamut c -> in_gamut q -> flt (delta_e (lab_of L c) (lab_of L q)) f32_MAX = true.
Proof.
  intros AL AA G H. destruct (delta_near L c q AL AA G H) as [F E]. pose proof (lab_dist_bound c q G H). pose proof MAX_big.
  apply flt_R; [exact F|reflexivity|]. apply Rabs_le_iff in E. lra.
Qed.

(** ** The chosen entry *)
Definition picks (L : libm) (c : Rgb) (l : list Rgb) (i : Z) (q : Rgb) : Prop :=
  idx l i = Ok q /\ (forall q', In q' l -> flt (delta_e (lab_of L c) (lab_of L q')) (delta_e (lab_of L c) (lab_of L q)) = false) /\
  (forall j q', (j < i)%Z -> idx l j = Ok q' -> fle (delta_e (lab_of L c) (lab_of L q')) (delta_e (lab_of L c) (lab_of L q)) = false).
Lemma idx_in {A} (l : list A) i a : idx l i = Ok a -> In a l.
Proof. unfold idx. destruct (i <? 0)%Z; [discriminate|]. destruct (nth_error l _) eqn:E; [|discriminate]. intros H. inversion H; subst. eapply nth_error_In; eauto. Qed.
Lemma entry_picks L c l p : accurate_powf L -> accurate_powf_above L -> in_gamut c -> l <> [] -> (forall q, In q l -> in_gamut q) ->
  closest_entry (lab_of L c) (map (fun q => lab_of L q) l) p -> exists i q, p = lab_of L q /\ picks L c l i q.
Proof.
  intros AL AA G N P [(i & I & _ & M & B) | [M _]].
  - rewrite idx_map in I. destruct (idx l i) as [q|] eqn:Q; cbn [bind] in I; [|discriminate].
    assert (E : p = lab_of L q) by (now inversion I). subst p. exists i, q. split; [reflexivity|]. split; [exact Q|]. split.
    + intros q' H. apply M. apply (in_map (fun q => lab_of L q)). exact H.
    + intros j q' J H. apply (B j (lab_of L q') J). exact (eq_trans (idx_map (fun q => lab_of L q) l j) (f_equal (fun v => bind v (fun a => Ok (lab_of L a))) H)).
  - destruct l as [|q l]; [now destruct N|]. assert (H : In q (q :: l)) by now left.
    pose proof (M (lab_of L q) (in_map _ _ _ H)) as F. rewrite delta_below in F; auto. discriminate.
Qed.
Lemma picks_nearest L c l i q q' : accurate_powf L -> accurate_powf_above L -> in_gamut c -> (forall q, In q l -> in_gamut q) -> picks L c l i q -> In q' l ->
  lab_dist c q <= lab_dist c q' + / 2000.
Proof.
  intros AL AA G P (I & M & _) H. pose proof (M q' H) as E. apply idx_in in I.
  destruct (delta_near L c q AL AA G (P _ I)) as [F1 E1]. destruct (delta_near L c q' AL AA G (P _ H)) as [F2 E2].
  apply flt_Rf in E; [|exact F2|exact F1]. apply Rabs_le_iff in E1, E2. lra.
Qed.
Lemma palette_pixel L b pal r m x y : accurate_powf L -> accurate_powf_above L -> valid b -> inside b x y -> data pal <> [] ->
  (forall q, In q (data pal) -> in_gamut q) -> (forall c, get_pixel m b x y = Ok c -> in_gamut c) -> apply_palette L KRgb b pal = Ok r ->
  exists c i q, get_pixel m b x y = Ok c /\ in_gamut c /\ picks L c (data pal) i q /\ get_pixel m r x y = Ok (to_rgb L (KLab D65 O2) (lab_of L q)).
Proof.
  intros AL AA V I N P B A. destruct (palette_closest L KRgb b pal V) as (r0 & A0 & _ & _ & _ & _ & H). rewrite A in A0. assert (r0 = r) by (now inversion A0). subst r0.
  destruct (H m x y I) as (c & p & C & E & R). pose proof (B c C) as G.
  destruct (entry_picks L c (data pal) p AL AA G N P E) as (i & q & -> & K). exists c, i, q. auto.
Qed.
Lemma in_data_pixel {T} m (b : PixelBuffer T) x y (Q : T -> Prop) : valid b -> inside b x y -> (forall c, In c (data b) -> Q c) -> forall c, get_pixel m b x y = Ok c -> Q c.
Proof. intros V I H c C. apply H. rewrite get_pixel_eq in C by auto. eapply idx_in. exact C. Qed.
Lemma matrix_gamut c m : fin (d0 (apply_matrix_clamped c m)) -> fin (d1 (apply_matrix_clamped c m)) -> fin (d2 (apply_matrix_clamped c m)) -> in01 (d3 c) ->
  in_gamut (apply_matrix_clamped c m) /\ d3 (apply_matrix_clamped c m) = d3 c.
Proof.
  destruct m as [[r0 r1] r2]. unfold in_gamut. cbn [apply_matrix_clamped d0 d1 d2 d3]. intros F0 F1 F2 A. assert (K : forall v, fin (clamp v) -> in01 (clamp v)).
  { intros v F. destruct (clamp_or v) as [N|I]; [|exact I]. destruct (clamp v); discriminate. }
  auto 6.
Qed.
Lemma back_def L q : to_rgb L (KLab D65 O2) (lab_of L q) = apply_matrix_clamped (lab_to_xyz L D65 O2 (xyz_to_lab L D65 O2 (apply_matrix q RGB_TO_XYZ))) XYZ_TO_RGB.
Proof. reflexivity. Qed.
Lemma back_near L q : accurate_powf L -> accurate_powf_above L -> in_gamut q ->
  channelwise (/ 4096) (fun v => v) q (to_rgb L (KLab D65 O2) (lab_of L q)) /\ in_gamut (to_rgb L (KLab D65 O2) (lab_of L q)).
Proof.
  intros AL AA G. rewrite back_def. pose proof (rgb_lab_rgb L D65 O2 q AL AA G) as H. unfold xyz_to_rgb in H. split; [exact H|].
  destruct H as ([F0 _] & [F1 _] & [F2 _] & E). apply (matrix_gamut _ _ F0 F1 F2).
  destruct (lab_alpha L D65 O2 (xyz_to_lab L D65 O2 (apply_matrix q RGB_TO_XYZ))) as [_ E1]. rewrite E1.
  destruct (lab_alpha L D65 O2 (apply_matrix q RGB_TO_XYZ)) as [E2 _]. rewrite E2. apply G.
Qed.

Lemma palette_nearest_l L b pal r m x y : accurate_powf L -> accurate_powf_above L -> valid b -> inside b x y -> data pal <> [] ->
  (forall q, In q (data pal) -> in_gamut q) -> (forall c, In c (data b) -> in_gamut c) -> apply_palette L KRgb b pal = Ok r ->
  exists c q c', get_pixel m b x y = Ok c /\ get_pixel m r x y = Ok c' /\ In q (data pal) /\ channelwise (/ 4096) (fun v => v) q c' /\
    forall q', In q' (data pal) -> lab_dist c q <= lab_dist c q' + / 2000.
Proof.
  intros AL AA V I N P B A. destruct (palette_pixel L b pal r m x y AL AA V I N P (in_data_pixel m b x y _ V I B) A) as (c & i & q & C & G & K & R).
  pose proof (idx_in _ _ _ (proj1 K)) as Q. exists c, q, (to_rgb L (KLab D65 O2) (lab_of L q)). split; [exact C|]. split; [exact R|]. split; [exact Q|].
  split; [apply (back_near L q AL AA (P _ Q))|]. intros q' H. exact (picks_nearest L c (data pal) i q q' AL AA G P K H).
Qed.

(** ** Twice *)
Lemma dist_small q r : in_gamut q -> channelwise (/ 4096) (fun v => v) q r -> Rabs (exact_l q - exact_l r) + Rabs (exact_a q - exact_a r) + Rabs (exact_b q - exact_b r) <= 24 / 1000.
Proof.
  intros _ ([_ E0] & [_ E1] & [_ E2] & _).
  assert (X : Rabs (ratio_x q - ratio_x r) <= 1002 / 1000 * / 4096). { apply Rabs_le_iff in E0, E1, E2. apply Rabs_le_iff. unfold ratio_x, x_of. lra. }
  assert (Y : Rabs (ratio_y q - ratio_y r) <= 1002 / 1000 * / 4096). { apply Rabs_le_iff in E0, E1, E2. apply Rabs_le_iff. unfold ratio_y, y_of. lra. }
  assert (Z : Rabs (ratio_z q - ratio_z r) <= 1002 / 1000 * / 4096). { apply Rabs_le_iff in E0, E1, E2. apply Rabs_le_iff. unfold ratio_z, z_of. lra. }
  apply curve_near in X, Y, Z. unfold exact_l, exact_a, exact_b, lab_l, lab_a, lab_b.
  set (a := lab_curve (ratio_x q)) in *. set (a' := lab_curve (ratio_x r)) in *. set (b := lab_curve (ratio_y q)) in *. set (b' := lab_curve (ratio_y r)) in *.
  set (z := lab_curve (ratio_z q)) in *. set (z' := lab_curve (ratio_z r)) in *. clearbody a a' b b' z z'. apply Rabs_le_iff in X, Y, Z.
  assert (Rabs ((116 * b - 16) / 100 - (116 * b' - 16) / 100) <= 228 / 100000) by (apply Rabs_le_iff; lra).
  assert (Rabs (500 * (a - b) / 128 - 500 * (a' - b') / 128) <= 1531 / 100000) by (apply Rabs_le_iff; lra).
  assert (Rabs (200 * (b - z) / 128 - 200 * (b' - z') / 128) <= 613 / 100000) by (apply Rabs_le_iff; lra).
  lra.
Qed.
Lemma lab_dist_self q : lab_dist q q = 0.
Proof. unfold lab_dist, length3. rewrite !Rminus_diag_eq by reflexivity. rewrite Rmult_0_l, !Rplus_0_r. apply sqrt_0. Qed.
Lemma back_dist q r : in_gamut q -> channelwise (/ 4096) (fun v => v) q r -> lab_dist r q <= 24 / 1000.
Proof.
  intros G H. pose proof (dist_small q r G H) as D. pose proof (lab_dist_step q q r) as S. rewrite lab_dist_self in S. rewrite lab_dist_sym. apply Rabs_le_iff in S. lra.
Qed.
Lemma same_delta L c q q' : d0 q = d0 q' -> d1 q = d1 q' -> d2 q = d2 q' -> delta_e (lab_of L c) (lab_of L q) = delta_e (lab_of L c) (lab_of L q').
Proof.
  destruct q as [a0 a1 a2 a3], q' as [b0 b1 b2 b3]. cbn [d0 d1 d2]. intros -> -> ->. rewrite !delta_e_length. reflexivity.
Qed.
Lemma picks_order L c l i q j q' : accurate_powf L -> accurate_powf_above L -> in_gamut c -> (forall q, In q l -> in_gamut q) -> picks L c l i q ->
  idx l j = Ok q' -> d0 q = d0 q' -> d1 q = d1 q' -> d2 q = d2 q' -> (i <= j)%Z.
Proof.
  intros AL AA G P (I & _ & O) J A B C. destruct (Z_lt_le_dec j i) as [H|H]; [|exact H].
  pose proof (O j q' H J) as F. rewrite <- (same_delta L c q q' A B C) in F. apply idx_in in I. destruct (delta_near L c q AL AA G (P _ I)) as [N _].
  apply fle_Rf in F; auto. lra.
Qed.
Lemma picks_again L c l i q j q' : accurate_powf L -> accurate_powf_above L -> in_gamut c -> (forall q, In q l -> in_gamut q) -> separated l ->
  picks L c l i q -> picks L (to_rgb L (KLab D65 O2) (lab_of L q)) l j q' -> q = q'.
Proof.
  intros AL AA G P S K1 K2. pose proof (idx_in _ _ _ (proj1 K1)) as Q. pose proof (idx_in _ _ _ (proj1 K2)) as Q'.
  destruct (back_near L q AL AA (P _ Q)) as [N G']. set (r := to_rgb L (KLab D65 O2) (lab_of L q)) in *.
  pose proof (picks_nearest L r l j q' q AL AA G' P K2 Q) as D. pose proof (back_dist q r (P _ Q) N) as B.
  pose proof (dist_small q r (P _ Q) N) as E. pose proof (lab_dist_step q' q r) as T. rewrite (lab_dist_sym q' q), (lab_dist_sym q' r) in T. apply Rabs_le_iff in T.
  assert (Z : lab_dist q q' <= 485 / 10000) by lra.
  destruct (S q q' Q Q') as [(X & Y & W) | X]; [|lra].
  pose proof (picks_order L c l i q j q' AL AA G P K1 (proj1 K2) X Y W) as O1.
  pose proof (picks_order L r l j q' i q AL AA G' P K2 (proj1 K1) (eq_sym X) (eq_sym Y) (eq_sym W)) as O2.
  assert (i = j) by lia. subst j. pose proof (proj1 K1) as I1. rewrite (proj1 K2) in I1. now inversion I1.
Qed.
Lemma palette_twice_l L b pal r : accurate_powf L -> accurate_powf_above L -> valid b -> data pal <> [] ->
  (forall q, In q (data pal) -> in_gamut q) -> (forall c, In c (data b) -> in_gamut c) -> separated (data pal) ->
  apply_palette L KRgb b pal = Ok r -> apply_palette L KRgb r pal = Ok r.
Proof.
  intros AL AA V N P B S A.
  assert (D : valid r /\ width r = width b /\ height r = height b).
  { destruct (palette_closest L KRgb b pal V) as (r0 & A0 & _ & V0 & W0 & H0 & _). rewrite A in A0. assert (r0 = r) by (now inversion A0). subst r0. auto. }
  destruct D as (Vr & Wr & Hr).
  destruct (palette_closest L KRgb r pal Vr) as (r2 & A2 & _ & V2 & W2 & H2 & _). rewrite A2. f_equal.
  apply (buffer_ext Checked); auto. intros x y I2.
  assert (I1 : inside r x y) by (unfold inside in *; rewrite W2, H2 in I2; exact I2).
  assert (I : inside b x y) by (unfold inside in *; rewrite Wr, Hr in I1; exact I1).
  destruct (palette_pixel L b pal r Checked x y AL AA V I N P (in_data_pixel Checked b x y _ V I B) A) as (c & i & q & C & G & K & R).
  pose proof (idx_in _ _ _ (proj1 K)) as Q. destruct (back_near L q AL AA (P _ Q)) as [_ G'].
  assert (B2 : forall c, get_pixel Checked r x y = Ok c -> in_gamut c). { intros c' C'. pose proof (eq_trans (eq_sym C') R) as E. inversion E. exact G'. }
  destruct (palette_pixel L r pal r2 Checked x y AL AA Vr I1 N P B2 A2) as (c' & j & q' & C' & _ & K' & R').
  pose proof (eq_trans (eq_sym C') R) as E. assert (E' : c' = to_rgb L (KLab D65 O2) (lab_of L q)) by (now inversion E). subst c'.
  rewrite <- (picks_again L c (data pal) i q j q' AL AA G P S K K') in R'. exact (eq_trans R' (eq_sym R)).
Qed.

(** ** Another scale, another colour *)
Lemma quarter_R : B2R (dec 1 4) = / 4. Proof. fval (dec 1 4) H. rewrite H. lra. Qed.
Lemma blue_R : B2R (dec 3 32) = 3 / 32. Proof. fval (dec 3 32) H. rewrite H. lra. Qed.
Lemma exact_black : exact_l black = 0 /\ exact_a black = 0 /\ exact_b black = 0.
Proof.
  assert (X : ratio_x black = 0). { unfold ratio_x, x_of, black, RGB_BLACK. cbn [d0 d1 d2]. rewrite f0_R. lra. }
  assert (Y : ratio_y black = 0). { unfold ratio_y, y_of, black, RGB_BLACK. cbn [d0 d1 d2]. rewrite f0_R. lra. }
  assert (Z : ratio_z black = 0). { unfold ratio_z, z_of, black, RGB_BLACK. cbn [d0 d1 d2]. rewrite f0_R. lra. }
  unfold exact_l, exact_a, exact_b, lab_l, lab_a, lab_b. rewrite X, Y, Z, curve_low by lra. lra.
Qed.
Lemma curve_between v lo hi : 8856 / 1000000 <= v -> 0 <= lo -> 0 <= hi -> lo ^ 3 <= v <= hi ^ 3 -> lo <= lab_curve v <= hi.
Proof. intros V L H B. destruct (curve_high v V) as (-> & _ & _). split; [apply cube_root_ge|apply cube_root_le]; lra. Qed.
Lemma exact_grey : 57 / 100 <= exact_l dark_grey <= 571 / 1000 /\ - / 1000 <= exact_a dark_grey <= / 1000 /\ - / 1000 <= exact_b dark_grey <= / 1000.
Proof.
  assert (X : ratio_x dark_grey = 950456 / 950470 / 4). { unfold ratio_x, x_of, dark_grey. cbn [d0 d1 d2]. rewrite quarter_R. lra. }
  assert (Y : ratio_y dark_grey = / 4). { unfold ratio_y, y_of, dark_grey. cbn [d0 d1 d2]. rewrite quarter_R. lra. }
  assert (Z : ratio_z dark_grey = 1088754 / 1088830 / 4). { unfold ratio_z, z_of, dark_grey. cbn [d0 d1 d2]. rewrite quarter_R. lra. }
  unfold exact_l, exact_a, exact_b, lab_l, lab_a, lab_b. rewrite X, Y, Z.
  pose proof (curve_between (950456 / 950470 / 4) (62994 / 100000) (62997 / 100000) ltac:(lra) ltac:(lra) ltac:(lra) ltac:(lra)).
  pose proof (curve_between (/ 4) (62994 / 100000) (62997 / 100000) ltac:(lra) ltac:(lra) ltac:(lra) ltac:(lra)).
  pose proof (curve_between (1088754 / 1088830 / 4) (62994 / 100000) (62997 / 100000) ltac:(lra) ltac:(lra) ltac:(lra) ltac:(lra)). lra.
Qed.
Lemma exact_blue : 61 / 1000 <= exact_l dark_blue <= 62 / 1000 /\ 274 / 1000 <= exact_a dark_blue <= 276 / 1000 /\ - 382 / 1000 <= exact_b dark_blue <= - 379 / 1000.
Proof.
  assert (X : ratio_x dark_blue = 180423 / 950470 * (3 / 32)). { unfold ratio_x, x_of, dark_blue. cbn [d0 d1 d2]. rewrite blue_R, f0_R. lra. }
  assert (Y : ratio_y dark_blue = 72169 / 1000000 * (3 / 32)). { unfold ratio_y, y_of, dark_blue. cbn [d0 d1 d2]. rewrite blue_R, f0_R. lra. }
  assert (Z : ratio_z dark_blue = 950227 / 1088830 * (3 / 32)). { unfold ratio_z, z_of, dark_blue. cbn [d0 d1 d2]. rewrite blue_R, f0_R. lra. }
  unfold exact_l, exact_a, exact_b, lab_l, lab_a, lab_b. rewrite X, Y, Z. rewrite (curve_low (72169 / 1000000 * (3 / 32))) by lra.
  pose proof (curve_between (180423 / 950470 * (3 / 32)) (26100 / 100000) (26113 / 100000) ltac:(lra) ltac:(lra) ltac:(lra) ltac:(lra)).
  pose proof (curve_between (950227 / 1088830 * (3 / 32)) (43405 / 100000) (43418 / 100000) ltac:(lra) ltac:(lra) ltac:(lra) ltac:(lra)). lra.
Qed.
Lemma dist_grey : 57 / 100 <= lab_dist black dark_grey /\ cie76 black dark_grey <= 58.
Proof.
  unfold lab_dist, cie76. destruct exact_black as (-> & -> & ->). destruct exact_grey as (L & A & B).
  split; [apply length3_ge|apply length3_le]; nra.
Qed.
Lemma dist_blue : lab_dist black dark_blue <= 48 / 100 /\ 60 <= cie76 black dark_blue.
Proof.
  unfold lab_dist, cie76. destruct exact_black as (-> & -> & ->). destruct exact_blue as (L & A & B).
  split; [apply length3_le|apply length3_ge]; nra.
Qed.
Lemma example_gamut : in_gamut black /\ in_gamut dark_grey /\ in_gamut dark_blue.
Proof. unfold in_gamut, black, RGB_BLACK, dark_grey, dark_blue. cbn [d0 d1 d2 d3]. 
  assert (in01 (dec 1 4)) by (split; vm_compute; reflexivity). assert (in01 (dec 3 32)) by (split; vm_compute; reflexivity).
  assert (in01 f0) by auto with fin. assert (in01 f1) by auto with fin. tauto. Qed.
Lemma example_palette : forall q, In q (data two_colours) -> in_gamut q.
Proof. destruct example_gamut as (_ & A & B). intros q [<-|[<-|[]]]; assumption. Qed.
Lemma one_valid c : valid (one_pixel c).
Proof. split; [right; unfold one_pixel; cbn [width height]; lia|reflexivity]. Qed.
Lemma palette_scale_l L : accurate_powf L -> accurate_powf_above L ->
  exists c', apply_palette L KRgb (one_pixel black) two_colours = Ok (one_pixel c') /\ channelwise (/ 4096) (fun v => v) dark_blue c' /\ cie76 black dark_grey < cie76 black dark_blue.
Proof.
  intros AL AA. pose proof (one_valid black) as V.
  destruct (palette_closest L KRgb (one_pixel black) two_colours V) as (r & A & _ & V2 & W2 & H2 & _).
  assert (I : inside (one_pixel black) 0 0) by (unfold inside, one_pixel; cbn [width height]; lia).
  assert (G : forall c, In c (data (one_pixel black)) -> in_gamut c) by (intros c [<-|[]]; apply example_gamut).
  destruct (palette_nearest_l L (one_pixel black) two_colours r Checked 0 0 AL AA V I ltac:(discriminate) example_palette G A) as (c & q & c' & C & R & Q & N & M).
  assert (c = black) by (unfold get_pixel, one_pixel in C; cbn in C; now inversion C). subst c.
  exists c'. split; [|split].
  - rewrite A. f_equal. apply (buffer_ext Checked); auto using one_valid.
    intros x y IN. unfold inside in IN. rewrite W2, H2 in IN. unfold one_pixel in IN. cbn [width height] in IN. assert (x = 0%Z) by lia. assert (y = 0%Z) by lia. subst x y.
    exact R.
  - destruct Q as [<-|[<-|[]]]; [|exact N]. specialize (M dark_blue (or_intror (or_introl eq_refl))).
    destruct dist_grey, dist_blue. lra.
  - destruct dist_grey, dist_blue. lra.
Qed.
Lemma separated_example : separated (data two_colours).
Proof.
  assert (D : / 20 < lab_dist dark_grey dark_blue).
  { unfold lab_dist. destruct exact_grey as (L & A & B). destruct exact_blue as (L' & A' & B'). apply Rlt_le_trans with (/ 10); [lra|]. apply length3_ge; nra. }
  intros q q' [<-|[<-|[]]] [<-|[<-|[]]]; [left; auto|right; exact D|right; rewrite lab_dist_sym; exact D|left; auto].
Qed.
