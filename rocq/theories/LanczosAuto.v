(** The window of the Auto filter: proofs for C106. *)
From Coq Require Import Reals ZArith List Bool Lra Lia Psatz.
From Flocq Require Import Core.Core IEEE754.BinarySingleNaN.
From Verif Require Import Base BaseLemmas PixelBuffer BufferSpec PixelBufferProofs F32 F32Lemmas Color ColorSpec ColorProofs MeaningSpec Approx OpMeaningProofs.
From Verif Require Import Resample ResampleSpec ResampleProofs InterpProofs ResampleMeaning LchMeaning BlendMeaning LanczosSpec LanczosMeaning RotateMeaning IdealLibm.
Import ListNotations.
Open Scope R_scope.

(** ** The window of Auto *)
Lemma recip_min a c : 0 < a -> 0 < c -> 1 / Rmin a c = Rmax (1 / a) (1 / c).
Proof.
  intros A C. assert (K : forall u v, 0 < u -> u <= v -> 1 / v <= 1 / u). { intros u v U H. unfold Rdiv. rewrite !Rmult_1_l. apply Rinv_le_contravar; assumption. }
  unfold Rmin. destruct (Rle_dec a c).
  - rewrite Rmax_left; [reflexivity|]. now apply K.
  - rewrite Rmax_right; [reflexivity|]. apply K; lra.
Qed.
Lemma recip_div a c : a <> 0 -> c <> 0 -> 1 / (a / c) = c / a.
Proof. intros. field. auto. Qed.
Lemma rel_step e k x y z : 0 < e <= / 16777216 -> 0 <= k <= 10 -> 0 < y -> (1 - k * e) * y <= x <= (1 + k * e) * y -> (1 - e) * x <= z <= (1 + e) * x ->
  (1 - (k + 101 / 100) * e) * y <= z <= (1 + (k + 101 / 100) * e) * y.
Proof.
  intros He Hk Hy [X1 X2] [Z1 Z2]. assert (0 <= k * e <= / 1000) by nra. assert (0 <= k * e * e <= / 1000 * e) by nra. split.
  - apply Rle_trans with ((1 - e) * x); [|exact Z1]. apply Rle_trans with ((1 - e) * ((1 - k * e) * y)); [|apply Rmult_le_compat_l; lra].
    rewrite <- Rmult_assoc. apply Rmult_le_compat_r; nra.
  - apply Rle_trans with ((1 + e) * x); [exact Z2|]. apply Rle_trans with ((1 + e) * ((1 + k * e) * y)); [apply Rmult_le_compat_l; lra|].
    rewrite <- Rmult_assoc. apply Rmult_le_compat_r; nra.
Qed.
Lemma auto_meaning nw nh w h : (0 < nw <= 1073741823)%Z -> (0 < nh <= 1073741823)%Z -> (0 < w <= 1073741823)%Z -> (0 < h <= 1073741823)%Z ->
  (w <= 10000 * nw)%Z -> (h <= 10000 * nh)%Z -> (nw < w)%Z -> (nh < h)%Z ->
  let size := auto_size (fdiv (ofZ nw) (ofZ w)) (fdiv (ofZ nh) (ofZ h)) in
  (3 <= size <= 20001)%Z /\ auto_window w h nw nh size (IZR (if (size =? 3)%Z then 3 else if (size <=? 6)%Z then 2 * size + 1 else size)).
Proof.
  intros Hnw Hnh Hw Hh Rw Rh Lw Lh.
  destruct (scale_tight nw w) as (Fx & Px & Bx); [lia|lia|]. destruct (scale_tight nh h) as (Fy & Py & By); [lia|lia|].
  assert (Q : forall a c, (0 < a)%Z -> (0 < c)%Z -> (c <= 10000 * a)%Z -> (a < c)%Z -> / 10000 <= IZR a / IZR c <= 1 /\ 1 / (IZR a / IZR c) = IZR c / IZR a).
  { intros a c Ha Hc H1 H2. assert (1 <= IZR a) by (apply IZR_le; lia). assert (1 <= IZR c) by (apply IZR_le; lia).
    apply IZR_le in H1. rewrite mult_IZR in H1. apply IZR_lt in H2. split; [split|].
    - apply le_div; lra.
    - apply div_le; lra.
    - apply recip_div; lra. }
  destruct (Q nw w ltac:(lia) ltac:(lia) Rw Lw) as [Qx Ix]. destruct (Q nh h ltac:(lia) ltac:(lia) Rh Lh) as [Qy Iy].
  unfold auto_window. rewrite <- Ix, <- Iy, <- recip_min by lra. clear Ix Iy Q.
  set (qx := IZR nw / IZR w) in *. set (qy := IZR nh / IZR h) in *. set (q := Rmin qx qy).
  assert (Hq : / 10000 <= q <= 1) by (unfold q, Rmin; destruct Rle_dec; lra).
  cbv zeta. set (sx := fdiv (ofZ nw) (ofZ w)) in *. set (sy := fdiv (ofZ nh) (ofZ h)) in *. clearbody sx sy.
  unfold auto_size. destruct (fmin_val sx sy Fx Fy) as [Fm Em]. set (s := fmin sx sy) in *.
  pose proof ee_val as EE. set (e := ee) in *. assert (He : 0 < e <= / 16777216) by lra.
  assert (Ls : (1 - 301 / 100 * e) * q <= B2R s <= (1 + 301 / 100 * e) * q).
  { rewrite Em. unfold q. assert (0 <= 1 - 301 / 100 * e <= 1) by lra. assert (1 <= 1 + 301 / 100 * e) by lra. unfold Rmin. destruct (Rle_dec (B2R sx) (B2R sy)), (Rle_dec qx qy); nra. }
  assert (Ps : 0 < B2R s) by (destruct Ls; nra).
  assert (Pq : 0 < / q) by (apply Rinv_0_lt_compat; lra). assert (Qq : q * / q = 1) by (apply Rinv_r; lra). assert (Uq : 1 <= / q <= 10000).
  { split; [rewrite <- Rinv_1; apply Rinv_le_contravar; lra|]. replace 10000 with (/ / 10000) by lra. apply Rinv_le_contravar; lra. }
  assert (Is : (1 - 302 / 100 * e) * / q <= 1 / B2R s <= (1 + 302 / 100 * e) * / q).
  { split; [apply le_div; [lra|]|apply div_le; [lra|]].
    - apply Rle_trans with ((1 - 302 / 100 * e) * / q * ((1 + 301 / 100 * e) * q)).
      + apply Rmult_le_compat_l; [apply Rmult_le_pos; lra|apply Ls].
      + replace ((1 - 302 / 100 * e) * / q * ((1 + 301 / 100 * e) * q)) with ((1 - 302 / 100 * e) * (1 + 301 / 100 * e) * (q * / q)) by ring. rewrite Qq. nra.
    - apply Rle_trans with ((1 + 302 / 100 * e) * / q * ((1 - 301 / 100 * e) * q)).
      + replace ((1 + 302 / 100 * e) * / q * ((1 - 301 / 100 * e) * q)) with ((1 + 302 / 100 * e) * (1 - 301 / 100 * e) * (q * / q)) by ring. rewrite Qq. nra.
      + apply Rmult_le_compat_l; [apply Rmult_le_pos; lra|apply Ls]. }
  assert (I1 : / 2 <= 1 / B2R s <= 20000) by nra.
  destruct (fdiv_num f1 s 0 2147483648) as [[F1 N1] E1]; auto using fmt_2_31 with fin fmt; rewrite ?f1_R; [lra|lra|].
  rewrite f1_R in E1. pose proof (rnd_rel_pos (1 / B2R s) ltac:(lra)) as K1. rewrite <- E1 in K1. fold e in K1.
  set (i := fdiv f1 s) in *. clearbody i.
  assert (U1 : (1 - 403 / 100 * e) * / q <= B2R i <= (1 + 403 / 100 * e) * / q).
  { replace (403 / 100) with (302 / 100 + 101 / 100) by lra. exact (rel_step e (302 / 100) (1 / B2R s) (/ q) (B2R i) He ltac:(lra) Pq Is K1). }
  assert (I2 : / 2 <= B2R i <= 20000) by nra.
  destruct (fmul_num i f2 0 2147483648) as [[F2 N2] E2]; auto using fmt_2_31 with fin fmt. { rewrite f2_R. lra. }
  rewrite f2_R in E2. pose proof (rnd_rel_pos (B2R i * 2) ltac:(lra)) as K2. rewrite <- E2 in K2. fold e in K2. set (j := fmul i f2) in *. clearbody j.
  assert (U2 : (1 - 504 / 100 * e) * (2 * / q) <= B2R j <= (1 + 504 / 100 * e) * (2 * / q)).
  { replace (504 / 100) with (403 / 100 + 101 / 100) by lra. apply (rel_step e (403 / 100) (B2R i * 2) (2 * / q) (B2R j) He ltac:(lra) ltac:(lra)); [lra|exact K2]. }
  destruct (ofZ_val 3) as [F3 E3]; [lia|].
  destruct (fmax_val j (ofZ 3)) as [F4 E4]; auto. rewrite E3 in E4. set (v := fmax j (ofZ 3)) in *. clearbody v.
  replace (1 / q) with (/ q) by (unfold Rdiv; ring). set (W := Rmax 3 (2 * / q)). 
  assert (HW : 3 <= W <= 20000) by (unfold W, Rmax; destruct Rle_dec; lra).
  assert (UW : (1 - 504 / 100 * e) * W <= B2R v <= (1 + 504 / 100 * e) * W).
  { rewrite E4. unfold W. assert (0 <= 1 - 504 / 100 * e <= 1) by lra. assert (1 <= 1 + 504 / 100 * e) by lra. unfold Rmax. destruct (Rle_dec (B2R j) 3), (Rle_dec 3 (2 * / q)); nra. }
  destruct (fceil_val v F4) as [F5 E5].
  pose proof (Zceil_ub (B2R v)) as C1. assert (C2 : IZR (Zceil (B2R v)) < B2R v + 1) by (unfold Zceil; rewrite opp_IZR; pose proof (Zfloor_ub (- B2R v)); lra).
  set (c := Zceil (B2R v)) in *. 
  assert (C3 : W * (1 - / 1048576) <= IZR c < W * (1 + / 1048576) + 1).
  { assert (0 <= e * W <= W / 16777216) by (split; [apply Rmult_le_pos; lra|]; replace (W / 16777216) with (/ 16777216 * W) by lra; apply Rmult_le_compat_r; lra). lra. }
  assert (C4 : (3 <= c <= 20001)%Z). { split; [assert (2 < c)%Z by (apply lt_IZR; lra); lia|assert (c < 20002)%Z by (apply lt_IZR; lra); lia]. }
  unfold f_as_usize. rewrite (cast_int _ _ _ _ F5 E5). rewrite Z.min_r, Z.max_r by lia.
  split; [exact C4|]. split; [|reflexivity]. replace (2 ^ 20) with 1048576 by lra. exact C3.
Qed.

(** ** resize *)
Lemma resize_lanczos3_meaning L m (b : PixelBuffer Rgb) w h : accurate_sine L -> valid b -> nonempty b -> Forall in_gamut (data b) -> valid_size w h ->
  exists r, resize L m b w h Lanczos3 = Ok r /\ width r = w /\ height r = h /\ forall m' x y, inside r x y -> exists o, get_pixel m' r x y = Ok o /\
  exists p q, Rabs (p - scaled_pos x w (width b)) <= IZR (width b) / 2097152 /\ Rabs (q - scaled_pos y h (height b)) <= IZR (height b) / 2097152 /\
  forall d, In d channels -> close (68 / 65536) (surface (lanczos_curve 3 3) (chan b d) p q) (d o).
Proof.
  intros A V N G S. pose proof (valid_bounds b V) as VB. pose proof (valid_size_bounds w h S) as SB. destruct N as [Nw Nh]. assert (N : nonempty b) by (split; assumption).
  assert (P0 : 0 <= IZR (width b)) by (apply IZR_le; lia). assert (P1 : 0 <= IZR (height b)) by (apply IZR_le; lia).
  unfold resize. destruct (_ && _) eqn:E.
  { apply andb_prop in E as (E1 & E2). apply Z.eqb_eq in E1, E2. exists b. split; [reflexivity|]. split; [exact E1|]. split; [exact E2|]. intros m' x y I. exists (edge_pixel b x y). split; [now apply edge_inside|].
    rewrite <- E1, <- E2, !scaled_same by lia. exists (IZR x), (IZR y). split; [rewrite Rminus_eq_0, Rabs_R0; lra|]. split; [rewrite Rminus_eq_0, Rabs_R0; lra|].
    intros d Hd. unfold surface. rewrite curve_int, curve_int. eapply close_weak; [apply close_0; now apply chan_num|]. lra. }
  apply (resize_with_at m b w h (resize_pixel_lanczos L m 7) (fun x y o => exists p q, Rabs (p - scaled_pos x w (width b)) <= IZR (width b) / 2097152 /\ Rabs (q - scaled_pos y h (height b)) <= IZR (height b) / 2097152 /\
    forall d, In d channels -> close (68 / 65536) (surface (lanczos_curve 3 3) (chan b d) p q) (d o))); auto.
  intros x y X Y. unfold resize_pixel_lanczos.
  destruct (fixed_at L m b (source_pos x (fdiv (ofZ w) (ofZ (width b)))) (source_pos y (fdiv (ofZ h) (ofZ (height b)))) 3 A V N G) as (c & C & H); [apply pos_num; lia|apply pos_num; lia|lia|].
  exists c. split; [exact C|]. eexists _, _. split; [apply source_pos_close; lia|]. split; [apply source_pos_close; lia|].
  intros d Hd. eapply close_weak; [exact (H d Hd)|]. lra.
Qed.
Lemma resize_auto_meaning L m (b : PixelBuffer Rgb) w h : accurate_sine L -> valid b -> nonempty b -> Forall in_gamut (data b) -> valid_size w h ->
  (0 < w < width b)%Z -> (0 < h < height b)%Z -> (width b <= 10000 * w)%Z -> (height b <= 10000 * h)%Z ->
  exists r size s, resize L m b w h Auto = Ok r /\ width r = w /\ height r = h /\ auto_window (width b) (height b) w h size s /\ forall m' x y, inside r x y -> exists o, get_pixel m' r x y = Ok o /\
  exists p q, Rabs (p - scaled_pos x w (width b)) <= IZR (width b) / 2097152 /\ Rabs (q - scaled_pos y h (height b)) <= IZR (height b) / 2097152 /\
  forall d, In d channels -> close ((65 + IZR size) / 65536) (surface (lanczos_curve s size) (chan b d) p q) (d o).
Proof.
  intros A V N G S Hw Hh Rw Rh. pose proof (valid_bounds b V) as VB. pose proof (valid_size_bounds w h S) as SB.
  unfold resize. replace (width b =? w)%Z with false by (symmetry; apply Z.eqb_neq; lia). replace (width b <=? w)%Z with false by (symmetry; apply Z.leb_gt; lia).
  replace (height b <=? h)%Z with false by (symmetry; apply Z.leb_gt; lia). cbn [andb orb].
  destruct (auto_meaning w h (width b) (height b)) as [Hs HA]; try lia. unfold resize_auto.
  set (size := auto_size _ _) in *. clearbody size. set (s := IZR _) in HA.
  assert (K : exists r, (if (size =? 3)%Z then resize_with_fn m b w h (resize_pixel_lanczos L m 7)
    else if (size =? 4)%Z then resize_with_fn m b w h (resize_pixel_lanczos L m 9)
    else if (size =? 5)%Z then resize_with_fn m b w h (resize_pixel_lanczos L m 11)
    else if (size =? 6)%Z then resize_with_fn m b w h (resize_pixel_lanczos L m 13)
    else new_from_fn m w h (fun x y => get_pixel_lanczos_dyn L m b (source_pos x (fdiv (ofZ w) (ofZ (width b)))) (source_pos y (fdiv (ofZ h) (ofZ (height b)))) size)) = Ok r /\
    width r = w /\ height r = h /\ forall m' x y, inside r x y -> exists o, get_pixel m' r x y = Ok o /\
    exists p q, Rabs (p - scaled_pos x w (width b)) <= IZR (width b) / 2097152 /\ Rabs (q - scaled_pos y h (height b)) <= IZR (height b) / 2097152 /\
    forall d, In d channels -> close ((65 + IZR size) / 65536) (surface (lanczos_curve s size) (chan b d) p q) (d o)).
  { set (P := fun x y o => exists p q, Rabs (p - scaled_pos x w (width b)) <= IZR (width b) / 2097152 /\ Rabs (q - scaled_pos y h (height b)) <= IZR (height b) / 2097152 /\
      forall d, In d channels -> close ((65 + IZR size) / 65536) (surface (lanczos_curve s size) (chan b d) p q) (d o)).
    assert (F : (3 <= size <= 6)%Z -> exists r, resize_with_fn m b w h (resize_pixel_lanczos L m (2 * size + 1)) = Ok r /\ width r = w /\ height r = h /\ forall m' x y, inside r x y -> exists o, get_pixel m' r x y = Ok o /\ P x y o).
    { intros H6. apply (resize_with_at m b w h (resize_pixel_lanczos L m (2 * size + 1)) P); auto.
      intros x y X Y. unfold resize_pixel_lanczos.
      destruct (fixed_at L m b (source_pos x (fdiv (ofZ w) (ofZ (width b)))) (source_pos y (fdiv (ofZ h) (ofZ (height b)))) size A V N G) as (c & C & H); [apply pos_num; lia|apply pos_num; lia|lia|].
      exists c. split; [exact C|]. eexists _, _. split; [apply source_pos_close; lia|]. split; [apply source_pos_close; lia|].
      intros d Hd. replace s with (IZR (fixed_width size)); [exact (H d Hd)|]. unfold s, fixed_width. replace (size <=? 6)%Z with true by (symmetry; apply Z.leb_le; lia). reflexivity. }
    destruct (Z.eqb_spec size 3) as [E3|N3]; [subst size; apply F; lia|]. destruct (Z.eqb_spec size 4) as [E4|N4]; [subst size; apply F; lia|].
    destruct (Z.eqb_spec size 5) as [E5|N5]; [subst size; apply F; lia|]. destruct (Z.eqb_spec size 6) as [E6|N6]; [subst size; apply F; lia|].
    apply (resize_with_at m b w h (fun b x y scale_x scale_y => get_pixel_lanczos_dyn L m b (source_pos x scale_x) (source_pos y scale_y) size) P); auto.
    intros x y X Y.
    destruct (dyn_at L m b (source_pos x (fdiv (ofZ w) (ofZ (width b)))) (source_pos y (fdiv (ofZ h) (ofZ (height b)))) size A V N G) as (c & C & H); [apply pos_num; lia|apply pos_num; lia|lia|].
    exists c. split; [exact C|]. eexists _, _. split; [apply source_pos_close; lia|]. split; [apply source_pos_close; lia|].
    intros d Hd. replace s with (IZR size); [exact (H d Hd)|]. unfold s. replace (size =? 3)%Z with false by (symmetry; now apply Z.eqb_neq). replace (size <=? 6)%Z with false by (symmetry; apply Z.leb_gt; lia). reflexivity. }
  destruct K as (r & E & W & H & O). exists r, size, s. split; [exact E|]. split; [exact W|]. split; [exact H|]. split; [exact HA|]. exact O.
Qed.

(** ** A plain white picture *)
Lemma sin_3 x : sin (3 * x) = 3 * sin x - 4 * (sin x * sin x * sin x).
Proof.
  replace (3 * x) with (2 * x + x) by ring. rewrite sin_plus, sin_2a, cos_2a_sin. pose proof (sin2_cos2 x) as P. unfold Rsqr in P.
  replace (2 * sin x * cos x * cos x) with (2 * sin x * (cos x * cos x)) by ring. replace (cos x * cos x) with (1 - sin x * sin x) by lra. ring.
Qed.
Lemma sin_10 : 1735 / 10000 <= sin (PI / 18).
Proof.
  pose proof PI_bounds as PB. set (s := sin (PI / 18)). assert (E : 3 * s - 4 * (s * s * s) = / 2).
  { unfold s. rewrite <- sin_3. replace (3 * (PI / 18)) with (PI / 6) by field. rewrite sin_PI6. lra. }
  assert (P : 0 < s) by (unfold s; apply sin_gt_0; lra).
  assert (C : forall u, 0 <= u -> u <= s -> u * u * u <= s * s * s). { intros u U H. assert (u * u <= s * s) by nra. nra. }
  assert (S1 : / 6 <= s) by (pose proof (C 0 ltac:(lra) ltac:(lra)); lra).
  assert (S2 : 1728 / 10000 <= s) by (pose proof (C (/ 6) ltac:(lra) S1); lra).
  pose proof (C (1728 / 10000) ltac:(lra) S2). lra.
Qed.
Lemma sin_50 : 7 / 10 <= sin (5 * PI / 18).
Proof.
  pose proof PI_bounds as PB. apply Rle_trans with (sin (PI / 4)).
  - rewrite sin_PI4. assert (S : sqrt 2 * sqrt 2 = 2) by (apply sqrt_sqrt; lra). pose proof (sqrt_lt_R0 2 ltac:(lra)) as SP. assert (U : sqrt 2 <= 3 / 2) by nra. apply le_div; [exact SP|]. nra.
  - apply sin_incr_1; lra.
Qed.
Lemma cs_val x : x <> 0 -> cardinal_sine x = sin (PI * x) / (PI * x).
Proof. intros H. unfold cardinal_sine. destruct (Req_EM_T x 0); [contradiction|reflexivity]. Qed.
Lemma curve_white : 102 / 100 <= sum_f_R0 (fun i => let d := (Z.of_nat i - 4)%Z in 3 / 9 * window (3 * (IZR d - / 2) / 9) * 1) (Z.to_nat (2 * 4)).
Proof.
  pose proof PI_bounds as PB. pose proof sin_10 as S1. pose proof sin_50 as S5. pose proof (SIN_bound (7 * PI / 18)) as [_ S7].
  assert (W : forall v, 0 < v < 3 -> window v = cardinal_sine v * cardinal_sine (v / 3)). { intros v V. unfold window. rewrite Rabs_pos_eq by lra. destruct Rlt_dec; [reflexivity|lra]. }
  assert (M : forall v, window (- v) = window v) by (intros v; rewrite <- window_even, Rabs_Ropp; apply window_even).
  assert (NP : PI <> 0) by lra.
  assert (A1 : window (/ 6) = 54 * sin (PI / 18) / (PI * PI)).
  { rewrite W, !cs_val by lra. replace (PI * / 6) with (PI / 6) by reflexivity. replace (PI * (/ 6 / 3)) with (PI / 18) by field. rewrite sin_PI6. field. exact NP. }
  assert (A3 : window (/ 2) = 6 / (PI * PI)).
  { rewrite W, !cs_val by lra. replace (PI * / 2) with (PI / 2) by reflexivity. replace (PI * (/ 2 / 3)) with (PI / 6) by field. rewrite sin_PI6, sin_PI2. field. exact NP. }
  assert (A5 : window (5 / 6) = 54 * sin (5 * PI / 18) / (25 * (PI * PI))).
  { rewrite W, !cs_val by lra. replace (PI * (5 / 6)) with (PI - PI / 6) by field. replace (PI * (5 / 6 / 3)) with (5 * PI / 18) by field. rewrite sin_PI_x, sin_PI6. field. lra. }
  assert (A7 : window (7 / 6) = - (54 * sin (7 * PI / 18) / (49 * (PI * PI)))).
  { rewrite W, !cs_val by lra. replace (PI * (7 / 6)) with (PI / 6 + PI) by field. replace (PI * (7 / 6 / 3)) with (7 * PI / 18) by field. rewrite neg_sin, sin_PI6. field. lra. }
  assert (A9 : window (3 / 2) = - (4 / (3 * (PI * PI)))).
  { rewrite W, !cs_val by lra. replace (PI * (3 / 2)) with (PI / 2 + PI) by field. replace (PI * (3 / 2 / 3)) with (PI / 2) by field. rewrite neg_sin, sin_PI2. field. lra. }
  change (Z.to_nat (2 * 4)) with 8%nat. cbn [sum_f_R0 Z.of_nat Pos.of_succ_nat Pos.succ Z.sub Z.opp Z.add Z.pos_sub Pos.pred_double Z.pred_double Z.double Z.succ_double].
  replace (3 * (-4 - / 2) / 9) with (- (3 / 2)) by lra. replace (3 * (-3 - / 2) / 9) with (- (7 / 6)) by lra. replace (3 * (-2 - / 2) / 9) with (- (5 / 6)) by lra.
  replace (3 * (-1 - / 2) / 9) with (- (/ 2)) by lra. replace (3 * (0 - / 2) / 9) with (- (/ 6)) by lra. replace (3 * (1 - / 2) / 9) with (/ 6) by lra.
  replace (3 * (2 - / 2) / 9) with (/ 2) by lra. replace (3 * (3 - / 2) / 9) with (5 / 6) by lra. replace (3 * (4 - / 2) / 9) with (7 / 6) by lra.
  rewrite !M, A1, A3, A5, A7, A9. set (s1 := sin (PI / 18)) in *. set (s5 := sin (5 * PI / 18)) in *. set (s7 := sin (7 * PI / 18)) in *.
  match goal with |- _ <= ?t => replace t with ((108 * s1 + 12 + 108 / 25 * s5 - 108 / 49 * s7 - 4 / 3) / (3 * (PI * PI))) by (field; exact NP) end.
  apply le_div; [nra|]. assert (PI * PI <= 98697 / 10000) by nra. lra.
Qed.
Lemma white_curve p z : p = IZR z + / 2 -> 102 / 100 <= lanczos_curve 9 4 (fun _ => 1) p.
Proof. intros ->. unfold lanczos_curve. rewrite (Zfloor_imp z) by (rewrite plus_IZR; lra). cbv zeta. replace (IZR z + / 2 - IZR z) with (/ 2) by ring. exact curve_white. Qed.
Lemma curve_scale s r k f p : lanczos_curve s r (fun i => k * f i) p = k * lanczos_curve s r f p.
Proof. unfold lanczos_curve. cbv zeta. rewrite scal_sum. apply sum_eq. intros i _. ring. Qed.
Lemma curve_ext s r f g p : (forall i, f i = g i) -> lanczos_curve s r f p = lanczos_curve s r g p.
Proof. intros H. unfold lanczos_curve. cbv zeta. apply sum_eq. intros i _. now rewrite H. Qed.
Lemma white_surface v p q z z' : (forall i j, v i j = 1) -> p = IZR z + / 2 -> q = IZR z' + / 2 -> 104 / 100 <= surface (lanczos_curve 9 4) v p q.
Proof.
  intros H P Q. unfold surface. set (k := lanczos_curve 9 4 (fun _ => 1) p). assert (K : 102 / 100 <= k) by exact (white_curve p z P).
  rewrite (curve_ext 9 4 _ (fun _ => k * 1)). 2:{ intros j. rewrite Rmult_1_r. apply curve_ext. intros i. apply H. }
  rewrite curve_scale. pose proof (white_curve q z' Q). nra.
Qed.
Definition white_8 : PixelBuffer Rgb := mkPB 8 8 (repeat (mkC f1 f1 f1 f1) 64).
Lemma white_8_ok : valid white_8 /\ nonempty white_8 /\ Forall in_gamut (data white_8).
Proof.
  split; [split; [right; cbn; lia|reflexivity]|]. split; [split; cbn; lia|]. apply Forall_forall. intros c H. apply repeat_spec in H. subst c. repeat split; vm_compute; reflexivity.
Qed.
Lemma half_pos x : (0 <= x < 4)%Z -> B2R (source_pos x (fdiv (ofZ 4) (ofZ 8))) = IZR (2 * x) + / 2.
Proof.
  intros H. assert (C : x = 0%Z \/ x = 1%Z \/ x = 2%Z \/ x = 3%Z) by lia. destruct C as [->|[->|[->| ->]]].
  - fval (source_pos 0 (fdiv (ofZ 4) (ofZ 8))) E. rewrite E. simpl. lra.
  - fval (source_pos 1 (fdiv (ofZ 4) (ofZ 8))) E. rewrite E. simpl. lra.
  - fval (source_pos 2 (fdiv (ofZ 4) (ofZ 8))) E. rewrite E. simpl. lra.
  - fval (source_pos 3 (fdiv (ofZ 4) (ofZ 8))) E. rewrite E. simpl. lra.
Qed.
Lemma white_resized L m : accurate_sine L -> exists r, resize L m white_8 4 4 Auto = Ok r /\ width r = 4%Z /\ height r = 4%Z /\
  forall m' x y, inside r x y -> exists o, get_pixel m' r x y = Ok o /\ forall d, In d channels -> 103 / 100 < B2R (d o).
Proof.
  intros A. destruct white_8_ok as (V & N & G).
  assert (ER : resize L m white_8 4 4 Auto = resize_with_fn m white_8 4 4 (resize_pixel_lanczos L m 9)).
  { unfold resize, resize_auto. change (width white_8) with 8%Z. change (height white_8) with 8%Z. cbn [Z.eqb Z.leb Z.compare Pos.eqb Pos.compare Pos.compare_cont andb orb].
    replace (auto_size (fdiv (ofZ 4) (ofZ 8)) (fdiv (ofZ 4) (ofZ 8))) with 4%Z by (vm_compute; reflexivity). reflexivity. }
  rewrite ER. apply (resize_with_at m white_8 4 4 (resize_pixel_lanczos L m 9) (fun x y o => forall d, In d channels -> 103 / 100 < B2R (d o))); auto; [right; lia|].
  intros x y X Y. change (width white_8) with 8%Z. change (height white_8) with 8%Z. unfold resize_pixel_lanczos.
  destruct (fixed_at L m white_8 (source_pos x (fdiv (ofZ 4) (ofZ 8))) (source_pos y (fdiv (ofZ 4) (ofZ 8))) 4 A V N G) as (c & C & H); [apply pos_num; lia|apply pos_num; lia|lia|].
  exists c. split; [exact C|]. intros d Hd. destruct (H d Hd) as [_ B].
  assert (S : 104 / 100 <= surface (lanczos_curve (IZR (fixed_width 4)) 4) (chan white_8 d) (B2R (source_pos x (fdiv (ofZ 4) (ofZ 8)))) (B2R (source_pos y (fdiv (ofZ 4) (ofZ 8))))).
  { change (fixed_width 4) with 9%Z. apply (white_surface _ _ _ (2 * x) (2 * y)); [|now apply half_pos|now apply half_pos].
    intros i j. unfold chan. pose proof (edge_In white_8 i j V N) as EI. apply repeat_spec in EI. rewrite EI. unfold channels in Hd. cbn [In] in Hd. destruct Hd as [<-|[<-|[<-|[<-|[]]]]]; exact f1_R. }
  apply Rabs_le_iff in B. lra.
Qed.
Lemma full_sine L : accurate_sine (full_libm L).
Proof.
  intros h F B. cbn [fsin full_libm]. pose proof (SIN_bound (B2R h)) as SB. destruct (rounded_64 (sin (B2R h))) as [Fr Er]; [apply Rabs_le_iff; lra|]. split; [exact Fr|]. rewrite Er.
  rewrite (pow_IZR 2 19). change (IZR (2 ^ Z.of_nat 19)) with 524288.
  assert (S : Rabs (B2R h - sin (B2R h)) <= Rabs (B2R h) * Rabs (B2R h)).
  { destruct (Req_EM_T (B2R h) 0) as [->|N]; [rewrite sin_0, Rminus_0_r, Rabs_R0; lra|].
    assert (E : B2R h - sin (B2R h) = B2R h * (1 - sn (B2R h))). { unfold sn. destruct (Req_EM_T (B2R h) 0); [contradiction|]. field. exact N. }
    rewrite E, Rabs_mult. apply Rmult_le_compat_l; [apply Rabs_pos|]. replace 1 with (sn 0) by (unfold sn; destruct (Req_EM_T 0 0); [reflexivity|lra]).
    eapply Rle_trans; [apply sn_lip|]. rewrite Rminus_0_l, Rabs_Ropp. lra. }
  pose proof (Rabs_pos (B2R h)) as P.
  destruct (Rle_dec (Rabs (B2R h)) (/ 1048576)) as [H|H].
  - assert (K : Rabs (rnd (sin (B2R h)) - sin (B2R h)) <= Rabs (B2R h - sin (B2R h))).
    { destruct (round_N_pt radix2 fx (fun x => negb (Z.even x)) (sin (B2R h))) as [_ R]. apply R. apply generic_format_B2R. }
    nra.
  - pose proof (rnd_rel_abs (sin (B2R h))) as R. pose proof p140. assert (Rabs (sin (B2R h)) <= Rabs (B2R h)).
    { replace (sin (B2R h)) with (sin (B2R h) - sin 0) by (rewrite sin_0; lra). eapply Rle_trans; [apply sin_lip|]. rewrite Rminus_0_r. lra. }
    lra.
Qed.

(** ** rotate *)
Lemma rotate_lanczos3_at L m (b : PixelBuffer Rgb) d bg r x y : accurate_sine L -> accurate_turn L -> valid b -> Forall in_gamut (data b) -> fin d -> Rabs (B2R d) <= 360 -> rotate L m b d bg Lanczos3 = Ok r -> inside r x y ->
  let p := fst (turned_back (width b) (height b) (B2R d) x y) in let q := snd (turned_back (width b) (height b) (B2R d) x y) in
  - / 2 + size_of b < p < IZR (width b) - / 2 - size_of b -> - / 2 + size_of b < q < IZR (height b) - / 2 - size_of b ->
  exists o, get_pixel m r x y = Ok o /\ exists p' q', Rabs (p' - p) <= size_of b /\ Rabs (q' - q) <= size_of b /\
    forall e, In e channels -> close (68 / 65536) (surface (lanczos_curve 3 3) (chan b e) p' q') (e o).
Proof.
  intros AS AL V G F D H I p q Bp Bq. pose proof (valid_bounds b V) as VB. pose proof (rotate_read L m b d bg Lanczos3 r m x y AL V F D H I) as RR. cbv zeta in RR. fold p q in RR. clearbody p q. destruct RR as [IB [(-> & P & Q)|(u & v & [Fu U] & [Fv W] & ->)]].
  - assert (N : nonempty b) by (destruct IB as [[? ?] [? ?]]; split; lia).
    exists (edge_pixel b x y). split; [now apply edge_inside|]. exists (IZR x), (IZR y). rewrite (Rabs_minus_sym (IZR x)), (Rabs_minus_sym (IZR y)). split; [exact P|]. split; [exact Q|].
    intros e He. unfold surface. rewrite curve_int, curve_int. eapply close_weak; [apply close_0; now apply chan_num|]. lra.
  - assert (N : nonempty b) by (destruct IB as [[? ?] [? ?]]; split; lia). destruct N as [Nw Nh]. assert (N : nonempty b) by (split; assumption).
    pose proof U as U'. pose proof W as W'. apply Rabs_le_iff in U, W.
    assert (BW : IZR (width b) <= 1073741823) by (apply IZR_le; lia). assert (BH : IZR (height b) <= 1073741823) by (apply IZR_le; lia).
    assert (II : is_in_image b (f_as_i32 (fround u)) (f_as_i32 (fround v)) = true).
    { apply is_in_image_spec; [exact V|]. split; apply round_in; auto; try lia; lra. }
    unfold rotate_fn, rotate_pixel_with. rewrite II. unfold get_pixel_lanczos3.
    destruct (fixed_at L m b u v 3 AS V N G) as (c & E & A); [split; [exact Fu|lra]|split; [exact Fv|lra]|lia|]. change (2 * 3 + 1)%Z with 7%Z in E. rewrite E. cbn [bind]. exists c. split; [reflexivity|].
    exists (B2R u), (B2R v). split; [exact U'|]. split; [exact W'|]. intros e He. eapply close_weak; [exact (A e He)|]. lra.
Qed.
