(** Lemmas about Resample.v. *)
From Coq Require Import ZArith Reals Lra Lia List Bool Psatz.
From Flocq Require Import Core.Core Relative IEEE754.BinarySingleNaN.
From Verif Require Import Base BaseLemmas PixelBuffer BufferSpec PixelBufferProofs ComposeProofs F32 F32Lemmas Color ColorSpec ColorProofs Resample.
Import ListNotations.
Open Scope R_scope.

(** ** Relative rounding error *)
Definition ee : R := / 16777216.
Lemma bpow_m23 : / 2 * bpow radix2 (- (24) + 1) = ee.
Proof. change (- (24) + 1)%Z with (-23)%Z. rewrite bpow_neg. change (Z.pow_pos 2 23) with 8388608%Z. unfold ee. lra. Qed.
Lemma rnd_rel r : bpow radix2 (-126) <= Rabs r -> Rabs (rnd r - r) <= ee * Rabs r.
Proof. intros H. rewrite <- bpow_m23. unfold rnd. simpl round_mode.
  apply (relative_error_N_FLT radix2 (-149) 24); [reflexivity|exact H]. Qed.
Lemma tiny : bpow radix2 (-126) <= / 1000000000000.
Proof. apply Rle_trans with (bpow radix2 (-40)); [apply bpow_le; lia|]. rewrite bpow_neg. change (Z.pow_pos 2 40) with 1099511627776%Z. lra. Qed.
Lemma rnd_rel_pos r : / 1000000000000 <= r -> (1 - ee) * r <= rnd r <= (1 + ee) * r.
Proof. intros H. assert (P : Rabs r = r) by (apply Rabs_pos_eq; lra).
  assert (K : Rabs (rnd r - r) <= ee * Rabs r) by (apply rnd_rel; rewrite P; pose proof tiny; lra).
  rewrite P in K. apply Rabs_le_inv in K. lra. Qed.

Lemma ofZ_big z : (0 <= z <= 2147483648)%Z ->
  fin (ofZ z) /\ (1 - ee) * IZR z <= B2R (ofZ z) <= (1 + ee) * IZR z.
Proof.
  intros H. assert (R : 0 <= IZR z <= 2147483648) by (split; apply IZR_le; lia).
  pose proof (binary_normalize_correct 24 128 p24 e128 mode_NE z 0 false) as B. cbv zeta in B.
  assert (E : F2R (Float radix2 z 0) = IZR z) by (unfold F2R; simpl; lra).
  rewrite E in B. fold (rnd (IZR z)) in B.
  rewrite Rlt_bool_true in B.
  2: { apply (rnd_small _ 2147483648). { replace 2147483648 with (IZR 1 * bpow radix2 31) by (rewrite bpow_pos; change (Z.pow_pos 2 31) with 2147483648%Z; lra). apply fmt_F2R; lia. }
       rewrite Rabs_pos_eq; lra. }
  destruct B as (B1 & B2 & _). split; [exact B2|]. change (B2R (ofZ z)) with (B2R (binary_normalize 24 128 p24 e128 mode_NE z 0 false)). rewrite B1.
  destruct (Z.eq_dec z 0) as [->|N].
  - rewrite rnd_0. lra.
  - apply rnd_rel_pos. assert (1 <= IZR z) by (apply IZR_le; lia). lra.
Qed.

Lemma div_le a b c : 0 < c -> a <= b * c -> a / c <= b.
Proof. intros P H. apply Rmult_le_reg_r with c; auto. unfold Rdiv. rewrite Rmult_assoc, Rinv_l; lra. Qed.
Lemma le_div a b c : 0 < c -> b * c <= a -> b <= a / c.
Proof. intros P H. apply Rmult_le_reg_r with c; auto. unfold Rdiv. rewrite Rmult_assoc, Rinv_l; lra. Qed.

(** ** Scale factors and source positions *)
Lemma ee_val : ee = / 16777216. Proof. reflexivity. Qed.
Lemma scale_tight nw w : (0 < nw <= 1073741823)%Z -> (0 < w <= 1073741823)%Z ->
  let s := fdiv (ofZ nw) (ofZ w) in
  fin s /\ 0 < B2R s /\ (1 - 301 / 100 * ee) * (IZR nw / IZR w) <= B2R s <= (1 + 301 / 100 * ee) * (IZR nw / IZR w).
Proof.
  intros Hn Hw s.
  assert (Rn : 1 <= IZR nw <= 1073741823) by (split; apply IZR_le; lia).
  assert (Rw : 1 <= IZR w <= 1073741823) by (split; apply IZR_le; lia).
  destruct (ofZ_big nw) as [Fn Bn]; [lia|]. destruct (ofZ_big w) as [Fw Bw]; [lia|].
  pose proof ee_val as EE. set (e := ee) in *. assert (He : 0 < e <= / 16777216) by lra.
  assert (Pw : 0 < B2R (ofZ w)) by nra. assert (Pn : 0 < B2R (ofZ nw)) by nra.
  assert (Q : (1 - e) / (1 + e) * (IZR nw / IZR w) <= B2R (ofZ nw) / B2R (ofZ w) <= (1 + e) / (1 - e) * (IZR nw / IZR w)).
  { split.
    - apply le_div; auto.
      apply Rle_trans with ((1 - e) * IZR nw); [|lra].
      apply Rle_trans with ((1 - e) / (1 + e) * (IZR nw / IZR w) * ((1 + e) * IZR w)).
      + apply Rmult_le_compat_l; [|lra]. apply Rmult_le_pos; apply Rlt_le, Rdiv_lt_0_compat; lra.
      + right. field. lra.
    - apply div_le; auto.
      apply Rle_trans with ((1 + e) * IZR nw); [lra|].
      apply Rle_trans with ((1 + e) / (1 - e) * (IZR nw / IZR w) * ((1 - e) * IZR w)).
      + right. field. lra.
      + apply Rmult_le_compat_l; [|lra]. apply Rmult_le_pos; apply Rlt_le, Rdiv_lt_0_compat; lra. }
  assert (A1 : (1 - 2 * e) <= (1 - e) / (1 + e)).
  { apply le_div; [lra|nra]. }
  assert (A2 : (1 + e) / (1 - e) <= 1 + 2 * e + 4 * e * e).
  { apply div_le; [lra|nra]. }
  set (q := IZR nw / IZR w) in *.
  assert (Pq : / 1073741823 <= q <= 1073741823).
  { unfold q. split.
    - apply le_div; [lra|nra].
    - apply div_le; [lra|nra]. }
  assert (Q' : (1 - 2 * e) * q <= B2R (ofZ nw) / B2R (ofZ w) <= (1 + 2 * e + 4 * e * e) * q) by nra.
  assert (G : / 1000000000000 <= B2R (ofZ nw) / B2R (ofZ w) <= 2147483648) by nra.
  destruct (fdiv_ok (ofZ nw) (ofZ w) 2147483648) as [F E]; auto; [lra| | |].
  { replace 2147483648 with (IZR 1 * bpow radix2 31) by (rewrite bpow_pos; change (Z.pow_pos 2 31) with 2147483648%Z; lra). apply fmt_F2R; lia. }
  { rewrite Rabs_pos_eq; lra. }
  pose proof (rnd_rel_pos _ (proj1 G)) as K. fold e in K. split; [exact F|].
  unfold s. rewrite E.
  assert (K1 : (1 - 301 / 100 * e) * q <= rnd (B2R (ofZ nw) / B2R (ofZ w))).
  { apply Rle_trans with ((1 - e) * ((1 - 2 * e) * q)); [|nra]. nra. }
  assert (K2 : rnd (B2R (ofZ nw) / B2R (ofZ w)) <= (1 + 301 / 100 * e) * q).
  { apply Rle_trans with ((1 + e) * ((1 + 2 * e + 4 * e * e) * q)); [nra|].
    assert ((1 + e) * (1 + 2 * e + 4 * e * e) <= 1 + 301 / 100 * e) by nra. nra. }
  split; [nra|]. split; auto.
Qed.
Lemma scale_bounds nw w : (0 < nw <= 1073741823)%Z -> (0 < w <= 1073741823)%Z ->
  let s := fdiv (ofZ nw) (ofZ w) in
  fin s /\ 0 < B2R s /\ (1 - 4 * ee) * (IZR nw / IZR w) <= B2R s <= (1 + 4 * ee) * (IZR nw / IZR w).
Proof.
  intros Hn Hw. destruct (scale_tight nw w Hn Hw) as (F & P & B). split; [exact F|]. split; [exact P|].
  assert (0 < IZR nw / IZR w) by (apply Rdiv_lt_0_compat; apply IZR_lt; lia). rewrite ee_val in *. lra.
Qed.

Lemma fmt_2_31 : fmt 2147483648.
Proof. replace 2147483648 with (IZR 1 * bpow radix2 31) by (rewrite bpow_pos; change (Z.pow_pos 2 31) with 2147483648%Z; lra). apply fmt_F2R; lia. Qed.
Lemma fmt_2_40 : fmt 1099511627776.
Proof. replace 1099511627776 with (IZR 1 * bpow radix2 40) by (rewrite bpow_pos; change (Z.pow_pos 2 40) with 1099511627776%Z; lra). apply fmt_F2R; lia. Qed.

Lemma source_pos_bounds x nw w : (0 <= x < nw)%Z -> (nw <= 1073741823)%Z -> (0 < w <= 1073741823)%Z ->
  num (- / 2) (101 / 100 * IZR w) (source_pos x (fdiv (ofZ nw) (ofZ w))).
Proof.
  intros Hx Hn Hw.
  assert (Rn : 1 <= IZR nw <= 1073741823) by (split; apply IZR_le; lia).
  assert (Rw : 1 <= IZR w <= 1073741823) by (split; apply IZR_le; lia).
  assert (Rx : 0 <= IZR x <= IZR nw - 1) by (split; [apply IZR_le; lia|rewrite <- minus_IZR; apply IZR_le; lia]).
  destruct (ofZ_big x) as [Fx Bx]; [lia|].
  destruct (scale_bounds nw w) as (Fs & Ps & Bs); [lia|lia|]. set (s := fdiv (ofZ nw) (ofZ w)) in *.
  pose proof ee_val as EE. set (e := ee) in *. assert (He : 0 < e <= / 16777216) by lra.
  destruct (fadd_ok (ofZ x) (dec 1 2) 2147483648) as [F1 E1]; auto using half_fin, fmt_2_31.
  { rewrite half_R. rewrite Rabs_pos_eq; nra. }
  rewrite half_R in E1.
  assert (K1 : (1 - e) * (B2R (ofZ x) + / 2) <= B2R (fadd (ofZ x) (dec 1 2)) <= (1 + e) * (B2R (ofZ x) + / 2)).
  { rewrite E1. apply rnd_rel_pos. nra. }
  set (a := fadd (ofZ x) (dec 1 2)) in *.
  assert (Pa : 0 < B2R a) by nra.
  assert (Ua : B2R a <= (1 + e) * (1 + e) * IZR nw) by nra.
  set (q := IZR nw / IZR w) in *.
  assert (Pq : 0 < q) by (apply Rdiv_lt_0_compat; lra).
  assert (D : 0 < B2R a / B2R s) by (now apply Rdiv_lt_0_compat).
  assert (U : B2R a / B2R s <= 1001 / 1000 * IZR w).
  { apply div_le; auto.
    apply Rle_trans with ((1 + e) * (1 + e) * IZR nw); auto.
    apply Rle_trans with (1001 / 1000 * IZR w * ((1 - 4 * e) * q)).
    - replace (1001 / 1000 * IZR w * ((1 - 4 * e) * q)) with (1001 / 1000 * (1 - 4 * e) * IZR nw) by (unfold q; field; lra).
      apply Rmult_le_compat_r; [lra|]. nra.
    - apply Rmult_le_compat_l; lra. }
  destruct (fdiv_ok a s 2147483648) as [F2 E2]; auto; [lra|apply fmt_2_31| |].
  { rewrite Rabs_pos_eq; lra. }
  assert (U2 : 0 <= B2R (fdiv a s) <= 101 / 100 * IZR w).
  { rewrite E2. split; [rewrite <- rnd_0; apply rnd_le; lra|].
    destruct (Rle_dec (/ 1000000000000) (B2R a / B2R s)) as [G|G].
    - pose proof (rnd_rel_pos _ G) as K. fold e in K. nra.
    - apply Rle_trans with (rnd 1); [apply rnd_le; lra|]. rewrite rnd_id by auto with fmt. lra. }
  destruct (fsub_num (fdiv a s) (dec 1 2) (- / 2) (B2R (fdiv a s))) as [[F3 N3] _]; auto using half_fin with fmt.
  { rewrite half_R. lra. }
  split; auto. unfold source_pos. fold a. lra.
Qed.

(** ** floor and round *)
Lemma nearbyint_val md (v : f32) : fin v -> fin (fnearbyint md v) /\
  B2R (fnearbyint md v) = round radix2 (FIX_exp 0) (round_mode md) (B2R v).
Proof. intros F. destruct (Bnearbyint_correct 24 128 e128 md v) as (A & B & _).
  unfold fin, fnearbyint. rewrite B. auto. Qed.
Lemma fix0_round rd (r : R) : round radix2 (FIX_exp 0) rd r = IZR (rd r).
Proof. unfold round, F2R, scaled_mantissa, cexp, FIX_exp. simpl. now rewrite !Rmult_1_r. Qed.
Lemma Btrunc_int (v : f32) z : fin v -> B2R v = IZR z -> Btrunc v = z.
Proof. intros F E. pose proof (Btrunc_correct 24 128 e128 v) as B.
  rewrite fix0_round, E, Ztrunc_IZR in B. now apply eq_IZR. Qed.
Lemma ffloor_val v : fin v -> fin (ffloor v) /\ B2R (ffloor v) = IZR (Zfloor (B2R v)).
Proof. intros F. destruct (nearbyint_val mode_DN v F) as [A B]. unfold ffloor. rewrite B, fix0_round. auto. Qed.
Lemma fround_val v : fin v -> fin (fround v) /\ B2R (fround v) = IZR (ZnearestA (B2R v)).
Proof. intros F. destruct (nearbyint_val mode_NA v F) as [A B]. unfold fround. rewrite B, fix0_round. auto. Qed.
Lemma fceil_val v : fin v -> fin (fceil v) /\ B2R (fceil v) = IZR (Zceil (B2R v)).
Proof. intros F. destruct (nearbyint_val mode_UP v F) as [A B]. unfold fceil. rewrite B, fix0_round. auto. Qed.
Lemma cast_int lo hi v z : fin v -> B2R v = IZR z -> fcast lo hi v = Z.max lo (Z.min hi z).
Proof. intros F E. rewrite fcast_fin by auto. now rewrite (Btrunc_int v z). Qed.

(** Coordinates at which reading the neighbourhood cannot overflow. *)
Definition safe (z : Z) : Prop := (-2 <= z <= 1100000000)%Z.

Lemma base_safe lo hi v : num lo hi v -> -1 <= lo -> hi <= 1099999999 ->
  safe (fst (get_base_and_offset v)) /\ fst (get_base_and_offset v) = Zfloor (B2R v).
Proof.
  intros [F N] L H. unfold get_base_and_offset. cbn [fst]. destruct (ffloor_val v F) as [A B].
  unfold f_as_i32. rewrite (cast_int _ _ _ _ A B).
  assert (G1 : (-1 <= Zfloor (B2R v))%Z) by (apply Zfloor_lub; lra).
  assert (G2 : (Zfloor (B2R v) <= 1099999999)%Z).
  { apply le_IZR. apply Rle_trans with (B2R v); [apply Zfloor_lb|lra]. }
  unfold safe. lia.
Qed.

Section geometry.
Open Scope Z_scope.

Lemma bilinear_total m b x y : valid b -> nonempty b ->
  safe (fst (get_base_and_offset x)) -> safe (fst (get_base_and_offset y)) ->
  exists c, get_pixel_bilinear m b x y = Ok c.
Proof.
  intros V N. unfold get_pixel_bilinear, safe. destruct (get_base_and_offset x) as (zx & tx).
  destruct (get_base_and_offset y) as (zy & ty). cbn [fst]. intros Sx Sy.
  destruct (get_pixel_clamped_total m b zx zy V N) as (c1 & ->). cbn [bind].
  rewrite i32_ok by lia. cbn [bind].
  destruct (get_pixel_clamped_total m b (zx + 1) zy V N) as (c2 & ->). cbn [bind].
  rewrite i32_ok by lia. cbn [bind].
  destruct (get_pixel_clamped_total m b zx (zy + 1) V N) as (c3 & ->). cbn [bind].
  destruct (get_pixel_clamped_total m b (zx + 1) (zy + 1) V N) as (c4 & ->). cbn [bind]. eauto.
Qed.

Lemma bicubic_total m b x y : valid b -> nonempty b ->
  safe (fst (get_base_and_offset x)) -> safe (fst (get_base_and_offset y)) ->
  exists c, get_pixel_bicubic m b x y = Ok c.
Proof.
  intros V N. unfold get_pixel_bicubic, safe. destruct (get_base_and_offset x) as (zx & tx).
  destruct (get_base_and_offset y) as (zy & ty). cbn [fst]. intros Sx Sy.
  assert (R : forall dy, -1 <= dy <= 2 -> exists r, 
    (xm <- i32 m (zx - 1); yy <- i32 m (zy + dy);
    a <- get_pixel_clamped m b xm yy;
    c <- get_pixel_clamped m b zx yy;
    xp <- i32 m (zx + 1);
    d <- get_pixel_clamped m b xp yy;
    xq <- i32 m (zx + 2);
    e <- get_pixel_clamped m b xq yy;
    Ok (a, c, d, e)) = Ok r).
  { intros dy Hd. rewrite i32_ok by lia. cbn [bind]. rewrite i32_ok by lia. cbn [bind].
    destruct (get_pixel_clamped_total m b (zx - 1) (zy + dy) V N) as (c1 & ->). cbn [bind].
    destruct (get_pixel_clamped_total m b zx (zy + dy) V N) as (c2 & ->). cbn [bind].
    rewrite i32_ok by lia. cbn [bind].
    destruct (get_pixel_clamped_total m b (zx + 1) (zy + dy) V N) as (c3 & ->). cbn [bind].
    rewrite i32_ok by lia. cbn [bind].
    destruct (get_pixel_clamped_total m b (zx + 2) (zy + dy) V N) as (c4 & ->). cbn [bind]. eauto. }
  destruct (R (-1)) as (r0 & E0); [lia|]. destruct (R 0) as (r1 & E1); [lia|].
  destruct (R 1) as (r2 & E2); [lia|]. destruct (R 2) as (r3 & E3); [lia|].
  cbv zeta. rewrite E0. cbn [bind]. rewrite E1. cbn [bind]. rewrite E2. cbn [bind]. rewrite E3. cbn [bind]. eauto.
Qed.

Lemma for_total {A S} (l : list A) (f : A -> S -> res S) s :
  (forall a s, In a l -> exists s', f a s = Ok s') -> exists s', for_ l f s = Ok s'.
Proof. revert s. induction l as [|a l IH]; intros s H; simpl; eauto.
  destruct (H a s) as (s1 & ->); [now left|]. simpl. apply IH. intros. apply H. now right. Qed.

Lemma lanczos_sum_total m b n zx zy row_scale col_scale k : valid b -> nonempty b ->
  kernel_spec m b n zx zy = Ok k -> zlen row_scale = n -> exists c, lanczos_sum n k row_scale col_scale = Ok c.
Proof.
  intros V N Hk Hl. destruct (kernel_spec_idx m b n zx zy V N) as (k2 & E & Lk & I).
  rewrite Hk in E. inversion E; subst k2. unfold lanczos_sum.
  destruct (map_res_total (fun y =>
    for_ (zrange 0 n) (fun x acc =>
      scale <- idx row_scale x;
      row <- idx k y;
      v <- idx row x;
      Ok (acc_add scale acc v)) (mkC f0 f0 f0 f0)) (zrange 0 n)) as (rows & Hr).
  { intros y Hy. apply zrange_In in Hy. apply for_total. intros x acc Hx. apply zrange_In in Hx.
    destruct (idx_ok row_scale x) as (sc & ->); [lia|]. cbn [bind].
    destruct (I y Hy) as (row & Hrow & Lr & _). rewrite Hrow. cbn [bind].
    destruct (idx_ok row x) as (v & ->); [lia|]. cbn [bind]. eauto. }
  rewrite Hr. cbn [bind]. apply for_total. intros y acc Hy. apply zrange_In in Hy.
  destruct (idx_ok rows y) as (v & ->).
  { apply map_res_length in Hr. unfold zlen. rewrite Hr, zrange_length. lia. }
  cbn [bind]. eauto.
Qed.

Lemma lanczos_total L m N b x y : valid b -> nonempty b -> 0 <= N <= 1000 ->
  safe (fst (get_base_and_offset x)) -> safe (fst (get_base_and_offset y)) ->
  exists c, get_pixel_lanczos L m N b x y = Ok c.
Proof.
  intros V NE HN. unfold get_pixel_lanczos, safe. destruct (get_base_and_offset x) as (zx & tx).
  destruct (get_base_and_offset y) as (zy & ty). cbn [fst]. intros Sx Sy.
  assert (0 <= N / 2 <= 1000) by (split; [apply Z.div_pos; lia|apply Z.div_le_upper_bound; lia]).
  rewrite (get_kernel_eq m m) by (auto; lia).
  destruct (kernel_spec_idx m b N zx zy V NE) as (k & E & _). rewrite E. cbn [bind].
  eapply lanczos_sum_total; eauto. unfold zlen. rewrite map_length, zrange_length. lia.
Qed.

Lemma lanczos_dyn_total L m b x y size : valid b -> nonempty b -> 0 <= size <= 600000000 ->
  -2 <= fst (get_base_and_offset x) <= 700000000 -> -2 <= fst (get_base_and_offset y) <= 700000000 ->
  exists c, get_pixel_lanczos_dyn L m b x y size = Ok c.
Proof.
  intros V NE HN. unfold get_pixel_lanczos_dyn. destruct (get_base_and_offset x) as (zx & tx).
  destruct (get_base_and_offset y) as (zy & ty). cbn [fst]. intros Sx Sy.
  assert ((size * 2 + 1) / 2 = size) as E2 by (rewrite Z.div_add_l by lia; change (1 / 2) with 0; lia).
  rewrite get_kernel_dyn_same. rewrite (get_kernel_eq m m) by (auto; lia).
  destruct (kernel_spec_idx m b (size * 2 + 1) zx zy V NE) as (k & E & _). rewrite E. cbn [bind].
  eapply lanczos_sum_total; eauto. unfold zlen. rewrite map_length, zrange_length. lia.
Qed.
End geometry.

(** ** The window of the automatic filter *)
Lemma auto_size_bound nw nh w h : (0 < nw <= 1073741823)%Z -> (0 < nh <= 1073741823)%Z ->
  (0 < w <= 268435456)%Z -> (0 < h <= 268435456)%Z ->
  (0 <= auto_size (fdiv (ofZ nw) (ofZ w)) (fdiv (ofZ nh) (ofZ h)) <= 600000000)%Z.
Proof.
  intros Hnw Hnh Hw Hh.
  destruct (scale_bounds nw w) as (Fx & Px & Bx); [lia|lia|]. destruct (scale_bounds nh h) as (Fy & Py & By); [lia|lia|].
  assert (Q : forall a c, (0 < a)%Z -> (0 < c <= 268435456)%Z -> / 268435456 <= IZR a / IZR c).
  { intros a c Ha Hc. assert (1 <= IZR a) by (apply IZR_le; lia). assert (1 <= IZR c <= 268435456) by (split; apply IZR_le; lia).
    apply le_div; lra. }
  pose proof (Q nw w ltac:(lia) Hw) as Qx. pose proof (Q nh h ltac:(lia) Hh) as Qy.
  set (sx := fdiv (ofZ nw) (ofZ w)) in *. set (sy := fdiv (ofZ nh) (ofZ h)) in *.
  unfold auto_size. destruct (fmin_val sx sy Fx Fy) as [Fm Em]. set (s := fmin sx sy) in *.
  pose proof ee_val as EE.
  assert (Ls : / 270000000 <= B2R s).
  { rewrite Em. unfold Rmin. destruct Rle_dec; nra. }
  assert (Is : 0 < 1 / B2R s <= 270000000).
  { split; [apply Rdiv_lt_0_compat; lra|]. apply div_le; lra. }
  destruct (fdiv_num f1 s 0 2147483648) as [[F1 N1] E1]; auto using fmt_2_31 with fin fmt; rewrite ?f1_R; [lra|lra|].
  rewrite f1_R in E1.
  assert (U1 : B2R (fdiv f1 s) <= 280000000).
  { rewrite E1. destruct (Rle_dec (/ 1000000000000) (1 / B2R s)) as [G|G].
    - pose proof (rnd_rel_pos _ G) as K. rewrite EE in K. lra.
    - apply Rle_trans with (rnd 1); [apply rnd_le; lra|]. rewrite rnd_id by auto with fmt. lra. }
  destruct (fmul_num (fdiv f1 s) f2 0 2147483648) as [[F2 N2] E2]; auto using fmt_2_31 with fin fmt. { rewrite f2_R. lra. }
  rewrite f2_R in E2.
  assert (U2 : B2R (fmul (fdiv f1 s) f2) <= 590000000).
  { rewrite E2. destruct (Rle_dec (/ 1000000000000) (B2R (fdiv f1 s) * 2)) as [G|G].
    - pose proof (rnd_rel_pos _ G) as K. rewrite EE in K. lra.
    - apply Rle_trans with (rnd 1); [apply rnd_le; lra|]. rewrite rnd_id by auto with fmt. lra. }
  destruct (ofZ_val 3) as [F3 E3]; [lia|].
  destruct (fmax_val (fmul (fdiv f1 s) f2) (ofZ 3)) as [F4 E4]; auto. rewrite E3 in E4.
  set (v := fmax (fmul (fdiv f1 s) f2) (ofZ 3)) in *.
  assert (U4 : 0 <= B2R v <= 590000000) by (rewrite E4; unfold Rmax; destruct Rle_dec; lra).
  destruct (fceil_val v F4) as [F5 E5].
  assert (C1 : (0 <= Zceil (B2R v))%Z). { apply le_IZR. apply Rle_trans with (B2R v); [lra|apply Zceil_ub]. }
  assert (C2 : (Zceil (B2R v) <= 590000000)%Z) by (apply Zceil_glb; lra).
  unfold f_as_usize. rewrite (cast_int _ _ _ _ F5 E5). lia.
Qed.

(** ** resize *)
Section resize.
Open Scope Z_scope.

Lemma resize_fn_ok m b w h f : valid_size w h ->
  (forall x y, 0 <= x < w -> 0 <= y < h ->
     exists c, f b x y (fdiv (ofZ w) (ofZ (width b))) (fdiv (ofZ h) (ofZ (height b))) = Ok c) ->
  exists r, resize_with_fn m b w h f = Ok r /\ valid r /\ width r = w /\ height r = h.
Proof. intros V H. unfold resize_with_fn. destruct (new_from_fn_ok m w h _ V H) as (r & E & Vr & Wr & Hr & _). eauto. Qed.

Lemma pos_safe b x nw : (0 < b <= 1073741823)%Z -> 0 <= x < nw -> nw <= 1073741823 ->
  safe (fst (get_base_and_offset (source_pos x (fdiv (ofZ nw) (ofZ b))))).
Proof.
  intros Hb Hx Hn. pose proof (source_pos_bounds x nw b Hx Hn Hb) as N.
  assert (R : (1 <= IZR b <= 1073741823)%R) by (split; apply IZR_le; lia).
  eapply base_safe; [exact N| |]; lra.
Qed.
Lemma pos_safe_small b x nw : (0 < b <= 268435456)%Z -> 0 <= x < nw -> nw <= 1073741823 ->
  -2 <= fst (get_base_and_offset (source_pos x (fdiv (ofZ nw) (ofZ b)))) <= 700000000.
Proof.
  intros Hb Hx Hn. pose proof (source_pos_bounds x nw b Hx Hn ltac:(lia)) as N.
  assert (R : (1 <= IZR b <= 268435456)%R) by (split; apply IZR_le; lia).
  destruct (base_safe _ _ _ N) as [S E]; [lra|lra|]. rewrite E. destruct N as [F N].
  assert (G1 : (-1 <= Zfloor (B2R (source_pos x (fdiv (ofZ nw) (ofZ b)))))%Z) by (apply Zfloor_lub; lra).
  assert (G2 : (Zfloor (B2R (source_pos x (fdiv (ofZ nw) (ofZ b)))) <= 700000000)%Z).
  { apply le_IZR. eapply Rle_trans; [apply Zfloor_lb|lra]. }
  lia.
Qed.

Lemma resize_ok L m b w h f : valid b -> nonempty b -> valid_size w h ->
  (f = Auto -> width b <= 268435456 /\ height b <= 268435456) ->
  exists r, resize L m b w h f = Ok r /\ valid r /\ width r = w /\ height r = h.
Proof.
  intros V N Vs HA. pose proof (valid_bounds b V) as Bb. pose proof (valid_size_bounds w h Vs) as Bs.
  destruct N as (Nw & Nh). assert (N : nonempty b) by (split; auto).
  unfold resize. destruct ((width b =? w) && (height b =? h)) eqn:E.
  { apply andb_prop in E as (E1 & E2). apply Z.eqb_eq in E1, E2. exists b. auto. }
  assert (Px : forall x, 0 <= x < w -> safe (fst (get_base_and_offset (source_pos x (fdiv (ofZ w) (ofZ (width b))))))).
  { intros x Hx. apply pos_safe; lia. }
  assert (Py : forall x, 0 <= x < h -> safe (fst (get_base_and_offset (source_pos x (fdiv (ofZ h) (ofZ (height b))))))).
  { intros x Hx. apply pos_safe; lia. }
  destruct f.
  - apply resize_fn_ok; auto. intros x y Hx Hy. apply get_pixel_clamped_total; auto.
  - apply resize_fn_ok; auto. intros x y Hx Hy. apply bilinear_total; auto.
  - apply resize_fn_ok; auto. intros x y Hx Hy. apply bicubic_total; auto.
  - apply resize_fn_ok; auto. intros x y Hx Hy. apply lanczos_total; auto. lia.
  - destruct (HA eq_refl) as (A1 & A2).
    destruct ((width b <=? w) || (height b <=? h)).
    { apply resize_fn_ok; auto. intros x y Hx Hy. apply bicubic_total; auto. }
    assert (LZ : forall n, 0 <= n <= 1000 -> exists r, resize_with_fn m b w h (resize_pixel_lanczos L m n) = Ok r /\ valid r /\ width r = w /\ height r = h).
    { intros n Hn. apply resize_fn_ok; auto. intros x y Hx Hy. apply lanczos_total; auto. }
    unfold resize_auto.
    repeat match goal with |- context [if ?a =? ?c then _ else _] => destruct (a =? c); [apply LZ; lia|] end.
    destruct (new_from_fn_ok m w h (fun x y =>
      get_pixel_lanczos_dyn L m b (source_pos x (fdiv (ofZ w) (ofZ (width b)))) (source_pos y (fdiv (ofZ h) (ofZ (height b))))
       (auto_size (fdiv (ofZ w) (ofZ (width b))) (fdiv (ofZ h) (ofZ (height b))))) Vs) as (r & Er & Vr & Wr & Hr & _); [|eauto].
    intros x y Hx Hy. apply lanczos_dyn_total; auto.
    + apply auto_size_bound; lia.
    + apply pos_safe_small; lia.
    + apply pos_safe_small; lia.
Qed.

Lemma resize_bad_size L m b w h f : 0 <= w -> 0 <= h -> ~ valid_size w h -> valid b -> resize L m b w h f = Panic.
Proof.
  intros Hw Hh N V. unfold resize.
  destruct ((width b =? w) && (height b =? h)) eqn:E.
  { apply andb_prop in E as (E1 & E2). apply Z.eqb_eq in E1, E2. subst. elim N. apply V. }
  assert (P : forall g, new_from_fn (T := Rgb) m w h g = Panic).
  { intros g. unfold new_from_fn. rewrite new_from_func_invalid by auto. auto. }
  assert (P' : forall g, resize_with_fn m b w h g = Panic) by (intros; apply P).
  destruct f; auto. destruct (_ || _); auto. unfold resize_auto.
  repeat match goal with |- context [if ?a =? ?c then _ else _] => destruct (a =? c); [apply P'|] end. apply P.
Qed.

Lemma map_res_first {A B} (f : A -> res B) l a l' : l = a :: l' -> f a = Panic -> map_res f l = Panic.
Proof. intros -> H. simpl. now rewrite H. Qed.
Lemma new_from_fn_first {T} m w h (f : Z -> Z -> res T) : valid_size w h -> 0 < w -> f 0 0 = Panic -> new_from_fn m w h f = Panic.
Proof.
  intros V P H. pose proof (valid_size_bounds _ _ V). rewrite new_from_fn_eq by auto.
  assert (0 < h) by lia. unfold row_major. rewrite (zrange_cons 0 h) by lia. simpl.
  rewrite (zrange_cons 0 w) by lia. simpl. rewrite H. auto.
Qed.

Lemma i32_cases m z : (exists z', i32 m z = Ok z') \/ i32 m z = Panic.
Proof. destruct (i32 m z); eauto. Qed.

Lemma resize_empty_panics L m w h f : valid_size w h -> 0 < w -> resize L m (mkPB 0 0 []) w h f = Panic.
Proof.
  intros V P. pose proof (valid_size_bounds _ _ V). set (b := mkPB 0 0 [] : PixelBuffer Rgb).
  assert (G : forall x y, get_pixel_clamped m b x y = Panic) by (intros; apply get_pixel_clamped_empty; auto).
  assert (I : forall x y, is_in_image b x y = false).
  { intros x y. unfold is_in_image, b. simpl. change (as_i32 0) with 0. destruct (0 <=? x) eqn:?, (x <? 0) eqn:?; simpl; auto. lia. }
  assert (K : forall n x y, 0 < n -> get_kernel m b n x y = Panic).
  { intros n x y Hn. unfold get_kernel.
    destruct (i32_cases m (x - Z.quot (as_i32 n) 2)) as [(sx & ->)| ->]; [|reflexivity]. cbn [bind].
    destruct (i32_cases m (y - Z.quot (as_i32 n) 2)) as [(sy & ->)| ->]; [|reflexivity]. cbn [bind].
    rewrite I. cbn [bind]. eapply map_res_first; [apply zrange_cons; lia|]. eapply map_res_first; [apply zrange_cons; lia|].
    destruct (i32_cases m (as_i32 0 + x)) as [(a & ->)| ->]; [|reflexivity]. cbn [bind].
    destruct (i32_cases m (a - Z.quot (as_i32 n) 2)) as [(a' & ->)| ->]; [|reflexivity]. cbn [bind].
    destruct (i32_cases m (as_i32 0 + y)) as [(c & ->)| ->]; [|reflexivity]. cbn [bind].
    destruct (i32_cases m (c - Z.quot (as_i32 n) 2)) as [(c' & ->)| ->]; [|reflexivity]. cbn [bind]. apply G. }
  assert (C : forall x y, get_pixel_bicubic m b x y = Panic).
  { intros x y. unfold get_pixel_bicubic. destruct (get_base_and_offset x) as (zx & tx), (get_base_and_offset y) as (zy & ty).
    cbv zeta. destruct (i32_cases m (zx - 1)) as [(a & ->)| ->]; [|reflexivity]. cbn [bind].
    destruct (i32_cases m (zy + -1)) as [(c & ->)| ->]; [|reflexivity]. cbn [bind]. rewrite G. reflexivity. }
  unfold resize, b. cbn [width height].
  replace (0 =? w) with false by (symmetry; apply Z.eqb_neq; lia). cbn [andb]. fold b.
  destruct f.
  - apply new_from_fn_first; auto. apply G.
  - apply new_from_fn_first; auto. unfold resize_pixel_bilinear, get_pixel_bilinear.
    destruct (get_base_and_offset _), (get_base_and_offset _). now rewrite G.
  - apply new_from_fn_first; auto. apply C.
  - apply new_from_fn_first; auto. unfold resize_pixel_lanczos, get_pixel_lanczos.
    destruct (get_base_and_offset _), (get_base_and_offset _). rewrite K by lia. reflexivity.
  - replace (0 <=? w) with true by (symmetry; apply Z.leb_le; lia). cbn [orb].
    apply new_from_fn_first; auto. apply C.
Qed.

(** ** Nearest never invents colours *)
Lemma clamped_In {T} m (b : PixelBuffer T) x y c : valid b -> get_pixel_clamped m b x y = Ok c -> In c (data b).
Proof.
  intros V H. pose proof (valid_bounds b V).
  destruct (Z.eq_dec (width b) 0) as [E|E]. { rewrite get_pixel_clamped_empty in H by auto. discriminate. }
  assert (N : nonempty b) by (destruct V as ([?|?] & _); split; lia).
  rewrite get_pixel_clamped_eq in H by auto.
  apply (data_In m); auto. destruct N. exists (clampZ x (width b)), (clampZ y (height b)). split; auto.
  split; apply clampZ_range; auto.
Qed.
Lemma new_from_fn_In {T} m w h (f : Z -> Z -> res T) b c : valid_size w h -> new_from_fn m w h f = Ok b -> In c (data b) ->
  exists x y, 0 <= x < w /\ 0 <= y < h /\ f x y = Ok c.
Proof.
  intros V H I. destruct (new_from_fn_inv m w h f b V H) as (Vb & W & Hh & G).
  apply (data_In m) in I as (x & y & In & E); auto. exists x, y. rewrite G in E by auto.
  destruct In. rewrite W, Hh in *. auto.
Qed.
Lemma new_from_fn_valid {T} m w h (f : Z -> Z -> res T) b : 0 <= w -> 0 <= h -> new_from_fn m w h f = Ok b -> valid_size w h.
Proof. intros Hw Hh H. destruct (validate_size_cases w h Hw Hh) as [(V & _)|(V & _)]; auto.
  unfold new_from_fn in H. rewrite new_from_func_invalid in H by auto. discriminate. Qed.

Lemma nearest_In L m b w h r c : valid b -> 0 <= w -> 0 <= h ->
  resize L m b w h Nearest = Ok r -> In c (data r) -> In c (data b).
Proof.
  intros V Hw Hh H I. unfold resize in H. destruct (_ && _).
  - inversion H; subst. auto.
  - unfold resize_with_fn in H. pose proof (new_from_fn_valid _ _ _ _ _ Hw Hh H) as Vs.
    destruct (new_from_fn_In _ _ _ _ _ _ Vs H I) as (x & y & _ & _ & E).
    eapply clamped_In; eauto.
Qed.

Lemma rotate_fn_ok L m b a bg f : valid b ->
  (forall x y, exists o, f b x y = Ok o) ->
  exists r, rotate_with_fn L m b a bg f = Ok r /\ valid r /\ width r = width b /\ height r = height b.
Proof.
  intros V H. pose proof (valid_bounds b V). unfold rotate_with_fn.
  rewrite u32_ok by lia. cbn [bind]. rewrite u32_ok by lia. cbn [bind].
  match goal with |- context [new_from_fn m _ _ ?g] => destruct (new_from_fn_ok m (width b) (height b) g) as (r & E & Vr & Wr & Hr & _) end.
  - apply V.
  - intros x y _ _. cbv zeta. match goal with |- context [f b ?u ?v] => destruct (H u v) as (o & ->) end. cbn [bind]. eauto.
  - eauto.
Qed.

Lemma rotate_fn_In L m b a bg f r c : valid b -> rotate_with_fn L m b a bg f = Ok r -> In c (data r) ->
  exists u v o, f b u v = Ok o /\ c = match o with Some c => c | None => bg end.
Proof.
  intros V H I. pose proof (valid_bounds b V). unfold rotate_with_fn in H.
  rewrite u32_ok in H by lia. cbn [bind] in H. rewrite u32_ok in H by lia. cbn [bind] in H.
  destruct (new_from_fn_In _ _ _ _ _ _ (proj1 V) H I) as (x & y & _ & _ & E). cbv zeta in E.
  match type of E with context [f b ?u ?v] => exists u, v; destruct (f b u v) as [o|]; [|discriminate] end.
  exists o. split; [reflexivity|]. cbn [bind] in E. now inversion E.
Qed.
Lemma rotated_pixel m b u v o : valid b -> rotate_pixel_nearest m b u v = Ok o -> forall c, o = Some c -> In c (data b).
Proof.
  intros V. unfold rotate_pixel_nearest. cbv zeta. generalize (f_as_i32 (fround u)) (f_as_i32 (fround v)). intros zx zy E c ->.
  destruct (is_in_image b zx zy) eqn:Ei.
  - apply is_in_image_spec in Ei; auto. rewrite get_pixel_optional_in in E by auto.
    destruct (get_pixel m b zx zy) eqn:G; [|discriminate]. cbn [bind] in E. injection E as ->. apply (data_In m); eauto.
  - rewrite get_pixel_optional_out in E; auto; [discriminate|]. intros C. apply is_in_image_spec in C; auto. congruence.
Qed.
Lemma rotate_nearest_In L m b a bg r c : valid b -> rotate L m b a bg Nearest = Ok r -> In c (data r) -> In c (data b) \/ c = bg.
Proof.
  intros V H I. unfold rotate in H. destruct (flt _ _). { inversion H; subst; auto. }
  destruct (rotate_fn_In _ _ _ _ _ _ _ _ V H I) as (u & v & o & E & ->). destruct o as [c'|]; [left|now right].
  exact (rotated_pixel m b u v _ V E c' eq_refl).
Qed.
End resize.

(** ** rotate *)
Lemma round_safe (b : Z) v : (0 < b <= 1073741823)%Z -> (0 <= f_as_i32 (fround v) < b)%Z -> safe (fst (get_base_and_offset v)).
Proof.
  intros Hb H. destruct (is_finite v) eqn:F.
  - destruct (fround_val v F) as [A B]. unfold f_as_i32 in H. rewrite (cast_int _ _ _ _ A B) in H.
    pose proof (Znearest_half (Zle_bool 0) (B2R v)) as K. apply Rabs_le_inv in K.
    assert (R : (0 <= ZnearestA (B2R v) <= 1073741823)%Z) by lia.
    assert (R' : 0 <= IZR (ZnearestA (B2R v)) <= 1073741823) by (split; apply IZR_le; lia).
    apply (base_safe (- / 2) 1073741824 v); [|lra|lra]. split; [exact F|]. lra.
  - destruct v as [s|s| |s p q E]; try discriminate.
    + destruct s; unfold f_as_i32, fround, fnearbyint in H; simpl in H; lia.
    + unfold get_base_and_offset, ffloor, fnearbyint, safe. simpl. lia.
Qed.

Section rotate.
Open Scope Z_scope.
Lemma rotate_with_total b g x y : valid b ->
  (nonempty b -> safe (fst (get_base_and_offset x)) -> safe (fst (get_base_and_offset y)) -> exists c, g b x y = Ok c) ->
  exists o, rotate_pixel_with g b x y = Ok o.
Proof.
  intros V H. unfold rotate_pixel_with. destruct (is_in_image b _ _) eqn:E; [|eauto].
  apply is_in_image_spec in E; auto. destruct E as (Ex & Ey). pose proof (valid_bounds b V).
  destruct H as (c & ->).
  - split; lia.
  - apply (round_safe (width b)); lia.
  - apply (round_safe (height b)); lia.
  - simpl. eauto.
Qed.

Lemma rotate_ok L m b a bg f : valid b ->
  exists r, rotate L m b a bg f = Ok r /\ valid r /\ width r = width b /\ height r = height b.
Proof.
  intros V. unfold rotate. destruct (flt _ _); [eauto|].
  destruct f; apply rotate_fn_ok; auto; intros x y.
  - unfold rotate_pixel_nearest. match goal with |- context [get_pixel_optional m b ?u ?v] => destruct (is_in_image b u v) eqn:E end.
    + apply is_in_image_spec in E; auto. rewrite get_pixel_optional_in by auto.
      match goal with |- context [get_pixel m b ?u ?v] => destruct (get_pixel_inside m b u v V E) as (c & ->) end. simpl. eauto.
    + rewrite get_pixel_optional_out; eauto. intros C. apply is_in_image_spec in C; auto. congruence.
  - apply rotate_with_total; auto. intros. now apply bilinear_total.
  - apply rotate_with_total; auto. intros. now apply bicubic_total.
  - apply rotate_with_total; auto. intros. apply lanczos_total; auto. lia.
  - apply rotate_with_total; auto. intros. now apply bicubic_total.
Qed.
End rotate.

(** ** Nearest resize by an integer factor *)
Lemma nearest_index x k w : (0 < k)%Z -> (0 < w)%Z -> (k * w <= 1048576)%Z -> (0 <= x < k * w)%Z ->
  f_as_i32 (ffloor (fadd (fdiv (ofZ x) (fdiv (ofZ (k * w)) (ofZ w))) (dec 1 2))) = ((2 * x + k) / (2 * k))%Z.
Proof.
  intros Hk Hw Hkw Hx.
  assert (k <= 1048576)%Z by nia. assert (w <= 1048576)%Z by nia.
  destruct (ofZ_val x) as [Fx Ex]; [lia|]. destruct (ofZ_val w) as [Fw Ew]; [lia|].
  destruct (ofZ_val (k * w)) as [Fn En]; [lia|].
  assert (Rk : 1 <= IZR k) by (apply IZR_le; lia). assert (Rw : 1 <= IZR w) by (apply IZR_le; lia).
  assert (Rx : 0 <= IZR x) by (apply IZR_le; lia).
  assert (Rkw : IZR k * IZR w <= 1048576) by (rewrite <- mult_IZR; apply IZR_le; lia).
  assert (Rxw : IZR x + 1 <= IZR k * IZR w) by (rewrite <- mult_IZR, <- plus_IZR; apply IZR_le; lia).
  assert (Qk : IZR (k * w) / IZR w = IZR k) by (rewrite mult_IZR; field; lra).
  destruct (fdiv_exact (ofZ (k * w)) (ofZ w)) as [Fs Es]; auto.
  { rewrite Ew; lra. }
  { rewrite En, Ew, Qk. apply fmt_IZR. lia. }
  rewrite En, Ew, Qk in Es. set (s := fdiv (ofZ (k * w)) (ofZ w)) in *.
  set (q := IZR x / IZR k).
  assert (Bq : 0 <= q <= 1048576).
  { unfold q. split; [apply le_div; lra|apply div_le; nra]. }
  destruct (fdiv_num (ofZ x) s 0 1048576) as [[F1 N1] E1]; auto with fmt; rewrite ?Ex, ?Es in *; auto; try lra.
  destruct (fadd_num (fdiv (ofZ x) s) (dec 1 2) 0 1048577) as [[F2 N2] E2]; auto using half_fin with fmt. { rewrite half_R. lra. }
  rewrite half_R in E2. set (v := fadd (fdiv (ofZ x) s) (dec 1 2)) in *.
  fold q in E1.
  destruct (ffloor_val v F2) as [F3 E3]. unfold f_as_i32. rewrite (cast_int _ _ _ _ F3 E3).
  set (n := ((2 * x + k) / (2 * k))%Z).
  assert (Hn1 : (2 * k * n <= 2 * x + k)%Z) by (apply Z.mul_div_le; lia).
  assert (Hn2 : (2 * x + k + 1 <= 2 * k * (n + 1))%Z) by (pose proof (Z.mul_succ_div_gt (2 * x + k) (2 * k)); unfold n; lia).
  assert (Hn0 : (0 <= n)%Z) by (apply Z.div_pos; lia).
  apply IZR_le in Hn1, Hn2. rewrite !plus_IZR, !mult_IZR, ?plus_IZR in *.
  assert (Kq : q * IZR k = IZR x) by (unfold q; field; lra).
  assert (L : IZR n <= q + / 2) by (apply Rmult_le_reg_r with (2 * IZR k); lra).
  assert (U : q + / 2 + / 2 / IZR k <= IZR n + 1).
  { apply Rmult_le_reg_r with (2 * IZR k); [lra|]. replace ((q + / 2 + / 2 / IZR k) * (2 * IZR k)) with (2 * (q * IZR k) + IZR k + 1) by (field; lra). lra. }
  assert (Bn : (n <= 1048577)%Z). { apply le_IZR. lra. }
  assert (Fl : Zfloor (B2R v) = n).
  { apply Zfloor_imp. rewrite plus_IZR.
    pose proof ee_val as EE. set (e := ee) in *. assert (He : 0 < e <= / 16777216) by lra.
    assert (Er1 : Rabs (rnd q - q) <= e * q).
    { destruct (Req_dec q 0) as [Z|Z]; [rewrite Z, rnd_0; rewrite Rabs_pos_eq; lra|].
      rewrite <- (Rabs_pos_eq q) at 3 by lra. apply rnd_rel. rewrite Rabs_pos_eq by lra.
      assert (/ 1048576 <= q).
      { unfold q. apply le_div; [lra|]. assert (IZR k <= 1048576) by (apply IZR_le; lia).
        assert (x <> 0%Z) by (intros ->; apply Z; unfold q; lra). assert (1 <= IZR x) by (apply IZR_le; lia). lra. }
      pose proof tiny. lra. }
    apply Rabs_le_inv in Er1.
    split.
    - rewrite E2. apply rnd_lo; [apply fmt_IZR; lia|]. rewrite E1.
      destruct (Zle_lt_or_eq 0 n Hn0) as [P|P].
      + (* n - 1/2 is representable *)
        assert (F : fmt (IZR n - / 2)).
        { replace (IZR n - / 2) with (IZR (2 * n - 1) * bpow radix2 (-1)).
          - apply fmt_F2R; lia.
          - rewrite minus_IZR, mult_IZR. change (bpow radix2 (-1)) with (/ 2). lra. }
        assert (IZR n - / 2 <= rnd q) by (apply rnd_lo; auto; lra). lra.
      + rewrite <- P. assert (0 <= rnd q) by (apply rnd_lo; auto with fmt; lra). lra.
    - rewrite E2, E1.
      assert (P0 : 0 <= rnd q) by (apply rnd_lo; auto with fmt; lra).
      assert (Er2 : rnd (rnd q + / 2) <= (1 + e) * (rnd q + / 2)) by (apply rnd_rel_pos; lra).
      fold e in Er2.
      apply Rle_lt_trans with ((1 + e) * ((1 + e) * q + / 2)); [nra|].
      apply Rlt_le_trans with (q + / 2 + / 2 / IZR k); [|lra].
      assert (S : q < IZR w) by (apply Rmult_lt_reg_r with (IZR k); nra).
      assert (T : / 2 / IZR k >= / 2 / 1048576 * IZR w).
      { apply Rle_ge. apply le_div; [lra|]. nra. }
      assert ((1 + e) * ((1 + e) * q + / 2) - (q + / 2) <= 3 * e * (q + / 2)) by nra.
      nra. }
  rewrite Fl. lia.
Qed.
