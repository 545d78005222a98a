(** Proofs about interpolation: accuracy and range of the bilinear and bicubic filters. *)
From Coq Require Import ZArith Reals Lra Lia List Bool Psatz.
From Flocq Require Import Core.Core Relative IEEE754.BinarySingleNaN.
From Verif Require Import Base BaseLemmas PixelBuffer BufferSpec PixelBufferProofs ComposeProofs F32 F32Lemmas Color ColorSpec ColorProofs Resample.
Import ListNotations.
Open Scope R_scope.
From Verif Require Import ResampleProofs.

(** ** Interpolation: bounds and accuracy *)

(** [x] is a number of absolute value at most [p]. *)
Definition ball (p : Z) (x : f32) : Prop := num (- IZR p) (IZR p) x.

Lemma ball_add p q x y : (0 <= p)%Z -> (0 <= q)%Z -> (p + q < 2 ^ 24)%Z -> ball p x -> ball q y -> ball (p + q) (fadd x y).
Proof.
  intros P Q H [Fx Bx] [Fy By]. apply fadd_num; auto; [apply fmt_opp; apply fmt_IZR; lia|apply fmt_IZR; lia|]. rewrite plus_IZR. lra.
Qed.
Lemma ball_sub p q x y : (0 <= p)%Z -> (0 <= q)%Z -> (p + q < 2 ^ 24)%Z -> ball p x -> ball q y -> ball (p + q) (fsub x y).
Proof.
  intros P Q H [Fx Bx] [Fy By]. apply fsub_num; auto; [apply fmt_opp; apply fmt_IZR; lia|apply fmt_IZR; lia|]. rewrite plus_IZR. lra.
Qed.
Lemma ball_mul p q x y : (0 <= p)%Z -> (0 <= q)%Z -> (p * q < 2 ^ 24)%Z -> ball p x -> ball q y -> ball (p * q) (fmul x y).
Proof.
  intros P Q H [Fx Bx] [Fy By]. apply IZR_le in P, Q.
  assert (0 <= p * q)%Z by (apply Z.mul_nonneg_nonneg; apply le_IZR; lra).
  apply fmul_num; auto; [apply fmt_opp; apply fmt_IZR; lia|apply fmt_IZR; lia|]. rewrite mult_IZR. nra.
Qed.
Lemma ball_half p x : (0 <= p < 2 ^ 24)%Z -> ball p x -> ball p (fdiv x f2).
Proof.
  intros P [Fx Bx]. assert (0 <= IZR p) by (apply IZR_le; lia).
  apply fdiv_num; auto with fin; [rewrite f2_R; lra|apply fmt_opp; apply fmt_IZR; lia|apply fmt_IZR; lia|]. rewrite f2_R. lra.
Qed.
Lemma ball_neg p x : ball p x -> ball p (fneg x).
Proof. intros [Fx Bx]. unfold fneg. split; [unfold fin; now rewrite is_finite_Bopp|rewrite B2R_Bopp; lra]. Qed.
Lemma ball_ofZ z : (Z.abs z < 2 ^ 24)%Z -> ball (Z.abs z) (ofZ z).
Proof. intros H. destruct (ofZ_val z H) as [F E]. split; auto. rewrite E, abs_IZR. pose proof (Rle_abs (IZR z)). pose proof (Rle_abs (- IZR z)). rewrite Rabs_Ropp in *. lra. Qed.
Lemma ball_01 x : num 0 1 x -> ball 1 x.
Proof. intros [F B]. split; auto. lra. Qed.
Lemma ball_f2 : ball 2 f2. Proof. apply (ball_ofZ 2). lia. Qed.
Lemma ball_fin p x : ball p x -> is_nan x = false.
Proof. intros H. eapply num_not_nan; exact H. Qed.

Lemma cubic_ball p v1 v2 v3 v4 t : (0 <= p <= 400000)%Z -> ball p v1 -> ball p v2 -> ball p v3 -> ball p v4 -> ball 1 t ->
  ball (20 * p) (cubic_hermite_interpolate v1 v2 v3 v4 t).
Proof.
  intros P H1 H2 H3 H4 Ht. unfold cubic_hermite_interpolate.
  pose proof (ball_ofZ 3 ltac:(lia)) as B3. pose proof (ball_ofZ 5 ltac:(lia)) as B5. pose proof ball_f2 as B2.
  assert (O1 : ball (8 * p) (fadd (fsub (fadd (fdiv (fneg v1) f2) (fdiv (fmul (ofZ 3) v2) f2)) (fdiv (fmul (ofZ 3) v3) f2)) (fdiv v4 f2))).
  { replace (8 * p)%Z with (p + 3 * p + 3 * p + p)%Z by lia.
    apply ball_add; try lia; [apply ball_sub; try lia; [apply ball_add; try lia|]|]; apply ball_half; try lia; auto using ball_neg;
    apply ball_mul; try lia; auto. }
  assert (O2 : ball (9 * p) (fsub (fadd (fsub v1 (fdiv (fmul (ofZ 5) v2) f2)) (fmul f2 v3)) (fdiv v4 f2))).
  { replace (9 * p)%Z with (p + 5 * p + 2 * p + p)%Z by lia.
    apply ball_sub; try lia; [apply ball_add; try lia; [apply ball_sub; try lia; auto|]|]; try (apply ball_half; try lia; auto);
    apply ball_mul; try lia; auto. }
  assert (O3 : ball (2 * p) (fadd (fdiv (fneg v1) f2) (fdiv v3 f2))).
  { replace (2 * p)%Z with (p + p)%Z by lia. apply ball_add; try lia; apply ball_half; try lia; auto using ball_neg. }
  set (o1 := fadd _ (fdiv v4 f2)) in *. set (o2 := fsub _ (fdiv v4 f2)) in *. set (o3 := fadd (fdiv (fneg v1) f2) _) in *.
  assert (M : forall q x, (0 <= q < 2 ^ 24)%Z -> ball q x -> ball q (fmul x t)).
  { intros q x Hq Hx. replace q with (q * 1)%Z by lia. apply ball_mul; auto; lia. }
  replace (20 * p)%Z with (8 * p + 9 * p + 2 * p + p)%Z by lia.
  repeat (apply ball_add; try lia); auto; repeat (apply M; [lia|]); auto.
Qed.

(** [x] is a number at most [e] away from [r]. *)
Definition near (r e : R) (x : f32) : Prop := fin x /\ Rabs (B2R x - r) <= e.

Lemma near_weak r e e' x : near r e x -> e <= e' -> near r e' x.
Proof. intros [F H] L. split; auto. lra. Qed.
Lemma err_k k (b e : R) : (-125 <= k <= 127)%Z -> b = bpow radix2 k -> e = bpow radix2 (k - 25) ->
  forall r, Rabs r <= b -> Rabs (rnd r - r) <= e.
Proof. intros K -> -> r. now apply rnd_err. Qed.
Lemma err1 r : Rabs r <= 1 -> Rabs (rnd r - r) <= / 33554432.
Proof. apply (err_k 0); auto; lia. Qed.
Lemma err2 r : Rabs r <= 2 -> Rabs (rnd r - r) <= / 16777216.
Proof. apply (err_k 1); auto; lia. Qed.
Lemma err4 r : Rabs r <= 4 -> Rabs (rnd r - r) <= / 8388608.
Proof. apply (err_k 2); auto; lia. Qed.
Lemma err8 r : Rabs r <= 8 -> Rabs (rnd r - r) <= / 4194304.
Proof. apply (err_k 3); auto; lia. Qed.
Lemma err0 r : Rabs r <= / 1024 -> Rabs (rnd r - r) <= / 34359738368.
Proof. apply (err_k (-10)); auto; lia. Qed.

Lemma near_op b er (Her : forall r, Rabs r <= b -> Rabs (rnd r - r) <= er) (Hb : fmt b) :
  (forall r s e f x y, near r e x -> near s f y -> Rabs (r + s) + (e + f) <= b -> near (r + s) (e + f + er) (fadd x y)) /\
  (forall r s e f x y, near r e x -> near s f y -> Rabs (r - s) + (e + f) <= b -> near (r - s) (e + f + er) (fsub x y)) /\
  (forall r e x, near r e x -> Rabs (r / 2) + e / 2 <= b -> near (r / 2) (e / 2 + er) (fdiv x f2)) /\
  (forall z r e x, (0 < z < 2 ^ 24)%Z -> near r e x -> Rabs (IZR z * r) + IZR z * e <= b -> near (IZR z * r) (IZR z * e + er) (fmul (ofZ z) x)) /\
  (forall e x t, near 0 e x -> num 0 1 t -> e <= b -> near 0 (e + er) (fmul x t)).
Proof.
  assert (K : forall r s e, Rabs (r - s) <= e -> Rabs s + e <= b -> Rabs r <= b /\ Rabs (rnd r - s) <= e + er).
  { intros r s e H1 H2. assert (Rabs r <= b).
    { replace r with (r - s + s) by ring. eapply Rle_trans; [apply Rabs_triang|]. lra. }
    split; auto. replace (rnd r - s) with (rnd r - r + (r - s)) by ring. eapply Rle_trans; [apply Rabs_triang|].
    pose proof (Her r H). lra. }
  repeat split; intros.
  - destruct H as [Fx Hx], H0 as [Fy Hy]. destruct (K (B2R x + B2R y) (r + s) (e + f)) as [K1 K2]; auto.
    { replace (B2R x + B2R y - (r + s)) with ((B2R x - r) + (B2R y - s)) by ring. eapply Rle_trans; [apply Rabs_triang|]. lra. }
    apply (fadd_ok x y b); auto.
  - destruct H as [Fx Hx], H0 as [Fy Hy]. destruct (K (B2R x + B2R y) (r + s) (e + f)) as [K1 K2]; auto.
    { replace (B2R x + B2R y - (r + s)) with ((B2R x - r) + (B2R y - s)) by ring. eapply Rle_trans; [apply Rabs_triang|]. lra. }
    destruct (fadd_ok x y b) as [A B]; auto. now rewrite B.
  - destruct H as [Fx Hx], H0 as [Fy Hy]. destruct (K (B2R x - B2R y) (r - s) (e + f)) as [K1 K2]; auto.
    { replace (B2R x - B2R y - (r - s)) with ((B2R x - r) + (- (B2R y - s))) by ring. eapply Rle_trans; [apply Rabs_triang|]. rewrite Rabs_Ropp. lra. }
    apply (fsub_ok x y b); auto.
  - destruct H as [Fx Hx], H0 as [Fy Hy]. destruct (K (B2R x - B2R y) (r - s) (e + f)) as [K1 K2]; auto.
    { replace (B2R x - B2R y - (r - s)) with ((B2R x - r) + (- (B2R y - s))) by ring. eapply Rle_trans; [apply Rabs_triang|]. rewrite Rabs_Ropp. lra. }
    destruct (fsub_ok x y b) as [A B]; auto. now rewrite B.
  - destruct H as [Fx Hx]. destruct (K (B2R x / 2) (r / 2) (e / 2)) as [K1 K2]; auto.
    { replace (B2R x / 2 - r / 2) with ((B2R x - r) * / 2) by lra. rewrite Rabs_mult, (Rabs_pos_eq (/ 2)) by lra. lra. }
    apply (fdiv_ok x f2 b); auto with fin; rewrite f2_R; auto; lra.
  - destruct H as [Fx Hx]. destruct (K (B2R x / 2) (r / 2) (e / 2)) as [K1 K2]; auto.
    { replace (B2R x / 2 - r / 2) with ((B2R x - r) * / 2) by lra. rewrite Rabs_mult, (Rabs_pos_eq (/ 2)) by lra. lra. }
    destruct (fdiv_ok x f2 b) as [A B]; auto with fin; rewrite ?f2_R; auto; try lra. rewrite B, f2_R. auto.
  - destruct H0 as [Fx Hx]. destruct (ofZ_val z) as [Fz Ez]; [lia|]. assert (0 < IZR z) by (apply IZR_lt; lia).
    destruct (K (IZR z * B2R x) (IZR z * r) (IZR z * e)) as [K1 K2]; auto.
    { rewrite <- Rmult_minus_distr_l, Rabs_mult, (Rabs_pos_eq (IZR z)) by lra. nra. }
    apply (fmul_ok (ofZ z) x b); auto. now rewrite Ez.
  - destruct H0 as [Fx Hx]. destruct (ofZ_val z) as [Fz Ez]; [lia|]. assert (0 < IZR z) by (apply IZR_lt; lia).
    destruct (K (IZR z * B2R x) (IZR z * r) (IZR z * e)) as [K1 K2]; auto.
    { rewrite <- Rmult_minus_distr_l, Rabs_mult, (Rabs_pos_eq (IZR z)) by lra. nra. }
    destruct (fmul_ok (ofZ z) x b) as [A B]; auto; rewrite ?Ez; auto. now rewrite B, Ez.
  - destruct H as [Fx Hx], H0 as [Ft Ht]. rewrite Rminus_0_r in Hx.
    destruct (K (B2R x * B2R t) 0 e) as [K1 K2]; auto.
    { rewrite Rminus_0_r, Rabs_mult, (Rabs_pos_eq (B2R t)) by lra. pose proof (Rabs_pos (B2R x)). nra. }
    { rewrite Rabs_R0. lra. }
    apply (fmul_ok x t b); auto.
  - destruct H as [Fx Hx], H0 as [Ft Ht]. rewrite Rminus_0_r in Hx.
    destruct (K (B2R x * B2R t) 0 e) as [K1 K2]; auto.
    { rewrite Rminus_0_r, Rabs_mult, (Rabs_pos_eq (B2R t)) by lra. pose proof (Rabs_pos (B2R x)). nra. }
    { rewrite Rabs_R0. lra. }
    destruct (fmul_ok x t b) as [A B]; auto. now rewrite B.
Qed.
Lemma fmt_1024 : fmt (/ 1024).
Proof. replace (/ 1024) with (IZR 1 / IZR (2 ^ 10)) by (change (2 ^ 10)%Z with 1024%Z; lra). apply fmt_dyad; lia. Qed.
Definition near1 := near_op 1 _ err1 fmt_1.
Definition near2 := near_op 2 _ err2 fmt_2.
Definition near4 := near_op 4 _ err4 fmt_4.
Definition near8 := near_op 8 _ err8 (fmt_IZR 8 eq_refl).
Definition near0 := near_op (/ 1024) _ err0 fmt_1024.

Lemma near_neg r e x : near r e x -> near (- r) e (fneg x).
Proof. intros [F H]. unfold fneg. split; [unfold fin; now rewrite is_finite_Bopp|]. rewrite B2R_Bopp.
  replace (- B2R x - - r) with (- (B2R x - r)) by ring. now rewrite Rabs_Ropp. Qed.
Lemma near_eq r e x r' e' : near r e x -> r = r' -> e = e' -> near r' e' x.
Proof. intros H -> ->. auto. Qed.

Ltac rabs := match goal with |- context [Rabs ?a] => unfold Rabs; destruct (Rcase_abs a) end; lra.

Lemma cubic_near v d v1 v2 v3 v4 t : 0 <= v <= 1 -> 0 <= d <= / 100000 ->
  near v d v1 -> near v d v2 -> near v d v3 -> near v d v4 -> num 0 1 t ->
  near v (12 * d + / 800000) (cubic_hermite_interpolate v1 v2 v3 v4 t).
Proof.
  intros V D H1 H2 H3 H4 Ht. unfold cubic_hermite_interpolate.
  destruct near1 as (add1 & sub1 & half1 & mul1 & t1). destruct near2 as (add2 & sub2 & half2 & mul2 & t2).
  destruct near4 as (add4 & sub4 & half4 & mul4 & t4). destruct near8 as (add8 & sub8 & half8 & mul8 & t8).
  destruct near0 as (add0 & sub0 & half0 & mul0 & t0).
  assert (N1 : near (- v / 2) (d / 2 + / 33554432) (fdiv (fneg v1) f2)).
  { apply (half1 (- v)); [now apply near_neg|rabs]. }
  assert (T : forall x, near v d x -> near (3 * v / 2) (3 / 2 * d + / 8388608) (fdiv (fmul (ofZ 3) x) f2)).
  { intros x Hx. assert (A := mul4 3%Z v d x ltac:(lia) Hx ltac:(rabs)).
    assert (B := half2 _ _ _ A ltac:(rabs)). eapply near_eq; [exact B|lra|lra]. }
  assert (N4 : near (v / 2) (d / 2 + / 33554432) (fdiv v4 f2)).
  { apply (half1 v); [auto|rabs]. }
  assert (N3 : near (v / 2) (d / 2 + / 33554432) (fdiv v3 f2)).
  { apply (half1 v); [auto|rabs]. }
  assert (A1 := add2 _ _ _ _ _ _ N1 (T _ H2) ltac:(rabs)).
  assert (A2 := sub2 _ _ _ _ _ _ A1 (T _ H3) ltac:(rabs)).
  assert (A3 := add0 _ _ _ _ _ _ A2 N4 ltac:(rabs)).
  assert (O1 : near 0 (4 * d + / 2300000) (fadd (fsub (fadd (fdiv (fneg v1) f2) (fdiv (fmul (ofZ 3) v2) f2)) (fdiv (fmul (ofZ 3) v3) f2)) (fdiv v4 f2))).
  { eapply near_weak; [eapply near_eq; [exact A3|lra|reflexivity]|lra]. }
  assert (F : near (5 * v / 2) (5 / 2 * d + / 4194304) (fdiv (fmul (ofZ 5) v2) f2)).
  { assert (A := mul8 5%Z v d v2 ltac:(lia) H2 ltac:(rabs)).
    assert (B := half4 _ _ _ A ltac:(rabs)). eapply near_eq; [exact B|lra|lra]. }
  assert (B1 := sub2 _ _ _ _ _ _ H1 F ltac:(rabs)).
  assert (B2 : near (2 * v) (2 * d + / 8388608) (fmul f2 v3)) by (apply (mul4 2%Z v d v3 ltac:(lia) H3 ltac:(rabs))).
  assert (B3 := add1 _ _ _ _ _ _ B1 B2 ltac:(rabs)).
  assert (B4 := sub0 _ _ _ _ _ _ B3 N4 ltac:(rabs)).
  assert (O2 : near 0 (6 * d + / 2000000) (fsub (fadd (fsub v1 (fdiv (fmul (ofZ 5) v2) f2)) (fmul f2 v3)) (fdiv v4 f2))).
  { eapply near_weak; [eapply near_eq; [exact B4|lra|reflexivity]|lra]. }
  assert (C := add0 _ _ _ _ _ _ N1 N3 ltac:(rabs)).
  assert (O3 : near 0 (d + / 16000000) (fadd (fdiv (fneg v1) f2) (fdiv v3 f2))).
  { eapply near_weak; [eapply near_eq; [exact C|lra|reflexivity]|lra]. }
  set (o1 := fadd _ (fdiv v4 f2)) in *. set (o2 := fsub _ (fdiv v4 f2)) in *. set (o3 := fadd (fdiv (fneg v1) f2) _) in *.
  assert (P1 := t0 _ _ _ (t0 _ _ _ (t0 _ _ _ O1 Ht ltac:(lra)) Ht ltac:(lra)) Ht ltac:(lra)).
  assert (P2 := t0 _ _ _ (t0 _ _ _ O2 Ht ltac:(lra)) Ht ltac:(lra)).
  assert (P3 := t0 _ _ _ O3 Ht ltac:(lra)).
  assert (S := add0 _ _ _ _ _ _ P1 P2 ltac:(rabs)).
  assert (S2 := add0 _ _ _ _ _ _ S P3 ltac:(rabs)).
  assert (S3 := add2 _ _ _ _ _ _ S2 H2 ltac:(rabs)).
  eapply near_weak; [eapply near_eq; [exact S3|lra|reflexivity]|lra].
Qed.

Lemma offset_range lo hi v : num lo hi v -> num 0 1 (snd (get_base_and_offset v)).
Proof.
  intros [F _]. unfold get_base_and_offset. cbn [snd]. destruct (ffloor_val v F) as [A B].
  apply fsub_num; auto with fmt. rewrite B. pose proof (Zfloor_lb (B2R v)). pose proof (Zfloor_ub (B2R v)). lra.
Qed.

(** A pixel that the filters can read is a pixel of the image. *)
Section clamped.
Open Scope Z_scope.
Lemma bilinear_pixels m b x y r : valid b -> get_pixel_bilinear m b x y = Ok r ->
  exists c1 c2 c3 c4, Forall (fun c => In c (data b)) [c1; c2; c3; c4] /\
  let calc (d : col -> f32) := linear_interpolate
    (linear_interpolate (d c1) (d c2) (snd (get_base_and_offset x))) (linear_interpolate (d c3) (d c4) (snd (get_base_and_offset x)))
    (snd (get_base_and_offset y)) in
  r = rgb_new_with_alpha (calc d0) (calc d1) (calc d2) (calc d3).
Proof.
  intros V. unfold get_pixel_bilinear. destruct (get_base_and_offset x) as (zx & tx), (get_base_and_offset y) as (zy & ty). cbn [snd].
  destruct (get_pixel_clamped m b zx zy) as [c1|] eqn:E1; [|discriminate]. cbn [bind].
  destruct (i32 m (zx + 1)) as [x1|]; [|discriminate]. cbn [bind].
  destruct (get_pixel_clamped m b x1 zy) as [c2|] eqn:E2; [|discriminate]. cbn [bind].
  destruct (i32 m (zy + 1)) as [y1|]; [|discriminate]. cbn [bind].
  destruct (get_pixel_clamped m b zx y1) as [c3|] eqn:E3; [|discriminate]. cbn [bind].
  destruct (get_pixel_clamped m b x1 y1) as [c4|] eqn:E4; [|discriminate]. cbn [bind].
  intros H. apply (f_equal (fun o => match o with Ok v => v | Panic => r end)) in H. cbn beta iota in H.
  exists c1, c2, c3, c4. split; [|now symmetry].
  repeat constructor; eapply clamped_In; eassumption.
Qed.

Lemma bicubic_pixels m b x y r : valid b -> get_pixel_bicubic m b x y = Ok r ->
  exists p : Z -> Z -> Rgb, (forall i j, In (p i j) (data b)) /\
  let tx := snd (get_base_and_offset x) in let ty := snd (get_base_and_offset y) in
  let calc (d : col -> f32) :=
    let line j := cubic_hermite_interpolate (d (p 0 j)) (d (p 1 j)) (d (p 2 j)) (d (p 3 j)) tx in
    cubic_hermite_interpolate (line 0) (line 1) (line 2) (line 3) ty in
  r = rgb_new_with_alpha (calc d0) (calc d1) (calc d2) (calc d3).
Proof.
  intros V. unfold get_pixel_bicubic. destruct (get_base_and_offset x) as (zx & tx), (get_base_and_offset y) as (zy & ty). cbn [snd].
  cbv zeta.
  set (row := fun dy => xm <- i32 m (zx - 1); yy <- i32 m (zy + dy); a <- get_pixel_clamped m b xm yy; c <- get_pixel_clamped m b zx yy;
    xp <- i32 m (zx + 1); d <- get_pixel_clamped m b xp yy; xq <- i32 m (zx + 2); e <- get_pixel_clamped m b xq yy; Ok (a, c, d, e)).
  assert (R : forall dy q, row dy = Ok q -> exists p : Z -> Rgb, (forall i, In (p i) (data b)) /\ q = (p 0, p 1, p 2, p 3)).
  { intros dy q. unfold row.
    destruct (i32 m (zx - 1)) as [xm|]; [|discriminate]. cbn [bind].
    destruct (i32 m (zy + dy)) as [yy|]; [|discriminate]. cbn [bind].
    destruct (get_pixel_clamped m b xm yy) as [a|] eqn:E1; [|discriminate]. cbn [bind].
    destruct (get_pixel_clamped m b zx yy) as [c|] eqn:E2; [|discriminate]. cbn [bind].
    destruct (i32 m (zx + 1)) as [xp|]; [|discriminate]. cbn [bind].
    destruct (get_pixel_clamped m b xp yy) as [d|] eqn:E3; [|discriminate]. cbn [bind].
    destruct (i32 m (zx + 2)) as [xq|]; [|discriminate]. cbn [bind].
    destruct (get_pixel_clamped m b xq yy) as [e|] eqn:E4; [|discriminate]. cbn [bind].
    intros H. exists (fun i => if i =? 0 then a else if i =? 1 then c else if i =? 2 then d else e). split.
    - intros i. destruct (i =? 0); [|destruct (i =? 1); [|destruct (i =? 2)]]; eapply clamped_In; eassumption.
    - symmetry. injection H. intros <-. reflexivity. }
  fold (row (-1)). fold (row 0). fold (row 1). fold (row 2).
  destruct (row (-1)) as [q0|] eqn:E0; [|discriminate]. cbn [bind].
  destruct (row 0) as [q1|] eqn:E1; [|discriminate]. cbn [bind].
  destruct (row 1) as [q2|] eqn:E2; [|discriminate]. cbn [bind].
  destruct (row 2) as [q3|] eqn:E3; [|discriminate]. cbn [bind].
  destruct (R _ _ E0) as (p0 & I0 & ->), (R _ _ E1) as (p1 & I1 & ->), (R _ _ E2) as (p2 & I2 & ->), (R _ _ E3) as (p3 & I3 & ->).
  intros H. apply (f_equal (fun o => match o with Ok v => v | Panic => r end)) in H. cbn beta iota in H.
  exists (fun i j => if j =? 0 then p0 i else if j =? 1 then p1 i else if j =? 2 then p2 i else p3 i). split.
  - intros i j. destruct (j =? 0); [|destruct (j =? 1); [|destruct (j =? 2)]]; auto.
  - symmetry. exact H.
Qed.
End clamped.

(** Bilinear interpolation between equal values gives that value. *)
Lemma lerp_same a b t : num 0 1 a -> num 0 1 b -> B2R a = B2R b -> num 0 1 t ->
  num 0 1 (linear_interpolate a b t) /\ B2R (linear_interpolate a b t) = B2R a.
Proof.
  intros [Fa Ba] [Fb Bb] E [Ft Bt]. unfold linear_interpolate.
  destruct (fsub_exact b a) as [F1 E1]; auto. { rewrite E. replace (B2R b - B2R b) with 0 by ring. auto with fmt. }
  destruct (fmul_exact (fsub b a) t) as [F2 E2]; auto. { rewrite E1, E. replace ((B2R b - B2R b) * B2R t) with 0 by ring. auto with fmt. }
  assert (Z : B2R (fmul (fsub b a) t) = 0) by (rewrite E2, E1, E; ring).
  destruct (fadd_exact a (fmul (fsub b a) t)) as [F3 E3]; auto. { rewrite Z, Rplus_0_r. apply fmt_B2R. }
  assert (K : B2R (fadd a (fmul (fsub b a) t)) = B2R a) by (rewrite E3, Z; ring).
  split; [split; auto; rewrite K; auto|auto].
Qed.
Lemma lerp_ball a b t : num 0 1 a -> num 0 1 b -> num 0 1 t -> ball 2 (linear_interpolate a b t).
Proof.
  intros [Fa Ba] [Fb Bb] [Ft Bt]. unfold linear_interpolate.
  destruct (fsub_num b a (-1) 1) as [[F1 N1] E1]; auto with fmt; [lra|].
  destruct (fmul_num (fsub b a) t (-1) 1) as [[F2 N2] E2]; auto with fmt; [nra|].
  apply fadd_num; auto with fmt; lra.
Qed.
Lemma lerp2_ball a b t : ball 2 a -> ball 2 b -> num 0 1 t -> ball 8 (linear_interpolate a b t).
Proof.
  intros A B T. unfold linear_interpolate. replace 8%Z with (2 + (2 + 2) * 1 + 2)%Z by lia.
  assert (K : ball (2 + (2 + 2) * 1) (fadd a (fmul (fsub b a) t))).
  { apply ball_add; try lia; auto. apply ball_mul; try lia; auto using ball_01. apply ball_sub; auto; lia. }
  destruct K as [F K]. split; auto. cbn in *. lra.
Qed.

Lemma same_num x y : fin y -> same x y -> fin x /\ B2R x = B2R y.
Proof.
  intros F S. assert (Fx : fin x).
  { unfold same in S. destruct x as [s|[|]| |s p q E]; try reflexivity; destruct y as [s'|s'| |[|] p' q' E']; try discriminate F; try discriminate S; destruct s'; discriminate S. }
  split; auto. apply feq_R; auto.
Qed.

Lemma uniform_bilinear m b x y r c lo1 hi1 lo2 hi2 : valid b -> in_gamut c -> (forall p, In p (data b) -> same_color p c) ->
  num lo1 hi1 x -> num lo2 hi2 y -> get_pixel_bilinear m b x y = Ok r -> same_color r c.
Proof.
  intros V (G0 & G1 & G2 & G3) U Nx Ny H.
  apply bilinear_pixels in H as (c1 & c2 & c3 & c4 & I & ->); auto.
  rewrite Forall_forall in I.
  pose proof (offset_range _ _ _ Nx) as Tx. pose proof (offset_range _ _ _ Ny) as Ty.
  set (tx := snd (get_base_and_offset x)) in *. set (ty := snd (get_base_and_offset y)) in *.
  assert (K : forall d : col -> f32, in01 (d c) -> (forall p, same_color p c -> same (d p) (d c)) ->
    same (clamp (linear_interpolate (linear_interpolate (d c1) (d c2) tx) (linear_interpolate (d c3) (d c4) tx) ty)) (d c)).
  { intros d G S. apply in01_num in G as (Fc & Bc).
    assert (P : forall p, In p [c1; c2; c3; c4] -> num 0 1 (d p) /\ B2R (d p) = B2R (d c)).
    { intros p Ip. pose proof (S p (U p (I p Ip))) as Q. apply same_num in Q as (Fp & Q); auto. split; auto. split; auto. lra. }
    destruct (P c1) as [P1 Q1]; [simpl; auto|]. destruct (P c2) as [P2 Q2]; [simpl; auto|].
    destruct (P c3) as [P3 Q3]; [simpl; auto|]. destruct (P c4) as [P4 Q4]; [simpl; auto|].
    destruct (lerp_same (d c1) (d c2) tx) as [A EA]; auto; [lra|]. destruct (lerp_same (d c3) (d c4) tx) as [B EB]; auto; [lra|].
    destruct (lerp_same _ _ ty A B) as [D ED]; auto; [lra|].
    rewrite clamp_id by (apply in01_num; exact D). apply feq_R; auto. apply D. lra. }
  unfold same_color, rgb_new_with_alpha. cbn [d0 d1 d2 d3].
  split; [|split; [|split]].
  - apply (K d0); auto. intros p (? & _). auto.
  - apply (K d1); auto. intros p (_ & ? & _). auto.
  - apply (K d2); auto. intros p (_ & _ & ? & _). auto.
  - apply (K d3); auto. intros p (_ & _ & _ & ?). auto.
Qed.

Lemma clamp_near v e x : 0 <= v <= 1 -> near v e x -> num 0 1 (clamp x) /\ Rabs (B2R (clamp x) - v) <= e.
Proof.
  intros V [F N]. assert (NN : is_nan x = false) by (destruct x; auto; discriminate).
  pose proof (clamp_in01 x NN) as C. pose proof (proj1 (in01_num _) C) as C'. split; auto.
  unfold clamp, fclamp in *. destruct (flt x f0) eqn:A.
  - apply flt_R in A; auto with fin. rewrite f0_R in *. unfold Rabs in *. destruct (Rcase_abs _), (Rcase_abs _); lra.
  - destruct (flt f1 x) eqn:B; auto. apply flt_R in B; auto with fin. rewrite f1_R in *. unfold Rabs in *. destruct (Rcase_abs _), (Rcase_abs _); lra.
Qed.

Lemma uniform_bicubic m b x y r c lo1 hi1 lo2 hi2 : valid b -> in_gamut c -> (forall p, In p (data b) -> same_color p c) ->
  num lo1 hi1 x -> num lo2 hi2 y -> get_pixel_bicubic m b x y = Ok r ->
  in_gamut r /\ forall d, In d [d0; d1; d2; d3] -> Rabs (B2R (d r) - B2R (d c)) <= / 50000.
Proof.
  intros V (G0 & G1 & G2 & G3) U Nx Ny H.
  apply bicubic_pixels in H as (p & I & ->); auto.
  pose proof (offset_range _ _ _ Nx) as Tx. pose proof (offset_range _ _ _ Ny) as Ty.
  set (tx := snd (get_base_and_offset x)) in *. set (ty := snd (get_base_and_offset y)) in *. cbv zeta.
  set (calc := fun d : col -> f32 =>
    cubic_hermite_interpolate
      (cubic_hermite_interpolate (d (p 0 0)%Z) (d (p 1 0)%Z) (d (p 2 0)%Z) (d (p 3 0)%Z) tx)
      (cubic_hermite_interpolate (d (p 0 1)%Z) (d (p 1 1)%Z) (d (p 2 1)%Z) (d (p 3 1)%Z) tx)
      (cubic_hermite_interpolate (d (p 0 2)%Z) (d (p 1 2)%Z) (d (p 2 2)%Z) (d (p 3 2)%Z) tx)
      (cubic_hermite_interpolate (d (p 0 3)%Z) (d (p 1 3)%Z) (d (p 2 3)%Z) (d (p 3 3)%Z) tx) ty).
  assert (K : forall d : col -> f32, in01 (d c) -> (forall p, same_color p c -> same (d p) (d c)) ->
    in01 (clamp (calc d)) /\ Rabs (B2R (clamp (calc d)) - B2R (d c)) <= / 50000).
  { intros d G S. apply in01_num in G as (Fc & Bc).
    assert (P : forall i j, near (B2R (d c)) 0 (d (p i j))).
    { intros i j. pose proof (S _ (U _ (I i j))) as Q. apply same_num in Q as (Fp & Q); auto. split; auto. rewrite Q, Rminus_eq_0, Rabs_R0. lra. }
    assert (Ln : forall j, near (B2R (d c)) (/ 800000) (cubic_hermite_interpolate (d (p 0 j)%Z) (d (p 1 j)%Z) (d (p 2 j)%Z) (d (p 3 j)%Z) tx)).
    { intros j. eapply near_weak; [apply (cubic_near _ 0); auto; lra|lra]. }
    assert (N : near (B2R (d c)) (/ 50000) (calc d)).
    { unfold calc. eapply near_weak; [apply (cubic_near _ (/ 800000)); auto; lra|lra]. }
    destruct (clamp_near _ _ _ Bc N) as [A B]. split; auto. now apply in01_num. }
  fold (calc d0). fold (calc d1). fold (calc d2). fold (calc d3).
  destruct (K d0 G0) as [K0 E0]; [intros q (? & _); auto|]. destruct (K d1 G1) as [K1 E1]; [intros q (_ & ? & _); auto|].
  destruct (K d2 G2) as [K2 E2]; [intros q (_ & _ & ? & _); auto|]. destruct (K d3 G3) as [K3 E3]; [intros q (_ & _ & _ & ?); auto|].
  split.
  - unfold in_gamut, rgb_new_with_alpha. cbn [d0 d1 d2 d3]. tauto.
  - intros d Hd. cbn [In] in Hd. destruct Hd as [<-|[<-|[<-|[<-|[]]]]]; assumption.
Qed.

(** The results are in gamut. *)
Lemma bilinear_gamut m b x y r lo1 hi1 lo2 hi2 : valid b -> Forall in_gamut (data b) ->
  num lo1 hi1 x -> num lo2 hi2 y -> get_pixel_bilinear m b x y = Ok r -> in_gamut r.
Proof.
  intros V U Nx Ny H. rewrite Forall_forall in U.
  apply bilinear_pixels in H as (c1 & c2 & c3 & c4 & I & ->); auto.
  rewrite Forall_forall in I.
  pose proof (offset_range _ _ _ Nx) as Tx. pose proof (offset_range _ _ _ Ny) as Ty.
  set (tx := snd (get_base_and_offset x)) in *. set (ty := snd (get_base_and_offset y)) in *.
  assert (K : forall d : col -> f32, (forall p, in_gamut p -> in01 (d p)) ->
    in01 (clamp (linear_interpolate (linear_interpolate (d c1) (d c2) tx) (linear_interpolate (d c3) (d c4) tx) ty))).
  { intros d G. apply clamp_in01. eapply ball_fin. apply lerp2_ball; auto; apply lerp_ball; auto; apply in01_num, G, U, I; simpl; auto. }
  unfold in_gamut, rgb_new_with_alpha. cbn [d0 d1 d2 d3].
  split; [|split; [|split]]; [apply (K d0)|apply (K d1)|apply (K d2)|apply (K d3)]; intros p (? & ? & ? & ?); auto.
Qed.
Lemma bicubic_gamut m b x y r lo1 hi1 lo2 hi2 : valid b -> Forall in_gamut (data b) ->
  num lo1 hi1 x -> num lo2 hi2 y -> get_pixel_bicubic m b x y = Ok r -> in_gamut r.
Proof.
  intros V U Nx Ny H. rewrite Forall_forall in U.
  apply bicubic_pixels in H as (p & I & ->); auto.
  pose proof (offset_range _ _ _ Nx) as Tx. pose proof (offset_range _ _ _ Ny) as Ty.
  set (tx := snd (get_base_and_offset x)) in *. set (ty := snd (get_base_and_offset y)) in *. cbv zeta.
  set (calc := fun d : col -> f32 =>
    cubic_hermite_interpolate
      (cubic_hermite_interpolate (d (p 0 0)%Z) (d (p 1 0)%Z) (d (p 2 0)%Z) (d (p 3 0)%Z) tx)
      (cubic_hermite_interpolate (d (p 0 1)%Z) (d (p 1 1)%Z) (d (p 2 1)%Z) (d (p 3 1)%Z) tx)
      (cubic_hermite_interpolate (d (p 0 2)%Z) (d (p 1 2)%Z) (d (p 2 2)%Z) (d (p 3 2)%Z) tx)
      (cubic_hermite_interpolate (d (p 0 3)%Z) (d (p 1 3)%Z) (d (p 2 3)%Z) (d (p 3 3)%Z) tx) ty).
  assert (K : forall d : col -> f32, (forall p, in_gamut p -> in01 (d p)) -> in01 (clamp (calc d))).
  { intros d G. apply clamp_in01. unfold calc.
    assert (P : forall i j, ball 1 (d (p i j))) by (intros; apply ball_01, in01_num, G, U, I).
    assert (Ln : forall j, ball 20 (cubic_hermite_interpolate (d (p 0 j)%Z) (d (p 1 j)%Z) (d (p 2 j)%Z) (d (p 3 j)%Z) tx)).
    { intros j. apply (cubic_ball 1); auto using ball_01; lia. }
    eapply ball_fin. apply (cubic_ball 20); auto using ball_01. lia. }
  fold (calc d0). fold (calc d1). fold (calc d2). fold (calc d3).
  unfold in_gamut, rgb_new_with_alpha. cbn [d0 d1 d2 d3].
  split; [|split; [|split]]; [apply (K d0)|apply (K d1)|apply (K d2)|apply (K d3)]; intros q (? & ? & ? & ?); auto.
Qed.

(** ** Rotation by 0 *)
Lemma half_of z : (Z.abs z < 2 ^ 24)%Z -> fmt (IZR z / 2).
Proof. intros H. replace (IZR z / 2) with (IZR z / IZR (2 ^ 1)) by reflexivity. apply fmt_dyad; lia. Qed.
Lemma rot0_coord x w y h s c (W : (0 <= x < w)%Z) (HH : (0 <= y < h)%Z) : (w <= 4194304)%Z -> (h <= 4194304)%Z ->
  fin s -> B2R s = 0 -> fin c -> B2R c = 1 ->
  let cx := fdiv (ofZ (w + 1)) f2 in let cy := fdiv (ofZ (h + 1)) f2 in
  let a := fsub (fadd (ofZ x) f1) cx in let b := fsub (fadd (ofZ y) f1) cy in
  (fin (fsub (fadd (fsub (fmul a c) (fmul b s)) cx) f1) /\ B2R (fsub (fadd (fsub (fmul a c) (fmul b s)) cx) f1) = IZR x) /\
  (fin (fsub (fadd (fadd (fmul a s) (fmul b c)) cy) f1) /\ B2R (fsub (fadd (fadd (fmul a s) (fmul b c)) cy) f1) = IZR y).
Proof.
  intros Bw Bh Fs Es Fc Ec cx cy a b.
  assert (C : forall n, (0 <= n <= 4194304)%Z -> fin (fdiv (ofZ (n + 1)) f2) /\ B2R (fdiv (ofZ (n + 1)) f2) = IZR (n + 1) / 2).
  { intros n Hn. destruct (ofZ_val (n + 1)) as [F E]; [lia|].
    destruct (fdiv_exact (ofZ (n + 1)) f2) as [F' E']; auto with fin.
    { rewrite f2_R. lra. } { rewrite E, f2_R. apply half_of. lia. } rewrite E, f2_R in E'. auto. }
  assert (A : forall i n, (0 <= i < n)%Z -> (n <= 4194304)%Z ->
    fin (fsub (fadd (ofZ i) f1) (fdiv (ofZ (n + 1)) f2)) /\ B2R (fsub (fadd (ofZ i) f1) (fdiv (ofZ (n + 1)) f2)) = IZR (2 * i + 1 - n) / 2).
  { intros i n Hi Hn. destruct (ofZ_val i) as [F E]; [lia|]. destruct (C n ltac:(lia)) as [F2 E2].
    destruct (fadd_exact (ofZ i) f1) as [F1 E1]; auto with fin. { rewrite E, f1_R, <- plus_IZR. apply fmt_IZR. lia. }
    rewrite E, f1_R in E1.
    assert (Q : B2R (fadd (ofZ i) f1) - B2R (fdiv (ofZ (n + 1)) f2) = IZR (2 * i + 1 - n) / 2).
    { rewrite E1, E2, minus_IZR, !plus_IZR, mult_IZR. lra. }
    destruct (fsub_exact (fadd (ofZ i) f1) (fdiv (ofZ (n + 1)) f2)) as [F3 E3]; auto.
    { rewrite Q. apply half_of. lia. }
    split; auto. lra. }
  destruct (A x w W Bw) as [Fa Ea]. destruct (A y h HH Bh) as [Fb Eb]. fold cx in Fa, Ea. fold cy in Fb, Eb. fold a in Fa, Ea. fold b in Fb, Eb.
  destruct (C w ltac:(lia)) as [Fcx Ecx]. destruct (C h ltac:(lia)) as [Fcy Ecy]. fold cx in Fcx, Ecx. fold cy in Fcy, Ecy.
  assert (M1 : forall v, fin v -> fin (fmul v c) /\ B2R (fmul v c) = B2R v).
  { intros v Fv. destruct (fmul_exact v c) as [F E]; auto. { rewrite Ec, Rmult_1_r. apply fmt_B2R. } rewrite Ec, Rmult_1_r in E. auto. }
  assert (M0 : forall v, fin v -> fin (fmul v s) /\ B2R (fmul v s) = 0).
  { intros v Fv. destruct (fmul_exact v s) as [F E]; auto. { rewrite Es, Rmult_0_r. auto with fmt. } rewrite Es, Rmult_0_r in E. auto. }
  destruct (M1 a Fa) as [Fac Eac]. destruct (M1 b Fb) as [Fbc Ebc]. destruct (M0 a Fa) as [Fas Eas]. destruct (M0 b Fb) as [Fbs Ebs].
  assert (Fin : forall v z n d, (0 <= z < n)%Z -> (n <= 4194304)%Z -> fin v -> B2R v = IZR (2 * z + 1 - n) / 2 -> fin d -> B2R d = IZR (n + 1) / 2 ->
    fin (fsub (fadd v d) f1) /\ B2R (fsub (fadd v d) f1) = IZR z).
  { intros v z n d Hz Hn Fv Ev Fd Ed.
    assert (Q : B2R v + B2R d = IZR (z + 1)).
    { rewrite Ev, Ed, minus_IZR, !plus_IZR, mult_IZR. lra. }
    destruct (fadd_exact v d) as [F1 E1]; auto. { rewrite Q. apply fmt_IZR. lia. }
    assert (Q2 : B2R (fadd v d) - 1 = IZR z). { rewrite E1, Q, plus_IZR. lra. }
    destruct (fsub_exact (fadd v d) f1) as [F2 E2]; auto with fin. { rewrite f1_R, Q2. apply fmt_IZR. lia. }
    rewrite f1_R in E2. split; auto. lra. }
  split.
  - assert (Q : B2R (fmul a c) - B2R (fmul b s) = B2R a) by lra.
    destruct (fsub_exact (fmul a c) (fmul b s)) as [F E]; auto. { rewrite Q. apply fmt_B2R. }
    apply (Fin _ x w); auto. lra.
  - assert (Q : B2R (fmul a s) + B2R (fmul b c) = B2R b) by lra.
    destruct (fadd_exact (fmul a s) (fmul b c)) as [F E]; auto. { rewrite Q. apply fmt_B2R. }
    apply (Fin _ y h); auto. lra.
Qed.

Lemma int_base v z : fin v -> B2R v = IZR z -> (-2147483648 <= z <= 2147483647)%Z ->
  fst (get_base_and_offset v) = z /\ num 0 0 (snd (get_base_and_offset v)) /\ f_as_i32 (fround v) = z.
Proof.
  intros F E Z. unfold get_base_and_offset. cbn [fst snd].
  destruct (ffloor_val v F) as [Ff Ef]. rewrite E, Zfloor_IZR in Ef.
  destruct (fround_val v F) as [Fr Er]. rewrite E in Er.
  assert (K : ZnearestA (IZR z) = z). { pose proof (Znearest_N_strict (Zle_bool 0) (IZR z)). apply Znearest_imp. rewrite Rminus_eq_0, Rabs_R0. lra. }
  rewrite K in Er. unfold f_as_i32. rewrite (cast_int _ _ _ _ Ff Ef), (cast_int _ _ _ _ Fr Er).
  destruct (fsub_exact v (ffloor v)) as [F1 E1]; auto. { rewrite E, Ef, Rminus_eq_0. auto with fmt. }
  split; [lia|]. split; [|lia]. split; auto. rewrite E1, E, Ef. lra.
Qed.

Lemma lerp_0 a b t : num 0 1 a -> num 0 1 b -> num 0 0 t ->
  num 0 1 (linear_interpolate a b t) /\ B2R (linear_interpolate a b t) = B2R a.
Proof.
  intros [Fa Ba] [Fb Bb] [Ft Bt]. unfold linear_interpolate. assert (T : B2R t = 0) by lra.
  destruct (fsub_num b a (-1) 1) as [[F1 N1] _]; auto with fmt; [lra|].
  destruct (fmul_exact (fsub b a) t) as [F2 E2]; auto. { rewrite T, Rmult_0_r. auto with fmt. }
  rewrite T, Rmult_0_r in E2.
  destruct (fadd_exact a (fmul (fsub b a) t)) as [F3 E3]; auto. { rewrite E2, Rplus_0_r. apply fmt_B2R. }
  rewrite E2, Rplus_0_r in E3. split; auto. split; auto. lra.
Qed.
Lemma cubic_0 v1 v2 v3 v4 t : num 0 1 v1 -> num 0 1 v2 -> num 0 1 v3 -> num 0 1 v4 -> num 0 0 t ->
  num 0 1 (cubic_hermite_interpolate v1 v2 v3 v4 t) /\ B2R (cubic_hermite_interpolate v1 v2 v3 v4 t) = B2R v2.
Proof.
  intros N1 N2 N3 N4 [Ft Bt].
  assert (H1 := ball_01 _ N1). assert (H2 := ball_01 _ N2). assert (H3 := ball_01 _ N3). assert (H4 := ball_01 _ N4).
  assert (T : B2R t = 0) by lra. unfold cubic_hermite_interpolate.
  pose proof (ball_ofZ 3 ltac:(lia)) as B3. pose proof (ball_ofZ 5 ltac:(lia)) as B5. pose proof ball_f2 as B2.
  assert (O1 : ball 8 (fadd (fsub (fadd (fdiv (fneg v1) f2) (fdiv (fmul (ofZ 3) v2) f2)) (fdiv (fmul (ofZ 3) v3) f2)) (fdiv v4 f2))).
  { change 8%Z with (1 + 3 * 1 + 3 * 1 + 1)%Z.
    apply ball_add; try lia; [apply ball_sub; try lia; [apply ball_add; try lia|]|]; apply ball_half; try lia; auto using ball_neg;
    apply ball_mul; try lia; auto. }
  assert (O2 : ball 9 (fsub (fadd (fsub v1 (fdiv (fmul (ofZ 5) v2) f2)) (fmul f2 v3)) (fdiv v4 f2))).
  { change 9%Z with (1 + 5 * 1 + 2 * 1 + 1)%Z.
    apply ball_sub; try lia; [apply ball_add; try lia; [apply ball_sub; try lia; auto|]|]; try (apply ball_half; try lia; auto);
    apply ball_mul; try lia; auto. }
  assert (O3 : ball 2 (fadd (fdiv (fneg v1) f2) (fdiv v3 f2))).
  { change 2%Z with (1 + 1)%Z. apply ball_add; try lia; apply ball_half; try lia; auto using ball_neg. }
  set (o1 := fadd _ (fdiv v4 f2)) in *. set (o2 := fsub _ (fdiv v4 f2)) in *. set (o3 := fadd (fdiv (fneg v1) f2) (fdiv v3 f2)) in *.
  assert (M0 : forall v, fin v -> fin (fmul v t) /\ B2R (fmul v t) = 0).
  { intros v Fv. destruct (fmul_exact v t) as [F E]; auto. { rewrite T, Rmult_0_r. auto with fmt. } rewrite T, Rmult_0_r in E. auto. }
  assert (A0 : forall u v, fin u -> fin v -> B2R u = 0 -> fin (fadd u v) /\ B2R (fadd u v) = B2R v).
  { intros u v Fu Fv Eu. destruct (fadd_exact u v) as [F E]; auto. { rewrite Eu, Rplus_0_l. apply fmt_B2R. } rewrite Eu, Rplus_0_l in E. auto. }
  destruct O1 as [Fo1 _], O2 as [Fo2 _], O3 as [Fo3 _].
  destruct (M0 o1 Fo1) as [P1 Q1]. destruct (M0 _ P1) as [P2 Q2]. destruct (M0 _ P2) as [P3 Q3].
  destruct (M0 o2 Fo2) as [R1 S1]. destruct (M0 _ R1) as [R2 S2]. destruct (M0 o3 Fo3) as [U1 V1].
  destruct (A0 _ _ P3 R2 Q3) as [W1 X1]. rewrite S2 in X1. destruct (A0 _ _ W1 U1 X1) as [W2 X2]. rewrite V1 in X2.
  destruct N2 as [F2 N2].
  destruct (A0 _ _ W2 F2 X2) as [W3 X3].
  split; auto. split; auto. lra.
Qed.

Section rotate0.
Open Scope Z_scope.

(** With whole-numbered coordinates the filters return the pixel there. *)
Lemma bilinear_at_int m (b : PixelBuffer Rgb) x y zx zy (c r : Rgb) : valid b -> Forall in_gamut (data b) -> inside b zx zy ->
  fin x -> B2R x = IZR zx -> fin y -> B2R y = IZR zy ->
  get_pixel m b zx zy = Ok c -> get_pixel_bilinear m b x y = Ok r -> same_color r c.
Proof.
  intros V U I Fx Ex Fy Ey G H. pose proof (valid_bounds b V) as B. rewrite Forall_forall in U.
  destruct I as (Ix & Iy).
  destruct (int_base x zx Fx Ex ltac:(lia)) as (Bx & Tx & _). destruct (int_base y zy Fy Ey ltac:(lia)) as (By & Ty & _).
  unfold get_pixel_bilinear in H. destruct (get_base_and_offset x) as (x' & tx), (get_base_and_offset y) as (y' & ty).
  cbn [fst snd] in *. subst x' y'. cbv beta iota zeta in H.
  assert (E1 : get_pixel_clamped m b zx zy = Ok c).
  { rewrite get_pixel_clamped_eq; auto; [|split; lia]. rewrite !clampZ_id by lia. exact G. }
  rewrite E1 in H. cbn [bind] in H.
  destruct (i32 m (zx + 1)) as [x1|]; [|discriminate]. cbn [bind] in H.
  destruct (get_pixel_clamped m b x1 zy) as [c2|] eqn:E2; [|discriminate]. cbn [bind] in H.
  destruct (i32 m (zy + 1)) as [y1|]; [|discriminate]. cbn [bind] in H.
  destruct (get_pixel_clamped m b zx y1) as [c3|] eqn:E3; [|discriminate]. cbn [bind] in H.
  destruct (get_pixel_clamped m b x1 y1) as [c4|] eqn:E4; [|discriminate]. cbn [bind] in H.
  apply (f_equal (fun o => match o with Ok v => v | Panic => r end)) in H. cbn beta iota in H. subst r.
  apply clamped_In in E1, E2, E3, E4; auto.
  assert (K : forall d : col -> f32, (forall p, in_gamut p -> in01 (d p)) ->
    same (clamp (linear_interpolate (linear_interpolate (d c) (d c2) tx) (linear_interpolate (d c3) (d c4) tx) ty)) (d c)).
  { intros d Gd. assert (N : forall p, In p (data b) -> num 0 1 (d p)) by (intros p Ip; apply in01_num, Gd, U, Ip).
    destruct (lerp_0 (d c) (d c2) tx) as [A EA]; auto. destruct (lerp_0 (d c3) (d c4) tx) as [A2 EA2]; auto.
    destruct (lerp_0 _ _ ty A A2 Ty) as [A3 EA3].
    rewrite clamp_id by (apply in01_num; exact A3). apply feq_R; [apply A3|apply (N c E1)|]. congruence. }
  unfold same_color, rgb_new_with_alpha. cbn [d0 d1 d2 d3].
  split; [|split; [|split]]; [apply (K d0)|apply (K d1)|apply (K d2)|apply (K d3)]; intros p (? & ? & ? & ?); auto.
Qed.

Lemma bicubic_at_int m (b : PixelBuffer Rgb) x y zx zy (c r : Rgb) : valid b -> Forall in_gamut (data b) -> inside b zx zy ->
  fin x -> B2R x = IZR zx -> fin y -> B2R y = IZR zy ->
  get_pixel m b zx zy = Ok c -> get_pixel_bicubic m b x y = Ok r -> same_color r c.
Proof.
  intros V U I Fx Ex Fy Ey G H. pose proof (valid_bounds b V) as B. rewrite Forall_forall in U.
  destruct I as (Ix & Iy).
  destruct (int_base x zx Fx Ex ltac:(lia)) as (Bx & Tx & _). destruct (int_base y zy Fy Ey ltac:(lia)) as (By & Ty & _).
  unfold get_pixel_bicubic in H. destruct (get_base_and_offset x) as (x' & tx), (get_base_and_offset y) as (y' & ty).
  cbn [fst snd] in *. subst x' y'. cbv beta iota zeta in H.
  set (row := fun dy => xm <- i32 m (zx - 1); yy <- i32 m (zy + dy); a <- get_pixel_clamped m b xm yy; c <- get_pixel_clamped m b zx yy;
    xp <- i32 m (zx + 1); d <- get_pixel_clamped m b xp yy; xq <- i32 m (zx + 2); e <- get_pixel_clamped m b xq yy; Ok (a, c, d, e)) in H.
  assert (R : forall dy q, row dy = Ok q -> exists a c d e, In a (data b) /\ In c (data b) /\ In d (data b) /\ In e (data b) /\ q = (a, c, d, e) /\
     (dy = 0 -> get_pixel_clamped m b zx zy = Ok c)).
  { intros dy q. unfold row.
    destruct (i32 m (zx - 1)) as [xm|]; [|discriminate]. cbn [bind].
    destruct (i32 m (zy + dy)) as [yy|] eqn:Ei; [|discriminate]. cbn [bind].
    destruct (get_pixel_clamped m b xm yy) as [a|] eqn:E1; [|discriminate]. cbn [bind].
    destruct (get_pixel_clamped m b zx yy) as [c'|] eqn:E2; [|discriminate]. cbn [bind].
    destruct (i32 m (zx + 1)) as [xp|]; [|discriminate]. cbn [bind].
    destruct (get_pixel_clamped m b xp yy) as [d|] eqn:E3; [|discriminate]. cbn [bind].
    destruct (i32 m (zx + 2)) as [xq|]; [|discriminate]. cbn [bind].
    destruct (get_pixel_clamped m b xq yy) as [e|] eqn:E4; [|discriminate]. cbn [bind].
    intros Hq. injection Hq as <-. exists a, c', d, e.
    split; [|split; [|split; [|split; [|split]]]]; try (eapply clamped_In; eassumption); auto.
    intros ->. rewrite Z.add_0_r, i32_ok in Ei by lia. injection Ei as <-. exact E2. }
  fold (row (-1)) in H. fold (row 0) in H. fold (row 1) in H. fold (row 2) in H.
  destruct (row (-1)) as [q0|] eqn:E0; [|discriminate]. cbn [bind] in H.
  destruct (row 0) as [q1|] eqn:E1; [|discriminate]. cbn [bind] in H.
  destruct (row 1) as [q2|] eqn:E2; [|discriminate]. cbn [bind] in H.
  destruct (row 2) as [q3|] eqn:E3; [|discriminate]. cbn [bind] in H.
  destruct (R _ _ E0) as (a0 & b0 & c0 & e0 & Ia0 & Ib0 & Ic0 & Ie0 & -> & _).
  destruct (R _ _ E1) as (a1 & b1 & c1 & e1 & Ia1 & Ib1 & Ic1 & Ie1 & -> & Hc).
  destruct (R _ _ E2) as (a2 & b2 & c2 & e2 & Ia2 & Ib2 & Ic2 & Ie2 & -> & _).
  destruct (R _ _ E3) as (a3 & b3 & c3 & e3 & Ia3 & Ib3 & Ic3 & Ie3 & -> & _).
  specialize (Hc eq_refl).
  assert (Ec : get_pixel_clamped m b zx zy = Ok c).
  { rewrite get_pixel_clamped_eq; auto; [|split; lia]. rewrite !clampZ_id by lia. exact G. }
  rewrite Ec in Hc. injection Hc as <-. clear Ec E0 E1 E2 E3 R.
  apply (f_equal (fun o => match o with Ok v => v | Panic => r end)) in H. cbn beta iota in H. subst r.
  assert (K : forall d : col -> f32, (forall p, in_gamut p -> in01 (d p)) ->
    same (clamp (cubic_hermite_interpolate
      (cubic_hermite_interpolate (d a0) (d b0) (d c0) (d e0) tx) (cubic_hermite_interpolate (d a1) (d c) (d c1) (d e1) tx)
      (cubic_hermite_interpolate (d a2) (d b2) (d c2) (d e2) tx) (cubic_hermite_interpolate (d a3) (d b3) (d c3) (d e3) tx) ty)) (d c)).
  { intros d Gd. assert (N : forall p, In p (data b) -> num 0 1 (d p)) by (intros p Ip; apply in01_num, Gd, U, Ip).
    destruct (cubic_0 (d a0) (d b0) (d c0) (d e0) tx) as [A0 _]; auto.
    destruct (cubic_0 (d a1) (d c) (d c1) (d e1) tx) as [A1 EA1]; auto.
    destruct (cubic_0 (d a2) (d b2) (d c2) (d e2) tx) as [A2 _]; auto.
    destruct (cubic_0 (d a3) (d b3) (d c3) (d e3) tx) as [A3 _]; auto.
    destruct (cubic_0 _ _ _ _ ty A0 A1 A2 A3 Ty) as [A EA].
    rewrite clamp_id by (apply in01_num; exact A). apply feq_R; [apply A|apply (N c Ib1)|]. congruence. }
  unfold same_color, rgb_new_with_alpha. cbn [d0 d1 d2 d3].
  split; [|split; [|split]]; [apply (K d0)|apply (K d1)|apply (K d2)|apply (K d3)]; intros p (? & ? & ? & ?); auto.
Qed.

Lemma rotate_0 L m (b : PixelBuffer Rgb) bg f r : valid b -> Forall in_gamut (data b) -> width b <= 4194304 -> height b <= 4194304 ->
  f <> Lanczos3 -> (forall z, same z f0 -> same (fsin L z) f0 /\ same (fcos L z) f1) ->
  rotate L m b f0 bg f = Ok r ->
  forall x y (c : Rgb), inside b x y -> get_pixel m b x y = Ok c -> exists c', get_pixel m r x y = Ok c' /\ same_color c' c.
Proof.
  intros V U Bw Bh NL HL H x y c I G. unfold rotate in H.
  replace (flt (fabs (fsub f0 (ofZ 360))) f32_EPSILON) with false in H by (vm_compute; reflexivity).
  destruct (HL (fmul (fdiv f0 (ofZ (-180))) fPI)) as [S C]; [vm_compute; reflexivity|].
  apply same_num in S as (Fs & Es); auto with fin. apply same_num in C as (Fc & Ec); auto with fin.
  rewrite f0_R in Es. rewrite f1_R in Ec.
  pose proof (valid_bounds b V) as Bb.
  assert (W : forall func, rotate_with_fn L m b f0 bg func = Ok r -> exists xx yy o,
     fin xx /\ B2R xx = IZR x /\ fin yy /\ B2R yy = IZR y /\ func b xx yy = Ok o /\
     get_pixel m r x y = Ok (match o with Some c => c | None => bg end)).
  { intros func HW. unfold rotate_with_fn in HW. rewrite u32_ok in HW by lia. cbn [bind] in HW. rewrite u32_ok in HW by lia. cbn [bind] in HW.
    destruct (new_from_fn_inv _ _ _ _ _ (proj1 V) HW) as (Vr & Wr & Hr & Gr).
    assert (Ir : inside r x y) by (destruct I; split; lia).
    destruct (get_pixel_inside m r x y Vr Ir) as (p & Ep).
    pose proof (Gr m x y Ir) as Q. rewrite Ep in Q. cbv zeta in Q.
    destruct I as (Ix & Iy).
    destruct (rot0_coord x (width b) y (height b) _ _ Ix Iy Bw Bh Fs Es Fc Ec) as ((F1 & E1) & (F2 & E2)).
    match type of Q with context [func b ?u ?v] => exists u, v; destruct (func b u v) as [o|]; [|discriminate Q] end.
    cbn [bind] in Q. exists o. rewrite Ep. auto 10. }
  assert (Lem : forall g : PixelBuffer Rgb -> f32 -> f32 -> res Rgb,
    (forall xx yy c', fin xx -> B2R xx = IZR x -> fin yy -> B2R yy = IZR y -> g b xx yy = Ok c' -> same_color c' c) ->
    rotate_with_fn L m b f0 bg (rotate_pixel_with g) = Ok r -> exists c', get_pixel m r x y = Ok c' /\ same_color c' c).
  { intros g Hg Hr. destruct (W _ Hr) as (xx & yy & o & F1 & E1 & F2 & E2 & Eo & Ep).
    unfold rotate_pixel_with in Eo. destruct I as (Ix & Iy).
    destruct (int_base xx x F1 E1 ltac:(lia)) as (_ & _ & Rx). destruct (int_base yy y F2 E2 ltac:(lia)) as (_ & _ & Ry).
    rewrite Rx, Ry in Eo. rewrite (proj2 (is_in_image_spec b x y V)) in Eo by (split; auto).
    destruct (g b xx yy) as [c'|] eqn:Eg; [|discriminate]. cbn [bind] in Eo. injection Eo as <-.
    exists c'. split; auto. exact (Hg xx yy c' F1 E1 F2 E2 Eg). }
  destruct f.
  - destruct (W _ H) as (xx & yy & o & F1 & E1 & F2 & E2 & Eo & Ep).
    unfold rotate_pixel_nearest in Eo. pose proof I as (Ix & Iy).
    destruct (int_base xx x F1 E1 ltac:(lia)) as (_ & _ & Rx). destruct (int_base yy y F2 E2 ltac:(lia)) as (_ & _ & Ry).
    rewrite Rx, Ry, get_pixel_optional_in in Eo by auto. rewrite G in Eo. cbn [bind] in Eo. injection Eo as <-.
    exists c. split; auto.
    assert (Gc : in_gamut c). { rewrite Forall_forall in U. apply U. apply (data_In m); eauto. }
    destruct Gc as (G0 & G1 & G2 & G3). apply in01_num in G0, G1, G2, G3.
    assert (Sm : forall v, num 0 1 v -> same v v) by (intros v [Fv _]; apply feq_R; auto).
    split; [|split; [|split]]; apply Sm; assumption.
  - eapply Lem; [|exact H]. intros xx yy c' A1 A2 A3 A4 A5. exact (bilinear_at_int m b xx yy x y c c' V U I A1 A2 A3 A4 G A5).
  - eapply Lem; [|exact H]. intros xx yy c' A1 A2 A3 A4 A5. exact (bicubic_at_int m b xx yy x y c c' V U I A1 A2 A3 A4 G A5).
  - congruence.
  - eapply Lem; [|exact H]. intros xx yy c' A1 A2 A3 A4 A5. exact (bicubic_at_int m b xx yy x y c c' V U I A1 A2 A3 A4 G A5).
Qed.
End rotate0.

Section uniform.
Open Scope Z_scope.
Lemma resize_num m b w h f func r (P : Rgb -> Prop) : valid b -> nonempty b -> valid_size w h ->
  (forall lo1 hi1 lo2 hi2 x y c, num lo1 hi1 x -> num lo2 hi2 y -> func m b x y = Ok c -> P c) ->
  f = (fun b x y sx sy => func m b (source_pos x sx) (source_pos y sy)) ->
  resize_with_fn m b w h f = Ok r -> forall c, In c (data r) -> P c.
Proof.
  intros V N Vs HP -> H c I. pose proof (valid_bounds b V) as Bb. pose proof (valid_size_bounds w h Vs) as Bs. destruct N as (Nw & Nh).
  unfold resize_with_fn in H. destruct (new_from_fn_In _ _ _ _ _ _ Vs H I) as (x & y & Hx & Hy & E).
  eapply HP; [| |exact E]; apply source_pos_bounds; lia.
Qed.

(** The common case analysis for an image property of the clamping filters. *)
Lemma resize_filters L m b w h f r (P : Rgb -> Prop) : valid b -> nonempty b -> valid_size w h -> In f [Nearest; Bilinear; Bicubic] ->
  (forall c, In c (data b) -> P c) ->
  (f = Bilinear -> forall lo1 hi1 lo2 hi2 x y c, num lo1 hi1 x -> num lo2 hi2 y -> get_pixel_bilinear m b x y = Ok c -> P c) ->
  (f = Bicubic -> forall lo1 hi1 lo2 hi2 x y c, num lo1 hi1 x -> num lo2 hi2 y -> get_pixel_bicubic m b x y = Ok c -> P c) ->
  resize L m b w h f = Ok r -> forall c, In c (data r) -> P c.
Proof.
  intros V N Vs Hf H0 H1 H2 H c I. pose proof (valid_size_bounds w h Vs) as Bs.
  unfold resize in H. destruct (_ && _) eqn:E. { injection H as <-. auto. }
  cbn [In] in Hf. destruct Hf as [<-|[<-|[<-|[]]]].
  - apply H0. apply (nearest_In L m b w h r); auto; [lia|lia|]. unfold resize. rewrite E. exact H.
  - exact (resize_num m b w h _ get_pixel_bilinear r P V N Vs (H1 eq_refl) eq_refl H c I).
  - exact (resize_num m b w h _ get_pixel_bicubic r P V N Vs (H2 eq_refl) eq_refl H c I).
Qed.

Lemma resize_gamut L m b w h f r : valid b -> nonempty b -> valid_size w h -> In f [Nearest; Bilinear; Bicubic] ->
  Forall in_gamut (data b) -> resize L m b w h f = Ok r -> Forall in_gamut (data r).
Proof.
  intros V N Vs Hf U H. apply Forall_forall. revert H. apply (resize_filters L m b w h f r in_gamut); auto.
  - now apply Forall_forall.
  - intros _ lo1 hi1 lo2 hi2 x y c A B. exact (bilinear_gamut m b x y c lo1 hi1 lo2 hi2 V U A B).
  - intros _ lo1 hi1 lo2 hi2 x y c A B. exact (bicubic_gamut m b x y c lo1 hi1 lo2 hi2 V U A B).
Qed.

Lemma resize_uniform L m b w h f r k : valid b -> nonempty b -> valid_size w h -> In f [Nearest; Bilinear] ->
  in_gamut k -> (forall c, In c (data b) -> same_color c k) -> resize L m b w h f = Ok r -> forall c, In c (data r) -> same_color c k.
Proof.
  intros V N Vs Hf G U H. revert H. apply (resize_filters L m b w h f r (fun c => same_color c k)); auto.
  - cbn [In] in *. tauto.
  - intros _ lo1 hi1 lo2 hi2 x y c A B. exact (uniform_bilinear m b x y c k lo1 hi1 lo2 hi2 V G U A B).
  - intros ->. cbn [In] in Hf. exfalso. intuition discriminate.
Qed.

Lemma resize_uniform_bicubic L m b w h r k : valid b -> nonempty b -> valid_size w h ->
  in_gamut k -> (forall c, In c (data b) -> same_color c k) -> resize L m b w h Bicubic = Ok r ->
  forall c, In c (data r) -> forall d, In d [d0; d1; d2; d3] -> (Rabs (B2R (d c) - B2R (d k)) <= / 50000)%R.
Proof.
  intros V N Vs G U H. revert H.
  apply (resize_filters L m b w h Bicubic r (fun c => forall d, In d [d0; d1; d2; d3] -> (Rabs (B2R (d c) - B2R (d k)) <= / 50000)%R)); auto.
  - cbn [In]. auto.
  - intros c I d Hd. destruct (U c I) as (S0 & S1 & S2 & S3). destruct G as (G0 & G1 & G2 & G3).
    apply in01_num in G0 as (F0 & _), G1 as (F1 & _), G2 as (F2 & _), G3 as (F3 & _).
    apply same_num in S0 as (_ & S0), S1 as (_ & S1), S2 as (_ & S2), S3 as (_ & S3); auto.
    cbn [In] in Hd. destruct Hd as [<-|[<-|[<-|[<-|[]]]]]; rewrite ?S0, ?S1, ?S2, ?S3, Rminus_eq_0, Rabs_R0; lra.
  - discriminate.
  - intros _ lo1 hi1 lo2 hi2 x y c A B C. exact (proj2 (uniform_bicubic m b x y c k lo1 hi1 lo2 hi2 V G U A B C)).
Qed.

Lemma nearest_upscale L m b k : valid b -> nonempty b -> 0 < k -> valid_size (k * width b) (k * height b) ->
  k * width b <= 1048576 -> k * height b <= 1048576 ->
  exists r, resize L m b (k * width b) (k * height b) Nearest = Ok r /\ valid r /\ width r = k * width b /\ height r = k * height b /\
  forall x y, inside r x y ->
    get_pixel m r x y = get_pixel m b (Z.min ((2 * x + k) / (2 * k)) (width b - 1)) (Z.min ((2 * y + k) / (2 * k)) (height b - 1)).
Proof.
  intros V N K Vs Bw Bh. pose proof N as (Nw & Nh).
  destruct (resize_ok L m b (k * width b) (k * height b) Nearest V N Vs) as (r & E & Vr & Wr & Hr); [discriminate|].
  exists r. repeat (split; [assumption|]). intros x y (Ix & Iy). rewrite Wr in Ix. rewrite Hr in Iy.
  assert (C : forall z n, 0 <= z < n -> 0 < n -> clampZ z n = z) by (intros; now apply clampZ_id).
  assert (Q : forall z, 0 <= z -> 0 <= (2 * z + k) / (2 * k)) by (intros; apply Z.div_pos; lia).
  unfold resize in E. destruct ((width b =? k * width b) && (height b =? k * height b)) eqn:T.
  - apply andb_prop in T as (T1 & _). apply Z.eqb_eq in T1. assert (k = 1) by nia. subst k. injection E as <-.
    assert (S : forall z n, 0 <= z < n -> Z.min ((2 * z + 1) / (2 * 1)) (n - 1) = z).
    { intros z n Hz. replace ((2 * z + 1) / (2 * 1)) with z; [lia|]. apply Z.div_unique with 1; lia. }
    rewrite !S by lia. reflexivity.
  - unfold resize_with_fn in E. destruct (new_from_fn_inv _ _ _ _ _ Vs E) as (_ & _ & _ & G).
    rewrite G by (split; lia). unfold resize_pixel_nearest.
    rewrite !nearest_index by lia. rewrite get_pixel_clamped_eq by auto. unfold clampZ.
    pose proof (Q x ltac:(lia)) as Qx. pose proof (Q y ltac:(lia)) as Qy. clear - Qx Qy Nw Nh.
    generalize dependent ((2 * x + k) / (2 * k)). generalize dependent ((2 * y + k) / (2 * k)). intros qy Qy qx Qx.
    rewrite !Z.max_r by lia. reflexivity.
Qed.
End uniform.
