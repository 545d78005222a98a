(** Edge detection, symmetric nearest neighbour and drawing. *)
From Coq Require Import ZArith List Bool Lia Reals Lra Psatz.
From Flocq Require Import Core.Core IEEE754.BinarySingleNaN.
From Verif Require Import Base PixelBuffer BaseLemmas BufferSpec PixelBufferProofs EnumProofs Geometry GeometryProofs.
From Verif Require Import F32 Color F32Lemmas ColorSpec ColorProofs Kernel KernelSpec KernelProofs.
From Verif Require Import ComposeProofs ResampleProofs Kernel2Proofs GaussProofs Gauss2Proofs FilterProofs.
Import ListNotations.
Open Scope Z_scope.

(** * Small convolutions in real numbers *)

Lemma fmt_small_int z : (Z.abs z < 16777216)%Z -> fmt (IZR z).
Proof. intros H. apply fmt_IZR. lia. Qed.

Lemma conv_real pick l : forall a n, fin a -> (Rabs (B2R a) <= 8 * IZR n)%R -> 0 <= n -> n + zlen l <= 9 ->
  (forall p, In p l -> num (-8) 8 (fst p) /\ num 0 1 (pick (snd p))) ->
  let r := fold_left fadd (map (fun p => fmul (fst p) (pick (snd p))) l) a in
  fin r /\ (Rabs (B2R r) <= 8 * IZR (n + zlen l))%R /\
  (Rabs (B2R r - (B2R a + exact_sum pick l)) <= IZR (zlen l) * (/ 4194304 + / 262144))%R.
Proof.
  induction l as [|[k c] l IH]; intros a n Fa Ra Hn Hl Hp r; subst r; cbn [map fold_left exact_sum fold_right].
  - split; [auto|]. change (zlen (@nil (f32 * Rgb))) with 0. rewrite Z.add_0_r. split; [auto|].
    replace (B2R a - (B2R a + 0))%R with 0%R by ring. rewrite Rabs_R0. lra.
  - rewrite zlen_cons in *. pose proof (zlen_nonneg l).
    destruct (Hp (k, c) (or_introl eq_refl)) as [[Fk Rk] [Fc Rc]]. cbn [fst snd] in *.
    destruct (fmul_num k (pick c) (-8) 8) as [[Fm Rm] Em]; auto.
    { apply (fmt_small_int (-8)); lia. } { apply (fmt_small_int 8); lia. } { nra. }
    assert (Em2 : (Rabs (B2R (fmul k (pick c)) - B2R k * B2R (pick c)) <= / 4194304)%R).
    { rewrite Em. pose proof (rnd_err (B2R k * B2R (pick c)) 3 ltac:(lia)) as Er.
      rewrite (bp 3 8 eq_refl) in Er. assert (Hb : (bpow radix2 (3 - 25) = / 4194304)%R) by (unfold bpow; reflexivity).
      rewrite Hb in Er. apply Er. apply Rabs_le. nra. }
    assert (Ra' : (Rabs (B2R a + B2R (fmul k (pick c))) <= 8 * IZR (n + 1))%R).
    { rewrite plus_IZR. apply Rabs_le. apply Rabs_le_inv in Ra. lra. }
    destruct (fadd_num a (fmul k (pick c)) (IZR (- (8 * (n + 1)))) (IZR (8 * (n + 1)))) as [[Fs Rs] Es]; auto.
    { apply fmt_small_int; lia. } { apply fmt_small_int; lia. }
    { rewrite opp_IZR, mult_IZR. apply Rabs_le_inv in Ra'. lra. }
    rewrite opp_IZR, mult_IZR in Rs.
    destruct (IH (fadd a (fmul k (pick c))) (n + 1)) as [F [B D]]; auto; try lia.
    { apply Rabs_le. lra. }
    { intros p Hq. apply Hp. right. auto. }
    split; [exact F|]. split.
    { replace (n + (zlen l + 1)) with (n + 1 + zlen l) by lia. exact B. }
    assert (Es2 : (Rabs (B2R (fadd a (fmul k (pick c))) - (B2R a + B2R (fmul k (pick c)))) <= / 262144)%R).
    { rewrite Es. pose proof (rnd_err (B2R a + B2R (fmul k (pick c))) 7 ltac:(lia)) as Er.
      rewrite (bp 7 128 eq_refl) in Er. assert (Hb : (bpow radix2 (7 - 25) = / 262144)%R) by (unfold bpow; reflexivity).
      rewrite Hb in Er. apply Er. assert (IZR (n + 1) <= 9)%R by (apply IZR_le; lia). lra. }
    fold (exact_sum pick l). rewrite plus_IZR.
    apply Rabs_le. apply Rabs_le_inv in D. apply Rabs_le_inv in Em2. apply Rabs_le_inv in Es2. lra.
Qed.

Lemma conv_channel m (b : PixelBuffer Rgb) k out pick x y c : valid b -> (forall c, In c (data b) -> in_gamut c) ->
  zlen k = 9 -> (forall v, In v k -> num (-8) 8 v) -> is_convolution m b 3 3 k out -> inside b x y ->
  get_pixel m out x y = Ok c -> channel pick ->
  exists ps, neighbourhood m b 3 3 x y = Ok ps /\ pick c = weighted_channel pick (combine k ps) /\
    fin (pick c) /\ (Rabs (B2R (pick c)) <= 72)%R /\ (Rabs (B2R (pick c) - exact_sum pick (combine k ps)) <= / 16384)%R.
Proof.
  intros V G L K (Vo & W & H & P) I Hc Cp. destruct (P x y I) as [ps [Hps Hr]]. rewrite Hc in Hr. apply Ok_inj in Hr. subst c.
  exists ps. split; [auto|].
  assert (E : pick (weighted_sum (combine k ps)) = weighted_channel pick (combine k ps)).
  { destruct Cp as [-> | [-> | [-> | ->]]]; reflexivity. }
  split; [auto|]. rewrite E, weighted_channel_fold.
  assert (Lc : zlen (combine k ps) <= 9).
  { unfold zlen in *. rewrite combine_length. lia. }
  destruct (conv_real pick (combine k ps) f0 0) as [F [B D]]; auto with fin; try lia.
  { rewrite f0_R, Rabs_R0. lra. }
  { intros [kv q] Hq. cbn [fst snd]. split; [apply K; eapply in_combine_l; eauto|].
    apply gamut_channel; auto. apply G. eapply neighbourhood_In; eauto. eapply in_combine_r; eauto. }
  split; [exact F|]. rewrite f0_R in D.
  assert (IZR (0 + zlen (combine k ps)) <= 9)%R by (apply IZR_le; lia).
  assert (IZR (zlen (combine k ps)) <= 9)%R by (apply IZR_le; lia).
  split; [lra|]. rewrite Rplus_0_l in D. eapply Rle_trans; [exact D|].
  assert (0 <= IZR (zlen (combine k ps)))%R by (apply IZR_le, zlen_nonneg). nra.
Qed.

(** * Edge detection *)

Lemma kernel_entries k : (forall v, In v k -> exists z, -8 <= z <= 8 /\ v = ofZ z) -> forall v, In v k -> num (-8) 8 v.
Proof.
  intros H v Hv. destruct (H v Hv) as [z [Hz ->]]. destruct (ofZ_val z ltac:(lia)) as [F R]. split; [auto|].
  rewrite R. split; apply IZR_le; lia.
Qed.
Lemma f0_ofZ : f0 = ofZ 0. Proof. reflexivity. Qed.
Lemma f1_ofZ : f1 = ofZ 1. Proof. reflexivity. Qed.
Lemma f2_ofZ : f2 = ofZ 2. Proof. reflexivity. Qed.

Ltac entries := apply kernel_entries; intros v Hv; cbn [concat app] in Hv;
  repeat (destruct Hv as [<- | Hv]; [first [exists 0; split; [lia|reflexivity] | exists 1; split; [lia|reflexivity]
    | exists 2; split; [lia|reflexivity] | exists (-1); split; [lia|reflexivity] | exists (-2); split; [lia|reflexivity]
    | exists (-8); split; [lia|reflexivity]]|]); destruct Hv.

Lemma sobel_x_entries : forall v, In v (concat sobel_x) -> num (-8) 8 v. Proof. entries. Qed.
Lemma sobel_y_entries : forall v, In v (concat sobel_y) -> num (-8) 8 v. Proof. entries. Qed.
Lemma laplace_entries : forall v, In v (concat laplace_kernel) -> num (-8) 8 v. Proof. entries. Qed.
Lemma square3 {A} (a b c d e f g h i : A) : square 3 [[a; b; c]; [d; e; f]; [g; h; i]].
Proof. split; [reflexivity|]. repeat constructor. Qed.

Lemma sobel_lemma m (b : PixelBuffer Rgb) : valid b ->
  exists gx gy out, is_convolution m b 3 3 (concat sobel_x) gx /\ is_convolution m b 3 3 (concat sobel_y) gy /\
    edge_detection m b Sobel = Ok out /\ valid out /\ width out = width b /\ height out = height b /\
    forall x y, inside b x y -> exists cx cy, get_pixel m gx x y = Ok cx /\ get_pixel m gy x y = Ok cy /\
      get_pixel m out x y = Ok (mkC (clamp (hypot (d0 cx) (d0 cy))) (clamp (hypot (d1 cx) (d1 cy)))
                                    (clamp (hypot (d2 cx) (d2 cy))) f1).
Proof.
  intros V. unfold edge_detection, edge_detection_sobel.
  destruct (apply_kernel_lemma m m b 3 sobel_x V ltac:(lia) (square3 _ _ _ _ _ _ _ _ _)) as [gx [Ex Cx]].
  destruct (apply_kernel_lemma m m b 3 sobel_y V ltac:(lia) (square3 _ _ _ _ _ _ _ _ _)) as [gy [Ey Cy]].
  rewrite Ex, Ey. cbn [bind]. pose proof Cx as (Vx & Wx & Hx & _). pose proof Cy as (Vy & Wy & Hy & _).
  destruct (compose2_ok m gx gy RGB_BLACK (fun c1 c2 =>
    rgb_new (hypot (d0 c1) (d0 c2)) (hypot (d1 c1) (d1 c2)) (hypot (d2 c1) (d2 c2)))) as [out [E [Vo [W [H P]]]]]; auto; try lia.
  exists gx, gy, out. split; [auto|]. split; [auto|]. split; [exact E|]. split; [auto|]. split; [lia|]. split; [lia|].
  intros x y I. destruct (P x y) as [c1 [c2 [E1 [E2 E3]]]]; [unfold inside in *; lia|]. exists c1, c2. auto.
Qed.

Lemma laplace_lemma m (b : PixelBuffer Rgb) : valid b ->
  exists g out, is_convolution m b 3 3 (concat laplace_kernel) g /\
    edge_detection m b Laplace = Ok out /\ valid out /\ width out = width b /\ height out = height b /\
    forall x y, inside b x y -> exists c, get_pixel m g x y = Ok c /\
      get_pixel m out x y = Ok (mkC (d0 c) (d1 c) (d2 c) f1).
Proof.
  intros V. unfold edge_detection, edge_detection_laplace.
  destruct (apply_kernel_lemma m m b 3 laplace_kernel V ltac:(lia) (square3 _ _ _ _ _ _ _ _ _)) as [g [E C]].
  rewrite E. cbn [bind]. pose proof C as (Vg & W & H & P).
  destruct (map_pure_ok (fun c => with_alpha c f1) g Vg) as [out [Eo [_ [Vo [Wo [Ho Po]]]]]].
  exists g, out. split; [auto|]. split; [auto|]. split; [auto|]. split; [lia|]. split; [lia|].
  intros x y I. destruct (P x y I) as [ps [_ Hp]]. eexists. split; [exact Hp|].
  rewrite Po by (unfold inside in *; lia). rewrite Hp. reflexivity.
Qed.

Lemma hypot_num a b h : fin a -> fin b -> (0 <= h <= 128)%R -> fmt h -> fmt (h * h) -> fmt (2 * (h * h)) -> fmt (2 * h) ->
  (Rabs (B2R a) <= h)%R -> (Rabs (B2R b) <= h)%R -> num 0 (2 * h) (hypot a b).
Proof.
  intros Fa Fb Ph Fh Fh2 F2 F2h Ha Hb. unfold hypot.
  apply Rabs_le_inv in Ha. apply Rabs_le_inv in Hb.
  destruct (fmul_num a a 0 (h * h)) as [[F1 R1] _]; auto with fmt; [nra|].
  destruct (fmul_num b b 0 (h * h)) as [[F3 R3] _]; auto with fmt; [nra|].
  destruct (fadd_num (fmul a a) (fmul b b) 0 (2 * (h * h))) as [[F5 R5] _]; auto with fmt; [lra|].
  apply fsqrt_num; auto with fmt; [apply R5|]. split; [apply sqrt_pos|].
  rewrite <- (sqrt_square (2 * h)) by lra. apply sqrt_le_1_alt. nra.
Qed.

Lemma sobel_gamut m (b : PixelBuffer Rgb) : valid b -> (forall c, In c (data b) -> in_gamut c) ->
  forall out c, edge_detection m b Sobel = Ok out -> In c (data out) -> in_gamut c /\ d3 c = f1.
Proof.
  intros V G out c E Hc. destruct (sobel_lemma m b V) as (gx & gy & out' & Cx & Cy & E' & Vo & W & H & P).
  rewrite E in E'. apply Ok_inj in E'. subst out'.
  apply (data_In m) in Hc; auto. destruct Hc as [x [y [I Hp]]]. assert (I' : inside b x y) by (unfold inside in *; lia).
  destruct (P x y I') as (cx & cy & Ex & Ey & Eo). rewrite Hp in Eo. apply Ok_inj in Eo. subst c. cbn [d3]. split; [|reflexivity].
  assert (Q : forall pick, channel pick -> in01 (clamp (hypot (pick cx) (pick cy)))).
  { intros pick Cp.
    destruct (conv_channel m b (concat sobel_x) gx pick x y cx V G eq_refl sobel_x_entries Cx I' Ex Cp) as (_ & _ & _ & Fx & Bx & _).
    destruct (conv_channel m b (concat sobel_y) gy pick x y cy V G eq_refl sobel_y_entries Cy I' Ey Cp) as (_ & _ & _ & Fy & By_ & _).
    apply clamp_in01. apply (num_not_nan 0 (2 * 72)). apply hypot_num; auto; try lra.
    - apply (fmt_small_int 72); lia.
    - replace (72 * 72)%R with 5184%R by lra. apply (fmt_small_int 5184); lia.
    - replace (2 * (72 * 72))%R with 10368%R by lra. apply (fmt_small_int 10368); lia.
    - replace (2 * 72)%R with 144%R by lra. apply (fmt_small_int 144); lia. }
  split; [apply (Q d0); unfold channel; auto|]. split; [apply (Q d1); unfold channel; auto|].
  split; [apply (Q d2); unfold channel; auto|]. apply in01_f1.
Qed.

Lemma uniform_neighbourhood m (b : PixelBuffer Rgb) c w h x y ps : valid b -> inside b x y -> (forall q, In q (data b) -> q = c) ->
  neighbourhood m b w h x y = Ok ps -> forall q, In q ps -> q = c.
Proof. intros V I U H q Hq. apply U. eapply neighbourhood_In; eauto. Qed.

Lemma uniform_sum pick c k ps : (forall q, In q ps -> q = c) -> length k = length ps ->
  (exact_sum pick (combine k ps) = fold_right (fun v acc => B2R v + acc)%R 0%R k * B2R (pick c))%R.
Proof.
  revert ps. induction k as [|v k IH]; intros [|p ps] U L; cbn [combine exact_sum fold_right]; try discriminate; [ring|].
  fold (exact_sum pick (combine k ps)). rewrite IH; [|intros; apply U; right; auto|cbn in L; lia].
  cbn [fst snd]. rewrite (U p) by (left; auto). ring.
Qed.

Lemma uniform_conv m (b : PixelBuffer Rgb) k out pick x y c q : valid b -> in_gamut q -> (forall c, In c (data b) -> c = q) ->
  zlen k = 9 -> (forall v, In v k -> num (-8) 8 v) -> fold_right (fun v acc => B2R v + acc)%R 0%R k = 0%R ->
  is_convolution m b 3 3 k out -> inside b x y -> get_pixel m out x y = Ok c -> channel pick ->
  fin (pick c) /\ (Rabs (B2R (pick c)) <= / 16384)%R.
Proof.
  intros V G U L K Z C I Hc Cp.
  destruct (conv_channel m b k out pick x y c) as (ps & Hps & _ & F & _ & D); auto.
  { intros c' Hc'. rewrite (U c' Hc'). auto. }
  split; [auto|]. rewrite (uniform_sum pick q) in D.
  - rewrite Z, Rmult_0_l, Rminus_0_r in D. exact D.
  - eapply uniform_neighbourhood; eauto.
  - pose proof (nb_zlen m b 3 3 x y ps ltac:(lia) ltac:(lia) Hps). unfold zlen in *. lia.
Qed.

Lemma m1_R : B2R (ofZ (-1)) = (-1)%R. Proof. apply ofZ_val; lia. Qed.
Lemma m2_R : B2R (ofZ (-2)) = (-2)%R. Proof. apply ofZ_val; lia. Qed.
Lemma m8_R : B2R (ofZ (-8)) = (-8)%R. Proof. apply ofZ_val; lia. Qed.

Lemma sobel_uniform m (b : PixelBuffer Rgb) q : valid b -> in_gamut q -> (forall c, In c (data b) -> c = q) ->
  forall out c pick, edge_detection m b Sobel = Ok out -> In c (data out) -> pick = d0 \/ pick = d1 \/ pick = d2 ->
  num 0 (/ 8192) (pick c).
Proof.
  intros V G U out c pick E Hc Cp. destruct (sobel_lemma m b V) as (gx & gy & out' & Cx & Cy & E' & Vo & W & H & P).
  rewrite E in E'. apply Ok_inj in E'. subst out'.
  apply (data_In m) in Hc; auto. destruct Hc as [x [y [I Hp]]]. assert (I' : inside b x y) by (unfold inside in *; lia).
  destruct (P x y I') as (cx & cy & Ex & Ey & Eo). rewrite Hp in Eo. apply Ok_inj in Eo. subst c.
  assert (Cp' : channel pick) by (unfold channel; tauto).
  assert (E1 : pick (mkC (clamp (hypot (d0 cx) (d0 cy))) (clamp (hypot (d1 cx) (d1 cy))) (clamp (hypot (d2 cx) (d2 cy))) f1)
     = clamp (hypot (pick cx) (pick cy))) by (destruct Cp as [-> | [-> | ->]]; reflexivity).
  rewrite E1.
  destruct (uniform_conv m b (concat sobel_x) gx pick x y cx q V G U eq_refl sobel_x_entries) as [Fx Bx]; auto.
  { unfold sobel_x. cbn [concat app fold_right]. rewrite f0_R, f1_R, f2_R, m1_R, m2_R. lra. }
  destruct (uniform_conv m b (concat sobel_y) gy pick x y cy q V G U eq_refl sobel_y_entries) as [Fy By_]; auto.
  { unfold sobel_y. cbn [concat app fold_right]. rewrite f0_R, f1_R, f2_R, m1_R, m2_R. lra. }
  assert (N : num 0 (/ 8192) (hypot (pick cx) (pick cy))).
  { replace (/ 8192)%R with (2 * / 16384)%R by lra. apply hypot_num; auto; try lra.
    - replace (/ 16384)%R with (IZR 1 / IZR (2 ^ 14))%R by (change (2 ^ 14)%Z with 16384%Z; lra). apply fmt_dyad; lia.
    - replace (/ 16384 * / 16384)%R with (IZR 1 / IZR (2 ^ 28))%R by (change (2 ^ 28)%Z with 268435456%Z; lra). apply fmt_dyad; lia.
    - replace (2 * (/ 16384 * / 16384))%R with (IZR 1 / IZR (2 ^ 27))%R by (change (2 ^ 27)%Z with 134217728%Z; lra). apply fmt_dyad; lia.
    - replace (2 * / 16384)%R with (IZR 1 / IZR (2 ^ 13))%R by (change (2 ^ 13)%Z with 8192%Z; lra). apply fmt_dyad; lia. }
  rewrite clamp_id; [auto|]. apply in01_num. eapply num_weak; [exact N|lra|lra].
Qed.

Lemma laplace_uniform m (b : PixelBuffer Rgb) q : valid b -> in_gamut q -> (forall c, In c (data b) -> c = q) ->
  forall out c pick, edge_detection m b Laplace = Ok out -> In c (data out) -> pick = d0 \/ pick = d1 \/ pick = d2 ->
  num (- / 16384) (/ 16384) (pick c).
Proof.
  intros V G U out c pick E Hc Cp. destruct (laplace_lemma m b V) as (g & out' & Cg & E' & Vo & W & H & P).
  rewrite E in E'. apply Ok_inj in E'. subst out'.
  apply (data_In m) in Hc; auto. destruct Hc as [x [y [I Hp]]]. assert (I' : inside b x y) by (unfold inside in *; lia).
  destruct (P x y I') as (cg & Eg & Eo). rewrite Hp in Eo. apply Ok_inj in Eo. subst c.
  assert (Cp' : channel pick) by (unfold channel; tauto).
  assert (E1 : pick (mkC (d0 cg) (d1 cg) (d2 cg) f1) = pick cg) by (destruct Cp as [-> | [-> | ->]]; reflexivity).
  rewrite E1.
  destruct (uniform_conv m b (concat laplace_kernel) g pick x y cg q V G U eq_refl laplace_entries) as [F B]; auto.
  { unfold laplace_kernel. cbn [concat app fold_right]. rewrite f1_R, m8_R. lra. }
  apply Rabs_le_inv in B. split; [auto|lra].
Qed.

Lemma laplace_exact m (b : PixelBuffer Rgb) : valid b -> (forall c, In c (data b) -> in_gamut c) ->
  forall out, edge_detection m b Laplace = Ok out -> 
  forall x y c ps pick, inside b x y -> get_pixel m out x y = Ok c -> neighbourhood m b 3 3 x y = Ok ps -> pick = d0 \/ pick = d1 \/ pick = d2 ->
  fin (pick c) /\ (Rabs (B2R (pick c) - exact_sum pick (combine (concat laplace_kernel) ps)) <= / 16384)%R.
Proof.
  intros V G out E x y c ps pick I Hp Hps Cp. destruct (laplace_lemma m b V) as (g & out' & Cg & E' & Vo & W & H & P).
  rewrite E in E'. apply Ok_inj in E'. subst out'.
  destruct (P x y I) as (cg & Eg & Eo). rewrite Hp in Eo. apply Ok_inj in Eo. subst c.
  assert (Cp' : channel pick) by (unfold channel; tauto).
  assert (E1 : pick (mkC (d0 cg) (d1 cg) (d2 cg) f1) = pick cg) by (destruct Cp as [-> | [-> | ->]]; reflexivity).
  rewrite E1.
  destruct (conv_channel m b (concat laplace_kernel) g pick x y cg V G eq_refl laplace_entries Cg I Eg Cp') as (ps' & Hps' & _ & F & _ & D).
  rewrite Hps in Hps'. apply Ok_inj in Hps'. subst ps'. auto.
Qed.
