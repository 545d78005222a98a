(** Kernels built at run time, and the ready-made Sobel kernels. *)
From Coq Require Import ZArith List Bool Lia Reals Lra Psatz.
From Flocq Require Import Core.Core IEEE754.BinarySingleNaN.
From Verif Require Import Base PixelBuffer BaseLemmas BufferSpec PixelBufferProofs.
From Verif Require Import F32 Color F32Lemmas ColorSpec ColorProofs Kernel KernelSpec KernelProofs.
From Verif Require Import Gauss2Proofs GaussProofs FilterProofs Filter2Proofs MeaningSpec EnhanceSpec ResampleSpec GaussSpec GaussMeaning GaussMeaning2.
Import ListNotations.
Open Scope Z_scope.

(** * Weights *)

Lemma kernel_dyn_new_eq m d w h : 0 <= w * h <= 4294967295 ->
  kernel_dyn_new m d w h = if zlen d =? w * h then Ok (mkKD d w h) else Panic.
Proof. intros H. unfold kernel_dyn_new. rewrite u32_ok by lia. cbn [bind]. destruct (zlen d =? w * h); reflexivity. Qed.

Lemma kernel_dyn_get_eq m d w h x y : 0 <= x -> 0 <= y -> x + y * w <= 4294967295 -> 0 <= y * w ->
  kernel_dyn_get m (mkKD d w h) x y = idx d (x + y * w).
Proof. intros X Y B P. unfold kernel_dyn_get. cbn [kwidth kdata]. rewrite u32_ok by lia. cbn [bind]. rewrite u32_ok by lia. reflexivity. Qed.

Lemma weights_list m d w h k (weight : Z -> Z -> f32) : 0 < w -> 0 < h -> w * h <= 4294967295 -> kernel_dyn_new m d w h = Ok k ->
  (forall i j, 0 <= i < w -> 0 <= j < h -> kernel_dyn_get m k i j = Ok (weight i j)) ->
  k = mkKD d w h /\ zlen d = w * h /\ d = map (fun o => weight (fst o) (snd o)) (row_major w h).
Proof.
  intros W H B E P. rewrite kernel_dyn_new_eq in E by nia. destruct (zlen d =? w * h) eqn:Q; [|discriminate E].
  apply Z.eqb_eq in Q. apply Ok_inj in E. subst k. split; [reflexivity|]. split; [exact Q|].
  rewrite row_major_zrange by lia. rewrite map_map. cbn [fst snd].
  apply list_ext; [rewrite zlen_map, zrange_zlen by nia; lia|].
  intros i Hi. rewrite idx_map, idx_zrange by lia. rewrite Z.add_0_l.
  assert (D : i = w * (i / w) + i mod w) by (apply Z.div_mod; lia). pose proof (Z.mod_pos_bound i w ltac:(lia)) as M.
  assert (J : 0 <= i / w < h) by (split; [apply Z.div_pos; lia|apply Z.div_lt_upper_bound; lia]).
  specialize (P (i mod w) (i / w) M J). rewrite kernel_dyn_get_eq in P by nia.
  replace (i mod w + i / w * w) with i in P by lia. exact P.
Qed.

Lemma combine_map {A B C} (f : A -> B) (g : A -> C) l : combine (map f l) (map g l) = map (fun a => (f a, g a)) l.
Proof. induction l as [|a l IH]; cbn [map combine]; [reflexivity|]. rewrite IH. reflexivity. Qed.
Lemma fold_left_map_ {A B S} (f : S -> B -> S) (g : A -> B) l : forall s, fold_left f (map g l) s = fold_left (fun s a => f s (g a)) l s.
Proof. induction l as [|a l IH]; intros s; cbn [map fold_left]; auto. Qed.

Lemma by_weights m (b : PixelBuffer Rgb) d w h k (weight : Z -> Z -> f32) : valid b ->
  0 < w <= 1073741823 -> 0 < h <= 1073741823 -> w * h <= 4294967295 -> kernel_dyn_new m d w h = Ok k ->
  (forall i j, 0 <= i < w -> 0 <= j < h -> kernel_dyn_get m k i j = Ok (weight i j)) ->
  exists r, apply_kernel_dyn m k b = Ok r /\ valid r /\ width r = width b /\ height r = height b /\
    forall x y, inside b x y ->
    let sum pick := fold_left (fun acc o => fadd acc (fmul (weight (fst o) (snd o)) (pick (edge_pixel b (x - w / 2 + fst o) (y - h / 2 + snd o)))))
                      (row_major w h) f0 in
    get_pixel m r x y = Ok (mkC (sum d0) (sum d1) (sum d2) (sum d3)).
Proof.
  intros V W H B E P. destruct (weights_list m d w h k weight ltac:(lia) ltac:(lia) B E P) as (-> & L & D).
  destruct (apply_kernel_dyn_lemma m m b d w h V W H B L) as (r & Er & Vr & Wr & Hr & C).
  exists r. split; [exact Er|]. split; [exact Vr|]. split; [exact Wr|]. split; [exact Hr|]. intros x y I sum.
  destruct (C x y I) as (ps & N & Q). rewrite neighbourhood_edge in N by (auto; lia). apply Ok_inj in N.
  rewrite Q. subst ps. rewrite D, combine_map. unfold weighted_sum, weighted_channel. rewrite !fold_left_map_. reflexivity.
Qed.

(** * Sobel *)

Lemma conv_neg (pick : Rgb -> f32) ks : forall ks' ps a a' n, fin a -> fin a' -> B2R a' = (- B2R a)%R -> (Rabs (B2R a) <= 8 * IZR n)%R -> 0 <= n -> n + zlen ks <= 9 ->
  (forall v, In v ks -> num (-8) 8 v) -> (forall p, In p ps -> num 0 1 (pick p)) -> Forall2 (fun k k' => fin k' /\ B2R k' = (- B2R k)%R) ks ks' ->
  let r := fold_left fadd (map (fun p => fmul (fst p) (pick (snd p))) (combine ks ps)) a in
  let r' := fold_left fadd (map (fun p => fmul (fst p) (pick (snd p))) (combine ks' ps)) a' in
  fin r /\ fin r' /\ B2R r' = (- B2R r)%R.
Proof.
  induction ks as [|k ks IH]; intros ks' ps a a' n Fa Fa' Na Ra Hn Hl K Pp N r r'; subst r r'; inversion N as [|? k' ? ks2 [Fk' Nk] N2]; subst; clear N.
  - cbn [combine map fold_left]. auto.
  - destruct ps as [|c ps]; cbn [combine map fold_left fst snd]; [auto|].
    rewrite zlen_cons in *. pose proof (zlen_nonneg ks).
    destruct (K k (or_introl eq_refl)) as [Fk Rk]. destruct (Pp c (or_introl eq_refl)) as [Fc Rc].
    assert (F8 : fmt (-8)) by (apply (fmt_small_int (-8)); lia). assert (F8' : fmt 8) by (apply (fmt_small_int 8); lia).
    destruct (fmul_num k (pick c) (-8) 8) as [[Fm Rm] Em]; auto; [nra|].
    destruct (fmul_num k' (pick c) (-8) 8) as [[Fm' Rm'] Em']; auto; [rewrite Nk; nra|].
    assert (Nm : (B2R (fmul k' (pick c)) = - B2R (fmul k (pick c)))%R).
    { rewrite Em, Em', Nk, <- rnd_opp. f_equal. ring. }
    assert (Ra' : (Rabs (B2R a + B2R (fmul k (pick c))) <= 8 * IZR (n + 1))%R).
    { rewrite plus_IZR. apply Rabs_le. apply Rabs_le_inv in Ra. lra. }
    assert (Fl : fmt (IZR (- (8 * (n + 1))))) by (apply fmt_small_int; lia). assert (Fh : fmt (IZR (8 * (n + 1)))) by (apply fmt_small_int; lia).
    destruct (fadd_num a (fmul k (pick c)) (IZR (- (8 * (n + 1)))) (IZR (8 * (n + 1)))) as [[Fs Rs] Es]; auto.
    { rewrite opp_IZR, mult_IZR. apply Rabs_le_inv in Ra'. lra. }
    destruct (fadd_num a' (fmul k' (pick c)) (IZR (- (8 * (n + 1)))) (IZR (8 * (n + 1)))) as [[Fs' Rs'] Es']; auto.
    { rewrite opp_IZR, mult_IZR, Na, Nm. apply Rabs_le_inv in Ra'. lra. }
    rewrite opp_IZR, mult_IZR in Rs.
    apply (IH ks2 ps (fadd a (fmul k (pick c))) (fadd a' (fmul k' (pick c))) (n + 1)); auto; try lia.
    + rewrite Es, Es', Na, Nm, <- rnd_opp. f_equal. ring.
    + apply Rabs_le. lra.
    + intros v Hv. apply K. right. exact Hv.
    + intros p Hp. apply Pp. right. exact Hp.
Qed.

Lemma fmul_sign x y M : fin x -> fin y -> fmt M -> (Rabs (B2R x * B2R y) <= M)%R -> Bsign (fmul x y) = xorb (Bsign x) (Bsign y).
Proof.
  intros Hx Hy F H. pose proof (Bmult_correct 24 128 p24 e128 mode_NE x y) as B.
  rewrite Rlt_bool_true in B by (apply (rnd_small _ M F H)). destruct B as (_ & B & C).
  apply C. unfold fmul in *. unfold fin in Hx, Hy. rewrite Hx, Hy in B. destruct (Bmult mode_NE x y); try discriminate B; reflexivity.
Qed.
Lemma square_neg a a' : fin a -> fin a' -> B2R a' = (- B2R a)%R -> (Rabs (B2R a) <= 72)%R -> fmul a' a' = fmul a a.
Proof.
  intros F F' N R. apply Rabs_le_inv in R. assert (Fm : fmt 5184) by (apply (fmt_small_int 5184); lia).
  destruct (fmul_num a a 0 5184) as [[F1 R1] E1]; auto with fmt; [nra|].
  destruct (fmul_num a' a' 0 5184) as [[F2 R2] E2]; auto with fmt; [rewrite N; nra|].
  apply f_inj; auto.
  - rewrite E1, E2, N. f_equal. ring.
  - rewrite (fmul_sign a' a' 5184), (fmul_sign a a 5184); auto; [rewrite !xorb_nilpotent; reflexivity| |]; apply Rabs_le; rewrite ?N; nra.
Qed.

Lemma new_sobel_x_entries : forall v, In v (kdata new_sobel_x) -> num (-8) 8 v.
Proof. unfold new_sobel_x. cbn [kdata]. entries. Qed.
Lemma new_sobel_y_entries : forall v, In v (kdata new_sobel_y) -> num (-8) 8 v.
Proof. unfold new_sobel_y. cbn [kdata]. entries. Qed.
Lemma sobel_x_opposite : Forall2 (fun k k' => fin k' /\ B2R k' = (- B2R k)%R) (concat sobel_x) (kdata new_sobel_x).
Proof.
  unfold sobel_x, new_sobel_x. cbn [concat app kdata].
  repeat (apply Forall2_cons; [split; [first [apply f0_fin|apply f1_fin|reflexivity]|rewrite ?f0_R, ?f1_R, ?f2_R, ?m1_R, ?m2_R; lra]|]). apply Forall2_nil.
Qed.

Lemma ready_made m (b : PixelBuffer Rgb) : valid b -> (forall c, In c (data b) -> in_gamut c) ->
  exists gx gy out, apply_kernel_dyn m new_sobel_x b = Ok gx /\ apply_kernel_dyn m new_sobel_y b = Ok gy /\ edge_detection m b Sobel = Ok out /\
    forall x y, inside b x y -> exists cx cy, get_pixel m gx x y = Ok cx /\ get_pixel m gy x y = Ok cy /\
      get_pixel m out x y = Ok (mkC (clamp (hypot (d0 cx) (d0 cy))) (clamp (hypot (d1 cx) (d1 cy))) (clamp (hypot (d2 cx) (d2 cy))) f1) /\
      forall pick, channel pick -> let v i j := B2R (pick (edge_pixel b (x + i) (y + j))) in
      close (/ 16384) (- slope_x v) (pick cx) /\ close (/ 16384) (slope_y v) (pick cy).
Proof.
  intros V G. destruct (sobel_lemma m b V) as (ex & ey & out & Cx & Cy & E & _ & _ & _ & P).
  destruct (apply_kernel_dyn_lemma m m b (kdata new_sobel_x) 3 3 V ltac:(lia) ltac:(lia) ltac:(lia) eq_refl) as (gx & Egx & Dx).
  destruct (apply_kernel_dyn_lemma m m b (kdata new_sobel_y) 3 3 V ltac:(lia) ltac:(lia) ltac:(lia) eq_refl) as (gy & Egy & Dy).
  exists gx, gy, out. split; [exact Egx|]. split; [exact Egy|]. split; [exact E|]. intros x y I.
  destruct (P x y I) as (bx & by_ & Ebx & Eby & Eo).
  assert (Nx := proj2 (proj2 (proj2 Dx)) x y I). destruct Nx as (px & Npx & Ecx).
  assert (Ny := proj2 (proj2 (proj2 Dy)) x y I). destruct Ny as (py & Npy & Ecy).
  destruct (proj2 (proj2 (proj2 Cx)) x y I) as (qx & Nqx & Eqx). destruct (proj2 (proj2 (proj2 Cy)) x y I) as (qy & Nqy & Eqy).
  assert (Q1 : px = qx) by (rewrite Npx in Nqx; apply Ok_inj in Nqx; exact Nqx). assert (Q2 : py = qy) by (rewrite Npy in Nqy; apply Ok_inj in Nqy; exact Nqy).
  subst qx qy. rewrite Ebx in Eqx. apply Ok_inj in Eqx. rewrite Eby in Eqy. apply Ok_inj in Eqy.
  eexists. eexists. split; [exact Ecx|]. split; [exact Ecy|]. change (kdata new_sobel_y) with (concat sobel_y) in *. rewrite <- Eqy.
  assert (Hyp : forall pick, channel pick -> hypot (pick bx) (pick by_) = hypot (pick (weighted_sum (combine (kdata new_sobel_x) px))) (pick by_)).
  { intros pick Cp. unfold hypot. f_equal. f_equal. symmetry.
    destruct (conv_channel m b (concat sobel_x) ex pick x y bx V G eq_refl sobel_x_entries Cx I Ebx Cp) as (px' & Npx' & Wx & Fx & Bx & _).
    rewrite Npx in Npx'. apply Ok_inj in Npx'. subst px'.
    assert (Pp : forall p, In p px -> num 0 1 (pick p)).
    { intros p Hp. apply gamut_channel; [exact Cp|]. apply G. exact (neighbourhood_In m b 3 3 x y px V I Npx p Hp). }
    destruct (conv_neg pick (concat sobel_x) (kdata new_sobel_x) px f0 f0 0) as (A1 & A2 & A3); auto with fin.
    - rewrite f0_R. lra.
    - rewrite f0_R, Rabs_R0. lra.
    - lia.
    - discriminate.
    - apply sobel_x_entries.
    - apply sobel_x_opposite.
    - rewrite <- (weighted_channel_fold pick (combine (concat sobel_x) px)), <- Wx in A1, A3.
      rewrite <- (weighted_channel_fold pick (combine (kdata new_sobel_x) px)) in A2, A3.
      assert (Ep : pick (weighted_sum (combine (kdata new_sobel_x) px)) = weighted_channel pick (combine (kdata new_sobel_x) px))
        by (destruct Cp as [-> | [-> | [-> | ->]]]; reflexivity).
      rewrite Ep. apply square_neg; auto. }
  split.
  - rewrite <- (Hyp d0), <- (Hyp d1), <- (Hyp d2) by (unfold channel; auto). exact Eo.
  - intros pick Cp v.
    destruct (conv_channel m b (kdata new_sobel_x) gx pick x y _ V G eq_refl new_sobel_x_entries Dx I Ecx Cp) as (ax & Nax & _ & Fx & _ & Ax).
    destruct (conv_channel m b (concat sobel_y) ey pick x y _ V G eq_refl sobel_y_entries Cy I Eby Cp) as (ay & Nay & _ & Fy & _ & Ay).
    apply (window_nine m b x y ax V I) in Nax. apply (window_nine m b x y ay V I) in Nay. subst ax ay. split; (split; [assumption|]).
    + eapply Rle_trans; [|exact Ax]. apply Req_le. f_equal. f_equal. cbn [new_sobel_x kdata combine exact_sum fold_right fst snd]. rewrite f0_R, f1_R, f2_R, m1_R, m2_R. unfold slope_x, v. ring.
    + eapply Rle_trans; [|exact Ay]. apply Req_le. f_equal. f_equal. cbn [concat sobel_y app combine exact_sum fold_right fst snd]. rewrite f0_R, f1_R, f2_R, m1_R, m2_R. unfold slope_y, slope_x, v. ring.
Qed.
