(** despeckle, edge detection, symmetric nearest neighbour and drawing. *)
From Coq Require Import ZArith List Bool Lia Reals Lra Psatz.
From Flocq Require Import Core.Core IEEE754.BinarySingleNaN.
From Verif Require Import Base PixelBuffer BaseLemmas BufferSpec PixelBufferProofs EnumProofs Geometry GeometryProofs.
From Verif Require Import F32 Color F32Lemmas ColorSpec ColorProofs Kernel KernelSpec KernelProofs.
From Verif Require Import ComposeProofs ResampleProofs Kernel2Proofs GaussProofs Gauss2Proofs.
Import ListNotations.
Open Scope Z_scope.

(** * Buffers built pixel by pixel *)

Lemma map_pure_ok (f : Rgb -> Rgb) (b : PixelBuffer Rgb) : valid b ->
  exists r, map_pure f b = Ok r /\ data r = map f (data b) /\ valid r /\ width r = width b /\ height r = height b /\
    forall m x y, inside b x y -> get_pixel m r x y = bind (get_pixel m b x y) (fun c => Ok (f c)).
Proof.
  intros V. unfold map_pure, map_colors.
  assert (E : map_st (fun (_ : unit) c => Ok (tt, f c)) (data b) tt = Ok (tt, map f (data b))).
  { induction (data b) as [|c l IH]; [reflexivity|]. cbn [map_st bind]. rewrite IH. reflexivity. }
  rewrite E. cbn [bind]. exists (mkPB (width b) (height b) (map f (data b))). split; [reflexivity|].
  assert (V' : valid (mkPB (width b) (height b) (map f (data b)))).
  { destruct V as [V1 V2]. split; cbn [width height data] in *; [auto|]. rewrite zlen_map. auto. }
  cbn [width height data]. split; [auto|]. split; [auto|]. split; [auto|]. split; [auto|].
  intros m x y I. rewrite !get_pixel_eq by auto. cbn [width data]. apply idx_map.
Qed.

Lemma compose2_ok m (b1 b2 : PixelBuffer Rgb) d f : valid b1 -> valid b2 ->
  width b1 = width b2 -> height b1 = height b2 ->
  exists r, compose2 m b1 b2 d f = Ok r /\ valid r /\ width r = width b1 /\ height r = height b1 /\
    forall x y, inside b1 x y -> exists c1 c2, get_pixel m b1 x y = Ok c1 /\ get_pixel m b2 x y = Ok c2 /\
      get_pixel m r x y = Ok (f c1 c2).
Proof.
  intros V1 V2 W H. unfold compose2.
  assert (VS : valid_size (width b1) (height b1)) by apply V1.
  pose proof (valid_bounds b1 V1) as [B1 [B2 _]].
  set (g := fun (_ : unit) (_ _ : Z) (colors : list Rgb) =>
     match colors with [c1; c2] => Ok (tt, f c1 c2) | _ => Panic end).
  destruct (compose_try m [b1; b2] d g tt) as (w & h & _ & _ & _ & (a & Ia & Ea) & (a' & Ia' & Ea') & E); [discriminate|].
  rewrite E. clear E.
  assert (w = width b1) as -> by (destruct Ia as [<- | [<- | []]]; lia).
  assert (h = height b1) as -> by (destruct Ia' as [<- | [<- | []]]; lia).
  assert (Px : forall x y, inside b1 x y -> exists c1 c2, get_pixel m b1 x y = Ok c1 /\ get_pixel m b2 x y = Ok c2 /\
    pixels_at m [b1; b2] d x y = Ok [c1; c2]).
  { intros x y I. unfold inside in I. destruct (pixels_at_eq m m [b1; b2] d x y) as (ps & Ep & F); auto; try lia.
    inversion F as [|? c1 ? ? [F1 _] F']; subst. inversion F' as [|? c2 ? ? [F2 _] F'']; subst. inversion F''; subst.
    exists c1, c2. split; [apply F1; auto|]. split; [apply F2; unfold inside; lia|auto]. }
  rewrite new_from_func_eq by auto.
  set (h2 := fun p : Z * Z => ps <- pixels_at m [b1; b2] d (fst p) (snd p);
                              match ps with [c1; c2] => Ok (f c1 c2) | _ => Panic end).
  assert (E : map_st (fun s p => ps <- pixels_at m [b1; b2] d (fst p) (snd p); g s (fst p) (snd p) ps)
                     (row_major (width b1) (height b1)) tt
            = bind (map_res h2 (row_major (width b1) (height b1))) (fun bs => Ok (tt, bs))).
  { rewrite <- map_st_unit. apply map_st_ext. intros [] p _. unfold h2, g.
    destruct (pixels_at m [b1; b2] d (fst p) (snd p)) as [[|c1 [|c2 [|]]]|]; reflexivity. }
  rewrite E. clear E.
  destruct (map_res_total h2 (row_major (width b1) (height b1))) as [dd Hd].
  { intros [x y] I. apply row_major_In in I. destruct (Px x y) as (c1 & c2 & _ & _ & Ep); [unfold inside; lia|].
    exists (f c1 c2). unfold h2. cbn [fst snd]. rewrite Ep. reflexivity. }
  rewrite Hd. cbn [bind]. exists (mkPB (width b1) (height b1) dd). split; [reflexivity|].
  assert (L : zlen dd = width b1 * height b1).
  { pose proof (map_res_length _ _ _ Hd) as Ln. unfold zlen. rewrite Ln. apply row_major_length; lia. }
  split; [apply row_major_buffer; auto|]. cbn [width height]. split; [auto|]. split; [auto|].
  intros x y I. destruct (Px x y I) as (c1 & c2 & E1 & E2 & Ep). exists c1, c2. split; [auto|]. split; [auto|].
  unfold inside in I. rewrite (proj2 (get_pixel_row_major m _ _ h2 dd VS Hd)) by lia.
  unfold h2. cbn [fst snd]. rewrite Ep. reflexivity.
Qed.

(** * despeckle *)

Definition dark (threshold : f32) (q : Rgb) : bool := flt (average q) threshold.
Definition bright (threshold : f32) (q : Rgb) : bool := fle threshold (average q).

Lemma count_fold {A} (p : A -> bool) l n : fold_left (fun n q => if p q then n + 1 else n) l n = n + zlen (filter p l).
Proof.
  revert n. induction l as [|a l IH]; intros n; cbn [fold_left filter]; [unfold zlen; cbn; lia|].
  rewrite IH. destruct (p a); rewrite ?zlen_cons; lia.
Qed.

Lemma sum_fold t l r g b :
  fold_left (fun '(r, g, b) q => if fle t (average q) then (fadd r (d0 q), fadd g (d1 q), fadd b (d2 q)) else (r, g, b)) l (r, g, b)
  = (fold_left fadd (map d0 (filter (bright t) l)) r, fold_left fadd (map d1 (filter (bright t) l)) g,
     fold_left fadd (map d2 (filter (bright t) l)) b).
Proof.
  revert r g b. induction l as [|a l IH]; intros r g b; cbn [fold_left filter map]; [reflexivity|].
  assert (E : bright t a = fle t (average a)) by reflexivity. rewrite <- !E.
  destruct (bright t a); cbn [map fold_left]; apply IH.
Qed.

Lemma despeckle_lemma m (b : PixelBuffer Rgb) threshold amount : valid b ->
  exists out, despeckle m b threshold amount = Ok out /\ valid out /\ width out = width b /\ height out = height b /\
    forall x y c, inside b x y -> get_pixel m b x y = Ok c -> exists ps, neighbourhood m b 3 3 x y = Ok ps /\
      let n := zlen (filter (dark threshold) ps) in
      let sum pick := fold_left fadd (map pick (filter (bright threshold) ps)) f0 in
      get_pixel m out x y =
        Ok (if dark threshold c && (n <=? amount)
            then mkC (clamp (fdiv (sum d0) (ofZ (9 - n)))) (clamp (fdiv (sum d1) (ofZ (9 - n))))
                     (clamp (fdiv (sum d2) (ofZ (9 - n)))) (clamp (alpha c))
            else c).
Proof.
  intros V. unfold despeckle. pose proof (valid_bounds b V) as [Bw [Bh _]].
  assert (Px : forall x y, inside b x y -> exists d, get_kernel m b 3 (as_i32 x) (as_i32 y) = Ok d /\ neighbourhood m b 3 3 x y = Ok (concat d)).
  { intros x y I. unfold inside in I. rewrite !as_i32_id by lia.
    destruct (kernel_neighbourhood m m b 3 x y) as [d [E [_ En]]]; auto; [lia|]. eauto. }
  destruct (map_colors_enumerated_ok b (fun x y c =>
    if flt (average c) threshold then
      k <- get_kernel m b 3 (as_i32 x) (as_i32 y);
      Ok (despeckle_pixel threshold amount k c)
    else Ok c)) as [out [E [Vo [W [H P]]]]]; auto.
  { intros m' x y c I _. destruct (flt (average c) threshold); [|eauto]. destruct (Px x y I) as [d [-> _]]. cbn [bind]. eauto. }
  exists out. split; [exact E|]. split; [auto|]. split; [auto|]. split; [auto|].
  intros x y c I Hc. destruct (Px x y I) as [d [Ed En]]. exists (concat d). split; [auto|]. cbv zeta.
  rewrite (P m x y I), Hc. cbn [bind]. unfold dark at 1. destruct (flt (average c) threshold); [|reflexivity].
  rewrite Ed. cbn [bind]. f_equal. unfold despeckle_pixel. cbn [andb].
  rewrite (count_fold (dark threshold)), Z.add_0_l. destruct (_ <=? amount); [|reflexivity].
  rewrite sum_fold. reflexivity.
Qed.

Lemma flt_fle_compl (a t : f32) : is_nan a = false -> is_nan t = false -> fle t a = negb (flt a t).
Proof.
  intros Na Nt. pose proof (Bcompare_swap 24 128 a t) as S.
  unfold fle, flt, Bleb, Bltb, SpecFloat.SFleb, SpecFloat.SFltb. unfold Bcompare in S.
  rewrite S. destruct (SpecFloat.SFcompare (B2SF a) (B2SF t)) as [[| |]|] eqn:E; cbn; try reflexivity.
  exfalso. destruct a, t; cbn in *; try discriminate; repeat match goal with s : bool |- _ => destruct s end; cbn in E; try discriminate.
Qed.

Lemma filter_compl {A} (p q : A -> bool) l : (forall a, In a l -> q a = negb (p a)) ->
  zlen (filter q l) = zlen l - zlen (filter p l).
Proof.
  induction l as [|a l IH]; intros H; [reflexivity|]. cbn [filter]. rewrite (H a) by (left; auto).
  rewrite zlen_cons. specialize (IH (fun x Hx => H x (or_intror Hx))).
  destruct (p a); cbn [negb]; rewrite ?zlen_cons; lia.
Qed.

Lemma nb_zlen {T} m (b : PixelBuffer T) w h x y ps : 0 <= w -> 0 <= h -> neighbourhood m b w h x y = Ok ps -> zlen ps = w * h.
Proof. intros Hw Hh H. unfold neighbourhood in H. apply map_res_length in H. unfold zlen. rewrite H. apply row_major_length; auto. Qed.

Lemma average_in01 c : in_gamut c -> in01 (average c).
Proof. apply (gray_value_range Average). Qed.

Lemma zlen_nonneg {A} (l : list A) : 0 <= zlen l. Proof. unfold zlen. lia. Qed.

Lemma mean_clamped l n : (forall v, In v l -> num 0 1 v) -> 1 <= n <= 8388608 -> in01 (clamp (fdiv (fold_left fadd l f0) (ofZ n))).
Proof.
  intros H Hn. destruct (fold_sum_unit l f0) as [[F R] _]; [apply f0_fin|rewrite f0_R; lra|auto|].
  destruct (ofZ_val n ltac:(lia)) as [Fn Rn]. apply clamp_in01.
  assert (1 <= IZR n)%R by (apply IZR_le; lia).
  destruct (fdiv_num (fold_left fadd l f0) (ofZ n) 0 16777216) as [N _]; auto using fmt_2_24 with fmt.
  - rewrite Rn. lra.
  - rewrite Rn. assert (0 < / IZR n <= 1)%R.
    { split; [apply Rinv_0_lt_compat; lra|]. rewrite <- Rinv_1. apply Rinv_le_contravar; lra. }
    unfold Rdiv. split; [apply Rmult_le_pos; lra|]. replace 16777216%R with (16777216 * 1)%R by lra. apply Rmult_le_compat; lra.
  - eapply num_not_nan; eauto.
Qed.

Lemma despeckle_gamut m (b : PixelBuffer Rgb) threshold amount out : valid b ->
  (forall c, In c (data b) -> in_gamut c) -> is_nan threshold = false -> amount <= 8 ->
  despeckle m b threshold amount = Ok out -> forall c, In c (data out) -> in_gamut c.
Proof.
  intros V G Nt Ha E c Hc. destruct (despeckle_lemma m b threshold amount V) as [out' [E' [Vo [W [H P]]]]].
  rewrite E in E'. apply Ok_inj in E'. subst out'.
  apply (data_In m) in Hc; auto. destruct Hc as [x [y [I Hp]]].
  assert (I' : inside b x y) by (unfold inside in *; lia).
  destruct (get_pixel_inside m b x y V I') as [c0 Ec]. destruct (P x y c0 I' Ec) as [ps [Hps Hr]]. cbv zeta in Hr.
  rewrite Hp in Hr. apply Ok_inj in Hr. subst c.
  assert (G0 : in_gamut c0) by (apply G; apply (data_In m); eauto).
  destruct (dark threshold c0 && _) eqn:D; [|auto]. apply andb_true_iff in D. destruct D as [_ D]. apply Z.leb_le in D.
  assert (Gp : forall c, In c ps -> in_gamut c) by (intros q Hq; apply G; eapply neighbourhood_In; eauto).
  assert (C : zlen (filter (bright threshold) ps) = zlen ps - zlen (filter (dark threshold) ps)).
  { apply filter_compl. intros q Hq. apply flt_fle_compl; [|auto]. apply in01_not_nan. apply average_in01. auto. }
  pose proof (nb_zlen m b 3 3 x y ps ltac:(lia) ltac:(lia) Hps) as L9.
  pose proof (zlen_nonneg (filter (dark threshold) ps)).
  assert (Mn : forall pick, channel pick -> in01 (clamp (fdiv (fold_left fadd (map pick (filter (bright threshold) ps)) f0) (ofZ (9 - zlen (filter (dark threshold) ps)))))).
  { intros pick Cp. apply mean_clamped; [|lia]. intros v Hv. apply in_map_iff in Hv. destruct Hv as [q [<- Hq]].
    apply filter_In in Hq. apply gamut_channel; auto. apply Gp. apply Hq. }
  unfold in_gamut. cbn [d0 d1 d2 d3].
  split; [apply (Mn d0); unfold channel; auto|]. split; [apply (Mn d1); unfold channel; auto|].
  split; [apply (Mn d2); unfold channel; auto|]. unfold alpha. destruct G0 as (_ & _ & _ & G3). rewrite clamp_id; auto.
Qed.

Lemma despeckle_nan m (b : PixelBuffer Rgb) threshold amount out x y c ps : valid b -> 9 <= amount ->
  despeckle m b threshold amount = Ok out -> inside b x y -> get_pixel m b x y = Ok c ->
  neighbourhood m b 3 3 x y = Ok ps -> (forall q, In q (c :: ps) -> flt (average q) threshold = true) ->
  get_pixel m out x y = Ok (mkC fnan fnan fnan (clamp (alpha c))).
Proof.
  intros V Ha E I Hc Hps D. destruct (despeckle_lemma m b threshold amount V) as [out' [E' [_ [_ [_ P]]]]].
  rewrite E in E'. apply Ok_inj in E'. subst out'.
  destruct (P x y c I Hc) as [ps' [Hps' Hr]]. rewrite Hps in Hps'. apply Ok_inj in Hps'. subst ps'. cbv zeta in Hr. rewrite Hr.
  pose proof (nb_zlen m b 3 3 x y ps ltac:(lia) ltac:(lia) Hps) as L9.
  assert (E1 : filter (dark threshold) ps = ps).
  { clear - D. assert (H : forall q, In q ps -> dark threshold q = true) by (intros; apply D; right; auto). clear D.
    induction ps as [|q ps IH]; [reflexivity|]. cbn [filter]. rewrite (H q) by (left; auto). f_equal. apply IH. intros; apply H; right; auto. }
  assert (E2 : filter (bright threshold) ps = []).
  { clear - D. assert (H : forall q, In q ps -> bright threshold q = false).
    { intros q Hq. unfold bright. specialize (D q (or_intror Hq)). 
      destruct (fle threshold (average q)) eqn:B; [|reflexivity]. exfalso.
      assert (N1 : is_nan (average q) = false) by (destruct (average q); [reflexivity|reflexivity|discriminate|reflexivity]).
      assert (N2 : is_nan threshold = false) by (destruct threshold; [reflexivity|reflexivity|discriminate|reflexivity]).
      rewrite (flt_fle_compl _ _ N1 N2), D in B. discriminate. }
    clear D. induction ps as [|q ps IH]; [reflexivity|]. cbn [filter]. rewrite (H q) by (left; auto). apply IH. intros; apply H; right; auto. }
  rewrite E1, E2, L9. change (3 * 3) with 9. unfold dark. rewrite (D c) by (left; auto).
  replace (9 <=? amount) with true by (symmetry; apply Z.leb_le; lia). cbn [andb map fold_left].
  assert (Z0 : clamp (fdiv f0 (ofZ (9 - 9))) = fnan) by reflexivity. rewrite Z0. reflexivity.
Qed.
