(** Lemmas about Blend.v. *)
From Coq Require Import ZArith Reals Lra Lia List Bool.
From Flocq Require Import Core.Core IEEE754.BinarySingleNaN.
From Verif Require Import Base BaseLemmas PixelBuffer BufferSpec PixelBufferProofs F32 F32Lemmas Color ColorSpec ColorProofs Blend.
Import ListNotations.

Section image.
Open Scope Z_scope.
Lemma blend_with_ok m a b i f : valid a -> valid b ->
  valid_size (Z.max (width a) (width b)) (Z.max (height a) (height b)) ->
  exists r, blend_image_with_func m a b i f = Ok r /\ valid r /\
    width r = Z.max (width a) (width b) /\ height r = Z.max (height a) (height b) /\
    forall x y, inside r x y ->
      (forall c1 c2, inside a x y -> inside b x y -> get_pixel m a x y = Ok c1 -> get_pixel m b x y = Ok c2 ->
         get_pixel m r x y = Ok (f c1 c2 i)) /\
      (inside a x y -> ~ inside b x y -> get_pixel m r x y = get_pixel m a x y) /\
      (~ inside a x y -> inside b x y -> get_pixel m r x y = get_pixel m b x y) /\
      (~ inside a x y -> ~ inside b x y -> get_pixel m r x y = Ok RGB_NONE).
Proof.
  intros Va Vb Vs. unfold blend_image_with_func.
  pose proof (valid_bounds a Va) as Ba. pose proof (valid_bounds b Vb) as Bb.
  assert (D : forall (c : PixelBuffer Rgb) x y, inside c x y \/ ~ inside c x y).
  { intros c x y. unfold inside. lia. }
  destruct (new_from_fn_ok m (Z.max (width a) (width b)) (Z.max (height a) (height b))
    (fun x y =>
    c1 <- get_pixel_optional m a (as_i32 x) (as_i32 y);
    c2 <- get_pixel_optional m b (as_i32 x) (as_i32 y);
    Ok (match c1, c2 with
        | Some c1, Some c2 => f c1 c2 i
        | Some c1, None => c1
        | None, Some c2 => c2
        | None, None => RGB_NONE
        end)) Vs) as (r & H & V & W & Hh & G).
  { intros x y Hx Hy. rewrite !as_i32_id by lia.
    assert (P : forall c : PixelBuffer Rgb, valid c -> exists o, get_pixel_optional m c x y = Ok o).
    { intros c Vc. destruct (D c x y) as [I|I].
      - rewrite get_pixel_optional_in by auto. destruct (get_pixel_inside m c x y Vc I) as (p & ->). simpl. eauto.
      - rewrite get_pixel_optional_out by auto. eauto. }
    destruct (P a Va) as (o1 & ->). destruct (P b Vb) as (o2 & ->). simpl. eauto. }
  exists r. split; auto. split; auto. split; auto. split; auto.
  intros x y I. rewrite G by auto. destruct I as (Ix & Iy). rewrite !as_i32_id by lia.
  split; [|split; [|split]].
  - intros c1 c2 Ia Ib E1 E2. rewrite !get_pixel_optional_in by auto. rewrite E1, E2. auto.
  - intros Ia Ib. rewrite get_pixel_optional_in, get_pixel_optional_out by auto. destruct (get_pixel m a x y); auto.
  - intros Ia Ib. rewrite get_pixel_optional_out by auto. cbn [bind]. rewrite get_pixel_optional_in by auto. destruct (get_pixel m b x y); auto.
  - intros Ia Ib. rewrite !get_pixel_optional_out by auto. auto.
Qed.

Lemma blend_with_too_big m a b i f : valid a -> valid b ->
  ~ valid_size (Z.max (width a) (width b)) (Z.max (height a) (height b)) ->
  blend_image_with_func m a b i f = Panic.
Proof. intros Va Vb N. pose proof (valid_bounds a Va). pose proof (valid_bounds b Vb).
  unfold blend_image_with_func, new_from_fn. rewrite new_from_func_invalid; auto; lia. Qed.
End image.

Open Scope R_scope.

(** apply_intensity at the ends *)
Lemma one_minus_0 i : fin i -> B2R i = 0 -> fsub f1 i = f1.
Proof. intros Fa Ea. destruct (fsub_exact f1 i) as [B1 B2]; auto with fin. { rewrite f1_R, Ea, Rminus_0_r. auto with fmt. }
  rewrite f1_R, Ea, Rminus_0_r in B2. apply f_inj_nz; auto with fin; rewrite ?f1_R; lra. Qed.
Lemma intensity_0 v1 v2 i : fin v1 -> fin v2 -> fin i -> B2R i = 0 ->
  fin (apply_intensity v1 v2 i) /\ B2R (apply_intensity v1 v2 i) = B2R v1.
Proof. intros A B C E. unfold apply_intensity. rewrite (one_minus_0 i) by auto.
  destruct (fmul_1_r v1 A) as [A1 A2]. destruct (fmul_0_r v2 i) as [B1 B2]; auto.
  destruct (fadd_0_r (fmul v1 f1) (fmul v2 i)) as [C1 C2]; auto. rewrite C2. auto. Qed.
Lemma intensity_1 v1 v2 i : fin v1 -> fin v2 -> fin i -> B2R i = 1 ->
  fin (apply_intensity v1 v2 i) /\ B2R (apply_intensity v1 v2 i) = B2R v2.
Proof. intros A B C E. unfold apply_intensity.
  assert (i = f1) as -> by (apply f_inj_nz; auto with fin; rewrite ?f1_R; lra).
  destruct (fsub_self f1 f1_fin) as [S1 S2].
  destruct (fmul_0_r v1 (fsub f1 f1)) as [A1 A2]; auto. destruct (fmul_1_r v2 B) as [B1 B2].
  destruct (fadd_0_l (fmul v1 (fsub f1 f1)) (fmul v2 f1)) as [C1 C2]; auto. rewrite C2. auto. Qed.

Definition plain_op (L : libm) (op : blend_op) : option (f32 -> f32 -> f32) :=
  match op with Addition => Some fadd | Subtract => Some fsub | Darken => Some fmin | Lighten => Some fmax | _ => None end.
Lemma plain_op_func L op f : plain_op L op = Some f -> blend_func L op = fun c1 c2 i => blend_color c1 c2 i f.
Proof. destruct op; simpl; intros H; inversion H; reflexivity. Qed.
Lemma plain_op_num L op f v1 v2 : plain_op L op = Some f -> num 0 1 v1 -> num 0 1 v2 -> num (-1) 2 (f v1 v2).
Proof.
  intros H [A A'] [B B']. destruct op; simpl in H; inversion H; subst.
  - apply fadd_num; auto with fmt; lra.
  - apply fsub_num; auto with fmt; lra.
  - destruct (fmin_val v1 v2) as [F E]; auto. split; auto. rewrite E. unfold Rmin. destruct Rle_dec; lra.
  - destruct (fmax_val v1 v2) as [F E]; auto. split; auto. rewrite E. unfold Rmax. destruct Rle_dec; lra.
Qed.

Lemma clamp_same x y : fin x -> num 0 1 y -> B2R x = B2R y -> same (clamp x) y.
Proof. intros F [G N] E. destruct (clamp_val x (B2R y)) as [A B]; auto. apply same_R; auto. Qed.

Lemma gamut_num c : in_gamut c -> num 0 1 (d0 c) /\ num 0 1 (d1 c) /\ num 0 1 (d2 c) /\ num 0 1 (d3 c).
Proof. intros (A & B & C & D). now rewrite <- !in01_num. Qed.

Lemma same_0 i : same i f0 -> fin i /\ B2R i = 0.
Proof. intros I. assert (F : fin i) by (destruct i as [s|s| |s p q ?]; try reflexivity; try destruct s; discriminate). split; auto.
  apply feq_R in I; auto with fin. Qed.
Lemma same_1 i : same i f1 -> fin i /\ B2R i = 1.
Proof. intros I. assert (F : fin i) by (destruct i as [s|s| |s p q ?]; try reflexivity; try destruct s; discriminate). split; auto.
  apply feq_R in I; auto with fin. now rewrite f1_R in I. Qed.

Lemma blend_color_0 L op f c1 c2 i : plain_op L op = Some f -> in_gamut c1 -> in_gamut c2 -> same i f0 ->
  let r := blend_color c1 c2 i f in same (d0 r) (d0 c1) /\ same (d1 r) (d1 c1) /\ same (d2 r) (d2 c1) /\ d3 r = d3 c2.
Proof.
  intros P G1 G2 I r. destruct (gamut_num _ G1) as (A0 & A1 & A2 & A3). destruct (gamut_num _ G2) as (B0 & B1 & B2 & B3).
  destruct (same_0 _ I) as [Fi Ei].
  destruct (fmul_0_l i (alpha c2)) as [F2 E2]; auto. { apply B3. }
  assert (K : forall v1 v2, num 0 1 v1 -> num 0 1 v2 -> same (clamp (apply_intensity v1 (f v1 v2) (fmul i (alpha c2)))) v1).
  { intros v1 v2 N1 N2. destruct (intensity_0 v1 (f v1 v2) (fmul i (alpha c2))) as [X Y]; auto.
    - apply N1.
    - apply (plain_op_num L op f v1 v2 P N1 N2).
    - apply clamp_same; auto. }
  unfold r, blend_color, rgb_new_with_alpha. cbn [d0 d1 d2 d3].
  split; [|split; [|split]]; auto. apply clamp_id. apply G2.
Qed.

Lemma blend_normal_0 c1 c2 i : in_gamut c1 -> in_gamut c2 -> same i f0 -> same_color (blend_normal c1 c2 i) c1.
Proof.
  intros G1 G2 I. destruct (gamut_num _ G1) as (A0 & A1 & A2 & A3). destruct (gamut_num _ G2) as (B0 & B1 & B2 & B3).
  destruct (same_0 _ I) as [Fi Ei].
  destruct (fmul_0_r (alpha c2) i) as [F2 E2]; auto. { apply B3. }
  unfold blend_normal, alpha_blend, with_alpha, rgb_new_with_alpha, alpha at 1 2 3 4 5 6 7 8.
  unfold same_color. cbn [d0 d1 d2 d3].
  split; [|split; [|split]]; [now apply blend_chan_transparent..|].
  destruct (blend_alpha (d3 c1) (fmul (alpha c2) i)) as ([N1 N2] & _ & _ & K & _); auto.
  { split; auto. rewrite E2. lra. }
  apply same_R; auto. apply A3.
Qed.

Lemma blend_color_1 L op f c1 c2 i : plain_op L op = Some f -> in_gamut c1 -> in_gamut c2 -> same i f1 -> same (alpha c2) f1 ->
  let r := blend_color c1 c2 i f in
  same (d0 r) (clamp (f (d0 c1) (d0 c2))) /\ same (d1 r) (clamp (f (d1 c1) (d1 c2))) /\ same (d2 r) (clamp (f (d2 c1) (d2 c2))) /\ d3 r = f1.
Proof.
  intros P G1 G2 I A r. destruct (gamut_num _ G1) as (A0 & A1 & A2 & A3). destruct (gamut_num _ G2) as (B0 & B1 & B2 & B3).
  destruct (same_1 _ I) as [Fi Ei]. destruct (same_1 _ A) as [Fa Ea].
  assert (a1 : alpha c2 = f1) by (apply f_inj_nz; auto with fin; rewrite ?f1_R; lra).
  destruct (fmul_1_r i Fi) as [F2 E2]. rewrite Ei in E2.
  assert (K : forall v1 v2, num 0 1 v1 -> num 0 1 v2 ->
    same (clamp (apply_intensity v1 (f v1 v2) (fmul i (alpha c2)))) (clamp (f v1 v2))).
  { intros v1 v2 N1 N2. rewrite a1. pose proof (plain_op_num L op f v1 v2 P N1 N2) as [Ff Nf].
    destruct (intensity_1 v1 (f v1 v2) (fmul i f1)) as [X Y]; auto. { apply N1. }
    unfold clamp, fclamp. destruct (flt (f v1 v2) f0) eqn:L0.
    - apply flt_R in L0; auto with fin.
      assert (flt (apply_intensity v1 (f v1 v2) (fmul i f1)) f0 = true) as -> by (apply flt_R; auto with fin; lra).
      apply same_R; auto with fin.
    - apply flt_Rf in L0; auto with fin.
      assert (flt (apply_intensity v1 (f v1 v2) (fmul i f1)) f0 = false) as -> by (apply flt_Rf; auto with fin; lra).
      destruct (flt f1 (f v1 v2)) eqn:L1.
      + apply flt_R in L1; auto with fin.
        assert (flt f1 (apply_intensity v1 (f v1 v2) (fmul i f1)) = true) as -> by (apply flt_R; auto with fin; lra).
        apply same_R; auto with fin.
      + apply flt_Rf in L1; auto with fin.
        assert (flt f1 (apply_intensity v1 (f v1 v2) (fmul i f1)) = false) as -> by (apply flt_Rf; auto with fin; lra).
        apply same_R; auto. }
  unfold r, blend_color, rgb_new_with_alpha. cbn [d0 d1 d2 d3].
  split; [|split; [|split]]; auto. rewrite a1. reflexivity.
Qed.

(** Results of blending stay in gamut. *)
Lemma intensity_num v1 v2 i M : fmt M -> num 0 1 v1 -> num (-1) 2 v2 -> num 0 1 i -> num (-1) 3 (apply_intensity v1 v2 i).
Proof.
  intros _ [A A'] [B B'] I. destruct (one_minus i I) as [[F1 N1] _]. destruct I as [Fi Hi]. unfold apply_intensity.
  destruct (fmul_num v1 (fsub f1 i) 0 1) as [[X X'] _]; auto with fmt; [nra|].
  destruct (fmul_num v2 i (-1) 2) as [[Y Y'] _]; auto with fmt; [nra|].
  apply fadd_num; auto with fmt. lra.
Qed.
Lemma intensity_01 v1 v2 i : num 0 1 v1 -> num 0 1 v2 -> num 0 1 i -> num 0 1 (apply_intensity v1 v2 i).
Proof.
  intros [A A'] [B B'] I. destruct (one_minus i I) as [[F1 N1] E1]. destruct I as [Fi Hi]. unfold apply_intensity.
  assert (M1 : B2R v1 * B2R (fsub f1 i) <= B2R (fsub f1 i)) by nra.
  assert (M2 : B2R v2 * B2R i <= B2R i) by nra.
  destruct (fmul_num v1 (fsub f1 i) 0 (B2R (fsub f1 i))) as [[X X'] _]; auto with fmt; [nra|].
  destruct (fmul_num v2 i 0 (B2R i)) as [[Y Y'] _]; auto with fmt; [nra|].
  destruct (fadd_num (fmul v1 (fsub f1 i)) (fmul v2 i) 0 2) as [[Z Z'] EZ]; auto with fmt; [lra|].
  split; auto. split; [lra|]. rewrite EZ.
  assert (Er : Rabs (rnd (1 - B2R i) - (1 - B2R i)) <= bpow radix2 (0 - 25)).
  { apply rnd_err; [lia|]. change (bpow radix2 0) with 1. rewrite Rabs_pos_eq; lra. }
  rewrite E1 in X'.
  assert (S : B2R (fmul v1 (fsub f1 i)) + B2R (fmul v2 i) <= 1 + bpow radix2 (0 - 25)).
  { pose proof (Rle_abs (rnd (1 - B2R i) - (1 - B2R i))). lra. }
  apply Rle_trans with (rnd (1 + bpow radix2 (0 - 25))); [now apply rnd_le|].
  fval (fadd f1 (lit 1 (-25))) H. fval (lit 1 (-25)) G.
  destruct (fadd_ok f1 (lit 1 (-25)) 2) as [_ Q]; auto with fin fmt.
  { rewrite f1_R, G. rewrite Rabs_pos_eq; lra. }
  rewrite f1_R in Q. rewrite G in Q.
  replace (bpow radix2 (0 - 25)) with (1 / 33554432) by (change (0 - 25)%Z with (-25)%Z; rewrite bpow_neg; change (Z.pow_pos 2 25) with 33554432%Z; lra).
  match type of Q with _ = rnd (1 + ?z) => replace (1 / 33554432) with z by lra end.
  rewrite <- Q, H. lra.
Qed.

Lemma blend_color_gamut L op f c1 c2 i : plain_op L op = Some f -> in_gamut c1 -> in_gamut c2 -> in01 i ->
  in_gamut (blend_color c1 c2 i f).
Proof.
  intros P G1 G2 I. destruct (gamut_num _ G1) as (A0 & A1 & A2 & A3). destruct (gamut_num _ G2) as (B0 & B1 & B2 & B3).
  apply in01_num in I.
  assert (N : num 0 1 (fmul i (alpha c2))) by (destruct I, B3; apply fmul_num; auto with fmt; unfold alpha; nra).
  assert (K : forall v1 v2, num 0 1 v1 -> num 0 1 v2 -> in01 (clamp (apply_intensity v1 (f v1 v2) (fmul i (alpha c2))))).
  { intros v1 v2 N1 N2. apply clamp_in01. apply (num_not_nan (-1) 3). apply (intensity_num _ _ _ 0); auto with fmt.
    apply (plain_op_num L op); auto. }
  unfold blend_color, rgb_new_with_alpha. split; [|split; [|split]]; cbn [d0 d1 d2 d3]; auto.
  apply clamp_in01. apply in01_not_nan. apply G2.
Qed.

Lemma blend_normal_gamut c1 c2 i : in_gamut c1 -> in_gamut c2 -> in01 i -> in_gamut (blend_normal c1 c2 i).
Proof.
  intros G1 G2 I. destruct (gamut_num _ G1) as (A0 & A1 & A2 & A3). destruct (gamut_num _ G2) as (B0 & B1 & B2 & B3).
  apply in01_num in I.
  assert (N : num 0 1 (fmul (alpha c2) i)) by (destruct I, B3; apply fmul_num; auto with fmt; unfold alpha; nra).
  unfold blend_normal, alpha_blend, with_alpha, rgb_new_with_alpha, alpha at 1 2 3 4 5 6 7 8.
  split; [|split; [|split]]; cbn [d0 d1 d2 d3]; [now apply blend_chan_range..|].
  apply in01_num. now apply blend_alpha.
Qed.

Lemma blend_hsl_gamut c1 c2 i : in_gamut c1 -> in_gamut c2 -> in01 i ->
  in_gamut (blend_hsl_darken c1 c2 i) /\ in_gamut (blend_hsl_lighten c1 c2 i).
Proof.
  intros G1 G2 I. destruct (rgb_to_hsl_range c1 G1) as (H1 & H2 & H3 & H4).
  destruct (rgb_to_hsl_range c2 G2) as (_ & _ & K3 & _).
  apply in01_num in I. pose proof (proj1 (in01_num _) H3) as N1. pose proof (proj1 (in01_num _) K3) as N2.
  assert (W : forall l, num 0 1 l -> in_gamut (hsl_to_rgb (with_2 (rgb_to_hsl c1) l))).
  { intros l N. apply hsl_to_rgb_range; unfold with_2; cbn [d0 d1 d2 d3]; auto.
    - apply in01_num in H1. destruct H1 as [F H1]. split; auto. lra.
    - now apply in01_num. }
  split; apply W; apply intensity_01; auto.
  - destruct N1, N2. destruct (fmin_val (d2 (rgb_to_hsl c1)) (d2 (rgb_to_hsl c2))) as [F E]; auto. split; auto. rewrite E. unfold Rmin. destruct Rle_dec; lra.
  - destruct N1, N2. destruct (fmax_val (d2 (rgb_to_hsl c1)) (d2 (rgb_to_hsl c2))) as [F E]; auto. split; auto. rewrite E. unfold Rmax. destruct Rle_dec; lra.
Qed.
