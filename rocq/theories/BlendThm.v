(** Properties of blending (C20, C38, C70, C71). *)
From Coq Require Import ZArith Reals List Bool.
From Flocq Require Import IEEE754.BinarySingleNaN.
From Verif Require Import Base PixelBuffer BufferSpec F32 Color ColorSpec Blend.
Import ListNotations.
Open Scope Z_scope.

(* PROPERTIES *)
From Coq Require Import Lra Lia.
From Verif Require Import PixelBufferProofs F32Lemmas ColorProofs BlendProofs.

(** C20: the blended image covers both images; outside the overlap the pixels
    are untouched, inside it each pixel depends on the two pixels there. *)
Lemma blend_overlap : forall L m a b op i, valid a -> valid b ->
  valid_size (Z.max (width a) (width b)) (Z.max (height a) (height b)) ->
  exists r, blend_image L m a b op i = Ok r /\ valid r /\
    width r = Z.max (width a) (width b) /\ height r = Z.max (height a) (height b) /\
    forall x y, inside r x y ->
      (forall c1 c2, inside a x y -> inside b x y -> get_pixel m a x y = Ok c1 -> get_pixel m b x y = Ok c2 ->
         get_pixel m r x y = Ok (blend_func L op c1 c2 i)) /\
      (inside a x y -> ~ inside b x y -> get_pixel m r x y = get_pixel m a x y) /\
      (~ inside a x y -> inside b x y -> get_pixel m r x y = get_pixel m b x y) /\
      (~ inside a x y -> ~ inside b x y -> get_pixel m r x y = Ok (mkC f0 f0 f0 f0)).
Proof. intros L m a b op i. exact (blend_with_ok m a b i (blend_func L op)). Qed.

(** C20: a bounding box that is too big is refused by a panic. *)
Lemma blend_too_big : forall L m a b op i, valid a -> valid b ->
  ~ valid_size (Z.max (width a) (width b)) (Z.max (height a) (height b)) ->
  blend_image L m a b op i = Panic.
Proof. intros L m a b op i. exact (blend_with_too_big m a b i (blend_func L op)). Qed.

Example blend_overlap_example :
  let a := mkPB 2 1 [RGB_RED; RGB_BLUE] in let b := mkPB 1 2 [RGB_BLUE; RGB_WHITE] in
  valid a /\ valid b /\ valid_size 2 2 /\
  match blend_image example_libm Checked a b Addition f1 with Panic => False | Ok r =>
    map (fun c => (feq (d0 c) f1, feq (d1 c) f1, feq (d2 c) f1, feq (d3 c) f1)) (data r)
    = [(true, false, true, true); (false, false, true, true); (true, true, true, true); (false, false, false, false)] end.
Proof.
  split; [split; [right; cbn; lia|reflexivity]|]. split; [split; [right; cbn; lia|reflexivity]|].
  split; [right; lia|]. vm_compute. reflexivity. Qed.

(** C38: normal blending with intensity 0 returns the first colour. *)
Lemma normal_intensity_0 : forall L c1 c2 i, in_gamut c1 -> in_gamut c2 -> same i f0 ->
  same_color (blend_func L Normal c1 c2 i) c1.
Proof. intros L. exact blend_normal_0. Qed.

(** C38: addition, subtract, darken and lighten with intensity 0 return the
    channels of the first colour, but the alpha of the second. *)
Lemma plain_intensity_0 : forall L op c1 c2 i, In op [Addition; Subtract; Darken; Lighten] ->
  in_gamut c1 -> in_gamut c2 -> same i f0 ->
  let r := blend_func L op c1 c2 i in
  same (d0 r) (d0 c1) /\ same (d1 r) (d1 c1) /\ same (d2 r) (d2 c1) /\ alpha r = alpha c2.
Proof.
  intros L op c1 c2 i H G1 G2 I r.
  assert (E : exists f, plain_op L op = Some f).
  { cbn [In] in H. destruct H as [<-|[<-|[<-|[<-|[]]]]]; simpl; eauto. }
  destruct E as (f & E). unfold r. rewrite (plain_op_func L op f E). exact (blend_color_0 L op f c1 c2 i E G1 G2 I).
Qed.

(** C38: so those four do not leave the first image unchanged: an opaque
    pixel becomes transparent. *)
Lemma intensity_0_identity_refuted : forall L op, In op [Addition; Subtract; Darken; Lighten] ->
  exists c1 c2, in_gamut c1 /\ in_gamut c2 /\ color_eq (blend_func L op c1 c2 f0) c1 = false.
Proof.
  intros L op H. exists RGB_RED, RGB_NONE.
  split; [repeat split|]. split; [repeat split|].
  cbn [In] in H. destruct H as [<-|[<-|[<-|[<-|[]]]]]; vm_compute; reflexivity.
Qed.

(** C38: the HSL operations with intensity 0 convert the first colour to HSL
    and back, with the same numbers in between. *)
Lemma hsl_intensity_0 : forall L op c1 c2 i, In op [HslDarken; HslLighten] ->
  in_gamut c1 -> in_gamut c2 -> same i f0 ->
  exists h, same_color h (rgb_to_hsl c1) /\ blend_func L op c1 c2 i = hsl_to_rgb h.
Proof.
  intros L op c1 c2 i H G1 G2 I.
  destruct (rgb_to_hsl_range c1 G1) as (H1 & H2 & H3 & H4).
  destruct (rgb_to_hsl_range c2 G2) as (_ & _ & K3 & _).
  destruct (same_0 _ I) as [Fi Ei].
  assert (W : forall l2, fin l2 -> same_color (with_2 (rgb_to_hsl c1) (apply_intensity (d2 (rgb_to_hsl c1)) l2 i)) (rgb_to_hsl c1)).
  { intros l2 F. destruct (intensity_0 (d2 (rgb_to_hsl c1)) l2 i) as [X Y]; auto using in01_fin.
    unfold same_color, with_2. cbn [d0 d1 d2 d3].
    split; [|split; [|split]]; apply same_R; auto using in01_fin. }
  apply in01_fin in H3, K3.
  cbn [In] in H. destruct H as [<-|[<-|[]]]; eexists; (split; [|reflexivity]); apply W.
  - now apply fmin_val.
  - now apply fmax_val.
Qed.

(** C38: the LCh operations with intensity 0 convert the first colour to LCh
    and back, whatever the mathematical library, as long as it delivers
    numbers (and, for the hue, the hues are less than half a turn apart). *)
Lemma lch_intensity_0 : forall L op c1 c2 i, In op [LchDarken; LchLighten; LchHue; LchSaturation; LchColor] ->
  let h1 := to_lch L D65 O2 KRgb c1 in let h2 := to_lch L D65 O2 KRgb c2 in
  is_finite (d0 h1) = true -> is_finite (d1 h1) = true -> is_finite (d2 h1) = true -> is_finite (d3 h1) = true ->
  is_finite (d0 h2) = true -> is_finite (d1 h2) = true -> is_finite (d2 h2) = true ->
  (op = LchHue -> flt fPI (fabs (fsub (d2 h1) (d2 h2))) = false) -> same i f0 ->
  exists h, same_color h h1 /\ blend_func L op c1 c2 i = to_rgb L (KLch D65 O2) h.
Proof.
  intros L op c1 c2 i H. change (to_lch L D65 O2 KRgb c1) with (rgb_lch L c1). change (to_lch L D65 O2 KRgb c2) with (rgb_lch L c2).
  change (to_rgb L (KLch D65 O2)) with (lch_rgb L). cbv zeta.
  cbn [In] in H. destruct H as [<-|[<-|[<-|[<-|[<-|[]]]]]]; cbn [blend_func];
    unfold blend_lch_darken, blend_lch_lighten, blend_lch_hue, blend_lch_saturation, blend_lch_color;
    generalize (rgb_lch L c1) (rgb_lch L c2); generalize (lch_rgb L);
    intros F h1 h2 A0 A1 A2 A3 B0 B1 B2 Hh I; destruct (same_0 _ I) as [Fi Ei];
    (assert (K : forall v1 v2, fin v1 -> fin v2 -> same (apply_intensity v1 v2 i) v1)
      by (intros v1 v2 F1 F2; destruct (intensity_0 v1 v2 i) as [X Y]; auto; apply same_R; auto));
    (assert (S : forall v, fin v -> same v v) by (intros v Fv; apply same_R; auto));
    eexists; (split; [|reflexivity]); unfold same_color, with_0, with_1, with_2; cbn [d0 d1 d2 d3];
    (split; [|split; [|split]]); auto.
  - apply K; auto. now apply fmin_val.
  - apply K; auto. now apply fmax_val.
  - unfold blend_hue. rewrite (Hh eq_refl). auto.
Qed.

Example intensity_0_example : in_gamut RGB_YELLOW /\ in_gamut RGB_NONE /\ same f0 f0 /\
  color_eq (blend_func example_libm Normal RGB_YELLOW RGB_NONE f0) RGB_YELLOW = true /\
  (let h := to_lch example_libm D65 O2 KRgb RGB_YELLOW in
   is_finite (d0 h) && is_finite (d1 h) && is_finite (d2 h) && is_finite (d3 h) = true).
Proof. repeat split. Qed.

(** C70: normal blending with intensity 1 and an opaque second colour returns
    the second colour's channels, opaque. *)
Lemma normal_intensity_1 : forall L c1 c2 i, in_gamut c1 -> in_gamut c2 -> same i f1 -> same (alpha c2) f1 ->
  same_color (blend_func L Normal c1 c2 i) c2.
Proof.
  intros L c1 c2 i G1 G2 I A. destruct (gamut_num _ G1) as (A0 & A1 & A2 & A3). destruct (gamut_num _ G2) as (B0 & B1 & B2 & B3).
  destruct (same_1 _ I) as [Fi Ei]. destruct (same_1 _ A) as [Fa Ea].
  destruct (fmul_1_r (alpha c2) Fa) as [F2 E2].
  assert (i = f1) as -> by (apply f_inj_nz; auto with fin; rewrite ?f1_R; lra).
  rewrite Ea in E2.
  cbn [blend_func]. unfold blend_normal, alpha_blend, with_alpha, rgb_new_with_alpha, alpha at 1 2 3 4 5 6 7 8.
  unfold same_color. cbn [d0 d1 d2 d3].
  split; [|split; [|split]]; [now apply blend_chan_opaque..|].
  destruct (blend_alpha (d3 c1) (fmul (alpha c2) f1)) as ([N1 N2] & _ & _ & _ & K); auto.
  { split; auto. rewrite E2. lra. }
  apply same_R; auto. unfold alpha in *. rewrite Ea. now apply K.
Qed.

(** C70: addition, subtract, darken and lighten with intensity 1 and an opaque
    second colour give the channel-wise sum, difference, minimum and maximum,
    brought into range, and an opaque colour. *)
Lemma plain_intensity_1 : forall L c1 c2 i, in_gamut c1 -> in_gamut c2 -> same i f1 -> same (alpha c2) f1 ->
  Forall (fun p : blend_op * (f32 -> f32 -> f32) =>
    let r := blend_func L (fst p) c1 c2 i in let f := snd p in
    exists s0 s1 s2, clamped (f (d0 c1) (d0 c2)) s0 /\ clamped (f (d1 c1) (d1 c2)) s1 /\ clamped (f (d2 c1) (d2 c2)) s2 /\
    same_color r (mkC s0 s1 s2 f1))
    [(Addition, fadd); (Subtract, fsub); (Darken, fmin); (Lighten, fmax)].
Proof.
  intros L c1 c2 i G1 G2 I A.
  assert (K : forall op f, plain_op L op = Some f -> let r := blend_func L op c1 c2 i in
    exists s0 s1 s2, clamped (f (d0 c1) (d0 c2)) s0 /\ clamped (f (d1 c1) (d1 c2)) s1 /\ clamped (f (d2 c1) (d2 c2)) s2 /\
    same_color r (mkC s0 s1 s2 f1)).
  { intros op f P r. exists (clamp (f (d0 c1) (d0 c2))), (clamp (f (d1 c1) (d1 c2))), (clamp (f (d2 c1) (d2 c2))).
    split; [apply clamp_clamped|]. split; [apply clamp_clamped|]. split; [apply clamp_clamped|].
    unfold r. rewrite (plain_op_func L op f P).
    destruct (blend_color_1 L op f c1 c2 i P G1 G2 I A) as (X & Y & Z & W).
    unfold same_color. cbn [d0 d1 d2 d3]. rewrite W. repeat split; auto. }
  repeat constructor; cbn [fst snd]; apply K; reflexivity.
Qed.

Example intensity_1_example :
  let r := blend_func example_libm Addition (mkC (dec 1 2) (dec 3 4) f0 f1) (mkC (dec 1 4) (dec 1 2) f1 f1) f1 in
  same_color r (mkC (dec 3 4) f1 f1 f1).
Proof. vm_compute. repeat split. Qed.

(** C71: blending two in-gamut colours with an intensity in [0,1] stays in
    gamut for every operation except the LCh ones. *)
Lemma blend_in_gamut : forall L op c1 c2 i,
  In op [Normal; Addition; Subtract; Darken; Lighten; HslDarken; HslLighten] ->
  in_gamut c1 -> in_gamut c2 -> in01 i -> in_gamut (blend_func L op c1 c2 i).
Proof.
  intros L op c1 c2 i H G1 G2 I. cbn [In] in H. destruct H as [<-|[<-|[<-|[<-|[<-|[<-|[<-|[]]]]]]]].
  - now apply blend_normal_gamut.
  - exact (blend_color_gamut L Addition _ c1 c2 i eq_refl G1 G2 I).
  - exact (blend_color_gamut L Subtract _ c1 c2 i eq_refl G1 G2 I).
  - exact (blend_color_gamut L Darken _ c1 c2 i eq_refl G1 G2 I).
  - exact (blend_color_gamut L Lighten _ c1 c2 i eq_refl G1 G2 I).
  - exact (proj1 (blend_hsl_gamut c1 c2 i G1 G2 I)).
  - exact (proj2 (blend_hsl_gamut c1 c2 i G1 G2 I)).
Qed.

(** C71: for the LCh operations each channel is in range or NaN, and alpha is
    that of the first colour. *)
Lemma blend_lch_clamps : forall L op c1 c2 i, In op [LchDarken; LchLighten; LchHue; LchSaturation; LchColor] ->
  let r := blend_func L op c1 c2 i in
  in01_or_nan (d0 r) /\ in01_or_nan (d1 r) /\ in01_or_nan (d2 r) /\ alpha r = alpha c1.
Proof.
  intros L op c1 c2 i H r.
  assert (X : forall x, let r := lch_rgb L x in in01_or_nan (d0 r) /\ in01_or_nan (d1 r) /\ in01_or_nan (d2 r) /\ d3 r = d3 x).
  { intros x. unfold lch_rgb, to_rgb, xyz_to_rgb, apply_matrix_clamped, XYZ_TO_RGB. cbn [d0 d1 d2 d3]. 
    (split; [auto with col|split; [auto with col|split; [auto with col|]]]).
    rewrite lab_to_xyz_alpha. unfold to_lab. rewrite xyz_to_lab_alpha. unfold to_xyz. apply lch_to_xyz_alpha. }
  assert (Y : d3 (rgb_lch L c1) = d3 c1).
  { unfold rgb_lch, to_lch, to_lab, to_xyz. rewrite lab_to_lch_alpha, xyz_to_lab_alpha. apply apply_matrix_alpha. }
  unfold r. cbn [In] in H. destruct H as [<-|[<-|[<-|[<-|[<-|[]]]]]]; cbn [blend_func];
    unfold blend_lch_darken, blend_lch_lighten, blend_lch_hue, blend_lch_saturation, blend_lch_color;
    match goal with |- context [lch_rgb L ?x] => destruct (X x) as (Z0 & Z1 & Z2 & Z3) end;
    (split; [exact Z0|split; [exact Z1|split; [exact Z2|]]]); unfold alpha; rewrite Z3; exact Y.
Qed.

Example blend_gamut_example : in_gamut RGB_CYAN /\ in01 (dec 1 2) /\
  same (d0 (blend_func example_libm Darken RGB_CYAN RGB_RED (dec 1 2))) f0 /\
  same (d1 (blend_func example_libm Darken RGB_CYAN RGB_RED (dec 1 2))) (dec 1 2).
Proof. repeat split; vm_compute; reflexivity. Qed.
