(** The drawing operation. *)
From Coq Require Import ZArith List Bool Lia Reals Lra Psatz.
From Flocq Require Import Core.Core IEEE754.BinarySingleNaN.
From Verif Require Import Base PixelBuffer BaseLemmas BufferSpec PixelBufferProofs EnumProofs Geometry GeometryProofs.
From Verif Require Import F32 Color F32Lemmas ColorSpec ColorProofs Kernel KernelSpec KernelProofs.
From Verif Require Import ComposeProofs ResampleProofs Kernel2Proofs GaussProofs Gauss2Proofs FilterProofs Filter2Proofs.
Import ListNotations.
Open Scope Z_scope.

Lemma fabs_nonneg v : is_nan (fabs v) = true \/ fle f0 (fabs v) = true.
Proof. destruct v as [s|s| |s m e H]; [right|right|left|right]; reflexivity. Qed.

Lemma flt_fle a b : flt a b = true -> fle a b = true.
Proof. unfold flt, fle, Bltb, Bleb, SpecFloat.SFltb, SpecFloat.SFleb. destruct (SpecFloat.SFcompare _ _) as [[| |]|]; auto; discriminate. Qed.

Lemma fold_fmin_01 l : forall a, in01 a -> (forall v, In v l -> is_nan v = true \/ fle f0 v = true) -> in01 (fold_left fmin l a).
Proof.
  induction l as [|v l IH]; intros a Ha Hl; [auto|]. cbn [fold_left]. apply IH; [|intros; apply Hl; right; auto].
  unfold fmin. rewrite (in01_not_nan a Ha). destruct (Hl v (or_introl eq_refl)) as [N | P].
  - rewrite N. auto.
  - destruct (is_nan v); [auto|]. destruct (flt v a) eqn:L; [|auto]. apply flt_fle in L.
    assert (Fv : fin v). { apply (fle_between f0 v a); auto with fin. }
    apply in01_num. apply in01_num in Ha. destruct Ha as [Fa Ra]. apply fle_R in P; auto with fin. apply fle_R in L; auto.
    rewrite f0_R in P. split; [auto|lra].
Qed.

Lemma drawing_pixel_gamut c1 c2 : let c := drawing_pixel c1 c2 in in_gamut c /\ d0 c = d1 c /\ d1 c = d2 c /\ d3 c = f1.
Proof.
  cbv zeta. unfold drawing_pixel. cbv zeta.
  set (vs := _ ++ _). 
  set (diff := fold_left fmin _ f1).
  assert (D : in01 diff).
  { apply fold_fmin_01; [apply in01_f1|]. intros v Hv. apply in_map_iff in Hv. destruct Hv as [[a b] [<- _]]. apply fabs_nonneg. }
  clearbody diff. clear vs. unfold rgb_new. cbn [d0 d1 d2 d3]. split; [|auto].
  assert (Q : in01 (clamp (if flt (dec 8 10) diff then f1 else fmax (fmul (fsub diff (dec 5 10)) (dec 12 10)) f0))).
  { apply clamp_in01. destruct (flt (dec 8 10) diff); [reflexivity|].
    assert (F5 : fin (dec 5 10)) by reflexivity. assert (F12 : fin (dec 12 10)) by reflexivity.
    assert (R5 : B2R (dec 5 10) = (/ 2)%R) by apply half_R.
    apply in01_num in D. destruct D as [Fd Rd].
    destruct (fsub_num diff (dec 5 10) (-1) 1) as [[F1 _] _]; auto with fmt. { rewrite R5. lra. }
    pose proof (fmul_not_nan _ _ F1 F12) as N. unfold fmax. rewrite N. cbn [is_nan f0]. destruct (flt _ f0); [reflexivity|exact N]. }
  unfold in_gamut. cbn [d0 d1 d2 d3]. auto using in01_f1.
Qed.

(** all pixels of an image *)
Definition all_pixels (P : Rgb -> Prop) (b : PixelBuffer Rgb) : Prop := forall c, In c (data b) -> P c.
Definition gray (c : Rgb) : Prop := d0 c = d1 c /\ d1 c = d2 c.

Lemma compose2_all m (b1 b2 : PixelBuffer Rgb) d f (P : Rgb -> Prop) : valid b1 -> valid b2 ->
  width b1 = width b2 -> height b1 = height b2 -> (forall c1 c2, In c1 (data b1) -> In c2 (data b2) -> P (f c1 c2)) ->
  exists r, compose2 m b1 b2 d f = Ok r /\ valid r /\ width r = width b1 /\ height r = height b1 /\ all_pixels P r.
Proof.
  intros V1 V2 W H Hf. destruct (compose2_ok m b1 b2 d f V1 V2 W H) as (r & E & Vr & Wr & Hr & Q).
  exists r. split; [auto|]. split; [auto|]. split; [auto|]. split; [auto|]. intros c Hc.
  apply (data_In m) in Hc; auto. destruct Hc as [x [y [I Hp]]]. assert (I' : inside b1 x y) by (unfold inside in *; lia).
  destruct (Q x y I') as (c1 & c2 & E1 & E2 & E3). rewrite Hp in E3. apply Ok_inj in E3. subst c.
  apply Hf; apply (data_In m); eauto. exists x, y. split; [unfold inside in *; lia|auto].
Qed.

Lemma map_pure_all f (b : PixelBuffer Rgb) : valid b ->
  exists r, map_pure f b = Ok r /\ valid r /\ width r = width b /\ height r = height b /\
    forall c, In c (data r) -> exists c', In c' (data b) /\ c = f c'.
Proof.
  intros V. destruct (map_pure_ok f b V) as (r & E & D & Vr & Wr & Hr & _).
  exists r. split; [auto|]. split; [auto|]. split; [auto|]. split; [auto|]. intros c Hc. rewrite D in Hc.
  apply in_map_iff in Hc. destruct Hc as [c' [<- Hc']]. eauto.
Qed.

Lemma unsharp_total L m (b : PixelBuffer Rgb) r factor sigma : valid b -> 0 <= r <= 32767 ->
  exists out, unsharp L m b r factor sigma = Ok out /\ valid out /\ width out = width b /\ height out = height b.
Proof. intros V Hr. destruct (unsharp_lemma L m b r factor sigma V Hr) as (o & E & Vo & W & H & _). eauto. Qed.
Lemma blur_total L m (b : PixelBuffer Rgb) r sigma : valid b -> 0 <= r <= 32767 ->
  exists out, gaussian_blur L m b r sigma = Ok out /\ valid out /\ width out = width b /\ height out = height b.
Proof. intros V Hr. destruct (blur_conv L m b r sigma V Hr) as (o & E & Vo & W & H & _). eauto. Qed.

Lemma weighted_gray p q l : (forall x, In x l -> p (snd x) = q (snd x)) -> weighted_channel p l = weighted_channel q l.
Proof.
  unfold weighted_channel. generalize f0. induction l as [|[k c] l IH]; intros a H; [reflexivity|].
  cbn [fold_left]. pose proof (H (k, c) (or_introl eq_refl)) as E. cbn [snd] in E. rewrite E.
  apply IH. intros; apply H; right; auto.
Qed.

Lemma unsharp_gray L m (b : PixelBuffer Rgb) r factor sigma out : valid b -> 0 <= r <= 32767 -> all_pixels gray b ->
  unsharp L m b r factor sigma = Ok out -> all_pixels gray out.
Proof.
  intros V Hr G E c Hc. destruct (unsharp_lemma L m b r factor sigma V Hr) as (out' & E' & Vo & W & H & P).
  rewrite E in E'. apply Ok_inj in E'. subst out'.
  apply (data_In m) in Hc; auto. destruct Hc as [x [y [I Hp]]]. assert (I' : inside b x y) by (unfold inside in *; lia).
  destruct (P x y I') as (c0 & ps & E1 & E2 & E3). cbv zeta in E3. rewrite Hp in E3. apply Ok_inj in E3. subst c.
  assert (G0 : gray c0) by (apply G; apply (data_In m); eauto).
  assert (Gp : forall c, In c ps -> gray c) by (intros q Hq; apply G; eapply neighbourhood_In; eauto).
  set (l := combine _ ps).
  assert (Gl : forall q, In q l -> gray (snd q)). { intros [k q] Hq. apply in_combine_r in Hq. cbn [snd]. auto. }
  clearbody l. unfold gray, rgb_new_with_alpha, weighted_sum. cbn [d0 d1 d2 d3]. destruct G0 as [G01 G12].
  rewrite (weighted_gray d0 d1 l), G01, (weighted_gray d1 d2 l), G12; [auto| |]; intros q Hq; apply Gl in Hq; apply Hq.
Qed.

Lemma despeckle_gray m (b : PixelBuffer Rgb) t amount out : valid b -> all_pixels gray b ->
  despeckle m b t amount = Ok out -> all_pixels gray out.
Proof.
  intros V G E c Hc. destruct (despeckle_lemma m b t amount V) as (out' & E' & Vo & W & H & P).
  rewrite E in E'. apply Ok_inj in E'. subst out'.
  apply (data_In m) in Hc; auto. destruct Hc as [x [y [I Hp]]]. assert (I' : inside b x y) by (unfold inside in *; lia).
  destruct (get_pixel_inside m b x y V I') as [c0 Ec].
  destruct (P x y c0 I' Ec) as (ps & E2 & E3). cbv zeta in E3. rewrite Hp in E3. apply Ok_inj in E3. subst c.
  destruct (dark t c0 && _); [|apply G; apply (data_In m); eauto].
  assert (Gp : forall c, In c ps -> gray c) by (intros q Hq; apply G; eapply neighbourhood_In; eauto).
  unfold gray. cbn [d0 d1 d2 d3].
  assert (M1 : map d0 (filter (bright t) ps) = map d1 (filter (bright t) ps)).
  { apply map_ext_in. intros q Hq. apply filter_In in Hq. apply Gp. apply Hq. }
  assert (M2 : map d1 (filter (bright t) ps) = map d2 (filter (bright t) ps)).
  { apply map_ext_in. intros q Hq. apply filter_In in Hq. apply Gp. apply Hq. }
  split; [exact (f_equal (fun l => clamp (fdiv (fold_left fadd l f0) _)) M1)|exact (f_equal (fun l => clamp (fdiv (fold_left fadd l f0) _)) M2)].
Qed.

Lemma merge_pixel_gamut d o : in_gamut d -> in_gamut o -> in_gamut (merge_color_pixel d o).
Proof.
  intros Gd Go. unfold merge_color_pixel. cbv zeta.
  destruct (rgb_to_hsl_range d Gd) as (_ & _ & D2 & _). destruct (rgb_to_hsl_range o Go) as (O0 & O1 & O2 & O3).
  apply hsl_to_rgb_range; unfold with_2; cbn [d0 d1 d2 d3]; auto.
  - apply in01_num in O0. eapply num_weak; [exact O0|lra|lra].
  - apply in01_num. apply in01_num in O2. apply in01_num in D2. destruct O2 as [Fo Ro]. destruct D2 as [Fd Rd].
    destruct (fmin_val _ _ Fo Fd) as [F R]. split; [exact F|]. rewrite R.
    unfold Rmin. destruct (Rle_dec _ _); lra.
Qed.

Lemma reduced_total L m (d o : PixelBuffer Rgb) : valid d -> valid o -> width d = width o -> height d = height o ->
  exists r, merge_color_reduced L m d o = Ok r /\ valid r /\ width r = width o /\ height r = height o.
Proof.
  intros Vd Vo W H. unfold merge_color_reduced.
  destruct (map_pure_all reduce_color o Vo) as (rc & -> & V1 & W1 & H1 & _). cbn [bind].
  destruct (blur_total L m rc 2 None V1 ltac:(lia)) as (g2 & -> & V2 & W2 & H2). cbn [bind].
  destruct (compose2_all m d g2 RGB_NONE (fun c1 c2 => hsv_to_rgb (with_1 (rgb_to_hsv c1) (d1 (rgb_to_hsv c2)))) (fun _ => True))
    as (o1 & -> & V3 & W3 & H3 & _); auto; try lia. cbn [bind].
  destruct (blur_total L m o 3 None Vo ltac:(lia)) as (g3 & -> & V4 & W4 & H4). cbn [bind].
  destruct (compose2_all m o1 g3 RGB_NONE (fun c1 c2 => hsv_to_rgb (with_0 (rgb_to_hsv c1) (d0 (rgb_to_hsv c2)))) (fun _ => True))
    as (o2 & -> & V5 & W5 & H5 & _); auto; try lia. cbn [bind].
  destruct (blur_total L m o 4 None Vo ltac:(lia)) as (g4 & -> & V6 & W6 & H6). cbn [bind].
  destruct (compose2_all m o2 g4 RGB_NONE (fun c1 c2 =>
    hsv_to_rgb (with_2 (rgb_to_hsv c1) (fmul (d2 (rgb_to_hsv c1)) (d2 (rgb_to_hsv c2))))) (fun _ => True))
    as (o3 & -> & V7 & W7 & H7 & _); auto; try lia. cbn [bind].
  destruct (unsharp_total L m o3 3 (dec 15 10) None V7 ltac:(lia)) as (u & -> & V8 & W8 & H8). cbn [bind].
  destruct (map_pure_all (fun x => with_vibrance L (dec 3 10) (with_gamma L (dec 11 10) (with_saturation (dec 13 10) x))) u V8)
    as (r & -> & V9 & W9 & H9 & _). exists r. split; [auto|]. split; [auto|]. split; lia.
Qed.

Lemma drawing_lemma L m (b : PixelBuffer Rgb) radius mode : valid b -> 0 <= radius <= 32767 -> exp_ok L ->
  exists out, drawing L m b radius mode = Ok out /\ valid out /\ width out = width b /\ height out = height b /\
    (mode = DGray -> all_pixels (fun c => in_gamut c /\ gray c) out) /\
    (mode = DColored -> all_pixels in_gamut b -> all_pixels in_gamut out).
Proof.
  intros V Hr X. unfold drawing.
  destruct (map_pure_all (map_channels (fun v => fadd (fmul v (dec 8 10)) (dec 2 10))) b V) as (l & -> & V1 & W1 & H1 & _). cbn [bind].
  destruct (blur_total L m l 1 None V1 ltac:(lia)) as (b1 & -> & V2 & W2 & H2). cbn [bind].
  destruct (unsharp_total L m b1 4 (ofZ 4) (Some (ofZ 5)) V2 ltac:(lia)) as (b1' & -> & V3 & W3 & H3). cbn [bind].
  destruct (map_pure_all (with_contrast (dec 105 100)) b1' V3) as (b1'' & -> & V4 & W4 & H4 & _). cbn [bind].
  destruct (blur_total L m l radius None V1 ltac:(lia)) as (b2 & -> & V5 & W5 & H5). cbn [bind].
  destruct (map_pure_all invert b2 V5) as (b2' & -> & V6 & W6 & H6 & _). cbn [bind].
  destruct (compose2_all m b1'' b2' RGB_NONE drawing_pixel (fun c => in_gamut c /\ gray c)) as (d & -> & V7 & W7 & H7 & P7); auto; try lia.
  { intros c1 c2 _ _. destruct (drawing_pixel_gamut c1 c2) as (A & B & C & _). split; [auto|split; auto]. }
  cbn [bind].
  assert (G7 : all_pixels gray d) by (intros c Hc; apply P7; auto).
  destruct (unsharp_gamut L m d 2 f1 X V7 ltac:(lia) f1_fin) as (d' & E8 & V8 & W8 & H8 & P8); [intros c Hc; apply P7; auto|].
  pose proof (unsharp_gray L m d 2 f1 None d' V7 ltac:(lia) G7 E8) as G8. rewrite E8. cbn [bind].
  destruct (despeckle_lemma m d' (dec 15 100) 1 V8) as (d'' & E9 & V9 & W9 & H9 & _).
  pose proof (despeckle_gray m d' _ _ d'' V8 G8 E9) as G9.
  assert (P9 : all_pixels in_gamut d'').
  { intros c Hc. apply (despeckle_gamut m d' (dec 15 100) 1 d''); auto. lia. }
  rewrite E9. cbn [bind]. destruct mode.
  - exists d''. split; [reflexivity|]. split; [auto|]. split; [lia|]. split; [lia|].
    split; [|discriminate]. intros _ c Hc. split; auto.
  - unfold merge_color. destruct (compose2_ok m d'' b RGB_NONE merge_color_pixel V9 V) as (r & E & Vr & Wr & Hh & _); try lia.
    exists r. split; [exact E|]. split; [auto|]. split; [lia|]. split; [lia|]. split; [discriminate|]. intros _ Gb.
    destruct (compose2_all m d'' b RGB_NONE merge_color_pixel in_gamut V9 V) as (r' & E' & _ & _ & _ & Gr); try lia.
    { intros c1 c2 I1 I2. apply merge_pixel_gamut; auto. }
    rewrite E in E'. apply Ok_inj in E'. subst r'. exact Gr.
  - destruct (reduced_total L m d'' b V9 V) as (r & E & Vr & Wr & Hh); try lia.
    exists r. split; [exact E|]. split; [auto|]. split; [lia|]. split; [lia|]. split; discriminate.
Qed.
