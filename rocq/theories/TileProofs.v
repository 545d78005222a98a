(** Proofs for C125: filters are local. *)
From Coq Require Import ZArith Reals List Bool Lia.
From Verif Require Import Base PixelBuffer BufferSpec Geometry F32 Color ColorSpec Kernel KernelSpec Image TileSpec.
From Verif Require Import BaseLemmas PixelBufferProofs GeometryProofs F32Lemmas KernelProofs Kernel2Proofs GaussProofs Gauss2Proofs FilterProofs Filter2Proofs Filter3Proofs DrawingProofs.
Import ListNotations.
Open Scope Z_scope.

(** [local m k op]: the operation never fails on valid buffers, keeps the size
    and looks at most [k] columns and rows away. *)
Definition local (m : build) (k : Z) (op : PixelBuffer Rgb -> res (PixelBuffer Rgb)) : Prop :=
  forall b b', valid b -> valid b' -> exists o o', op b = Ok o /\ op b' = Ok o' /\ valid o /\ valid o' /\
    width o = width b /\ height o = height b /\ width o' = width b' /\ height o' = height b' /\
    forall x y x' y', inside b x y -> inside b' x' y' -> same_around m k b x y b' x' y' ->
      get_pixel m o x y = get_pixel m o' x' y'.

Lemma around_weaken m j k b x y b' x' y' : j <= k -> same_around m k b x y b' x' y' -> same_around m j b x y b' x' y'.
Proof. intros H S dx dy A B. apply S; lia. Qed.

Lemma around_shift m j k b x y b' x' y' dx dy : Z.abs dx <= j -> Z.abs dy <= j ->
  same_around m (j + k) b x y b' x' y' -> same_around m k b (x + dx) (y + dy) b' (x' + dx) (y' + dy).
Proof.
  intros A B S ex ey C D. specialize (S (dx + ex) (dy + ey) ltac:(lia) ltac:(lia)).
  rewrite !Z.add_assoc in S. exact S.
Qed.

(** One coordinate limited to the image, in two aligned windows. *)
Lemma aligned k x w x' w' d : 0 <= x < w -> 0 <= x' < w' -> Z.abs d <= k ->
  (forall e, Z.abs e <= k -> 0 <= x + e < w <-> 0 <= x' + e < w') ->
  exists e, Z.abs e <= k /\ Z.max 0 (Z.min (x + d) (w - 1)) = x + e /\ Z.max 0 (Z.min (x' + d) (w' - 1)) = x' + e /\ 0 <= x + e < w.
Proof.
  intros I I' D Q. destruct (Z_lt_dec (x + d) 0) as [H|H].
  - pose proof (proj1 (Q (- x) ltac:(lia)) ltac:(lia)) as A.
    pose proof (Q d D) as B. assert (x' + d < 0) by (clear Q; lia).
    pose proof (proj2 (Q (- x') ltac:(lia)) ltac:(lia)) as A'. clear Q B. exists (- x). lia.
  - destruct (Z_lt_dec (w - 1) (x + d)) as [G|G].
    + pose proof (proj1 (Q (w - 1 - x) ltac:(lia)) ltac:(lia)) as A.
      pose proof (Q d D) as B. assert (w' - 1 < x' + d) by (clear Q; lia).
      pose proof (proj2 (Q (w' - 1 - x') ltac:(lia)) ltac:(lia)) as A'. clear Q B. exists (w - 1 - x). lia.
    + pose proof (proj1 (Q d D) ltac:(lia)) as A. clear Q. exists d. lia.
Qed.

(** The nearest pixels of aligned windows are the same. *)
Lemma around_nearest m k b x y b' x' y' dx dy : inside b x y -> inside b' x' y' ->
  same_around m k b x y b' x' y' -> Z.abs dx <= k -> Z.abs dy <= k ->
  nearest_pixel m b (x + dx) (y + dy) = nearest_pixel m b' (x' + dx) (y' + dy).
Proof.
  intros [I1 I2] [I1' I2'] S Hx Hy. unfold nearest_pixel.
  destruct (aligned k x (width b) x' (width b') dx I1 I1' Hx) as (ex & A1 & -> & -> & A2).
  { intros e He. destruct (S e 0 He) as [Q _]; [clear - Hx; lia|]. unfold inside in Q. rewrite !Z.add_0_r in Q. tauto. }
  destruct (aligned k y (height b) y' (height b') dy I2 I2' Hy) as (ey & B1 & -> & -> & B2).
  { intros e He. destruct (S 0 e) as [Q _]; [clear - Hx; lia|exact He|]. unfold inside in Q. rewrite !Z.add_0_r in Q. tauto. }
  apply S; auto. split; auto.
Qed.

Lemma around_neighbourhood m k w h b x y b' x' y' : inside b x y -> inside b' x' y' -> 0 < w -> 0 < h ->
  w / 2 <= k -> h / 2 <= k -> same_around m k b x y b' x' y' ->
  neighbourhood m b w h x y = neighbourhood m b' w h x' y'.
Proof.
  intros I I' Hw Hh Kw Kh S. unfold neighbourhood.
  assert (E : forall l, (forall p, In p l -> In p (row_major w h)) ->
    map_res (fun '(tx, ty) => nearest_pixel m b (x - w / 2 + tx) (y - h / 2 + ty)) l =
    map_res (fun '(tx, ty) => nearest_pixel m b' (x' - w / 2 + tx) (y' - h / 2 + ty)) l).
  { induction l as [|[tx ty] l IH]; intros H; [reflexivity|]. cbn [map_res].
    assert (R : 0 <= tx < w /\ 0 <= ty < h).
    { specialize (H (tx, ty) (or_introl eq_refl)). unfold row_major in H. apply in_flat_map in H. destruct H as (y0 & Hy & H).
      apply in_map_iff in H. destruct H as (x0 & H & Hx). injection H as <- <-. rewrite zrange_In in *. lia. }
    replace (x - w / 2 + tx) with (x + (tx - w / 2)) by lia. replace (y - h / 2 + ty) with (y + (ty - h / 2)) by lia.
    replace (x' - w / 2 + tx) with (x' + (tx - w / 2)) by lia. replace (y' - h / 2 + ty) with (y' + (ty - h / 2)) by lia.
    assert (w <= 2 * (w / 2) + 1) by (pose proof (Z.div_mod w 2 ltac:(lia)); pose proof (Z.mod_pos_bound w 2 ltac:(lia)); lia).
    assert (h <= 2 * (h / 2) + 1) by (pose proof (Z.div_mod h 2 ltac:(lia)); pose proof (Z.mod_pos_bound h 2 ltac:(lia)); lia).
    rewrite (around_nearest m k b x y b' x' y') by (auto; lia).
    rewrite IH by (intros p Hp; apply H; right; exact Hp). reflexivity. }
  exact (E (row_major w h) (fun p Hp => Hp)).
Qed.

Lemma around_center m k b x y b' x' y' : 0 <= k -> inside b x y -> same_around m k b x y b' x' y' ->
  get_pixel m b x y = get_pixel m b' x' y'.
Proof. intros K I S. specialize (S 0 0 ltac:(lia) ltac:(lia)). rewrite !Z.add_0_r in S. apply S. exact I. Qed.

(** * Building blocks *)

Lemma local_weaken m j k op : j <= k -> local m j op -> local m k op.
Proof.
  intros H Lo b b' V V'. destruct (Lo b b' V V') as (o & o' & E & E' & Vo & Vo' & W & Hh & W' & H' & P).
  exists o, o'. do 8 (split; [assumption|]). intros x y x' y' I I' S. apply P; auto. eapply around_weaken; eauto.
Qed.

Lemma local_ext m k op op' : (forall b, valid b -> op' b = op b) -> local m k op -> local m k op'.
Proof.
  intros X Lo b b' V V'. destruct (Lo b b' V V') as (o & o' & E & E' & R). exists o, o'. rewrite !X by auto. auto.
Qed.

Lemma local_around m j k op b b' o o' x y x' y' : local m k op -> valid b -> valid b' -> op b = Ok o -> op b' = Ok o' ->
  inside b x y -> inside b' x' y' -> same_around m (j + k) b x y b' x' y' -> 0 <= k -> same_around m j o x y o' x' y'.
Proof.
  intros Lo V V' E E' I I' S K dx dy Hx Hy.
  destruct (Lo b b' V V') as (p & p' & F & F' & Vo & Vo' & W & H & W' & H' & P).
  rewrite E in F. apply Ok_inj in F. subst p. rewrite E' in F'. apply Ok_inj in F'. subst p'.
  destruct (S dx dy ltac:(lia) ltac:(lia)) as [S1 _].
  assert (Q : inside o (x + dx) (y + dy) <-> inside b (x + dx) (y + dy)) by (unfold inside; rewrite W, H; tauto).
  assert (Q' : inside o' (x' + dx) (y' + dy) <-> inside b' (x' + dx) (y' + dy)) by (unfold inside; rewrite W', H'; tauto).
  split; [tauto|]. intros J. apply P; [tauto|tauto|]. apply (around_shift m j k); auto.
Qed.

Lemma local_id m : local m 0 (fun b => Ok b).
Proof.
  intros b b' V V'. exists b, b'. do 8 (split; [auto|]). intros x y x' y' I I' S. apply (around_center m 0); auto; lia.
Qed.

Lemma local_then m j k f g : 0 <= j -> 0 <= k -> local m j f -> local m k g -> local m (j + k) (fun b => o <- f b; g o).
Proof.
  intros J K Lf Lg b b' V V'. destruct (Lf b b' V V') as (o & o' & E & E' & Vo & Vo' & W & H & W' & H' & P).
  destruct (Lg o o' Vo Vo') as (p & p' & F & F' & Vp & Vp' & W2 & H2 & W2' & H2' & P2).
  exists p, p'. rewrite E, E'. cbn [bind]. do 4 (split; [assumption|]). do 4 (split; [congruence|]).
  intros x y x' y' I I' S. apply P2; [unfold inside in *; lia|unfold inside in *; lia|].
  eapply (local_around m k j f b b'); eauto. rewrite Z.add_comm. exact S.
Qed.

Lemma local_map m f : local m 0 (map_pure f).
Proof.
  intros b b' V V'. destruct (map_pure_ok f b V) as (o & E & _ & Vo & W & H & P).
  destruct (map_pure_ok f b' V') as (o' & E' & _ & Vo' & W' & H' & P'). exists o, o'. do 8 (split; [assumption|]).
  intros x y x' y' I I' S. rewrite P, P' by auto. rewrite (around_center m 0 b x y b' x' y') by (auto; lia). reflexivity.
Qed.

Lemma local_compose m k f g d h : local m k f -> local m k g ->
  local m k (fun b => o1 <- f b; o2 <- g b; compose2 m o1 o2 d h).
Proof.
  intros Lf Lg b b' V V'. destruct (Lf b b' V V') as (o & o' & E & E' & Vo & Vo' & W & H & W' & H' & P).
  destruct (Lg b b' V V') as (p & p' & F & F' & Vp & Vp' & W2 & H2 & W2' & H2' & P2).
  rewrite E, E', F, F'. cbn [bind].
  destruct (compose2_ok m o p d h Vo Vp ltac:(congruence) ltac:(congruence)) as (r & Er & Vr & Wr & Hr & Pr).
  destruct (compose2_ok m o' p' d h Vo' Vp' ltac:(congruence) ltac:(congruence)) as (r' & Er' & Vr' & Wr' & Hr' & Pr').
  exists r, r'. do 4 (split; [assumption|]). do 4 (split; [congruence|]).
  intros x y x' y' I I' S.
  destruct (Pr x y ltac:(unfold inside in *; lia)) as (c1 & c2 & G1 & G2 & ->).
  destruct (Pr' x' y' ltac:(unfold inside in *; lia)) as (c1' & c2' & G1' & G2' & ->).
  rewrite (P x y x' y' I I' S), G1' in G1. rewrite (P2 x y x' y' I I' S), G2' in G2.
  apply Ok_inj in G1. apply Ok_inj in G2. subst. reflexivity.
Qed.

Lemma local_convolution m w h ks op : 0 < w -> 0 < h ->
  (forall b, valid b -> exists o, op b = Ok o /\ is_convolution m b w h ks o) ->
  local m (Z.max (w / 2) (h / 2)) op.
Proof.
  intros Hw Hh C b b' V V'. destruct (C b V) as (o & E & Vo & W & H & P). destruct (C b' V') as (o' & E' & Vo' & W' & H' & P').
  exists o, o'. do 8 (split; [assumption|]). intros x y x' y' I I' S.
  destruct (P x y I) as (ps & N1 & ->). destruct (P' x' y' I') as (ps' & N1' & ->).
  rewrite (around_neighbourhood m (Z.max (w / 2) (h / 2)) w h b x y b' x' y') in N1 by (auto; lia).
  rewrite N1' in N1. apply Ok_inj in N1. subst. reflexivity.
Qed.

Lemma half_odd r : (2 * r + 1) / 2 = r.
Proof. pose proof (Z.div_mod (2 * r + 1) 2 ltac:(lia)). pose proof (Z.mod_pos_bound (2 * r + 1) 2 ltac:(lia)). lia. Qed.

Lemma local_blur L m r sigma : 0 <= r <= 32767 -> local m r (fun b => gaussian_blur L m b r sigma).
Proof.
  intros R. replace r with (Z.max ((2 * r + 1) / 2) ((2 * r + 1) / 2)) at 1 by (rewrite half_odd; lia).
  eapply local_convolution; [lia|lia|]. intros b V. exact (blur_conv L m b r sigma V R).
Qed.

Lemma local_unsharp L m r factor sigma : 0 <= r <= 32767 -> local m r (fun b => unsharp L m b r factor sigma).
Proof.
  intros R b b' V V'. destruct (unsharp_lemma L m b r factor sigma V R) as (o & E & Vo & W & H & P).
  destruct (unsharp_lemma L m b' r factor sigma V' R) as (o' & E' & Vo' & W' & H' & P').
  exists o, o'. do 8 (split; [assumption|]). intros x y x' y' I I' S.
  destruct (P x y I) as (c & ps & G & N1 & ->). destruct (P' x' y' I') as (c' & ps' & G' & N1' & ->).
  rewrite (around_neighbourhood m r (2 * r + 1) (2 * r + 1) b x y b' x' y') in N1 by (rewrite ?half_odd; auto; lia).
  rewrite N1' in N1. apply Ok_inj in N1. rewrite (around_center m r b x y b' x' y'), G' in G by (auto; lia).
  apply Ok_inj in G. subst. reflexivity.
Qed.

Lemma local_fixed m N k : 0 < N <= 1073741823 -> square N k -> local m (N / 2) (apply_kernel m N k).
Proof.
  intros R Q. replace (N / 2) with (Z.max (N / 2) (N / 2)) by lia.
  eapply local_convolution; [lia|lia|]. intros b V. exact (apply_kernel_lemma m m b N k V R Q).
Qed.

Lemma local_edges m mode : local m 1 (fun b => edge_detection m b mode).
Proof.
  assert (Q : forall k, square 3 k -> local m 1 (apply_kernel m 3 k)) by (intros k Q; exact (local_fixed m 3 k ltac:(lia) Q)).
  destruct mode.
  - apply (local_compose m 1 (apply_kernel m 3 sobel_x) (apply_kernel m 3 sobel_y)); apply Q; apply square3.
  - apply (local_then m 1 0 (apply_kernel m 3 laplace_kernel) (map_pure (fun c => with_alpha c f1))); [lia|lia|apply Q, square3|apply local_map].
Qed.

Lemma local_despeckle m t a : local m 1 (fun b => despeckle m b t a).
Proof.
  intros b b' V V'. destruct (despeckle_lemma m b t a V) as (o & E & Vo & W & H & P).
  destruct (despeckle_lemma m b' t a V') as (o' & E' & Vo' & W' & H' & P').
  exists o, o'. do 8 (split; [assumption|]). intros x y x' y' I I' S.
  destruct (get_pixel_inside m b x y V I) as (c & G). assert (G' : get_pixel m b' x' y' = Ok c).
  { rewrite <- G. symmetry. apply (around_center m 1); auto. lia. }
  destruct (P x y c I G) as (ps & N1 & ->). destruct (P' x' y' c I' G') as (ps' & N1' & ->).
  rewrite (around_neighbourhood m 1 3 3 b x y b' x' y') in N1 by (auto; try lia; reflexivity || (vm_compute; congruence)).
  rewrite N1' in N1. apply Ok_inj in N1. subst. reflexivity.
Qed.

Lemma local_snn m r wc : 0 <= r <= 4194302 -> local m r (fun b => symmetric_nearest_neighbor m b r wc).
Proof.
  intros R b b' V V'. destruct (snn_lemma m b r wc V R) as (o & E & Vo & W & H & P).
  destruct (snn_lemma m b' r wc V' R) as (o' & E' & Vo' & W' & H' & P').
  exists o, o'. do 8 (split; [assumption|]). intros x y x' y' I I' S.
  destruct (P x y I) as (c & cs & G & F & ->). destruct (P' x' y' I') as (c' & cs' & G' & F' & ->).
  rewrite (around_center m r b x y b' x' y'), G' in G by (auto; lia). apply Ok_inj in G. subst c'.
  assert (X : forall l cs cs', (forall p, In p l -> Z.abs (fst p) <= r /\ Z.abs (snd p) <= r) ->
    Forall2 (nearer_of_pair m b x y c) l cs -> Forall2 (nearer_of_pair m b' x' y' c) l cs' -> cs = cs').
  { clear F F' cs cs'. induction l as [|p l IH]; intros cs cs' Hl F F'; inversion F; inversion F'; subst; [reflexivity|].
    f_equal; [|apply IH; auto; intros q Hq; apply Hl; right; exact Hq].
    destruct (Hl p (or_introl eq_refl)) as [A B].
    match goal with X : nearer_of_pair m b _ _ _ _ _, Y : nearer_of_pair m b' _ _ _ _ _ |- _ =>
      destruct X as (c1 & c2 & N1 & N2 & ->); destruct Y as (c1' & c2' & N1' & N2' & ->) end.
    rewrite (around_nearest m r b x y b' x' y'), N1' in N1 by auto. apply Ok_inj in N1.
    rewrite <- !Z.add_opp_r in N2, N2'. rewrite (around_nearest m r b x y b' x' y'), N2' in N2 by (auto; lia). apply Ok_inj in N2.
    subst. reflexivity. }
  rewrite (X (half_star r) cs cs'); auto. intros p Hp. unfold half_star in Hp. apply in_flat_map in Hp.
  destruct Hp as (d & Hd & Hp). rewrite zrange_In in Hd. cbn [In] in Hp.
  destruct Hp as [<-|[<-|[<-|[<-|[]]]]]; cbn [fst snd]; lia.
Qed.

(** * Drawing *)

Definition gray_drawing (L : libm) (m : build) (radius : Z) (b : PixelBuffer Rgb) : res (PixelBuffer Rgb) :=
  drawing L m b radius DGray.

Lemma local_gray L m radius : 0 <= radius <= 32767 -> local m (Z.max 5 radius + 3) (fun b => drawing L m b radius DGray).
Proof.
  intros R.
  assert (A : local m 5 (fun b => o <- (o <- (o <- gaussian_blur L m b 1 None; unsharp L m o 4 (ofZ 4) (Some (ofZ 5))); map_pure (with_contrast (dec 105 100)) o); Ok o)).
  { apply (local_then m 5 0 (fun b => o <- (o <- gaussian_blur L m b 1 None; unsharp L m o 4 (ofZ 4) (Some (ofZ 5))); map_pure (with_contrast (dec 105 100)) o) (fun o => Ok o)); [lia|lia| |apply local_id].
    apply (local_then m 5 0 (fun b => o <- gaussian_blur L m b 1 None; unsharp L m o 4 (ofZ 4) (Some (ofZ 5))) (map_pure (with_contrast (dec 105 100)))); [lia|lia| |apply local_map].
    apply (local_then m 1 4 (fun b => gaussian_blur L m b 1 None) (fun o => unsharp L m o 4 (ofZ 4) (Some (ofZ 5)))); [lia|lia|apply local_blur; lia|apply local_unsharp; lia]. }
  assert (B : local m radius (fun b => o <- gaussian_blur L m b radius None; map_pure invert o)).
  { replace radius with (radius + 0) at 1 by lia.
    apply (local_then m radius 0 (fun b => gaussian_blur L m b radius None) (map_pure invert)); [lia|lia|apply local_blur; lia|apply local_map]. }
  apply (local_weaken m 5 (Z.max 5 radius)) in A; [|lia]. apply (local_weaken m radius (Z.max 5 radius)) in B; [|lia].
  pose proof (local_compose m (Z.max 5 radius) _ _ RGB_NONE drawing_pixel A B) as C.
  pose proof (local_then m 0 (Z.max 5 radius) (map_pure (map_channels (fun v => fadd (fmul v (dec 8 10)) (dec 2 10)))) _ ltac:(lia) ltac:(lia) (local_map m _) C) as D.
  pose proof (local_then m (0 + Z.max 5 radius) 2 _ (fun d => unsharp L m d 2 f1 None) ltac:(lia) ltac:(lia) D (local_unsharp L m 2 f1 None ltac:(lia))) as E.
  pose proof (local_then m (0 + Z.max 5 radius + 2) 1 _ (fun d => despeckle m d (dec 15 100) 1) ltac:(lia) ltac:(lia) E (local_despeckle m (dec 15 100) 1)) as F.
  replace (Z.max 5 radius + 3) with (0 + Z.max 5 radius + 2 + 1) by lia.
  eapply local_ext; [|exact F]. intros b V. unfold drawing. clear.
  destruct (map_pure _ b) as [l|]; [|reflexivity]. cbn [bind].
  destruct (gaussian_blur L m l 1 None) as [b1|]; [|reflexivity]. cbn [bind].
  destruct (unsharp L m b1 4 (ofZ 4) (Some (ofZ 5))) as [b2|]; [|reflexivity]. cbn [bind].
  destruct (map_pure (with_contrast (dec 105 100)) b2) as [b3|]; [|reflexivity]. cbn [bind].
  destruct (gaussian_blur L m l radius None) as [b4|]; [|reflexivity]. cbn [bind].
  destruct (map_pure invert b4) as [b5|]; [|reflexivity]. cbn [bind].
  destruct (compose2 m b3 b5 RGB_NONE drawing_pixel) as [b6|]; [|reflexivity]. cbn [bind].
  destruct (unsharp L m b6 2 f1 None) as [b7|]; [|reflexivity]. cbn [bind].
  destruct (despeckle m b7 (dec 15 100) 1) as [b8|]; reflexivity.
Qed.

Lemma drawing_gray_first L m b radius mode :
  drawing L m b radius mode = (d <- drawing L m b radius DGray;
    match mode with DGray => Ok d | DColored => merge_color m d b | DReducedColors => merge_color_reduced L m d b end).
Proof.
  unfold drawing.
  destruct (map_pure _ b) as [l|]; [|reflexivity]. cbn [bind].
  destruct (gaussian_blur L m l 1 None) as [b1|]; [|reflexivity]. cbn [bind].
  destruct (unsharp L m b1 4 (ofZ 4) (Some (ofZ 5))) as [b2|]; [|reflexivity]. cbn [bind].
  destruct (map_pure (with_contrast (dec 105 100)) b2) as [b3|]; [|reflexivity]. cbn [bind].
  destruct (gaussian_blur L m l radius None) as [b4|]; [|reflexivity]. cbn [bind].
  destruct (map_pure invert b4) as [b5|]; [|reflexivity]. cbn [bind].
  destruct (compose2 m b3 b5 RGB_NONE drawing_pixel) as [b6|]; [|reflexivity]. cbn [bind].
  destruct (unsharp L m b6 2 f1 None) as [b7|]; [|reflexivity]. cbn [bind].
  destruct (despeckle m b7 (dec 15 100) 1) as [b8|]; reflexivity.
Qed.

Lemma local_drawing L m radius mode : 0 <= radius <= 32767 ->
  local m (reach (Draw radius mode)) (fun b => drawing L m b radius mode).
Proof.
  intros R. pose proof (local_gray L m radius R) as G. destruct mode; cbn [reach].
  - exact G.
  - pose proof (local_compose m (Z.max 5 radius + 3) _ (fun b => Ok b) RGB_NONE merge_color_pixel G
      (local_weaken m 0 (Z.max 5 radius + 3) _ ltac:(lia) (local_id m))) as C.
    eapply local_ext; [|exact C]. intros b V. rewrite drawing_gray_first. reflexivity.
  - set (K := Z.max 5 radius + 3) in *.
    assert (A : local m K (fun b => o <- map_pure reduce_color b; gaussian_blur L m o 2 None)).
    { apply (local_weaken m (0 + 2)); [lia|].
      apply (local_then m 0 2 (map_pure reduce_color) (fun o => gaussian_blur L m o 2 None)); [lia|lia|apply local_map|apply local_blur; lia]. }
    pose proof (local_compose m K _ _ RGB_NONE (fun c1 c2 => hsv_to_rgb (with_1 (rgb_to_hsv c1) (d1 (rgb_to_hsv c2)))) G A) as C1.
    pose proof (local_compose m K _ _ RGB_NONE (fun c1 c2 => hsv_to_rgb (with_0 (rgb_to_hsv c1) (d0 (rgb_to_hsv c2)))) C1
      (local_weaken m 3 K _ ltac:(lia) (local_blur L m 3 None ltac:(lia)))) as C2.
    pose proof (local_compose m K _ _ RGB_NONE (fun c1 c2 => let c := rgb_to_hsv c1 in hsv_to_rgb (with_2 c (fmul (d2 c) (d2 (rgb_to_hsv c2))))) C2
      (local_weaken m 4 K _ ltac:(lia) (local_blur L m 4 None ltac:(lia)))) as C3.
    pose proof (local_then m K 3 _ (fun d => unsharp L m d 3 (dec 15 10) None) ltac:(lia) ltac:(lia) C3 (local_unsharp L m 3 (dec 15 10) None ltac:(lia))) as C4.
    pose proof (local_then m (K + 3) 0 _ (map_pure (fun x => with_vibrance L (dec 3 10) (with_gamma L (dec 11 10) (with_saturation (dec 13 10) x)))) ltac:(lia) ltac:(lia) C4 (local_map m _)) as C5.
    replace (Z.max 5 radius + 6) with (K + 3 + 0) by lia.
    eapply local_ext; [|exact C5]. intros b V. rewrite drawing_gray_first. clear.
    destruct (drawing L m b radius DGray) as [d|]; [|reflexivity]. cbn [bind]. unfold merge_color_reduced.
    destruct (map_pure reduce_color b) as [rc|]; [|reflexivity]. cbn [bind].
    destruct (gaussian_blur L m rc 2 None) as [g2|]; [|reflexivity]. cbn [bind].
    destruct (compose2 m d g2 RGB_NONE _) as [o1|]; [|reflexivity]. cbn [bind].
    destruct (gaussian_blur L m b 3 None) as [g3|]; [|reflexivity]. cbn [bind].
    destruct (compose2 m o1 g3 RGB_NONE _) as [o2|]; [|reflexivity]. cbn [bind].
    destruct (gaussian_blur L m b 4 None) as [g4|]; [|reflexivity]. cbn [bind].
    destruct (compose2 m o2 g4 RGB_NONE _) as [o3|]; reflexivity.
Qed.

(** * Filters of images *)

(** What a filter does to the buffer. *)
Definition on_buffer (L : libm) (m : build) (f : filter) (b : PixelBuffer Rgb) : res (PixelBuffer Rgb) :=
  match f with
  | Recolor g => map_pure g b
  | FixedKernel N k => apply_kernel m N k b
  | RunTimeKernel w h k => apply_kernel_dyn m (mkKD k w h) b
  | Blur r s => gaussian_blur L m b r s
  | Unsharp r a s => unsharp L m b r a s
  | Edges mode => edge_detection m b mode
  | Despeckle t a => despeckle m b t a
  | Snn r c => symmetric_nearest_neighbor m b r c
  | Draw r mode => drawing L m b r mode
  end.

Lemma filtered_eq L m f i : filtered L m f i = (b <- on_buffer L m f (buffer i); Ok (mkImage b (bg_color i))).
Proof.
  destruct f; try reflexivity. cbn [filtered on_buffer]. unfold image_map_colors, with_meta_st, map_pure.
  destruct (map_colors _ tt (buffer i)) as [[[] r]|]; reflexivity.
Qed.

Lemma reach_nonneg f : usable f -> 0 <= reach f.
Proof.
  destruct f; cbn [usable reach]; intros U; try lia. destruct mode; lia.
Qed.

Lemma local_filter L m f : usable f -> local m (reach f) (on_buffer L m f).
Proof.
  destruct f; cbn [usable reach on_buffer]; intros U.
  - apply local_map.
  - apply local_fixed; [lia|apply U].
  - apply (local_convolution m w h k); [lia|lia|]. intros b V. apply (apply_kernel_dyn_lemma m m); try lia; auto.
  - apply (local_blur L m radius sigma U).
  - apply (local_unsharp L m radius factor sigma U).
  - apply local_edges.
  - apply local_despeckle.
  - apply (local_snn m radius with_center U).
  - apply (local_drawing L m radius mode U).
Qed.

Fixpoint on_buffer_all (L : libm) (m : build) (fs : list filter) (b : PixelBuffer Rgb) : res (PixelBuffer Rgb) :=
  match fs with [] => Ok b | f :: fs => o <- on_buffer L m f b; on_buffer_all L m fs o end.

Lemma filtered_all_eq L m fs : forall i, filtered_all L m fs i = (b <- on_buffer_all L m fs (buffer i); Ok (mkImage b (bg_color i))).
Proof.
  induction fs as [|f fs IH]; intros i; cbn [filtered_all on_buffer_all bind]; [destruct i; reflexivity|].
  rewrite filtered_eq. destruct (on_buffer L m f (buffer i)) as [b|]; cbn [bind]; [|reflexivity]. rewrite IH. reflexivity.
Qed.

Lemma reach_all_nonneg fs : Forall usable fs -> 0 <= reach_all fs.
Proof. induction 1; unfold reach_all in *; cbn [map fold_right]; [lia|]. pose proof (reach_nonneg x H). lia. Qed.

Lemma local_all L m fs : Forall usable fs -> local m (reach_all fs) (on_buffer_all L m fs).
Proof.
  induction 1 as [|f fs U Us IH]; [apply local_id|]. unfold reach_all in *. cbn [map fold_right].
  apply (local_then m (reach f) (fold_right Z.add 0 (map reach fs)) (on_buffer L m f) (on_buffer_all L m fs));
    [apply reach_nonneg; auto|apply reach_all_nonneg; auto|apply local_filter; auto|exact IH].
Qed.

Lemma filters_local L m fs i i' x y x' y' : Forall usable fs -> valid (buffer i) -> valid (buffer i') ->
  inside (buffer i) x y -> inside (buffer i') x' y' ->
  same_around m (reach_all fs) (buffer i) x y (buffer i') x' y' ->
  exists o o' c, filtered_all L m fs i = Ok o /\ filtered_all L m fs i' = Ok o' /\
    get_pixel m (buffer o) x y = Ok c /\ get_pixel m (buffer o') x' y' = Ok c.
Proof.
  intros U V V' I I' S. destruct (local_all L m fs U (buffer i) (buffer i') V V') as (b & b' & E & E' & Vo & Vo' & W & H & W' & H' & P).
  destruct (get_pixel_inside m b x y Vo) as (c & G); [unfold inside in *; lia|].
  exists (mkImage b (bg_color i)), (mkImage b' (bg_color i')), c. rewrite !filtered_all_eq, E, E'. cbn [bind buffer].
  do 2 (split; [reflexivity|]). split; [exact G|]. rewrite <- (P x y x' y' I I' S). exact G.
Qed.

(** * Tiles *)

Lemma crop_exact {T} m (d : T) b ox oy w h : valid b -> 0 <= ox -> 0 <= oy -> 0 < w -> 0 < h -> ox + w <= width b -> oy + h <= height b ->
  exists b', crop m d b ox oy w h = Ok b' /\ valid b' /\ width b' = w /\ height b' = h /\
    forall x y, inside b' x y -> get_pixel m b' x y = get_pixel m b (ox + x) (oy + y).
Proof.
  intros V A B C D E F. destruct (crop_spec m d b ox oy w h V A B ltac:(lia) ltac:(lia)) as (b' & X & V' & Dm & P).
  exists b'. split; [exact X|]. split; [exact V'|]. unfold crop_w, crop_h in Dm.
  assert (Q : width b' = w /\ height b' = h) by lia. split; [apply Q|]. split; [apply Q|].
  intros x y I. apply (P m x y I).
Qed.

Lemma tiles L m fs i k ox oy w h : Forall usable fs -> valid (buffer i) -> k = reach_all fs ->
  0 <= ox -> 0 <= oy -> 0 < w -> 0 < h -> ox + w <= width (buffer i) -> oy + h <= height (buffer i) ->
  let x0 := Z.max 0 (ox - k) in
  let y0 := Z.max 0 (oy - k) in
  let x1 := Z.min (width (buffer i)) (ox + w + k) in
  let y1 := Z.min (height (buffer i)) (oy + h + k) in
  exists tile,
    (o <- filtered_all L m fs i; image_crop m ox oy w h o) = Ok tile /\
    (t <- image_crop m x0 y0 (x1 - x0) (y1 - y0) i; o <- filtered_all L m fs t; image_crop m (ox - x0) (oy - y0) w h o) = Ok tile.
Proof.
  intros U V -> A B C D E F. cbv zeta. pose proof (reach_all_nonneg fs U) as K.
  set (k := reach_all fs) in *. set (b := buffer i) in *.
  set (x0 := Z.max 0 (ox - k)). set (y0 := Z.max 0 (oy - k)).
  set (x1 := Z.min (width b) (ox + w + k)). set (y1 := Z.min (height b) (oy + h + k)).
  assert (X : 0 <= x0 <= ox /\ (x0 = 0 \/ x0 = ox - k)) by (subst x0; lia).
  assert (Y : 0 <= y0 <= oy /\ (y0 = 0 \/ y0 = oy - k)) by (subst y0; lia).
  assert (X1 : ox + w <= x1 <= width b /\ (x1 = width b \/ x1 = ox + w + k)) by (subst x1; lia).
  assert (Y1 : oy + h <= y1 <= height b /\ (y1 = height b \/ y1 = oy + h + k)) by (subst y1; lia).
  clearbody x0 y0 x1 y1.
  destruct (crop_exact m RGB_NONE b x0 y0 (x1 - x0) (y1 - y0)) as (t & Et & Vt & Wt & Ht & Pt); try lia; [exact V|].
  destruct (local_all L m fs U b t V Vt) as (o & o' & Eo & Eo' & Vo & Vo' & W & H & W' & H' & P). fold k in P.
  destruct (crop_exact m RGB_NONE o ox oy w h) as (r & Er & Vr & Wr & Hr & Pr); try lia; [exact Vo|].
  destruct (crop_exact m RGB_NONE o' (ox - x0) (oy - y0) w h) as (r' & Er' & Vr' & Wr' & Hr' & Pr'); try lia; [exact Vo'|].
  exists (mkImage r (bg_color i)). unfold image_crop, with_meta. fold b. rewrite filtered_all_eq. fold b. rewrite Eo. cbn [bind buffer bg_color].
  rewrite Er. cbn [bind]. split; [reflexivity|]. rewrite Et. cbn [bind]. rewrite filtered_all_eq. cbn [buffer new_from_buffer_with_meta bg_color].
  rewrite Eo'. cbn [bind buffer bg_color]. rewrite Er'. cbn [bind]. f_equal. unfold new_from_buffer_with_meta. cbn [bg_color]. f_equal.
  apply (buffer_ext m); [assumption|assumption|lia|lia|]. intros x y J.
  rewrite Pr' by auto. rewrite Pr by (unfold inside in *; lia). symmetry.
  unfold inside in J.
  apply P; [unfold inside; lia|unfold inside; lia|]. intros dx dy Hx Hy. unfold inside. rewrite Wt, Ht.
  assert (Q : (0 <= ox + x + dx < width b <-> 0 <= ox - x0 + x + dx < x1 - x0)) by lia.
  assert (Q' : (0 <= oy + y + dy < height b <-> 0 <= oy - y0 + y + dy < y1 - y0)) by lia.
  split; [tauto|]. intros G. rewrite Pt by (unfold inside; rewrite Wt, Ht; tauto). f_equal; lia.
Qed.

Lemma far_edit L m fs i x0 y0 c x y : Forall usable fs -> valid (buffer i) -> inside (buffer i) x0 y0 -> inside (buffer i) x y ->
  reach_all fs < Z.abs (x - x0) \/ reach_all fs < Z.abs (y - y0) ->
  exists i' o o' q, image_put_pixel m x0 y0 c i = Ok i' /\
    filtered_all L m fs i = Ok o /\ filtered_all L m fs i' = Ok o' /\
    get_pixel m (buffer o) x y = Ok q /\ get_pixel m (buffer o') x y = Ok q.
Proof.
  intros U V I0 I F. unfold image_put_pixel, in_place.
  destruct (put_pixel_ok m (buffer i) x0 y0 c V I0) as (b' & E & V' & W & H & P). rewrite E. cbn [bind].
  destruct (filters_local L m fs i (mkImage b' (bg_color i)) x y x y U V V' I) as (o & o' & q & A & B & C & D).
  { unfold inside in *. cbn [buffer]. lia. }
  { intros dx dy Hx Hy. cbn [buffer]. unfold inside. rewrite W, H. split; [tauto|]. intros J. rewrite (P _ _ J).
    replace ((x + dx =? x0) && (y + dy =? y0)) with false by lia. reflexivity. }
  exists (mkImage b' (bg_color i)), o, o', q. auto.
Qed.
