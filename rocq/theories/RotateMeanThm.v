(** What free rotation computes (C105). *)
From Coq Require Import Reals ZArith List.
From Flocq Require Import IEEE754.BinarySingleNaN.
From Verif Require Import Base PixelBuffer BufferSpec F32 Color ColorSpec MeaningSpec Resample ResampleSpec IdealLibm.
Import ListNotations.
Open Scope R_scope.

(* PROPERTIES *)
From Coq Require Import Lra Lia.
From Flocq Require Import Core.Core.
From Verif Require Import PixelBufferProofs F32Lemmas ColorProofs Approx OpMeaningProofs ResampleProofs InterpProofs ResampleMeaning RotateMeaning.
Open Scope R_scope.

(** C105: rotating by [a] degrees turns the picture clockwise about its middle:
    where the turned-back position is inside the image, Bilinear shows the
    piecewise linear surface through the pixels at that position. *)
Lemma bilinear_rotate : forall L m b a bg r x y, accurate_turn L -> valid b -> Forall in_gamut (data b) ->
  is_finite a = true -> Rabs (B2R a) <= 360 -> rotate L m b a bg Bilinear = Ok r -> inside r x y ->
  let '(p, q) := turned_back (width b) (height b) (B2R a) x y in let e := IZR (width b + height b) / 2 ^ 19 in
  - / 2 + e < p < IZR (width b) - / 2 - e -> - / 2 + e < q < IZR (height b) - / 2 - e ->
  exists o, get_pixel m r x y = Ok o /\ forall d, In d [d0; d1; d2; d3] ->
    close (/ 2 ^ 20 + 2 * e) (surface linear (fun i j => B2R (d (edge_pixel b i j))) p q) (d o).
Proof.
  intros L m b a bg r x y AL V G F D H I. rewrite (pow_IZR 2 19), (pow_IZR 2 20). change (IZR (2 ^ Z.of_nat 19)) with 524288. change (IZR (2 ^ Z.of_nat 20)) with 1048576.
  destruct (turned_back _ _ _ x y) as [p q] eqn:E. cbv zeta. fold (size_of b). intros P Q.
  replace p with (fst (turned_back (width b) (height b) (B2R a) x y)) in * by (now rewrite E). replace q with (snd (turned_back (width b) (height b) (B2R a) x y)) in * by (now rewrite E).
  destruct (rotate_inside_at L m b a bg Bilinear r x y (get_pixel_bilinear m) (fun d => surface linear (chan b d)) 1 (/ 1048576)) as (o & Eo & C); auto; try lra.
  - intros u v N U W. now apply bilinear_at.
  - intros d i j IJ Hd. assert (N : nonempty b) by exact (inside_nonempty b i j IJ). unfold surface. rewrite !linear_int. eapply close_weak; [apply close_0; now apply chan_num|]. lra.
  - intros d p0 q0 p1 q1 N Hd. rewrite Rmult_1_l. apply bilinear_lip. intros i j. now apply chan_num.
  - exists o. split; [exact Eo|]. intros d Hd. rewrite Rmult_1_l in C. exact (C d Hd).
Qed.
(** C105: Bicubic and Auto show the limited Catmull-Rom spline surface there. *)
Lemma bicubic_rotate : forall L m b a bg f r x y, f = Bicubic \/ f = Auto -> accurate_turn L -> valid b -> Forall in_gamut (data b) ->
  is_finite a = true -> Rabs (B2R a) <= 360 -> rotate L m b a bg f = Ok r -> inside r x y ->
  let '(p, q) := turned_back (width b) (height b) (B2R a) x y in let e := IZR (width b + height b) / 2 ^ 19 in
  - / 2 + e < p < IZR (width b) - / 2 - e -> - / 2 + e < q < IZR (height b) - / 2 - e ->
  exists o, get_pixel m r x y = Ok o /\ forall d, In d [d0; d1; d2; d3] ->
    close (/ 2 ^ 16 + 4 * e) (limited (surface spline (fun i j => B2R (d (edge_pixel b i j))) p q)) (d o).
Proof.
  intros L m b a bg f r x y Hf AL V G F D H I. rewrite (pow_IZR 2 19), (pow_IZR 2 16). change (IZR (2 ^ Z.of_nat 19)) with 524288. change (IZR (2 ^ Z.of_nat 16)) with 65536.
  destruct (turned_back _ _ _ x y) as [p q] eqn:E. cbv zeta. fold (size_of b). intros P Q.
  replace p with (fst (turned_back (width b) (height b) (B2R a) x y)) in * by (now rewrite E). replace q with (snd (turned_back (width b) (height b) (B2R a) x y)) in * by (now rewrite E).
  destruct (rotate_inside_at L m b a bg f r x y (get_pixel_bicubic m) (fun d p q => limited (surface spline (chan b d) p q)) 2 (/ 65536)) as (o & Eo & C); auto; try lra.
  - destruct Hf as [->| ->]; reflexivity.
  - intros u v N U W. now apply bicubic_at.
  - intros d i j IJ Hd. assert (N : nonempty b) by exact (inside_nonempty b i j IJ). unfold surface. rewrite !spline_int. destruct (chan_num b d i j V N G Hd) as [Fc Rc].
    rewrite limited_id by exact Rc. eapply close_weak; [apply close_0; exact Fc|]. lra.
  - intros d p0 q0 p1 q1 N Hd. apply limited_lip_e. apply bicubic_lip. intros i j. now apply chan_num.
  - exists o. split; [exact Eo|]. intros d Hd. eapply close_weak; [exact (C d Hd)|]. change (/ 65536 + 2 * (2 * size_of b) <= / 65536 + 4 * size_of b). lra.
Qed.
(** C105: Nearest shows the pixel nearest to the turned-back position. *)
Lemma nearest_rotate : forall L m b a bg r x y i j, accurate_turn L -> valid b ->
  is_finite a = true -> Rabs (B2R a) <= 360 -> rotate L m b a bg Nearest = Ok r -> inside r x y -> inside b i j ->
  let '(p, q) := turned_back (width b) (height b) (B2R a) x y in let e := IZR (width b + height b) / 2 ^ 19 in
  Rabs (p - IZR i) < / 2 - e -> Rabs (q - IZR j) < / 2 - e -> get_pixel m r x y = get_pixel m b i j.
Proof.
  intros L m b a bg r x y i j AL V F D H I IJ. rewrite (pow_IZR 2 19). change (IZR (2 ^ Z.of_nat 19)) with 524288.
  pose proof (rotate_nearest_at L m b a bg r x y i j AL V F D H I IJ) as K. destruct (turned_back _ _ _ x y) as [p q]. exact K.
Qed.
(** C105: where the turned-back position is outside the image, every filter
    shows the background colour. *)
Lemma background_rotate : forall L m b a bg f r x y, accurate_turn L -> valid b ->
  is_finite a = true -> Rabs (B2R a) <= 360 -> rotate L m b a bg f = Ok r -> inside r x y ->
  let '(p, q) := turned_back (width b) (height b) (B2R a) x y in let e := IZR (width b + height b) / 2 ^ 19 in
  p < - / 2 - e \/ IZR (width b) - / 2 + e < p \/ q < - / 2 - e \/ IZR (height b) - / 2 + e < q -> get_pixel m r x y = Ok bg.
Proof.
  intros L m b a bg f r x y AL V F D H I. rewrite (pow_IZR 2 19). change (IZR (2 ^ Z.of_nat 19)) with 524288.
  pose proof (rotate_outside L m b a bg f r x y AL V F D H I) as K. destruct (turned_back _ _ _ x y) as [p q]. exact K.
Qed.
Example rotate_formula_example : forall L, accurate_turn (full_libm L) /\
  let b := mkPB 2 1 [mkC f0 f0 f0 f1; mkC f1 f1 f1 f1] in
  valid b /\ Forall in_gamut (data b) /\ is_finite (ofZ 90) = true /\ B2R (ofZ 90) = 90 /\
  turned_back 2 1 180 0 0 = (1, 0) /\ turned_back 2 1 90 0 0 = (/ 2, / 2) /\ turned_back 3 1 90 0 0 = (1, 1).
Proof.
  intros L. split.
  { intros h Fh Bh. rewrite (pow_IZR 2 20). change (IZR (2 ^ Z.of_nat 20)) with 1048576. cbn [fsin fcos full_libm]. split; apply rounded_abs; apply Rabs_le_iff; [pose proof (SIN_bound (B2R h)) | pose proof (COS_bound (B2R h))]; lra. }
  cbv zeta. split; [split; [right; cbn; lia|reflexivity]|].
  split; [apply Forall_cons; [repeat split; vm_compute; reflexivity|apply Forall_cons; [repeat split; vm_compute; reflexivity|apply Forall_nil]]|].
  destruct (ofZ_val 90) as [F9 E9]; [lia|]. split; [exact F9|]. split; [exact E9|].
  unfold turned_back. cbv zeta. replace (180 * PI / 180) with PI by field. replace (90 * PI / 180) with (PI / 2) by field. rewrite cos_PI, sin_PI, cos_PI2, sin_PI2.
  repeat split; f_equal; lra.
Qed.
