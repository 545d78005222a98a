(** Vibrance, and what drawings contain (C76, C113, C114). *)
From Coq Require Import Reals ZArith List Bool.
From Flocq Require Import IEEE754.BinarySingleNaN.
From Verif Require Import Base PixelBuffer BufferSpec F32 Color ColorSpec MeaningSpec IdealPowf Kernel KernelSpec LanczosSpec IdealLibm DrawSpec.
Import ListNotations.
Open Scope R_scope.

(* PROPERTIES *)
From Coq Require Import Lra Lia.
From Verif Require Import F32Lemmas ColorProofs Approx OpMeaningProofs LanczosAuto GaussMeaning2 VibProofs Drawing2Proofs PlainProofs.
Open Scope R_scope.

(** C113: vibrance changes the saturation by the formula (and makes the colour
    opaque, see C27). *)
Lemma vibrance_formula : forall L f c, accurate_sine L -> in_gamut c -> is_finite f = true -> Rabs (B2R f) <= 1000 ->
  let h := to_hsl L KRgb c in let o := with_vibrance L f c in
  is_hsl ((1 + Rabs (B2R f)) / 2 ^ 15) (B2R (d0 h)) (vibrant (B2R f) (B2R (d0 h)) (B2R (d1 h))) (B2R (d2 h)) o /\ d3 o = f1.
Proof. intros L f c A G F B. rewrite (pow_IZR 2 15). exact (vibrance_meaning L f c A G F B). Qed.
Example vibrance_example : forall L, accurate_sine (full_libm L) /\ in_gamut (mkC (dec 1 4) (dec 3 4) (dec 1 4) f1) /\ is_finite (dec 1 2) = true /\ Rabs (B2R (dec 1 2)) <= 1000 /\
  vibrant (/ 2) (/ 3) (/ 2) = 1 /\ (forall f h, vibrant f h 0 = 0) /\ (forall f s, 0 <= s <= 1 -> vibrant f 0 s = s).
Proof.
  intros L. split; [apply full_sine|]. split; [repeat split; reflexivity|]. split; [reflexivity|].
  split. { fval (dec 1 2) HP. rewrite HP. apply Rabs_le_iff. lra. }
  unfold vibrant. split; [|split].
  - replace (PI * / 2) with (PI / 2) by lra. replace (PI * / 3) with (PI / 3) by lra. rewrite sin_PI2, sin_PI3.
    assert (1 < sqrt 3). { rewrite <- sqrt_1 at 1. apply sqrt_lt_1; lra. }
    assert (E : sqrt 3 * sqrt 3 = 3) by (apply sqrt_sqrt; lra). assert (4 / 3 <= sqrt 3) by nra.
    rewrite Rmin_right by lra. replace (/ 2 + 1 * (/ 2 * 1)) with 1 by lra. apply limited_id. lra.
  - intros f h. rewrite Rmult_0_r, sin_0, Rmult_0_l, Rplus_0_r. apply limited_id. lra.
  - intros f s H. rewrite Rmult_0_r, sin_0, Rmult_0_r. rewrite Rmin_left by lra. rewrite Rmult_0_r, Rmult_0_r, Rplus_0_r. apply limited_id. lra.
Qed.

(** C76: in reduced colours mode every pixel is in gamut and opaque, whatever the image. *)
Lemma drawing_reduced_mode : forall L m (b : PixelBuffer Rgb) radius out, valid b -> (0 <= radius <= 32767)%Z -> exp_ok L -> bounded_powf L ->
  drawing L m b radius DReducedColors = Ok out -> forall c, In c (data out) -> in_gamut c /\ d3 c = f1.
Proof. exact drawing_reduced. Qed.
Example drawing_reduced_example : exp_ok step_libm /\ bounded_powf step_libm /\ valid (mkPB 2 1 [RGB_RED; mkC fnan f2 f0 f0]) /\
  tested (drawing step_libm Checked (mkPB 2 1 [RGB_RED; mkC fnan f2 f0 f0]) 1 DReducedColors)
    (fun c => feq (d3 c) f1 && fle f0 (d0 c) && fle (d0 c) f1) = [true; true].
Proof.
  split; [split|].
  { intros x H. unfold step_libm. cbn [fexp_]. destruct (is_nan x) eqn:N; [destruct x; discriminate|]. destruct (flt x f0); vm_compute; intuition. }
  { intros x H. unfold step_libm. cbn [fexp_]. destruct (is_nan x) eqn:N; [destruct x; discriminate|].
    assert (Q : flt x f0 = false) by (destruct x as [s|[|]| |[|] mm e P]; try discriminate; reflexivity). rewrite Q. reflexivity. }
  split; [intros x y H _ _; exact H|]. split; [vm_compute; intuition congruence|]. vm_compute. reflexivity.
Qed.

(** C114: where all pixels within max(5, radius) + 2 have the same colour, the
    drawing in gray mode is white. *)
Lemma plain_area_is_white : forall L m (b : PixelBuffer Rgb) radius c x y out, exp_ok L -> valid b -> (1 <= radius <= 100)%Z -> in_gamut c -> inside b x y ->
  plain_around m b (Z.max 5 radius + 2) x y c -> drawing L m b radius DGray = Ok out ->
  exists o, get_pixel m out x y = Ok o /\ nearly_white (/ 2 ^ 16) o.
Proof.
  intros L m b radius c x y out X V Hr G I P E. rewrite (pow_IZR 2 16).
  destruct (plain_drawing L m b radius c x y DGray out X V Hr G I) as [A _]; auto. { intros x' y' I' Dx Dy. exists c. split; [apply P; auto|reflexivity]. }
  destruct (A eq_refl) as (p & Ep & H). exists p. split; [exact Ep|]. repeat split; apply H; unfold channel; tauto.
Qed.
(** C114: in coloured mode the drawing there has the colour of the image. *)
Lemma plain_area_keeps_colour : forall L m (b : PixelBuffer Rgb) radius c x y out, exp_ok L -> valid b -> (1 <= radius <= 100)%Z -> in_gamut c -> inside b x y ->
  plain_around m b (Z.max 5 radius + 2) x y c -> drawing L m b radius DColored = Ok out ->
  exists o, get_pixel m out x y = Ok o /\ channelwise (/ 2 ^ 13) (fun v => v) c o.
Proof.
  intros L m b radius c x y out X V Hr G I P E. rewrite (pow_IZR 2 13).
  destruct (plain_drawing L m b radius c x y DColored out X V Hr G I) as [_ A]; [|exact E|exact (A eq_refl)].
  intros x' y' I' Dx Dy. exists c. split; [apply P; auto|reflexivity].
Qed.
Example plain_area_example : 
  let b := mkPB 12 1 (repeat RGB_RED 8 ++ repeat RGB_BLACK 4) in
  exp_ok step_libm /\ valid b /\ in_gamut RGB_RED /\ inside b 0 0 /\ plain_around Checked b (Z.max 5 1 + 2) 0 0 RGB_RED /\
  tested (drawing step_libm Checked b 1 DGray) (fun c => fle (dec 9999 10000) (d1 c)) = repeat true 8 ++ repeat false 4 /\
  tested (drawing step_libm Checked b 1 DColored) (fun c => flt (d0 c) (dec 1 2)) = repeat false 8 ++ repeat true 4.
Proof.
  cbv zeta.
  split; [split|].
  { intros x H. unfold step_libm. cbn [fexp_]. destruct (is_nan x) eqn:N; [destruct x; discriminate|]. destruct (flt x f0); vm_compute; intuition. }
  { intros x H. unfold step_libm. cbn [fexp_]. destruct (is_nan x) eqn:N; [destruct x; discriminate|].
    assert (Q : flt x f0 = false) by (destruct x as [s|[|]| |[|] mm e P]; try discriminate; reflexivity). rewrite Q. reflexivity. }
  split; [vm_compute; intuition congruence|]. split; [repeat split; reflexivity|]. split; [vm_compute; intuition congruence|]. split.
  - intros x' y' I' Dx Dy. unfold inside in I'. cbn [width height] in I'.
    assert (y' = 0)%Z as -> by lia. change (Z.max 5 1 + 2)%Z with 7%Z in Dx.
    assert (x' = 0 \/ x' = 1 \/ x' = 2 \/ x' = 3 \/ x' = 4 \/ x' = 5 \/ x' = 6 \/ x' = 7)%Z as H by lia.
    repeat destruct H as [-> | H]; try subst x'; reflexivity.
  - vm_compute. split; reflexivity.
Qed.
