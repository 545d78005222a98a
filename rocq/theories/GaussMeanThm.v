(** What blurring, sharpening and Sobel edge detection compute (C108). *)
From Coq Require Import Reals ZArith List.
From Flocq Require Import IEEE754.BinarySingleNaN.
From Verif Require Import Base PixelBuffer BufferSpec F32 Color ColorSpec MeaningSpec EnhanceSpec ResampleSpec Kernel KernelSpec GaussSpec GaussMeaning2.
Import ListNotations.
Open Scope R_scope.

(* PROPERTIES *)
From Coq Require Import Lra Lia.
From Flocq Require Import Core.Core.
From Verif Require Import PixelBufferProofs F32Lemmas ColorProofs Approx Gauss2Proofs GaussMeaning GaussMeaning2.
Open Scope R_scope.

(** C108: every channel of a blurred image is the mean of the pixels up to
    [r] columns and rows away, weighted by the bell curve, up to (2r+1)^2/2^17;
    pixels beyond the edges count as the nearest ones inside. *)
Lemma blur_formula : forall L m (b : PixelBuffer Rgb) r sigma, exp_ok L -> accurate_exp L -> valid b ->
  (0 <= r <= 500)%Z -> sigma_ok r sigma -> (forall c, In c (data b) -> in_gamut c) ->
  exists out, gaussian_blur L m b r sigma = Ok out /\ valid out /\ width out = width b /\ height out = height b /\
    forall x y pick, inside b x y -> channel pick -> exists o, get_pixel m out x y = Ok o /\
      close (IZR ((2 * r + 1) * (2 * r + 1)) / 2 ^ 17)
        (bell_mean (blur_sigma sigma r) r (fun i j => B2R (pick (edge_pixel b (x + i) (y + j))))) (pick o).
Proof.
  intros L m b r sigma X AE V Hr Hs G. rewrite (pow_IZR 2 17). change (IZR (2 ^ Z.of_nat 17)) with 131072.
  destruct (blur_real L m b r sigma d0 X AE V Hr Hs (or_introl eq_refl)) as (out & E & Vo & W & H & _).
  { intros c Hc. apply gamut_channel; [left; reflexivity|auto]. }
  exists out. split; [auto|]. split; [auto|]. split; [auto|]. split; [auto|]. intros x y pick I Cp.
  destruct (blur_real L m b r sigma pick X AE V Hr Hs Cp) as (out' & E' & _ & _ & _ & P).
  { intros c Hc. apply gamut_channel; auto. }
  rewrite E in E'. apply Ok_inj in E'. subst out'. exact (P x y I).
Qed.
Example blur_formula_example :
  (forall L, exp_ok (exp_libm L) /\ accurate_exp (exp_libm L)) /\ valid (mkPB 2 1 [RGB_RED; RGB_BLUE]) /\ sigma_ok 3 None /\
  (forall c, In c [RGB_RED; RGB_BLUE] -> in_gamut c) /\ blur_sigma None 3 = 3 / 2 /\
  bell_curve (3 / 2) 0 0 = 1 /\ bell_curve (3 / 2) 3 0 = exp (- 2) /\ length (around 3) = 49%nat /\
  (forall sigma v, bell_mean sigma 0 v = v 0%Z 0%Z).
Proof.
  split; [exact exp_libm_ok|]. split; [vm_compute; intuition congruence|]. split; [cbn [sigma_ok]; lia|].
  split; [intros c [<- | [<- | []]]; vm_compute; intuition|]. split; [unfold blur_sigma; lra|].
  split; [unfold bell_curve; replace (- (IZR 0 ^ 2 + IZR 0 ^ 2) / (2 * (3 / 2) ^ 2)) with 0 by lra; apply exp_0|].
  split; [unfold bell_curve; f_equal; lra|]. split; [reflexivity|exact bell_mean_0].
Qed.

(** C108: sharpening adds [factor] times the difference from that mean and
    limits the result to [0,1]. *)
Lemma unsharp_formula : forall L m (b : PixelBuffer Rgb) r factor sigma, exp_ok L -> accurate_exp L -> valid b ->
  (0 <= r <= 500)%Z -> sigma_ok r sigma -> is_finite factor = true -> Rabs (B2R factor) <= 32 -> (forall c, In c (data b) -> in_gamut c) ->
  exists out, unsharp L m b r factor sigma = Ok out /\ valid out /\ width out = width b /\ height out = height b /\
    forall x y pick, inside b x y -> channel pick -> exists c o, get_pixel m b x y = Ok c /\ get_pixel m out x y = Ok o /\
      let mean := bell_mean (blur_sigma sigma r) r (fun i j => B2R (pick (edge_pixel b (x + i) (y + j)))) in
      close ((Rabs (B2R factor) + 2) * IZR ((2 * r + 1) * (2 * r + 1)) / 2 ^ 16)
        (limited (B2R (pick c) + B2R factor * (B2R (pick c) - mean))) (pick o).
Proof.
  intros L m b r factor sigma X AE V Hr Hs Ff Rf G. rewrite (pow_IZR 2 16). change (IZR (2 ^ Z.of_nat 16)) with 65536.
  destruct (unsharp_real L m b r factor sigma d0 X AE V Hr Hs Ff Rf (or_introl eq_refl)) as (out & E & Vo & W & H & _).
  { intros c Hc. apply gamut_channel; [left; reflexivity|auto]. }
  exists out. split; [auto|]. split; [auto|]. split; [auto|]. split; [auto|]. intros x y pick I Cp.
  destruct (unsharp_real L m b r factor sigma pick X AE V Hr Hs Ff Rf Cp) as (out' & E' & _ & _ & _ & P).
  { intros c Hc. apply gamut_channel; auto. }
  rewrite E in E'. apply Ok_inj in E'. subst out'. exact (P x y I).
Qed.
Example unsharp_formula_example :
  (forall L, exp_ok (exp_libm L) /\ accurate_exp (exp_libm L)) /\ valid (mkPB 2 1 [RGB_RED; RGB_BLUE]) /\ sigma_ok 3 (Some f1) /\
  is_finite f2 = true /\ Rabs (B2R f2) <= 32 /\ (forall c, In c [RGB_RED; RGB_BLUE] -> in_gamut c).
Proof.
  split; [exact exp_libm_ok|]. split; [vm_compute; intuition congruence|]. split; [split; reflexivity|].
  split; [reflexivity|]. split; [rewrite f2_R, Rabs_pos_eq; lra|]. intros c [<- | [<- | []]]; vm_compute; intuition.
Qed.

(** C108: Sobel edge detection gives the length of the slope, limited to
    [0,1], up to 2^-12, and makes the image opaque. *)
Lemma sobel_formula : forall m (b : PixelBuffer Rgb), valid b -> (forall c, In c (data b) -> in_gamut c) ->
  exists out, edge_detection m b Sobel = Ok out /\ valid out /\ width out = width b /\ height out = height b /\
    forall x y, inside b x y -> exists o, get_pixel m out x y = Ok o /\ d3 o = f1 /\
      forall pick, pick = d0 \/ pick = d1 \/ pick = d2 ->
      let v i j := B2R (pick (edge_pixel b (x + i) (y + j))) in
      close (/ 2 ^ 12) (limited (sqrt (slope_x v ^ 2 + slope_y v ^ 2))) (pick o).
Proof. intros m b V G. rewrite (pow_IZR 2 12). exact (sobel_real m b V G). Qed.
Example sobel_formula_example :
  valid (mkPB 2 1 [RGB_BLACK; RGB_WHITE]) /\ (forall c, In c [RGB_BLACK; RGB_WHITE] -> in_gamut c) /\
  (forall s, slope_x (fun i j => s * IZR i) = - (8 * s) /\ slope_y (fun i j => s * IZR i) = 0).
Proof.
  split; [vm_compute; intuition congruence|]. split; [intros c [<- | [<- | []]]; vm_compute; intuition|].
  intros s. unfold slope_y, slope_x. split; lra.
Qed.
