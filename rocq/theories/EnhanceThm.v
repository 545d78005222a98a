(** Automatic lightness and saturation (C98, C99). *)
From Coq Require Import Reals ZArith List.
From Flocq Require Import IEEE754.BinarySingleNaN.
From Verif Require Import Base F32 PixelBuffer BufferSpec Color ColorSpec MeaningSpec ConvSpec EnhanceSpec Kernel Ops IdealPowf IdealLibm.
Import ListNotations.
Open Scope R_scope.

(* PROPERTIES *)
From Coq Require Import Lra Lia.
From Verif Require Import F32Lemmas ColorProofs Approx OpMeaningProofs HslMeaning LabCurve PixelBufferProofs Enhance Saturate Saturate2.
Open Scope R_scope.

(** C98: [optimize_lightness] is a gamma correction whose gamma is 1 less
    [factor] times the distance of the mean lightness from 1/2. *)
Lemma optimize_lightness_is_gamma : forall L (b : PixelBuffer Rgb) factor,
  accurate_powf L -> valid b -> Forall in_gamut (data b) -> is_finite factor = true -> Rabs (B2R factor) <= 3 / 2 ->
  let gamma := 1 - (mean (fun c => B2R (d2 (rgb_to_hsl c))) (data b) - / 2) * B2R factor in
  exists r, optimize_lightness L b factor = Ok r /\ valid r /\ width r = width b /\ height r = height b /\
  forall m x y c, inside b x y -> get_pixel m b x y = Ok c ->
    exists o, get_pixel m r x y = Ok o /\ channelwise (/ 2 ^ 16) (gamma_formula gamma) c o.
Proof. intros L b factor. rewrite (pow_IZR 2 16). exact (lightness_meaning_all L b factor). Qed.
Example optimize_lightness_example :
  (forall L, accurate_powf (ideal_libm L)) /\
  let b := mkPB 2 1 [mkC f1 f1 f1 f1; mkC (dec 1 2) (dec 1 2) (dec 1 2) f1] in
  valid b /\ Forall in_gamut (data b) /\ is_finite f1 = true /\ Rabs (B2R f1) <= 3 / 2 /\
  mean (fun c => B2R (d2 (rgb_to_hsl c))) (data b) = 3 / 4.
Proof.
  split; [exact ideal_accurate|]. cbv zeta. split; [split; [right; cbn [width height]; lia|reflexivity]|].
  split; [repeat constructor; vm_compute; reflexivity|]. split; [reflexivity|]. split; [rewrite f1_R, Rabs_right; lra|].
  fval (d2 (rgb_to_hsl (mkC f1 f1 f1 f1))) EE1. fval (d2 (rgb_to_hsl (mkC (dec 1 2) (dec 1 2) (dec 1 2) f1))) EE2.
  unfold mean, sum_of. cbn [data fold_right]. rewrite EE1, EE2. change (length _) with 2%nat. rewrite S_INR. change (INR 1) with 1. lra.
Qed.

(** C99: [optimize_saturation] in HSL: the saturation of each pixel, as HSL
    has it, is raised to a power that depends on its lightness and on a gamma
    common to all pixels; hue, lightness and alpha stay. The gamma is the wanted
    one up to an error that grows with the number of pixels. *)
Lemma optimize_saturation_hsl : forall L (b : PixelBuffer Rgb) offset,
  accurate_powf L -> bounded_powf L -> valid b -> nonempty b -> Forall in_gamut (data b) ->
  is_finite offset = true -> / 2 <= B2R offset <= 5 / 4 ->
  exists (g : R) r, optimize_saturation L b offset SHsl = Ok r /\ valid r /\ width r = width b /\ height r = height b /\
  / 2 <= g <= 2 /\
  ((width b * height b <= 4194304)%Z ->
    Rabs (g - wanted_gamma (B2R offset) (fun c => B2R (d1 (rgb_to_hsl c))) (data b)) <= (IZR (width b * height b) + 12) / 2 ^ 23) /\
  forall m x y c, inside b x y -> get_pixel m b x y = Ok c -> exists o, get_pixel m r x y = Ok o /\
    let h := rgb_to_hsl c in
    is_hsl (/ 2 ^ 17) (B2R (d0 h)) (gamma_formula (gamma_at g (B2R (d2 h))) (B2R (d1 h))) (B2R (d2 h)) o /\ d3 o = d3 c.
Proof.
  intros L b offset AL BL Vb Nb G Fo Ho. rewrite (pow_IZR 2 17), (pow_IZR 2 23).
  destruct (saturation_all L b offset SHsl (fun g c o => let h := rgb_to_hsl c in
    is_hsl (/ 131072) (B2R (d0 h)) (gamma_formula (gamma_at (B2R g) (B2R (d2 h))) (B2R (d1 h))) (B2R (d2 h)) o /\ d3 o = d3 c)) as (g & r & E & A1 & A2 & A3 & A4 & A5); auto.
  { intros Q. discriminate Q. } { intros g c Fg Hg Gc. exact (saturate_hsl_meaning L g c AL BL Gc Fg Hg). }
  destruct (A4 Nb) as (B1 & B2 & B3). assert (Hg : / 2 <= B2R g <= 2) by (apply B2; discriminate). exists (B2R g), r. repeat (split; [assumption|]). split; [|exact (A5 Hg)].
  intros N. specialize (B3 N). rewrite Rmult_1_l in B3. exact B3.
Qed.
(** C99: the same in HSV, with the value in place of the lightness. *)
Lemma optimize_saturation_hsv : forall L (b : PixelBuffer Rgb) offset,
  accurate_powf L -> bounded_powf L -> valid b -> nonempty b -> Forall in_gamut (data b) ->
  is_finite offset = true -> / 2 <= B2R offset <= 5 / 4 ->
  exists (g : R) r, optimize_saturation L b offset SHsv = Ok r /\ valid r /\ width r = width b /\ height r = height b /\
  / 2 <= g <= 2 /\
  ((width b * height b <= 4194304)%Z ->
    Rabs (g - wanted_gamma (B2R offset) (fun c => B2R (d1 (rgb_to_hsv c))) (data b)) <= (IZR (width b * height b) + 12) / 2 ^ 23) /\
  forall m x y c, inside b x y -> get_pixel m b x y = Ok c -> exists o, get_pixel m r x y = Ok o /\
    let h := rgb_to_hsv c in
    is_hsv (/ 2 ^ 17) (B2R (d0 h)) (gamma_formula (gamma_at g (B2R (d2 h))) (B2R (d1 h))) (B2R (d2 h)) o /\ d3 o = d3 c.
Proof.
  intros L b offset AL BL Vb Nb G Fo Ho. rewrite (pow_IZR 2 17), (pow_IZR 2 23).
  destruct (saturation_all L b offset SHsv (fun g c o => let h := rgb_to_hsv c in
    is_hsv (/ 131072) (B2R (d0 h)) (gamma_formula (gamma_at (B2R g) (B2R (d2 h))) (B2R (d1 h))) (B2R (d2 h)) o /\ d3 o = d3 c)) as (g & r & E & A1 & A2 & A3 & A4 & A5); auto.
  { intros Q. discriminate Q. } { intros g c Fg Hg Gc. exact (saturate_hsv_meaning L g c AL BL Gc Fg Hg). }
  destruct (A4 Nb) as (B1 & B2 & B3). assert (Hg : / 2 <= B2R g <= 2) by (apply B2; discriminate). exists (B2R g), r. repeat (split; [assumption|]). split; [|exact (A5 Hg)].
  intros N. specialize (B3 N). rewrite Rmult_1_l in B3. exact B3.
Qed.
(** C99: the same in LCh, for the chroma limited to [0,1]; the gamma may be
    off eight times as much. *)
Lemma optimize_saturation_lch : forall L (b : PixelBuffer Rgb) offset,
  accurate_powf L -> accurate_powf_above L -> accurate_angles L -> valid b -> nonempty b -> Forall in_gamut (data b) ->
  is_finite offset = true -> / 2 <= B2R offset <= 5 / 4 ->
  exists (g : R) r, optimize_saturation L b offset SLch = Ok r /\ valid r /\ width r = width b /\ height r = height b /\
  ((width b * height b <= 4194304)%Z ->
    Rabs (g - wanted_gamma (B2R offset) (fun c => B2R (d1 (to_lch L D65 O2 KRgb c))) (data b)) <= 8 * (IZR (width b * height b) + 12) / 2 ^ 23) /\
  (/ 2 <= g <= 2 -> forall m x y c, inside b x y -> get_pixel m b x y = Ok c -> exists o chroma, get_pixel m r x y = Ok o /\
    let h := to_lch L D65 O2 KRgb c in
    close (/ 2 ^ 17) (gamma_formula (gamma_at g (B2R (d0 h))) (limited (B2R (d1 h)))) chroma /\
    o = to_rgb L (KLch D65 O2) (mkC (d0 h) chroma (d2 h) (d3 c))).
Proof.
  intros L b offset AL AA AN Vb Nb G Fo Ho. rewrite (pow_IZR 2 17), (pow_IZR 2 23).
  destruct (saturation_all L b offset SLch (fun g c o => exists chroma, let h := to_lch L D65 O2 KRgb c in
    close (/ 131072) (gamma_formula (gamma_at (B2R g) (B2R (d0 h))) (limited (B2R (d1 h)))) chroma /\
    o = to_rgb L (KLch D65 O2) (mkC (d0 h) chroma (d2 h) (d3 c)))) as (g & r & E & A1 & A2 & A3 & A4 & A5); auto.
  { intros g c Fg Hg Gc. destruct (saturate_lch_meaning L g c AL AA AN Gc Fg Hg) as (ch & E1 & E2). exists ch. split; [exact E2|exact E1]. }
  destruct (A4 Nb) as (_ & _ & B3). exists (B2R g), r. repeat (split; [assumption|]).
  intros Hg m x y c I P. destruct (A5 Hg m x y c I P) as (o & P2 & ch & Q). exists o, ch. split; [exact P2|exact Q].
Qed.
(** C99 fails for large images: the saturations are added up in f32, and such
    a sum stops growing. An image of 1 by 1 and one of 8192 by 4096 pixels of the
    same colour get different colours. *)
Lemma optimize_saturation_any_size_refuted : forall L, accurate_powf L -> bounded_powf L ->
  let colour := mkC (dec 3 4) (dec 1 4) (dec 1 4) f1 in
  exists small large r1 r2 o1 o2,
  (forall m, new_with_color m 1 1 colour = Ok small) /\ (forall m, new_with_color m 8192 4096 colour = Ok large) /\
  optimize_saturation L small f1 SHsl = Ok r1 /\ optimize_saturation L large f1 SHsl = Ok r2 /\
  (forall m, get_pixel m r1 0 0 = Ok o1 /\ get_pixel m r2 0 0 = Ok o2) /\
  is_finite (d0 o1) = true /\ is_finite (d0 o2) = true /\ B2R (d0 o1) + / 64 <= B2R (d0 o2).
Proof. exact size_matters. Qed.
Example optimize_saturation_example :
  (forall L, accurate_powf (ideal_libm L) /\ bounded_powf (ideal_libm L)) /\
  (forall L, accurate_powf (full_libm L) /\ accurate_powf_above (full_libm L) /\ accurate_angles (full_libm L)) /\
  let b := mkPB 2 1 [mkC (dec 3 4) (dec 1 4) (dec 1 4) f1; mkC (dec 1 2) (dec 1 2) (dec 1 2) f1] in
  valid b /\ nonempty b /\ Forall in_gamut (data b) /\ is_finite f1 = true /\ / 2 <= B2R f1 <= 5 / 4 /\
  wanted_gamma (B2R f1) (fun c => B2R (d1 (rgb_to_hsl c))) (data b) = 3 / 2.
Proof.
  split; [intros L; split; [apply ideal_accurate|apply ideal_bounded]|]. split; [intros L; split; [apply full_accurate|split; [apply full_above|apply full_angles]]|].
  cbv zeta. split; [split; [right; cbn [width height]; lia|reflexivity]|]. split; [split; reflexivity|].
  split; [repeat constructor; vm_compute; reflexivity|]. split; [reflexivity|]. split; [rewrite f1_R; lra|].
  unfold wanted_gamma. rewrite f1_R.
  fval (d1 (rgb_to_hsl (mkC (dec 3 4) (dec 1 4) (dec 1 4) f1))) EE1. assert (EE2 : B2R (d1 (rgb_to_hsl (mkC (dec 1 2) (dec 1 2) (dec 1 2) f1))) = 0) by (vm_compute; reflexivity).
  unfold mean, sum_of. cbn [data fold_right]. rewrite EE1, EE2. change (length _) with 2%nat. rewrite S_INR. change (INR 1) with 1. lra.
Qed.
