(** What the blend operations compute (C102, C103). *)
From Coq Require Import Reals ZArith.
From Flocq Require Import IEEE754.BinarySingleNaN.
From Verif Require Import F32 Color ColorSpec MeaningSpec ConvSpec BlendSpec Blend IdealPowf IdealLibm.
Open Scope R_scope.

(* PROPERTIES *)
From Coq Require Import Lra Lia.
From Verif Require Import F32Lemmas ColorProofs BlendProofs Approx OpMeaningProofs BlendMeaning BlendColor.
Open Scope R_scope.

(** C102: normal blending mixes the channels with the intensity times the
    alpha of the second colour; that amount is added to the alpha of the first. *)
Lemma normal_blend : forall L c1 c2 i, in_gamut c1 -> in_gamut c2 -> in01 i ->
  let r := blend_func L Normal c1 c2 i in let t := B2R i * B2R (d3 c2) in
  colour_close (/ 2 ^ 20) (mixed t (B2R (d0 c1)) (B2R (d0 c2))) (mixed t (B2R (d1 c1)) (B2R (d1 c2))) (mixed t (B2R (d2 c1)) (B2R (d2 c2))) r /\
  close (/ 2 ^ 20) (Rmin (B2R (d3 c1) + t) 1) (d3 r).
Proof. intros L c1 c2 i. rewrite (pow_IZR 2 20). exact (normal_meaning L c1 c2 i). Qed.
(** C102: addition, subtraction, darken and lighten mix each channel, with the
    same amount, with the sum, difference, minimum or maximum of the two. The
    alpha is that of the second colour. *)
Lemma plain_blend : forall L c1 c2 i op g,
  (op = Addition /\ g = Rplus) \/ (op = Subtract /\ g = Rminus) \/ (op = Darken /\ g = Rmin) \/ (op = Lighten /\ g = Rmax) ->
  in_gamut c1 -> in_gamut c2 -> in01 i ->
  let r := blend_func L op c1 c2 i in let t := B2R i * B2R (d3 c2) in
  let channel v1 v2 := limited (mixed t v1 (g v1 v2)) in
  colour_close (/ 2 ^ 20) (channel (B2R (d0 c1)) (B2R (d0 c2))) (channel (B2R (d1 c1)) (B2R (d1 c2))) (channel (B2R (d2 c1)) (B2R (d2 c2))) r /\
  d3 r = d3 c2.
Proof.
  intros L c1 c2 i op g H G1 G2 I. rewrite (pow_IZR 2 20). cbv zeta. 
  destruct H as [[-> ->]|[[-> ->]|[[-> ->]|[-> ->]]]]; eapply plain_meaning; eauto; reflexivity.
Qed.
(** C102: the HSL operations keep hue and saturation of the first colour and mix
    its lightness with the smaller or larger of the two lightnesses. *)
Lemma hsl_darken_blend : forall L c1 c2 i, in_gamut c1 -> in_gamut c2 -> in01 i ->
  let h1 := rgb_to_hsl c1 in let h2 := rgb_to_hsl c2 in let r := blend_func L HslDarken c1 c2 i in
  is_hsl (/ 2 ^ 17) (B2R (d0 h1)) (B2R (d1 h1)) (mixed (B2R i) (B2R (d2 h1)) (Rmin (B2R (d2 h1)) (B2R (d2 h2)))) r /\ d3 r = d3 c1.
Proof.
  intros L c1 c2 i G1 G2 I. rewrite (pow_IZR 2 17). apply (hsl_meaning Rmin fmin); auto.
  - intros a b Fa Fb. now apply fmin_val.
  - intros a b. unfold Rmin. destruct Rle_dec; auto.
Qed.
Lemma hsl_lighten_blend : forall L c1 c2 i, in_gamut c1 -> in_gamut c2 -> in01 i ->
  let h1 := rgb_to_hsl c1 in let h2 := rgb_to_hsl c2 in let r := blend_func L HslLighten c1 c2 i in
  is_hsl (/ 2 ^ 17) (B2R (d0 h1)) (B2R (d1 h1)) (mixed (B2R i) (B2R (d2 h1)) (Rmax (B2R (d2 h1)) (B2R (d2 h2)))) r /\ d3 r = d3 c1.
Proof.
  intros L c1 c2 i G1 G2 I. rewrite (pow_IZR 2 17). apply (hsl_meaning Rmax fmax); auto.
  - intros a b Fa Fb. now apply fmax_val.
  - intros a b. unfold Rmax. destruct Rle_dec; auto.
Qed.
(** C102: the LCh operations give the colour that has the lightness, chroma and
    hue of the first one, except that the lightness is mixed with the smaller or
    larger one, or the chroma with that of the second colour. *)
Lemma lch_darken_blend : forall L c1 c2 i, accurate_powf L -> accurate_powf_above L -> accurate_angles L -> in_gamut c1 -> in_gamut c2 -> in01 i ->
  let h1 := to_lch L D65 O2 KRgb c1 in let h2 := to_lch L D65 O2 KRgb c2 in
  exists l, blend_func L LchDarken c1 c2 i = of_lch L l (d1 h1) (d2 h1) (d3 c1) /\
    close (/ 2 ^ 20) (mixed (B2R i) (B2R (d0 h1)) (Rmin (B2R (d0 h1)) (B2R (d0 h2)))) l.
Proof.
  intros L c1 c2 i AL AA AN G1 G2 I. rewrite (pow_IZR 2 20). apply (lch_light_meaning L Rmin fmin); auto.
  - intros a b Fa Fb. now apply fmin_val.
  - intros a b. unfold Rmin. destruct Rle_dec; auto.
Qed.
Lemma lch_lighten_blend : forall L c1 c2 i, accurate_powf L -> accurate_powf_above L -> accurate_angles L -> in_gamut c1 -> in_gamut c2 -> in01 i ->
  let h1 := to_lch L D65 O2 KRgb c1 in let h2 := to_lch L D65 O2 KRgb c2 in
  exists l, blend_func L LchLighten c1 c2 i = of_lch L l (d1 h1) (d2 h1) (d3 c1) /\
    close (/ 2 ^ 20) (mixed (B2R i) (B2R (d0 h1)) (Rmax (B2R (d0 h1)) (B2R (d0 h2)))) l.
Proof.
  intros L c1 c2 i AL AA AN G1 G2 I. rewrite (pow_IZR 2 20). apply (lch_light_meaning L Rmax fmax); auto.
  - intros a b Fa Fb. now apply fmax_val.
  - intros a b. unfold Rmax. destruct Rle_dec; auto.
Qed.
Lemma lch_saturation_blend : forall L c1 c2 i, accurate_powf L -> accurate_powf_above L -> accurate_angles L -> in_gamut c1 -> in_gamut c2 -> in01 i ->
  let h1 := to_lch L D65 O2 KRgb c1 in let h2 := to_lch L D65 O2 KRgb c2 in
  exists s, blend_func L LchSaturation c1 c2 i = of_lch L (d0 h1) s (d2 h1) (d3 c1) /\
    close (/ 2 ^ 19) (mixed (B2R i) (B2R (d1 h1)) (B2R (d1 h2))) s.
Proof. intros L c1 c2 i. rewrite (pow_IZR 2 19). exact (lch_saturation_meaning L c1 c2 i). Qed.
Example blend_formula_example : forall L, accurate_powf (full_libm L) /\ accurate_powf_above (full_libm L) /\ accurate_angles (full_libm L) /\
  let c1 := mkC f0 (dec 1 2) (dec 1 4) f1 in let c2 := mkC f0 (dec 1 2) (dec 1 2) f1 in
  in_gamut c1 /\ in_gamut c2 /\ in01 (dec 1 2) /\ mixed (B2R (dec 1 2)) (B2R (d2 c1)) (B2R (d2 c2)) = 3 / 8.
Proof.
  intros L. split; [apply full_accurate|]. split; [apply full_above|]. split; [apply full_angles|]. cbv zeta. destruct green_gamut as [G1 G2]. split; [exact G1|]. split; [exact G2|].
  split; [vm_compute; auto|]. cbn [d2]. destruct colour_vals as (V2 & V4 & _). rewrite V2, V4. unfold mixed. lra.
Qed.

(** C103: blending the hue goes the short way round: the second hue is first
    moved by whole turns next to the first one, and then the two are mixed.
    Lightness, chroma and alpha of the first colour are kept. *)
Lemma hue_blend : forall L c1 c2 i, accurate_powf L -> accurate_powf_above L -> accurate_angles L -> bounded_atan2 L ->
  in_gamut c1 -> in_gamut c2 -> in01 i ->
  let h1 := to_lch L D65 O2 KRgb c1 in let h2 := to_lch L D65 O2 KRgb c2 in
  exists h near, blend_func L LchHue c1 c2 i = of_lch L (d0 h1) (d1 h1) h (d3 c1) /\ is_finite h = true /\
    (exists k : Z, near = B2R (d2 h2) + 2 * PI * IZR k) /\ Rabs (near - B2R (d2 h1)) <= PI + / 2 ^ 20 /\
    same_angle (/ 2 ^ 18) (B2R h) (mixed (B2R i) (B2R (d2 h1)) near).
Proof. intros L c1 c2 i. rewrite (pow_IZR 2 20), (pow_IZR 2 18). exact (lch_hue_meaning L c1 c2 i). Qed.
(** C103: blending chroma and hue mixes the two hues as numbers between -pi and
    pi instead. *)
Lemma color_blend : forall L c1 c2 i, accurate_powf L -> accurate_powf_above L -> accurate_angles L -> bounded_atan2 L ->
  in_gamut c1 -> in_gamut c2 -> in01 i ->
  let h1 := to_lch L D65 O2 KRgb c1 in let h2 := to_lch L D65 O2 KRgb c2 in
  exists s h, blend_func L LchColor c1 c2 i = of_lch L (d0 h1) s h (d3 c1) /\
    close (/ 2 ^ 19) (mixed (B2R i) (B2R (d1 h1)) (B2R (d1 h2))) s /\ close (/ 2 ^ 19) (mixed (B2R i) (B2R (d2 h1)) (B2R (d2 h2))) h.
Proof. intros L c1 c2 i. rewrite (pow_IZR 2 19). exact (lch_color_meaning L c1 c2 i). Qed.
(** C103 fails for that operation: half of a green without red and half of a
    turquoise without red give a colour with red of at least 1/2. *)
Lemma color_blend_near_refuted : forall L, accurate_powf L -> accurate_powf_above L -> accurate_angles L ->
  let c1 := mkC f0 (dec 1 2) (dec 1 4) f1 in let c2 := mkC f0 (dec 1 2) (dec 1 2) f1 in
  in_gamut c1 /\ in_gamut c2 /\ / 2 <= B2R (d0 (blend_func L LchColor c1 c2 (dec 1 2))).
Proof. intros L AL AA AN. destruct green_gamut as [G1 G2]. split; [exact G1|]. split; [exact G2|]. exact (color_blend_red L AL AA AN). Qed.
Example hue_blend_example : forall L, accurate_powf (full_libm L) /\ accurate_powf_above (full_libm L) /\ accurate_angles (full_libm L) /\ bounded_atan2 (full_libm L).
Proof. intros L. split; [apply full_accurate|]. split; [apply full_above|]. split; [apply full_angles|]. apply full_bounded. Qed.
