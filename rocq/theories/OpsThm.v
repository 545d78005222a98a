(** Properties of histograms, palettes, noise and temperature (C43-C49, C77). *)
From Coq Require Import ZArith Reals List Bool.
From Flocq Require Import IEEE754.BinarySingleNaN.
From Verif Require Import Base PixelBuffer BufferSpec F32 Color ColorSpec Kernel KernelSpec Ops OpsSpec.
Import ListNotations.
Open Scope Z_scope.

(* PROPERTIES *)
From Coq Require Import Lra Lia.
From Verif Require Import BaseLemmas PixelBufferProofs F32Lemmas ColorProofs OpsProofs EqualizeProofs.
From Verif Require Import HistogramProofs BalanceProofs NoiseProofs TemperatureProofs KelvinProofs.
Open Scope Z_scope.

(** C43: equalize in Rgb mode replaces each channel value by its share of
    pixels that are at most as bright, rescaled to [0,1]. *)
Lemma equalize_rgb_spec : forall L m (b : PixelBuffer Rgb), valid b -> nonempty b ->
  exists r, equalize L m b ERgb = Ok r /\ valid r /\ width r = width b /\ height r = height b /\
    forall x y, inside b x y -> exists c c', get_pixel m b x y = Ok c /\ get_pixel m r x y = Ok c' /\
      equalized_to d0 (data b) (d0 c) (d0 c') /\ equalized_to d1 (data b) (d1 c) (d1 c') /\
      equalized_to d2 (data b) (d2 c) (d2 c') /\ alpha c' = clamp (alpha c).
Proof. exact equalize_rgb_spec_l. Qed.

(** C43: in Srgb mode the same happens to the Srgb colours. *)
Lemma equalize_srgb_spec : forall L m (b : PixelBuffer Rgb), valid b -> nonempty b ->
  exists r, equalize L m b ESrgb = Ok r /\ valid r /\ width r = width b /\ height r = height b /\
    forall x y, inside b x y -> exists c s, get_pixel m b x y = Ok c /\ get_pixel m r x y = Ok (srgb_to_rgb L s) /\
      let all := map (rgb_to_srgb L) (data b) in let old := rgb_to_srgb L c in
      equalized_to d0 all (d0 old) (d0 s) /\ equalized_to d1 all (d1 old) (d1 s) /\
      equalized_to d2 all (d2 old) (d2 s) /\ alpha s = clamp (alpha old).
Proof. exact equalize_srgb_spec_l. Qed.

(** C43: in the other modes it happens to the saturation, the lightness or
    both of the Hsl colours; the hue and what is not equalised stay. *)
Lemma equalize_hsl_spec : forall L m (b : PixelBuffer Rgb) mode sat lig, valid b -> nonempty b ->
  (mode, sat, lig) = (ESaturation, true, false) \/ (mode, sat, lig) = (ELightness, false, true) \/
  (mode, sat, lig) = (ESaturationLightness, true, true) ->
  exists r, equalize L m b mode = Ok r /\ valid r /\ width r = width b /\ height r = height b /\
    forall x y, inside b x y -> exists c s, get_pixel m b x y = Ok c /\ get_pixel m r x y = Ok (hsl_to_rgb s) /\
      let all := map rgb_to_hsl (data b) in let old := rgb_to_hsl c in
      d0 s = d0 old /\ alpha s = alpha old /\
      (if sat then equalized_to d1 all (d1 old) (d1 s) else d1 s = d1 old) /\
      (if lig then equalized_to d2 all (d2 old) (d2 s) else d2 s = d2 old).
Proof. exact equalize_hsl_spec_l. Qed.

(** C43: whatever the number of pixels, a channel value that is not brighter
    than another one does not become brighter than it. *)
Lemma equalize_keeps_order : forall L m (b : PixelBuffer Rgb) r pick x y x' y' c1 c2 c1' c2', valid b ->
  equalize L m b ERgb = Ok r -> pick = d0 \/ pick = d1 \/ pick = d2 -> inside b x y -> inside b x' y' ->
  get_pixel m b x y = Ok c1 -> get_pixel m b x' y' = Ok c2 -> get_pixel m r x y = Ok c1' -> get_pixel m r x' y' = Ok c2' ->
  in01 (pick c1) -> in01 (pick c2) -> fle (pick c1) (pick c2) = true -> fle (pick c1') (pick c2') = true.
Proof. exact equalize_order_l. Qed.

Example equalize_example :
  let gray z := rgb_new (dec z 255) (dec z 255) (dec z 255) in
  let b := mkPB 2 2 [gray 100; gray 101; gray 100; gray 102] in
  valid b /\ nonempty b /\
  match equalize step_libm Checked b ERgb, equalize step_libm Checked b ELightness with
  | Ok r, Ok r2 => map (fun c => (feq (d0 c) (dec 1 2), feq (d1 c) (dec 3 4), feq (d2 c) f1)) (data r) =
      [(true, false, false); (false, true, false); (true, false, false); (false, false, true)] /\ zlen (data r2) = 4
  | _, _ => False
  end.
Proof. cbv zeta. split; [vm_compute; intuition congruence|]. split; [vm_compute; auto|]. vm_compute. split; reflexivity. Qed.

(** C44: the three histogram operations work for every image, whatever its
    channels are, NaN and infinities included, and keep its size. *)
Lemma histograms_total : forall L m (b : PixelBuffer Rgb) threshold emode bmode, valid b ->
  (exists r, equalize L m b emode = Ok r /\ valid r /\ width r = width b /\ height r = height b) /\
  (exists r, stretch_contrast L b threshold = Ok r /\ valid r /\ width r = width b /\ height r = height b) /\
  (exists r, balance L b bmode threshold = Ok r /\ valid r /\ width r = width b /\ height r = height b).
Proof.
  intros L m b threshold emode bmode V. split; [now apply equalize_total|]. split.
  - destruct (stretch_spec_l L b threshold V) as (r & lo & hi & E & A & B & C & _). eauto.
  - destruct (balance_space bmode) as [[[k e0] e1] e2] eqn:S.
    destruct (balance_spec_l L b bmode threshold k e0 e1 e2 V S) as (r & E & A & B & C & _). eauto.
Qed.

Example histograms_example :
  let b := mkPB 2 1 [mkC fnan (B754_infinity true) (B754_infinity false) f0; mkC (ofZ (-7)) (ofZ 700) f32_MAX fnan] in
  valid b /\
  match equalize step_libm Checked b ESaturationLightness, stretch_contrast step_libm b fnan, balance step_libm b BHsv (ofZ 5) with
  | Ok r, Ok r2, Ok r3 => zlen (data r ++ data r2 ++ data r3) = 6
  | _, _, _ => False
  end.
Proof. cbv zeta. split; [vm_compute; intuition congruence|]. vm_compute. reflexivity. Qed.

(** C45: stretch_contrast stretches the channels between the darkest and the
    brightest level that more than threshold/1000 of the pixels reach. *)
Lemma stretch_contrast_spec : forall L (b : PixelBuffer Rgb) threshold, valid b ->
  exists r lo hi, stretch_contrast L b threshold = Ok r /\ valid r /\ width r = width b /\ height r = height b /\
    black_point (fdiv threshold (ofZ 1000)) (shares brightness_bin (data b)) lo /\
    white_point (fdiv threshold (ofZ 1000)) (shares brightness_bin (data b)) hi /\
    if flt f0 lo || flt hi f1
    then forall m x y, inside b x y -> get_pixel m r x y = bind (get_pixel m b x y) (fun c => Ok (with_level L lo hi f1 c))
    else r = b.
Proof. exact stretch_spec_l. Qed.

(** C45: the alpha of every pixel stays as it is. *)
Lemma stretch_contrast_alpha : forall L m (b : PixelBuffer Rgb) threshold r x y c, valid b ->
  stretch_contrast L b threshold = Ok r -> inside b x y -> get_pixel m b x y = Ok c ->
  exists c', get_pixel m r x y = Ok c' /\ alpha c' = alpha c.
Proof.
  intros L m b threshold r x y c V E I G. destruct (stretch_spec_l L b threshold V) as (r' & lo & hi & E' & _ & _ & _ & _ & _ & P).
  rewrite E in E'. assert (r = r') by congruence. subst r'. destruct (flt f0 lo || flt hi f1).
  - rewrite P, G by auto. eexists. split; [reflexivity|]. reflexivity.
  - subst r. eauto.
Qed.

(** C45: if more than threshold/1000 of the pixels are in the darkest bin and
    more than that in the brightest one, the image stays as it is. *)
Lemma stretch_contrast_unchanged : forall L (b : PixelBuffer Rgb) threshold, valid b ->
  let dark := count (fun c => brightness_bin c =? 0) (data b) in
  let bright := count (fun c => brightness_bin c =? 255) (data b) in
  let t := fdiv threshold (ofZ 1000) in
  flt t (share dark (zlen (data b))) = true -> flt t (share bright (zlen (data b))) = true ->
  stretch_contrast L b threshold = Ok b.
Proof. exact stretch_unchanged_l. Qed.

(** C45: with threshold 0 (or less) one pixel in each of them is enough. *)
Lemma stretch_contrast_zero : forall L (b : PixelBuffer Rgb) threshold, valid b -> fle threshold f0 = true ->
  (exists c, In c (data b) /\ brightness_bin c = 0) -> (exists c, In c (data b) /\ brightness_bin c = 255) ->
  stretch_contrast L b threshold = Ok b.
Proof. exact stretch_zero_l. Qed.

Example stretch_example :
  let gray z := rgb_new (dec z 100) (dec z 100) (dec z 100) in
  let b := mkPB 4 1 [RGB_BLACK; RGB_WHITE; gray 20; gray 80] in
  let b2 := mkPB 4 1 [gray 20; gray 40; gray 60; gray 80] in
  valid b /\ valid b2 /\ flt (fdiv (ofZ 200) (ofZ 1000)) (share 1 4) = true /\
  count (fun c => brightness_bin c =? 0) (data b) = 1 /\ count (fun c => brightness_bin c =? 255) (data b) = 1 /\
  match stretch_contrast step_libm b2 f0 with
  | Ok r => existsb (fun p => negb (feq (d0 (fst p)) (d0 (snd p)))) (combine (data r) (data b2)) = true
  | _ => False
  end.
Proof.
  cbv zeta. split; [vm_compute; intuition congruence|]. split; [vm_compute; intuition congruence|].
  split; [vm_compute; reflexivity|]. split; [vm_compute; reflexivity|]. split; vm_compute; reflexivity.
Qed.

(** C46: every pixel becomes the closest palette colour, the first one of
    several, after a conversion to Lab and back; in place or not. *)
Lemma palette_closest : forall L k (b : PixelBuffer Rgb) (palette : PixelBuffer col), valid b ->
  exists r, apply_palette L k b palette = Ok r /\ apply_palette_in_place L k b palette = Ok r /\
    valid r /\ width r = width b /\ height r = height b /\
    forall m x y, inside b x y -> exists c p, get_pixel m b x y = Ok c /\
      closest_entry (to_lab L D65 O2 KRgb c) (map (to_lab L D65 O2 k) (data palette)) p /\
      get_pixel m r x y = Ok (to_rgb L (KLab D65 O2) p).
Proof. exact apply_palette_l. Qed.

(** C46: with an empty palette every pixel becomes the default colour. *)
Lemma palette_empty : forall L k (b : PixelBuffer Rgb) (palette : PixelBuffer col) m x y r, valid b -> inside b x y ->
  data palette = [] -> apply_palette L k b palette = Ok r -> get_pixel m r x y = Ok (to_rgb L (KLab D65 O2) RGB_NONE).
Proof.
  intros L k b palette m x y r V I E A. destruct (apply_palette_l L k b palette V) as (r' & A' & _ & _ & _ & _ & P).
  rewrite A in A'. assert (r = r') by congruence. subst r'. destruct (P m x y I) as (c & p & _ & C & G). rewrite E in C.
  destruct C as [(i & Ei & _)|[_ ->]]; [|exact G]. exfalso. apply idx_In in Ei. destruct Ei.
Qed.

(** C46: the transparency of the result is that of the palette colour, not
    that of the pixel. *)
Lemma palette_alpha : forall L k (b : PixelBuffer Rgb) (palette : PixelBuffer col) m x y r, valid b -> inside b x y ->
  (forall q, In q (data palette) -> in01 (alpha q)) -> apply_palette L k b palette = Ok r ->
  exists c, get_pixel m r x y = Ok c /\ (alpha c = f0 \/ exists q, In q (data palette) /\ alpha c = alpha q).
Proof.
  intros L k b palette m x y r V I H A. destruct (apply_palette_l L k b palette V) as (r' & A' & _ & _ & _ & _ & P).
  rewrite A in A'. assert (r = r') by congruence. subst r'. destruct (P m x y I) as (c & p & _ & C & G).
  eexists. split; [exact G|]. destruct C as [(i & Ei & _)|[_ ->]].
  - right. apply idx_In in Ei. apply in_map_iff in Ei. destruct Ei as (q & <- & Iq). exists q. split; [exact Iq|].
    pose proof (convert_alpha L k (KLab D65 O2) q (H q Iq)) as E1. cbn [convert_color] in E1.
    rewrite <- E1. apply (convert_alpha L (KLab D65 O2) KRgb). rewrite E1. auto.
  - left. assert (E : in01 (alpha RGB_NONE)) by (split; reflexivity).
    exact (convert_alpha L (KLab D65 O2) KRgb RGB_NONE E).
Qed.

Example palette_example :
  let L := example_libm in
  let b := mkPB 3 1 [RGB_RED; RGB_BLUE; rgb_new (dec 9 10) (dec 1 10) f0] in
  let pal := mkPB 2 1 [RGB_BLUE; RGB_RED] in
  valid b /\ in01 (alpha RGB_RED) /\
  match apply_palette L KRgb b pal with
  | Ok r => map (fun c => flt (d2 c) (d0 c)) (data r) = [true; false; true]
  | _ => False
  end.
Proof. cbv zeta. split; [vm_compute; intuition congruence|]. split; [split; reflexivity|]. vm_compute. reflexivity. Qed.

(** C47: salt and pepper noise draws one number per pixel: below the
    threshold the pixel becomes black, above 1 - threshold white, otherwise
    it stays. *)
Lemma salt_and_pepper : forall R (g : rng R) s (b : PixelBuffer Rgb) threshold, valid b ->
  exists s' r, salt_n_pepper_noise g s b threshold = Ok (s', r) /\ add_salt_n_pepper_noise g s b threshold = Ok (s', r) /\
    valid r /\ width r = width b /\ height r = height b /\
    forall m x y, inside b x y -> exists c c' draw, get_pixel m b x y = Ok c /\ get_pixel m r x y = Ok c' /\
      (exists s0, draw = snd (gen_unit g s0)) /\
      c' = if flt draw threshold then RGB_BLACK else if flt (fsub f1 threshold) draw then RGB_WHITE else c.
Proof. exact @salt_l. Qed.

(** C47: Rgb noise sets one colour channel to 1 if the number drawn for the
    pixel is below the threshold. *)
Lemma rgb_noise_spec : forall R (g : rng R) s (b : PixelBuffer Rgb) threshold, valid b ->
  exists s' r, rgb_noise g s b threshold = Ok (s', r) /\ add_rgb_noise g s b threshold = Ok (s', r) /\
    valid r /\ width r = width b /\ height r = height b /\
    forall m x y, inside b x y -> exists c c' draw, get_pixel m b x y = Ok c /\ get_pixel m r x y = Ok c' /\
      (exists s0, draw = snd (gen_unit g s0)) /\
      if flt draw threshold
      then c' = mkC f1 (d1 c) (d2 c) (d3 c) \/ c' = mkC (d0 c) f1 (d2 c) (d3 c) \/ c' = mkC (d0 c) (d1 c) f1 (d3 c)
      else c' = c.
Proof. exact @rgb_noise_l. Qed.

(** C47: threshold 0 changes nothing. *)
Lemma noise_threshold_0 : forall R (g : rng R) s (b : PixelBuffer Rgb), (forall s, in01 (snd (gen_unit g s))) ->
  (exists s', salt_n_pepper_noise g s b f0 = Ok (s', b)) /\ (exists s', rgb_noise g s b f0 = Ok (s', b)).
Proof. exact @noise_0_l. Qed.

Example noise_example :
  let g := mkRng Z (fun s => (s + 1, dec (s mod 11) 10)) (fun s => (s + 1, f1)) (fun s => (s + 1, s mod 3)) (fun s => (s + 1, f2)) in
  let b := mkPB 3 1 [RGB_RED; RGB_RED; RGB_RED] in
  valid b /\ in01 (snd (gen_unit g 5)) /\
  match salt_n_pepper_noise g 9 b (dec 1 20), rgb_noise g 0 b (dec 1 20) with
  | Ok (s, r), Ok (s', r') => s = 12 /\ s' = 4 /\ map (fun c => feq (d1 c) f1) (data r) = [false; true; false] /\
      map (fun c => feq (d1 c) f1) (data r') = [true; false; false]
  | _, _ => False
  end.
Proof. cbv zeta. split; [vm_compute; intuition congruence|]. split; [split; vm_compute; reflexivity|]. vm_compute. auto. Qed.

(** C48: both kinds of noise mix a drawn number into the colour channels of
    each pixel. *)
Lemma noise_mixes : forall R (g : rng R) k s (b : PixelBuffer col) strength, valid b ->
  (exists s' r, random_noise g k s b strength = Ok (s', r) /\ add_random_noise g k s b strength = Ok (s', r) /\
    valid r /\ width r = width b /\ height r = height b /\
    forall m x y, inside b x y -> exists c c', get_pixel m b x y = Ok c /\ get_pixel m r x y = Ok c' /\
      noisy (gen_signed g) k strength c c') /\
  (exists s' r, gaussian_noise g k s b strength = Ok (s', r) /\ add_gaussian_noise g k s b strength = Ok (s', r) /\
    valid r /\ width r = width b /\ height r = height b /\
    forall m x y, inside b x y -> exists c c', get_pixel m b x y = Ok c /\ get_pixel m r x y = Ok c' /\
      noisy (gen_normal g) k strength c c').
Proof. intros R g k s b strength V. split; apply channel_noise_l; exact V. Qed.

(** C48: such a pixel keeps its alpha. *)
Lemma noise_alpha : forall R (gen : R -> R * f32) k strength c c', in01 (alpha c) ->
  noisy gen k strength c c' -> alpha c' = alpha c.
Proof. exact @noisy_alpha. Qed.

(** C48: with strength 0 it does not change. *)
Lemma noise_strength_0 : forall R (gen : R -> R * f32) k c c', (forall s, is_finite (snd (gen s)) = true) -> in_gamut c ->
  noisy gen k f0 c c' -> same_color c' c.
Proof. exact @noisy_0. Qed.

(** C48: as an Rgb or Srgb colour it stays in gamut. *)
Lemma noise_in_gamut : forall R (gen : R -> R * f32) k strength c c', k = KRgb \/ k = KSrgb -> small_draws gen ->
  small_strength strength -> in_gamut c -> noisy gen k strength c c' -> in_gamut c'.
Proof. exact @noisy_gamut. Qed.

Example noise_mix_example :
  let gen := fun s : Z => (s + 1, ofZ (if Z.even s then 1 else -1)) in
  let g := mkRng Z gen gen (fun s => (s, 0)) gen in
  let b := mkPB 1 1 [rgb_new (dec 5 10) (dec 5 10) (dec 5 10)] in
  valid b /\ fle (fabs (snd (gen 3))) (ofZ 65536) = true /\ small_strength (dec 1 2) /\
  match random_noise g KRgb 0 b (dec 1 2) with
  | Ok (s, r) => s = 3 /\ map (fun c => (feq (d0 c) (dec 75 100), feq (d1 c) f0)) (data r) = [(true, true)]
  | _ => False
  end.
Proof. cbv zeta. split; [vm_compute; intuition congruence|]. split; [vm_compute; reflexivity|]. split; [vm_compute; reflexivity|]. vm_compute. auto. Qed.

(** C49: every temperature, NaN and infinities included, is accepted. *)
Lemma temperature_total : forall L (b : PixelBuffer Rgb) t t' tint, valid b ->
  exists r, change_color_temperature L b t t' tint = Ok r /\ valid r /\ width r = width b /\ height r = height b.
Proof. exact temperature_total_l. Qed.

(** C49: changing a temperature to itself keeps red, green and alpha; blue too
    from 1786 K on, but below that every blue channel becomes NaN. *)
Lemma temperature_same : forall L (b : PixelBuffer Rgb) t tint, valid b -> fle tint f0 = true ->
  exists r, change_color_temperature L b t t tint = Ok r /\ valid r /\ width r = width b /\ height r = height b /\
    forall m x y c, inside b x y -> get_pixel m b x y = Ok c -> in_gamut c -> exists c', get_pixel m r x y = Ok c' /\
      same (d0 c') (d0 c) /\ same (d1 c') (d1 c) /\ alpha c' = alpha c /\
      (if kelvin t <? 1786 then is_nan (d2 c') = true else same (d2 c') (d2 c)).
Proof. exact temperature_same_l. Qed.

(** C49: the expected identity fails for an ordinary image at 1000 K. *)
Lemma temperature_identity_refuted : exists (b : PixelBuffer Rgb) r c', valid b /\ Forall in_gamut (data b) /\
  change_color_temperature step_libm b (ofZ 1000) (ofZ 1000) f0 = Ok r /\ get_pixel Checked r 0 0 = Ok c' /\ is_nan (d2 c') = true.
Proof.
  exists (mkPB 1 1 [RGB_WHITE]).
  assert (V : valid (mkPB 1 1 [RGB_WHITE])) by (vm_compute; intuition congruence).
  assert (G : in_gamut RGB_WHITE) by (repeat split; reflexivity).
  destruct (temperature_same_l step_libm (mkPB 1 1 [RGB_WHITE]) (ofZ 1000) f0 V eq_refl) as (r & E & _ & _ & _ & P).
  destruct (P Checked 0 0 RGB_WHITE) as (c' & H & _ & _ & _ & N); [split; cbn; lia|reflexivity|exact G|].
  exists r, c'. split; [exact V|]. split; [constructor; auto|]. split; [exact E|]. split; [exact H|].
  assert (K : kelvin (ofZ 1000) = 1000) by (apply kelvin_ofZ; lia). rewrite K in N. exact N.
Qed.

Example temperature_example : kelvin (dec 65005 10) = 6500 /\ kelvin fnan = 1000 /\ kelvin (B754_infinity false) = 12000 /\
  valid (mkPB 1 1 [RGB_WHITE]) /\ fle f0 f0 = true.
Proof. split; [vm_compute; reflexivity|]. split; [vm_compute; reflexivity|]. split; [vm_compute; reflexivity|]. split; [vm_compute; intuition congruence|reflexivity]. Qed.

(** C77: balance stretches each channel it works on between the black and the
    white point of that channel; the other channels and alpha stay. *)
Lemma balance_spec : forall L (b : PixelBuffer Rgb) mode threshold k e0 e1 e2, valid b -> balance_space mode = (k, e0, e1, e2) ->
  exists r, balance L b mode threshold = Ok r /\ valid r /\ width r = width b /\ height r = height b /\
    forall m x y, inside b x y -> exists c s, get_pixel m b x y = Ok c /\ get_pixel m r x y = Ok (to_rgb L k s) /\
      let all := map (convert_color L KRgb k) (data b) in
      let old := convert_color L KRgb k c in
      let t := fdiv threshold (ofZ 1000) in
      (if e0 then balanced L t d0 all (d0 old) (d0 s) else d0 s = d0 old) /\
      (if e1 then balanced L t d1 all (d1 old) (d1 s) else d1 s = d1 old) /\
      (if e2 then balanced L t d2 all (d2 old) (d2 s) else d2 s = d2 old) /\ alpha s = alpha old.
Proof. exact balance_spec_l. Qed.

Example balance_example :
  let gray z := rgb_new (dec z 100) (dec z 100) (dec z 100) in
  let b := mkPB 4 1 [gray 20; gray 40; gray 60; gray 80] in
  valid b /\ match balance step_libm b BRgb f0 with Ok r => zlen (data r) = 4 | _ => False end.
Proof. cbv zeta. split; vm_compute; [intuition congruence|reflexivity]. Qed.
