(** Property theorems, generated from MeansThm.v by tools/mkp.py. *)

From Coq Require Import Reals ZArith List Bool.
From Flocq Require Import IEEE754.BinarySingleNaN.
From Verif Require Import Base PixelBuffer BufferSpec F32 Color ColorSpec MeaningSpec Kernel KernelSpec Ops OpsSpec EnhanceSpec NoiseSpec.
Import ListNotations.
Open Scope R_scope.

From Verif Require Import MeansThm.


(** C47: every pixel, in order, gets its own fresh numbers, and nothing else draws
    from the generator: salt and pepper uses one number per pixel, rgb noise one or
    two. *)

Theorem C47_threshold_noise_draws : forall S (g : rng S) threshold s (b : PixelBuffer Rgb),
  (exists s' l', salt_n_pepper_noise g s b threshold = Ok (s', mkPB (width b) (height b) l') /\
    add_salt_n_pepper_noise g s b threshold = Ok (s', mkPB (width b) (height b) l') /\
    runs (salted g threshold) s (data b) s' l') /\
  (exists s' l', rgb_noise g s b threshold = Ok (s', mkPB (width b) (height b) l') /\
    add_rgb_noise g s b threshold = Ok (s', mkPB (width b) (height b) l') /\
    runs (speckled g threshold) s (data b) s' l').
Proof. exact threshold_noise_draws. Qed.
Print Assumptions C47_threshold_noise_draws.


(** C48: random and gaussian noise draw three fresh numbers for every pixel, in
    order. *)

Theorem C48_mixed_noise_draws : forall S (g : rng S) k strength s (b : PixelBuffer col),
  (exists s' l', random_noise g k s b strength = Ok (s', mkPB (width b) (height b) l') /\
    add_random_noise g k s b strength = Ok (s', mkPB (width b) (height b) l') /\
    runs (mixed (gen_signed g) k strength) s (data b) s' l') /\
  (exists s' l', gaussian_noise g k s b strength = Ok (s', mkPB (width b) (height b) l') /\
    add_gaussian_noise g k s b strength = Ok (s', mkPB (width b) (height b) l') /\
    runs (mixed (gen_normal g) k strength) s (data b) s' l').
Proof. exact mixed_noise_draws. Qed.
Print Assumptions C48_mixed_noise_draws.


(** C48: the new channels are, within 2^-19, the mixture of the drawn numbers and
    the old channels, limited to [0,1]. *)

Theorem C48_noise_formula : forall S (gen : S -> S * f32) k strength s c s' c', k = KRgb \/ k = KSrgb ->
  (forall s, is_finite (snd (gen s)) = true /\ Rabs (B2R (snd (gen s))) <= 8) ->
  in01 strength -> in_gamut c -> mixed gen k strength s c s' c' ->
  let s1 := fst (gen s) in let s2 := fst (gen s1) in
  let noised n v := limited (B2R n * B2R strength + (1 - B2R strength) * B2R v) in
  s' = fst (gen s2) /\ d3 c' = d3 c /\ close (/ 2 ^ 19) (noised (snd (gen s)) (d0 c)) (d0 c') /\
  close (/ 2 ^ 19) (noised (snd (gen s1)) (d1 c)) (d1 c') /\ close (/ 2 ^ 19) (noised (snd (gen s2)) (d2 c)) (d2 c').
Proof. exact noise_formula. Qed.
Print Assumptions C48_noise_formula.

Example C48_noise_formula_example :
  let gen := fun s : Z => ((s + 1)%Z, ofZ (Z.modulo s 2)) in
  let g := mkRng Z gen gen (fun s => (s, 0%Z)) gen in
  (forall s, is_finite (snd (gen s)) = true /\ Rabs (B2R (snd (gen s))) <= 8) /\ in01 (dec 1 2) /\ in_gamut RGB_RED /\
  (exists c', mixed gen KRgb (dec 1 2) 0%Z RGB_RED 3%Z c' /\ [feq (d0 c') (dec 1 2); feq (d1 c') (dec 1 2); feq (d2 c') f0] = [true; true; true]) /\
  salted g (dec 1 4) 0%Z RGB_RED 1%Z RGB_BLACK /\ salted g (dec 1 4) 1%Z RGB_RED 2%Z RGB_WHITE.
Proof. exact noise_formula_example. Qed.


(** C42: red, green and blue of a despeckled pixel are, within 1/800000, the mean
    of those pixels around it that are not dark; its alpha is kept, and all other
    pixels are unchanged. *)

Theorem C42_despeckle_is_mean : forall m (b : PixelBuffer Rgb) threshold amount, valid b ->
  (forall c, In c (data b) -> in_gamut c) -> is_nan threshold = false -> (amount <= 8)%Z ->
  exists out, despeckle m b threshold amount = Ok out /\ valid out /\ width out = width b /\ height out = height b /\
    forall x y c, inside b x y -> get_pixel m b x y = Ok c -> exists ps c', neighbourhood m b 3 3 x y = Ok ps /\
      get_pixel m out x y = Ok c' /\
      let light := filter (fun q => negb (darker threshold q)) ps in
      if darker threshold c && (9 - zlen light <=? amount)%Z
      then d3 c' = d3 c /\ forall pick : Rgb -> f32, pick = d0 \/ pick = d1 \/ pick = d2 ->
             Rabs (B2R (pick c') - mean (fun q => B2R (pick q)) light) <= / 800000
      else c' = c.
Proof. exact despeckle_is_mean. Qed.
Print Assumptions C42_despeckle_is_mean.

Example C42_despeckle_is_mean_example :
  let b := mkPB 2 1 [RGB_WHITE; RGB_BLACK] in
  valid b /\ (forall c, In c (data b) -> in_gamut c) /\ is_nan (dec 1 2) = false /\ darker (dec 1 2) RGB_BLACK = true /\
  neighbourhood Checked b 3 3 1 0 = Ok (concat (repeat [RGB_WHITE; RGB_BLACK; RGB_BLACK] 3)) /\
  zlen (filter (fun q => negb (darker (dec 1 2) q)) (concat (repeat [RGB_WHITE; RGB_BLACK; RGB_BLACK] 3))) = 3%Z.
Proof. exact despeckle_is_mean_example. Qed.


(** C75: every channel, alpha included, of a pixel after symmetric nearest
    neighbour is the mean of the taken colours, within (n + 1)/2^23 for n colours. *)

Theorem C75_snn_is_mean : forall m (b : PixelBuffer Rgb) radius with_center, valid b -> (0 <= radius <= 1000000)%Z ->
  ((0 < radius)%Z \/ with_center = true) -> (forall c, In c (data b) -> in_gamut c) ->
  exists out, symmetric_nearest_neighbor m b radius with_center = Ok out /\ valid out /\ width out = width b /\ height out = height b /\
    forall x y, inside b x y -> exists center chosen c, get_pixel m b x y = Ok center /\
      Forall2 (nearer_of_pair m b x y center) (half_star radius) chosen /\ get_pixel m out x y = Ok c /\
      let taken := if with_center then center :: chosen else chosen in
      zlen taken = (if with_center then 4 * radius + 1 else 4 * radius)%Z /\
      forall pick : Rgb -> f32, pick = d0 \/ pick = d1 \/ pick = d2 \/ pick = d3 ->
        Rabs (B2R (pick c) - mean (fun q => B2R (pick q)) taken) <= (IZR (zlen taken) + 1) / 8388608.
Proof. exact snn_is_mean. Qed.
Print Assumptions C75_snn_is_mean.

Example C75_snn_is_mean_example :
  let b := mkPB 2 1 [RGB_WHITE; RGB_RED] in
  valid b /\ (forall c, In c (data b) -> in_gamut c) /\ inside b 1 0 /\
  Forall2 (nearer_of_pair Checked b 1 0 RGB_RED) (half_star 1) [RGB_RED; RGB_RED; RGB_RED; RGB_RED].
Proof. exact snn_is_mean_example. Qed.
