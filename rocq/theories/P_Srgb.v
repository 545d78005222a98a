(** Property theorems, generated from SrgbThm.v by tools/mkp.py. *)

From Coq Require Import Reals ZArith List.
From Flocq Require Import IEEE754.BinarySingleNaN.
From Verif Require Import Base PixelBuffer BufferSpec F32 Color ColorSpec Codec CodecSpec MeaningSpec IdealPowf.
Import ListNotations.
Open Scope R_scope.

From Verif Require Import SrgbThm.


(** C88: the linear colour of an sRGB colour. *)

Theorem C88_srgb_decodes : forall L c, accurate_powf L -> in_gamut c -> channelwise (/ 2 ^ 19) srgb_decode c (to_rgb L KSrgb c).
Proof. exact srgb_decodes. Qed.
Print Assumptions C88_srgb_decodes.


(** C88: the sRGB colour of a linear colour. *)

Theorem C88_srgb_encodes : forall L c, accurate_powf L -> in_gamut c -> channelwise (/ 2 ^ 19) srgb_encode c (to_srgb L KRgb c).
Proof. exact srgb_encodes. Qed.
Print Assumptions C88_srgb_encodes.


(** C88: from sRGB to linear and back. *)

Theorem C88_srgb_and_back : forall L c, accurate_powf L -> in_gamut c ->
  channelwise (/ 2 ^ 18) (fun v => v) c (to_srgb L KRgb (to_rgb L KSrgb c)).
Proof. exact srgb_and_back. Qed.
Print Assumptions C88_srgb_and_back.


(** C88: from linear to sRGB and back. *)

Theorem C88_linear_and_back : forall L c, accurate_powf L -> in_gamut c ->
  channelwise (/ 2 ^ 17) (fun v => v) c (to_rgb L KSrgb (to_srgb L KRgb c)).
Proof. exact linear_and_back. Qed.
Print Assumptions C88_linear_and_back.

Example C88_srgb_example :
  (forall L, accurate_powf (ideal_libm L)) /\ in_gamut (mkC (dec 1 100) (dec 1 2) f1 (dec 1 4)) /\
  srgb_decode (/ 100) = / 1292 /\ srgb_decode 1 = 1 /\ srgb_encode (/ 1292) = / 100 /\ srgb_encode 0 = 0.
Proof. exact srgb_example. Qed.


(** C89: reading a PNG file and writing it with its own colour type lowers
    every sample by at most one; the alpha samples keep their values. *)

Theorem C89_samples_survive : forall m D L c img ct comp filter raw, ct <> PL16 -> accurate_powf L ->
  let color := fst (fst (png_promise L ct)) in let d := snd (fst (png_promise L ct)) in
  let w := png_width img in let h := png_height img in let size := (channels color * depth_bytes d)%Z in
  dec_png D c = ROk img -> valid_size w h -> png_layout img = Some (color, d) ->
  next_frame img (w * h * size) = ROk raw -> zlen raw = (w * h * size)%Z -> Forall is_byte raw ->
  exists b raw', decode m D L c Png = Ok (ROk b) /\ job_png L b ct comp filter = JobPng color d comp filter w h raw' /\
    forall i k, (0 <= i < w * h)%Z -> (0 <= k < channels color)%Z ->
      exists v v', sample d raw (i * channels color + k) = Ok v /\ sample d raw' (i * channels color + k) = Ok v' /\
        (v - 1 <= v' <= v)%Z /\ (alpha_channel color k = true -> v' = v).
Proof. exact samples_survive. Qed.
Print Assumptions C89_samples_survive.


(** C89: the encoded value lies within half a step of the sample it came
    from, so rounding instead of truncating would lose nothing. *)

Theorem C89_rounding_would_be_exact : forall L N v a, accurate_powf L -> (N = 255 \/ N = 65535)%Z -> (0 <= v <= N)%Z ->
  let s := fdiv (ofZ v) (ofZ N) in
  Rabs (B2R (d0 (to_srgb L KRgb (to_rgb L KSrgb (mkC s s s a)))) * IZR N - IZR v) < / 2.
Proof. exact rounding_would_be_exact. Qed.
Print Assumptions C89_rounding_would_be_exact.

Example C89_samples_example :
  (forall L, accurate_powf (ideal_libm L)) /\
  let img := match dec_png example_decoders [] with ROk i => i | RErr _ => mkPngImage None 0 0 (fun _ => RErr DDecoding) end in
  forall L, PRgba8 <> PL16 /\ png_layout img = Some (fst (png_promise L PRgba8)) /\ valid_size (png_width img) (png_height img) /\
  (exists raw, next_frame img (png_width img * png_height img * (4 * 1)) = ROk raw /\ zlen raw = 8%Z /\ Forall is_byte raw).
Proof. exact samples_example. Qed.
