(** The sRGB transfer function and what it does to samples (C88, C89). *)
From Coq Require Import Reals ZArith List.
From Flocq Require Import IEEE754.BinarySingleNaN.
From Verif Require Import Base PixelBuffer BufferSpec F32 Color ColorSpec Codec CodecSpec MeaningSpec IdealPowf.
Import ListNotations.
Open Scope R_scope.

(* PROPERTIES *)
From Coq Require Import Lra Lia.
From Verif Require Import F32Lemmas ColorProofs Approx OpMeaningProofs QuantProofs RoundTripProofs SrgbMeaning SrgbSamples.
Open Scope R_scope.

(** C88: the linear colour of an sRGB colour. *)
Lemma srgb_decodes : forall L c, accurate_powf L -> in_gamut c -> channelwise (/ 2 ^ 19) srgb_decode c (to_rgb L KSrgb c).
Proof. intros L c. rewrite (pow_IZR 2 19). exact (decode_colour L c). Qed.
(** C88: the sRGB colour of a linear colour. *)
Lemma srgb_encodes : forall L c, accurate_powf L -> in_gamut c -> channelwise (/ 2 ^ 19) srgb_encode c (to_srgb L KRgb c).
Proof. intros L c. rewrite (pow_IZR 2 19). exact (encode_colour L c). Qed.
(** C88: from sRGB to linear and back. *)
Lemma srgb_and_back : forall L c, accurate_powf L -> in_gamut c ->
  channelwise (/ 2 ^ 18) (fun v => v) c (to_srgb L KRgb (to_rgb L KSrgb c)).
Proof. intros L c. rewrite (pow_IZR 2 18). exact (there_and_back_colour L c). Qed.
(** C88: from linear to sRGB and back. *)
Lemma linear_and_back : forall L c, accurate_powf L -> in_gamut c ->
  channelwise (/ 2 ^ 17) (fun v => v) c (to_rgb L KSrgb (to_srgb L KRgb c)).
Proof. intros L c. rewrite (pow_IZR 2 17). exact (back_and_there_colour L c). Qed.
Example srgb_example :
  (forall L, accurate_powf (ideal_libm L)) /\ in_gamut (mkC (dec 1 100) (dec 1 2) f1 (dec 1 4)) /\
  srgb_decode (/ 100) = / 1292 /\ srgb_decode 1 = 1 /\ srgb_encode (/ 1292) = / 100 /\ srgb_encode 0 = 0.
Proof.
  split; [exact ideal_accurate|]. split; [repeat split; vm_compute; reflexivity|]. unfold srgb_decode, srgb_encode.
  split; [destruct Rle_dec; lra|]. split.
  { destruct Rle_dec; [lra|]. replace ((1 + 55 / 1000) / (1055 / 1000)) with 1 by field. unfold Rpower. rewrite ln_1, Rmult_0_r. apply exp_0. }
  split; destruct Rle_dec; lra.
Qed.

(** C89: reading a PNG file and writing it with its own colour type lowers
    every sample by at most one; the alpha samples keep their values. *)
Lemma samples_survive : forall m D L c img ct comp filter raw, ct <> PL16 -> accurate_powf L ->
  let color := fst (fst (png_promise L ct)) in let d := snd (fst (png_promise L ct)) in
  let w := png_width img in let h := png_height img in let size := (channels color * depth_bytes d)%Z in
  dec_png D c = ROk img -> valid_size w h -> png_layout img = Some (color, d) ->
  next_frame img (w * h * size) = ROk raw -> zlen raw = (w * h * size)%Z -> Forall is_byte raw ->
  exists b raw', decode m D L c Png = Ok (ROk b) /\ job_png L b ct comp filter = JobPng color d comp filter w h raw' /\
    forall i k, (0 <= i < w * h)%Z -> (0 <= k < channels color)%Z ->
      exists v v', sample d raw (i * channels color + k) = Ok v /\ sample d raw' (i * channels color + k) = Ok v' /\
        (v - 1 <= v' <= v)%Z /\ (alpha_channel color k = true -> v' = v).
Proof.
  intros m D L c img ct comp filter raw N AL color d w h size E V P NF Z B.
  destruct (round_trip m D L c img ct comp filter raw N E V P NF Z B) as (b & raw' & A1 & A2 & _ & A4). exists b, raw'. split; [exact A1|]. split; [exact A2|].
  intros i k I K. destruct (A4 i k I K) as (v & S & R & S'). exists v. eexists. split; [exact S|]. split; [exact S'|].
  destruct (alpha_channel _ k); [split; [lia|reflexivity]|]. split; [|discriminate].
  destruct (is_gray _); [now apply requant_gray_near | now apply requant_near].
Qed.
(** C89: the encoded value lies within half a step of the sample it came
    from, so rounding instead of truncating would lose nothing. *)
Lemma rounding_would_be_exact : forall L N v a, accurate_powf L -> (N = 255 \/ N = 65535)%Z -> (0 <= v <= N)%Z ->
  let s := fdiv (ofZ v) (ofZ N) in
  Rabs (B2R (d0 (to_srgb L KRgb (to_rgb L KSrgb (mkC s s s a)))) * IZR N - IZR v) < / 2.
Proof. intros L N v a AL HN V. exact (scaled_near L N v AL HN V). Qed.
Example samples_example :
  (forall L, accurate_powf (ideal_libm L)) /\
  let img := match dec_png example_decoders [] with ROk i => i | RErr _ => mkPngImage None 0 0 (fun _ => RErr DDecoding) end in
  forall L, PRgba8 <> PL16 /\ png_layout img = Some (fst (png_promise L PRgba8)) /\ valid_size (png_width img) (png_height img) /\
  (exists raw, next_frame img (png_width img * png_height img * (4 * 1)) = ROk raw /\ zlen raw = 8%Z /\ Forall is_byte raw).
Proof.
  split; [exact ideal_accurate|]. cbv zeta. intros L. split; [discriminate|]. split; [reflexivity|]. split; [right; vm_compute; intuition congruence|].
  eexists. split; [reflexivity|]. split; [reflexivity|].
  apply Forall_forall. intros x I. apply repeat_spec in I. subst x. vm_compute. intuition congruence.
Qed.
