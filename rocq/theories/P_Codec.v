(** Property theorems, generated from CodecThm.v by tools/mkp.py. *)

From Coq Require Import ZArith Reals List Bool String Ascii.
From Flocq Require Import IEEE754.BinarySingleNaN.
From Verif Require Import Base PixelBuffer BufferSpec F32 Color ColorSpec Codec CodecSpec.
Import ListNotations.
Open Scope Z_scope.

From Verif Require Import CodecThm.


(** C50: the format found in a file's contents is exactly the one whose
    signature they start with. *)

Theorem C50_signature_exact : forall contents f, from_reader contents = ROk f <-> has_signature contents f.
Proof. exact signature_exact. Qed.
Print Assumptions C50_signature_exact.


(** C50: no contents have the signatures of two formats. *)

Theorem C50_signature_unique : forall contents f g, has_signature contents f -> has_signature contents g -> f = g.
Proof. exact signature_unique. Qed.
Print Assumptions C50_signature_unique.


(** C50: without a signature the answer is UnknownFormat. *)

Theorem C50_signature_missing : forall contents, (forall f, ~ has_signature contents f) -> from_reader contents = RErr DUnknownFormat.
Proof. exact signature_missing. Qed.
Print Assumptions C50_signature_missing.


(** C50: bytes after the twelfth do not matter. *)

Theorem C50_signature_first_bytes : forall contents more, 12 <= zlen contents -> from_reader (contents ++ more) = from_reader contents.
Proof. exact signature_first_bytes. Qed.
Print Assumptions C50_signature_first_bytes.

Example C50_signature_example :
  has_signature [71; 73; 70; 56; 57; 97; 0] Gif /\ from_reader [82; 73; 70; 70; 1; 2; 3; 4; 87; 69; 66; 80; 5] = ROk WebP /\
  from_reader [82; 73; 70; 70; 1; 2; 3; 4; 87; 69; 66] = RErr DUnknownFormat /\ from_reader [] = RErr DUnknownFormat.
Proof. exact signature_example. Qed.


(** C51: a file with a signature is decoded as that format whatever its name
    is. *)

Theorem C51_contents_decide : forall m D L s path contents f, files s path = Some contents -> has_signature contents f ->
  decode_file m D L s path = decode m D L contents f.
Proof. exact contents_decide. Qed.
Print Assumptions C51_contents_decide.


(** C51: a file without one is decoded as its extension says, in upper or
    lower case. *)

Theorem C51_extension_decides : forall m D L s path contents f, files s path = Some contents -> (forall g, ~ has_signature contents g) ->
  has_extension path f -> decode_file m D L s path = decode m D L contents f.
Proof. exact extension_decides. Qed.
Print Assumptions C51_extension_decides.


(** C51: a path has at most one of the extensions. *)

Theorem C51_extension_unique : forall path f g, has_extension path f -> has_extension path g -> f = g.
Proof. exact extension_unique. Qed.
Print Assumptions C51_extension_unique.


(** C51: if neither is known the answer is UnknownFormat, and if there is no
    such file an IoError. *)

Theorem C51_nothing_decides : forall m D L s path,
  (files s path = None -> decode_file m D L s path = Ok (RErr DIoError)) /\
  (forall contents, files s path = Some contents -> (forall g, ~ has_signature contents g) -> (forall g, ~ has_extension path g) ->
    decode_file m D L s path = Ok (RErr DUnknownFormat)).
Proof. exact nothing_decides. Qed.
Print Assumptions C51_nothing_decides.


(** C51: decoding as a format asks that format's library only. *)

Theorem C51_one_library : forall m D D' L contents f, same_decoder f D D' contents -> decode m D L contents f = decode m D' L contents f.
Proof. exact one_library. Qed.
Print Assumptions C51_one_library.

Example C51_contents_example :
  let d := decode_file Checked example_decoders example_libm (example_fs 0) in
  let size r := match r with Ok (ROk b) => Some (width b, height b) | _ => None end in
  size (d "photo.PNG"%string) = Some (1, 2) /\ has_extension "photo.PNG" Png /\
  has_extension "a.b/photo.Jpeg/." Jpeg /\ (forall f, ~ has_extension ".png" f) /\
  d "photo.Jpeg"%string = Ok (RErr DDecoding) /\ d "nothing.png"%string = Ok (RErr DIoError).
Proof. exact contents_example. Qed.


(** C52: saving without a format under a name without a known extension is a
    BadFileExtension error and leaves the file system as it was. *)

Theorem C52_unknown_extension : forall E L s path b, (forall f, ~ has_extension path f) ->
  encode_to_file E L s path b None = (s, RErr (EBadFileExtension path)).
Proof. exact unknown_extension. Qed.
Print Assumptions C52_unknown_extension.


(** C52: with a known extension the format is that of the extension. *)

Theorem C52_known_extension : forall path f, has_extension path f -> exists e, chosen path None = ROk e /\ format_of e = f.
Proof. exact known_extension. Qed.
Print Assumptions C52_known_extension.

Example C52_unknown_extension_example : (forall f, ~ has_extension "dir.png/file.txt" f) /\ (forall f, ~ has_extension "png" f) /\
  chosen "x.WEBP" None = ROk (EWebP 90 WDefault).
Proof. exact unknown_extension_example. Qed.


(** C53: no file but the saved one is touched. *)

Theorem C53_save_touches_one : forall E L s path b f s' r p, encode_to_file E L s path b f = (s', r) -> p <> path -> files s' p = files s p.
Proof. exact save_touches_one. Qed.
Print Assumptions C53_save_touches_one.


(** C53: if the format is not known or the file cannot be created, nothing is
    touched and there is an error. *)

Theorem C53_save_not_started : forall E L s path b f, (exists e, chosen path f = RErr e) \/ creatable s path = false ->
  exists e, encode_to_file E L s path b f = (s, RErr e).
Proof. exact save_not_started. Qed.
Print Assumptions C53_save_not_started.


(** C53: otherwise the file is replaced, whatever the result is: it holds what
    the encoder wrote up to the point where writing failed.  If writing does
    not fail it holds everything and the result is that of the encoder.  Ok is
    only returned if the encoder succeeded, and then, unless the encoder
    ignores errors, at most the last 8192 bytes are missing, and none if it
    flushes at the end. *)

Theorem C53_save_result : forall E L s path b f g j ops ok s' r, 0 <= limits s path -> chosen path f = ROk g -> creatable s path = true ->
  make_job L b g = ROk j -> E j = (ops, ok) -> encode_to_file E L s path b f = (s', r) ->
  files s' path = Some (firstn (Z.to_nat (limits s path)) (output ops)) /\
  (zlen (output ops) <= limits s path -> files s' path = Some (output ops) /\ r = if ok then ROk tt else RErr EEncoding) /\
  (r = ROk tt -> ok = true) /\
  (r = ROk tt -> no_ignored ops -> zlen (output ops) <= limits s path + 8192) /\
  (r = ROk tt -> no_ignored ops -> (exists before, ops = before ++ [Flush]) -> files s' path = Some (output ops)).
Proof. exact save_result. Qed.
Print Assumptions C53_save_result.


(** C53: an image that cannot be encoded in the format leaves an empty file. *)

Theorem C53_save_rejected : forall E L s path b f g e s' r, chosen path f = ROk g -> creatable s path = true -> make_job L b g = RErr e ->
  encode_to_file E L s path b f = (s', r) -> files s' path = Some [] /\ r = RErr e.
Proof. exact save_rejected. Qed.
Print Assumptions C53_save_rejected.


(** C53: the code can report success although bytes are missing. *)

Theorem C53_save_success_refuted : exists E L s path b s', encode_to_file E L s path b None = (s', ROk tt) /\
  (forall j, match E j with (ops, _) => no_ignored ops end) /\
  exists j ops, make_job L b bmp_default = ROk j /\ E j = (ops, true) /\ files s' path <> Some (output ops).
Proof. exact save_success_refuted. Qed.
Print Assumptions C53_save_success_refuted.


(** C53: the code can destroy the previous contents although it reports an
    error. *)

Theorem C53_save_failure_refuted : exists E L s path b f s' e old, files s path = Some old /\ old <> [] /\
  encode_to_file E L s path b f = (s', RErr e) /\ files s' path = Some [].
Proof. exact save_failure_refuted. Qed.
Print Assumptions C53_save_failure_refuted.

Example C53_save_example :
  let b := mkPB 1 1 [mkC f1 f0 f1 f1] in
  let save limit path := encode_to_file example_encoders example_libm (example_fs limit) path b None in
  (let '(s', r) := save 1000 "old.bmp"%string in files s' "old.bmp"%string = Some [66; 77; 1; 1; 254; 0; 254; 255] /\ r = ROk tt) /\
  (let '(s', r) := save 5 "old.jpg"%string in files s' "old.jpg"%string = Some [255; 216; 255; 1; 1] /\ r = RErr EIoError) /\
  (let '(s', r) := save 1000 "ro.png"%string in files s' "ro.png"%string = None /\ r = RErr EIoError).
Proof. exact save_example. Qed.


(** C54: for every colour type but L16 the bytes given to the PNG encoder are
    laid out as the colour type and bit depth given to it say. *)

Theorem C54_png_layout_exact : forall L b ct comp filter, valid b -> ct <> PL16 ->
  exists raw, job_png L b ct comp filter =
    JobPng (fst (fst (png_promise L ct))) (snd (fst (png_promise L ct))) comp filter (width b) (height b) raw /\
  laid_out b (channels (fst (fst (png_promise L ct))) * depth_bytes (snd (fst (png_promise L ct))))
    (fun c => flat_map (sample_bytes (snd (fst (png_promise L ct)))) (snd (png_promise L ct) c)) raw.
Proof. exact png_layout_exact. Qed.
Print Assumptions C54_png_layout_exact.


(** C54: the same for BMP and ICO. *)

Theorem C54_image_layout_exact : forall L b ct, valid b ->
  exists raw, job_bmp L b ct = JobBmp raw (width b) (height b) (fst (fst (image_promise L ct))) /\
    job_ico L b ct = JobIco raw (width b) (height b) (fst (fst (image_promise L ct))) /\
  laid_out b (snd (fst (image_promise L ct))) (fun c => flat_map (sample_bytes Eight) (snd (image_promise L ct) c)) raw.
Proof. exact image_layout_exact. Qed.
Print Assumptions C54_image_layout_exact.


(** C54: the same for JPEG. *)

Theorem C54_jpeg_layout_exact : forall L b quality progressive sampling grayscale optimize, valid b -> width b <= 65535 -> height b <= 65535 ->
  exists q raw, job_jpeg L b quality progressive sampling grayscale optimize =
      ROk (JobJpeg q sampling progressive optimize raw (width b) (height b) grayscale) /\
    1 <= q <= 100 /\ (1 <= quality <= 100 -> q = quality) /\ (quality < 1 -> q = 1) /\ (100 < quality -> q = 100) /\
    laid_out b (if grayscale then 1 else 3)
      (fun c => flat_map (sample_bytes Eight) (if grayscale then gray_samples L c else rgb_samples L c)) raw.
Proof. exact jpeg_layout_exact. Qed.
Print Assumptions C54_jpeg_layout_exact.


(** C54: the same for GIF. *)

Theorem C54_gif_layout_exact : forall L b, valid b -> width b <= 65535 -> height b <= 65535 ->
  exists raw, job_gif L b = ROk (JobGif (width b) (height b) raw) /\
    laid_out b 4 (fun c => flat_map (sample_bytes Eight) (rgba_samples L c)) raw.
Proof. exact gif_layout_exact. Qed.
Print Assumptions C54_gif_layout_exact.


(** C54: gray images of 16 bits get twice as many bytes as their colour type
    and bit depth say. *)

Theorem C54_png_l16_layout_refuted : forall L b comp filter, valid b -> 0 < width b -> 0 < height b ->
  exists raw, job_png L b PL16 comp filter = JobPng Grayscale Sixteen comp filter (width b) (height b) raw /\
    zlen raw = 2 * (width b * height b * (channels Grayscale * depth_bytes Sixteen)).
Proof. exact png_l16_layout_refuted. Qed.
Print Assumptions C54_png_l16_layout_refuted.

Example C54_layout_example :
  let b := mkPB 2 1 [mkC f0 f1 f0 f1; mkC f1 f0 f0 f0] in
  valid b /\ job_png example_libm b PRgba16 CFast FUp =
    JobPng ColRgba Sixteen CFast FUp 2 1 [0; 0; 255; 254; 0; 0; 255; 255; 255; 254; 0; 0; 0; 0; 0; 0] /\
  job_bmp example_libm b BRgb8 = JobBmp [0; 254; 0; 254; 0; 0] 2 1 Rgb8 /\
  match job_png example_libm b PL16 CFast FUp with JobPng _ _ _ _ _ _ raw => zlen raw = 8 | _ => False end.
Proof. exact layout_example. Qed.


(** C55: every 8 and 16 bit sample survives its float representation. *)

Theorem C55_sample_round_trip : (forall b, 0 <= b <= 255 -> quant8 (from_u8 b) = b) /\
  (forall v, 0 <= v <= 65535 -> quant16 (from_u16 v) = v) /\
  (forall a b, is_byte a -> is_byte b -> u16_be (quant16 (from_u16_be a b)) = [a; b]).
Proof. exact sample_round_trip. Qed.
Print Assumptions C55_sample_round_trip.


(** C55: samples are in range, do not decrease when values grow, are 0 for
    NaN and values up to 0 and maximal for values from 1. *)

Theorem C55_sample_saturates :
  (forall v, 0 <= quant8 v <= 255 /\ 0 <= quant16 v <= 65535) /\
  (forall v w, fle v w = true -> quant8 v <= quant8 w /\ quant16 v <= quant16 w) /\
  (forall v, is_nan v = true \/ fle v f0 = true -> quant8 v = 0 /\ quant16 v = 0) /\
  (forall v, fle f1 v = true -> quant8 v = 255 /\ quant16 v = 65535).
Proof. exact sample_saturates. Qed.
Print Assumptions C55_sample_saturates.

Example C55_sample_example : quant8 (dec 1 2) = 127 /\ quant16 (dec 1 3) = 21845 /\ quant8 (ofZ (-3)) = 0 /\ quant8 (ofZ 7) = 255 /\
  quant16 fnan = 0 /\ quant8 (B754_infinity false) = 255.
Proof. exact sample_example. Qed.


(** C56: when a PNG file with alpha is read and written again with the same
    colour type, all alpha samples are as before. *)

Theorem C56_alpha_round_trip : forall m D L c img ct comp filter raw, ct <> PL16 ->
  let color := fst (fst (png_promise L ct)) in let d := snd (fst (png_promise L ct)) in
  let w := png_width img in let h := png_height img in let size := channels color * depth_bytes d in
  dec_png D c = ROk img -> valid_size w h -> png_layout img = Some (color, d) ->
  next_frame img (w * h * size) = ROk raw -> zlen raw = w * h * size -> Forall is_byte raw ->
  exists b raw', decode m D L c Png = Ok (ROk b) /\ job_png L b ct comp filter = JobPng color d comp filter w h raw' /\
    forall i k, 0 <= i < w * h -> 0 <= k < channels color -> alpha_channel color k = true ->
      exists v, sample d raw (i * channels color + k) = Ok v /\ sample d raw' (i * channels color + k) = Ok v.
Proof. exact alpha_round_trip. Qed.
Print Assumptions C56_alpha_round_trip.

Example C56_alpha_example :
  let img := match dec_png example_decoders [] with ROk i => i | RErr _ => mkPngImage None 0 0 (fun _ => RErr DDecoding) end in
  png_layout img = Some (fst (png_promise example_libm PRgba8)) /\ alpha_channel ColRgba 3 = true /\
  valid_size (png_width img) (png_height img) /\
  (exists raw, next_frame img (png_width img * png_height img * (4 * 1)) = ROk raw /\ zlen raw = 8 /\ Forall is_byte raw).
Proof. exact alpha_example. Qed.


(** C57: each word given to the WebP encoder holds alpha, red, green and blue
    of its pixel in this order and nothing else; size and quality are in
    range. *)

Theorem C57_webp_layout_exact : forall L b quality preset, valid b ->
  exists q words, job_webp L b quality preset = JobWebP preset q (width b) (height b) (width b) words /\
    0 <= q <= 100 /\ zlen words = width b * height b /\
    forall m x y c, inside b x y -> get_pixel m b x y = Ok c ->
      idx words (y * width b + x) = Ok (quant8 (alpha (rgb_to_srgb L c)) * 2 ^ 24 + quant8 (d0 (rgb_to_srgb L c)) * 2 ^ 16 +
        quant8 (d1 (rgb_to_srgb L c)) * 2 ^ 8 + quant8 (d2 (rgb_to_srgb L c))).
Proof. exact webp_layout_exact. Qed.
Print Assumptions C57_webp_layout_exact.


(** C57: the four bytes can be read back from such a word. *)

Theorem C57_webp_word_unpacks : forall a r g b, is_byte a -> is_byte r -> is_byte g -> is_byte b ->
  let word := a * 2 ^ 24 + r * 2 ^ 16 + g * 2 ^ 8 + b in
  0 <= word < 2 ^ 32 /\ word / 2 ^ 24 = a /\ word / 2 ^ 16 mod 256 = r /\ word / 2 ^ 8 mod 256 = g /\ word mod 256 = b.
Proof. exact webp_word_unpacks. Qed.
Print Assumptions C57_webp_word_unpacks.

Example C57_webp_example : job_webp example_libm (mkPB 2 1 [mkC f1 f0 f1 f1; mkC f0 f0 f1 f0]) 101 WPhoto =
  JobWebP WPhoto 100 2 1 2 [0xFFFE00FE; 0x000000FE].
Proof. exact webp_example. Qed.


(** C58: images with a side over 65535 are rejected as JPEG or GIF before
    anything is written. *)

Theorem C58_oversize_rejected : forall (W : Type) E L (wr : writer W) w b f, valid b -> (format_of f = Jpeg \/ format_of f = Gif) ->
  (65535 < width b \/ 65535 < height b) ->
  encode E L wr w b f = (w, RErr (EBadDimensions (width b) (height b))).
Proof. exact oversize_rejected. Qed.
Print Assumptions C58_oversize_rejected.


(** C58: nothing else is rejected that way. *)

Theorem C58_oversize_only : forall (W : Type) E L (wr : writer W) w b f w' x y, valid b ->
  encode E L wr w b f = (w', RErr (EBadDimensions x y)) ->
  w' = w /\ x = width b /\ y = height b /\ (format_of f = Jpeg \/ format_of f = Gif) /\ (65535 < width b \/ 65535 < height b).
Proof. exact oversize_only. Qed.
Print Assumptions C58_oversize_only.


(** C58: images within the limit are passed on with their size, and with a
    quality from 1 to 100. *)

Theorem C58_within_limit : forall L b f, valid b -> (format_of f = Jpeg \/ format_of f = Gif) -> width b <= 65535 -> height b <= 65535 ->
  exists j, make_job L b f = ROk j /\
    match j with
    | JobJpeg q _ _ _ _ w h _ => 1 <= q <= 100 /\ w = width b /\ h = height b
    | JobGif w h _ => w = width b /\ h = height b
    | _ => False
    end.
Proof. exact within_limit. Qed.
Print Assumptions C58_within_limit.

Example C58_oversize_example : valid (mkPB 65536 1 (repeat (mkC f1 f0 f1 f1) (Z.to_nat 65536))) /\
  match make_job example_libm (mkPB 1 1 [mkC f1 f0 f1 f1]) (jpeg_with_quality 0) with ROk (JobJpeg 1 None false true [254; 0; 254] 1 1 false) => True | _ => False end.
Proof. exact oversize_example. Qed.


(** C59: if the libraries deliver as much data as the size says, decoding
    panics exactly for JPEG files of more than 2^30-1 pixels. *)

Theorem C59_decode_panics_exactly : forall m D L c f, good_decoders D -> (decode m D L c f = Panic <->
  f = Jpeg /\ exists raw w h fmt, dec_jpeg D c = ROk (raw, Some (w, h, fmt)) /\ 1073741823 < w * h).
Proof. exact decode_panics_exactly. Qed.
Print Assumptions C59_decode_panics_exactly.


(** C59: images that are decoded are valid. *)

Theorem C59_decode_gives_valid : forall m D L c f b, good_decoders D -> decode m D L c f = Ok (ROk b) -> valid b.
Proof. exact decode_gives_valid. Qed.
Print Assumptions C59_decode_gives_valid.


(** C59: there is such a JPEG file, which makes decoding panic. *)

Theorem C59_decode_panics_refuted : exists D L c, good_decoders D /\ forall m, decode m D L c Jpeg = Panic.
Proof. exact decode_panics_refuted. Qed.
Print Assumptions C59_decode_panics_refuted.

Example C59_decode_example :
  let d f := match decode Checked example_decoders example_libm [255; 216; 255; 1; 1; 3; 4; 5; 6] f with Ok (ROk b) => Some (width b, height b) | _ => None end in
  d Png = Some (2, 1) /\ d Jpeg = Some (1, 1) /\ d Gif = Some (1, 2) /\ d Bmp = Some (2, 1) /\ d Ico = Some (1, 1) /\ d WebP = Some (1, 1).
Proof. exact decode_example. Qed.


(** C60: pixels decoded from one or three samples (see C79) are opaque. *)

Theorem C60_opaque_sources : forall L samples c, color_of L samples = Some c -> (List.length samples = 1 \/ List.length samples = 3)%nat -> alpha c = f1.
Proof. exact opaque_sources. Qed.
Print Assumptions C60_opaque_sources.


(** C60: CMYK pixels are opaque. *)

Theorem C60_opaque_cmyk : forall L c m y k, alpha (cmyk_to_rgb L c m y k) = f1.
Proof. exact opaque_cmyk. Qed.
Print Assumptions C60_opaque_cmyk.


(** C60: but all pixels of an RGB image of 16 bits that comes from the image
    crate are transparent. *)

Theorem C60_rgb16_opaque_refuted : forall L img p, good_dyn img -> valid_size (dyn_width img) (dyn_height img) ->
  dyn_data img = ImageRgb16 p ->
  exists b, read_into_buffer L img = Ok (ROk b) /\ valid b /\ width b = dyn_width img /\ height b = dyn_height img /\
    forall m x y c, inside b x y -> get_pixel m b x y = Ok c -> alpha c = f0.
Proof. exact rgb16_opaque_refuted. Qed.
Print Assumptions C60_rgb16_opaque_refuted.


(** C60: and no CMYK value is white: the Srgb values are (255-c)*(255-k)/65536
    and so on, less than 1 even without ink. *)

Theorem C60_cmyk_white_refuted : forall L c m y k, is_byte c -> is_byte m -> is_byte y -> is_byte k -> exists r g b,
  cmyk_to_rgb L c m y k = srgb_to_rgb L (mkC r g b f1) /\
  B2R r = (IZR ((255 - c) * (255 - k)) / 65536)%R /\ B2R g = (IZR ((255 - m) * (255 - k)) / 65536)%R /\ B2R b = (IZR ((255 - y) * (255 - k)) / 65536)%R /\
  in01 r /\ in01 g /\ in01 b /\ (B2R r < 1)%R /\ (B2R g < 1)%R /\ (B2R b < 1)%R.
Proof. exact cmyk_white_refuted. Qed.
Print Assumptions C60_cmyk_white_refuted.

Example C60_opaque_example :
  let img := mkDyn 2 1 (ImageRgb16 [(1, 2, 3); (60000, 50000, 40000)]) in
  good_dyn img /\ valid_size (dyn_width img) (dyn_height img) /\
  match read_into_buffer example_libm img with Ok (ROk b) => map (fun c => feq (alpha c) f0) (data b) = [true; true] | _ => False end.
Proof. exact opaque_example. Qed.


(** C78: when a PNG file of RGB or RGBA colours is read and written again with
    the same colour type, dark samples change as follows, whatever powf
    computes: 8 bit samples up to 10 not at all, 16 bit samples up to 2650 by
    at most one. *)

Theorem C78_dark_round_trip : forall m D L c img ct comp filter raw, (ct = PRgb8 \/ ct = PRgba8 \/ ct = PRgb16 \/ ct = PRgba16) ->
  let color := fst (fst (png_promise L ct)) in let d := snd (fst (png_promise L ct)) in
  let w := png_width img in let h := png_height img in let size := channels color * depth_bytes d in
  dec_png D c = ROk img -> valid_size w h -> png_layout img = Some (color, d) ->
  next_frame img (w * h * size) = ROk raw -> zlen raw = w * h * size -> Forall is_byte raw ->
  exists b raw', decode m D L c Png = Ok (ROk b) /\ job_png L b ct comp filter = JobPng color d comp filter w h raw' /\
    forall i k, 0 <= i < w * h -> 0 <= k < channels color ->
      exists v v', sample d raw (i * channels color + k) = Ok v /\ sample d raw' (i * channels color + k) = Ok v' /\
        (d = Eight -> v <= 10 -> v' = v) /\ (d = Sixteen -> v <= 2650 -> v - 1 <= v' <= v).
Proof. exact dark_round_trip. Qed.
Print Assumptions C78_dark_round_trip.


(** C78: sample 53 of 16 becomes 52. *)

Theorem C78_dark16_exact_refuted : forall L, exists v, 0 <= v <= 2650 /\
  quant16 (d0 (rgb_to_srgb L (srgb_to_rgb L (mkC (from_u16 v) f0 f0 f1)))) = v - 1.
Proof. exact dark16_exact_refuted. Qed.
Print Assumptions C78_dark16_exact_refuted.

Example C78_dark_example :
  let c := srgb_to_rgb example_libm (mkC (from_u8 7) (from_u8 10) (from_u8 0) f1) in
  map quant8 (rgba_samples example_libm c) = [7; 10; 0; 255].
Proof. exact dark_example. Qed.


(** C79: a PNG image shows, pixel by pixel, the samples the library
    delivers. *)

Theorem C79_png_pixels : forall m D L c img color d raw, dec_png D c = ROk img ->
  valid_size (png_width img) (png_height img) -> png_layout img = Some (color, d) ->
  next_frame img (png_width img * png_height img * (channels color * depth_bytes d)) = ROk raw ->
  zlen raw = png_width img * png_height img * (channels color * depth_bytes d) -> Forall is_byte raw ->
  exists b, decode m D L c Png = Ok (ROk b) /\
    decoded L (channels color * depth_bytes d) (samples_of d) raw (png_width img) (png_height img) b.
Proof. exact png_pixels. Qed.
Print Assumptions C79_png_pixels.


(** C79: so does a JPEG image; samples of 16 bits come in the byte order of
    the machine, here the least significant first. *)

Theorem C79_jpeg_pixels_exact : forall m D L c raw w h f, dec_jpeg D c = ROk (raw, Some (w, h, f)) -> f <> JCmyk32 -> valid_size w h ->
  zlen raw = w * h * jpeg_bytes f -> Forall is_byte raw ->
  exists b, decode m D L c Jpeg = Ok (ROk b) /\
    decoded L (jpeg_bytes f) (match f with JL16 => fun l => samples16 (rev l) | _ => samples8 end) raw w h b.
Proof. exact jpeg_pixels_exact. Qed.
Print Assumptions C79_jpeg_pixels_exact.


(** C79: the colours of CMYK images are those of C60. *)

Theorem C79_cmyk_pixels : forall m D L c raw w h, dec_jpeg D c = ROk (raw, Some (w, h, JCmyk32)) -> valid_size w h ->
  zlen raw = w * h * 4 ->
  exists b, decode m D L c Jpeg = Ok (ROk b) /\ valid b /\ width b = w /\ height b = h /\
    forall m x y, inside b x y -> exists cy mg ye k, slice raw ((y * w + x) * 4) ((y * w + x + 1) * 4) = Ok [cy; mg; ye; k] /\
      get_pixel m b x y = Ok (cmyk_to_rgb L cy mg ye k).
Proof. exact cmyk_pixels. Qed.
Print Assumptions C79_cmyk_pixels.


(** C79: GIF. *)

Theorem C79_gif_pixels : forall m D L c raw w h, dec_gif D c = ROk (Some (w, h, raw)) -> valid_size w h ->
  zlen raw = w * h * 4 -> Forall is_byte raw ->
  exists b, decode m D L c Gif = Ok (ROk b) /\ decoded L 4 samples8 raw w h b.
Proof. exact gif_pixels. Qed.
Print Assumptions C79_gif_pixels.


(** C79: WebP. *)

Theorem C79_webp_pixels : forall m D L c raw w h, dec_webp D c = Some (w, h, raw) -> valid_size w h ->
  zlen raw = w * h * 4 -> Forall is_byte raw ->
  exists b, decode m D L c WebP = Ok (ROk b) /\ decoded L 4 samples8 raw w h b.
Proof. exact webp_pixels. Qed.
Print Assumptions C79_webp_pixels.


(** C79: BMP and ICO, except RGB images of 16 bits (see C60). *)

Theorem C79_image_pixels : forall m D L c img l, good_dyn img -> valid_size (dyn_width img) (dyn_height img) ->
  dyn_samples (dyn_data img) = Some l -> (forall p, dyn_data img <> ImageRgb16 p) ->
  exists b, (dec_bmp D c = ROk img -> decode m D L c Bmp = Ok (ROk b)) /\ (dec_ico D c = ROk img -> decode m D L c Ico = Ok (ROk b)) /\
    valid b /\ width b = dyn_width img /\ height b = dyn_height img /\
    forall m x y, inside b x y -> exists s c, idx l (y * dyn_width img + x) = Ok s /\ color_of L s = Some c /\ get_pixel m b x y = Ok c.
Proof. exact image_pixels. Qed.
Print Assumptions C79_image_pixels.

Example C79_pixels_example :
  let px f := match decode Checked example_decoders example_libm [] f with
              | Ok (ROk b) => map (fun c => map quant8 (rgba_samples example_libm c)) (data b) | _ => [] end in
  px Gif = [[1; 2; 3; 4]; [5; 6; 7; 8]] /\ px Png = [[9; 9; 9; 9]; [9; 9; 9; 9]] /\ (exists l, dyn_samples (ImageLumaA8 [(7, 130)]) = Some l).
Proof. exact pixels_example. Qed.


(** C80: simulating JPEG compression keeps the size of an image, and its alpha
    on request; otherwise the result is opaque.  The JPEG libraries are
    assumed to read back what they wrote, with other colours. *)

Theorem C80_jpeg_quality_result : forall m E D L b quality preserve, jpeg_round_trip E D -> valid b -> nonempty b -> width b <= 65535 -> height b <= 65535 ->
  exists out, jpeg_quality m E D L b quality preserve = Ok out /\ valid out /\ width out = width b /\ height out = height b /\
    forall x y c c', inside b x y -> get_pixel m b x y = Ok c -> get_pixel m out x y = Ok c' -> alpha c' = if preserve then alpha c else f1.
Proof. exact jpeg_quality_result. Qed.
Print Assumptions C80_jpeg_quality_result.


(** C80: it panics for images that have a side over 65535. *)

Theorem C80_jpeg_quality_panics : forall m E D L b quality preserve, valid b -> 65535 < width b \/ 65535 < height b ->
  jpeg_quality m E D L b quality preserve = Panic.
Proof. exact jpeg_quality_panics. Qed.
Print Assumptions C80_jpeg_quality_panics.

Example C80_jpeg_quality_example :
  jpeg_round_trip example_encoders example_decoders /\
  match jpeg_quality Checked example_encoders example_decoders example_libm (mkPB 2 1 [mkC f1 f0 f1 (dec 1 4); mkC f0 f0 f0 f0]) 80 true with
  | Ok b => map (fun c => feq (alpha c) (dec 1 4)) (data b) = [true; false] | Panic => False end.
Proof. exact jpeg_quality_example. Qed.


(** C81: a white pixel is not written as white: if powf(1, y) is 1, as it is
    required to be, the samples are 254 of 255 and 65534 of 65535. *)

Theorem C81_white_saved_refuted : forall L a, powf L f1 (fdiv f1 (dec 24 10)) = f1 ->
  map quant8 (rgb_samples L (mkC f1 f1 f1 a)) = [254; 254; 254] /\ map quant16 (rgb_samples L (mkC f1 f1 f1 a)) = [65534; 65534; 65534].
Proof. exact white_saved_refuted. Qed.
Print Assumptions C81_white_saved_refuted.


(** C81: a file that is white is not white any more after it was read and
    written again. *)

Theorem C81_white_round_trip_refuted : forall L, powf L f1 (fdiv f1 (dec 24 10)) = f1 -> powf L f1 (dec 24 10) = f1 ->
  map quant8 (rgb_samples L (srgb_to_rgb L (mkC (from_u8 255) (from_u8 255) (from_u8 255) f1))) = [254; 254; 254] /\
  map quant16 (rgb_samples L (srgb_to_rgb L (mkC (from_u16 65535) (from_u16 65535) (from_u16 65535) f1))) = [65534; 65534; 65534].
Proof. exact white_round_trip_refuted. Qed.
Print Assumptions C81_white_round_trip_refuted.

Example C81_white_example : powf step_powf f1 (fdiv f1 (dec 24 10)) = f1 /\ powf step_powf f1 (dec 24 10) = f1.
Proof. exact white_example. Qed.
