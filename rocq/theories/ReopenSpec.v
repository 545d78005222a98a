(** What a picture is after it was saved and opened again: the vocabulary of
    C116. *)
From Coq Require Import Reals ZArith List.
From Flocq Require Import IEEE754.BinarySingleNaN.
From Verif Require Import Base PixelBuffer BufferSpec F32 Color ColorSpec Codec CodecSpec MeaningSpec.
Import ListNotations.
Open Scope R_scope.

(** A PNG encoder and a PNG decoder that fit together: given as much data as
    the layout asks for, the encoder succeeds and what it writes is recognised
    as PNG and decoded to the same size, layout and data. *)
Definition lossless_png (E : encoders) (D : decoders) : Prop :=
  forall color d comp filter w h raw, (0 < w <= 2 ^ 32 - 1)%Z -> (0 < h <= 2 ^ 32 - 1)%Z ->
    zlen raw = (w * h * (channels color * depth_bytes d))%Z -> Forall is_byte raw ->
    exists ops img, E (JobPng color d comp filter w h raw) = (ops, true) /\ has_signature (output ops) Png /\
      dec_png D (output ops) = ROk img /\ png_width img = w /\ png_height img = h /\
      png_layout img = Some (color, d) /\ next_frame img (zlen raw) = ROk raw.

(** [y] is what comes back if [x] is stored as a number [v] of [0..N], where
    [enc] gives the stored number as a fraction of [N] and [dec] undoes it: [v]
    is the number just below [enc x * N], and [y] is [dec (v / N)], both up to
    rounding errors of 1/2^18 of the whole range. *)
Definition stored (N : Z) (enc dec : R -> R) (x y : f32) : Prop :=
  exists v : Z, (0 <= v <= N)%Z /\
    IZR v - IZR N / 2 ^ 18 <= enc (B2R x) * IZR N < IZR v + 1 + IZR N / 2 ^ 18 /\
    close (/ 2 ^ 18) (dec (IZR v / IZR N)) y.

(** A colour and what comes back for it. *)
Definition reopened (color : png_color) (d : png_depth) (c c' : Rgb) : Prop :=
  let N := max_sample d in
  match color with
  | ColRgb | ColRgba =>
      stored N srgb_encode srgb_decode (d0 c) (d0 c') /\ stored N srgb_encode srgb_decode (d1 c) (d1 c') /\
      stored N srgb_encode srgb_decode (d2 c) (d2 c')
  | Grayscale | GrayscaleAlpha =>
      exists y, close (/ 2 ^ 21) (212656 / 1000000 * B2R (d0 c) + 715158 / 1000000 * B2R (d1 c) + 72186 / 1000000 * B2R (d2 c)) y /\
        stored N srgb_encode srgb_decode y (d0 c') /\ d1 c' = d0 c' /\ d2 c' = d0 c'
  end /\
  match color with
  | ColRgba | GrayscaleAlpha => stored N (fun a => a) (fun a => a) (alpha c) (alpha c')
  | ColRgb | Grayscale => alpha c' = f1
  end.

(** Every pixel of [b'] is what comes back for the pixel of [b]. *)
Definition reopened_image (color : png_color) (d : png_depth) (b b' : PixelBuffer Rgb) : Prop :=
  valid b' /\ width b' = width b /\ height b' = height b /\
  forall m x y c, inside b x y -> get_pixel m b x y = Ok c ->
    exists c', get_pixel m b' x y = Ok c' /\ reopened color d c c'.

(** All colours are between 0 and 1. *)
Definition colours_in_range (b : PixelBuffer Rgb) : Prop :=
  forall m x y c, inside b x y -> get_pixel m b x y = Ok c -> in_gamut c.

(** The same for the image formats of the image crate, BMP and ICO: the decoder
    may deliver the pixels in another layout, but their samples name the same
    colours.  [limit] is the largest width and height of the format. *)
Definition image_layout (k : image_color) : png_color :=
  match k with L8 => Grayscale | La8 => GrayscaleAlpha | Rgb8 => ColRgb | Rgba8 => ColRgba end.
Definition lossless_image (E : encoders) (job : list Z -> Z -> Z -> image_color -> job)
    (dec : list Z -> Result dyn_image DecodingError) (f : Format) (limit : Z) : Prop :=
  forall k w h raw, (0 < w <= limit)%Z -> (0 < h <= limit)%Z ->
    zlen raw = (w * h * channels (image_layout k))%Z -> Forall is_byte raw ->
    exists ops img l, E (job raw w h k) = (ops, true) /\ has_signature (output ops) f /\
      dec (output ops) = ROk img /\ dyn_width img = w /\ dyn_height img = h /\ good_dyn img /\
      (forall p, dyn_data img <> ImageRgb16 p) /\ dyn_samples (dyn_data img) = Some l /\
      forall i, (0 <= i < w * h)%Z -> exists bytes s,
        slice raw (i * channels (image_layout k)) ((i + 1) * channels (image_layout k)) = Ok bytes /\ idx l i = Ok s /\
        forall L, color_of L s = color_of L (samples8 bytes).

(** A pair of libraries that fit together, for showing that there is one: the
    size and the layout are written in front of the data. *)
Definition plain_encoders : encoders := fun j =>
  match j with
  | JobPng color d _ _ w h raw =>
      ([Write ([137; 80; 78; 71; 13; 10; 26; 10] ++ [channels color; depth_bytes d; w; h])%Z; WriteIgnored raw], true)
  | JobBmp raw w h k => ([Write [66; 77; channels (image_layout k); w; h]%Z; Write raw; Flush], true)
  | JobIco raw w h k => ([Write [0; 0; 1; 0; channels (image_layout k); w; h]%Z; Write raw], true)
  | _ => ([], false)
  end.
Definition plain_image (c : list Z) : Result dyn_image DecodingError :=
  match c with
  | n :: w :: h :: raw =>
      let l := map (fun bytes => match samples8 bytes with
        | [g] => (g, g, g, f1) | [g; a] => (g, g, g, a) | [r; g; b] => (r, g, b, f1) | [r; g; b; a] => (r, g, b, a)
        | _ => (f0, f0, f0, f0) end) (chunks (Z.to_nat n) raw) in
      if ((0 <=? w) && (w <=? 4294967295) && (0 <=? h) && (h <=? 4294967295) && (zlen l =? w * h))%Z%bool
      then ROk (mkDyn w h (ImageRgba32F l)) else RErr DDecoding
  | _ => RErr DDecoding
  end.
Definition plain_decoders : decoders := {|
  dec_png := fun c => match skipn 8 c with
    | n :: k :: w :: h :: raw =>
        let color := (if n =? 1 then Grayscale else if n =? 2 then GrayscaleAlpha else if n =? 3 then ColRgb else ColRgba)%Z in
        if ((0 <=? w) && (w <=? 4294967295) && (0 <=? h) && (h <=? 4294967295))%Z%bool
        then ROk (mkPngImage (Some (color, if (k =? 1)%Z then Eight else Sixteen)) w h (fun n => if (n =? zlen raw)%Z then ROk raw else RErr DDecoding))
        else RErr DDecoding
    | _ => RErr DDecoding end;
  dec_jpeg := fun _ => RErr DDecoding; dec_gif := fun _ => RErr DDecoding; dec_bmp := fun c => plain_image (skipn 2 c);
  dec_ico := fun c => plain_image (skipn 4 c); dec_webp := fun _ => None |}.
