(** Specification vocabulary for the codec properties (C50-C60, C78-C81). *)
From Coq Require Import ZArith Reals List Bool String Ascii.
From Flocq Require Import IEEE754.BinarySingleNaN.
From Verif Require Import Base PixelBuffer BufferSpec F32 Color ColorSpec Codec.
Import ListNotations.
Open Scope Z_scope.

Definition is_byte (z : Z) : Prop := 0 <= z <= 255.

(** ** Format names *)

(** The bytes files of a format start with; [None] stands for any byte. *)
Definition signatures : list (Format * list (option Z)) :=
  [(Jpeg, [Some 0xFF; Some 0xD8; Some 0xFF]);
   (Png, [Some 0x89; Some 0x50; Some 0x4E; Some 0x47; Some 0x0D; Some 0x0A; Some 0x1A; Some 0x0A]);
   (Gif, [Some 0x47; Some 0x49; Some 0x46; Some 0x38; Some 0x37; Some 0x61]);   (* GIF87a *)
   (Gif, [Some 0x47; Some 0x49; Some 0x46; Some 0x38; Some 0x39; Some 0x61]);   (* GIF89a *)
   (Bmp, [Some 0x42; Some 0x4D]);                                             (* BM *)
   (Ico, [Some 0x00; Some 0x00; Some 0x01; Some 0x00]);
   (WebP, [Some 0x52; Some 0x49; Some 0x46; Some 0x46; None; None; None; None;
           Some 0x57; Some 0x45; Some 0x42; Some 0x50])].                     (* RIFF....WEBP *)
Definition fits (p : option Z) (b : Z) : Prop := p = None \/ p = Some b.
Definition has_signature (contents : list Z) (f : Format) : Prop :=
  exists pat start rest, In (f, pat) signatures /\ contents = start ++ rest /\ Forall2 fits pat start.

(** File name extensions, in lower case. *)
Definition extensions : list (string * Format) :=
  [("jpg", Jpeg); ("jpeg", Jpeg); ("png", Png); ("gif", Gif); ("bmp", Bmp); ("ico", Ico); ("webp", WebP)]%string.
Definition lacks (c : ascii) (s : string) : Prop := ~ In c (list_ascii_of_string s).
(** The last component of the path (up to "." and empty ones after it) is
    [stem.ext] with a non-empty stem. *)
Definition has_extension (path : string) (f : Format) : Prop :=
  exists dirs stem ext trailing,
    path = String.concat "/" (dirs ++ [(stem ++ "." ++ ext)%string] ++ trailing)%list /\
    Forall (lacks "/") (dirs ++ [stem; ext] ++ trailing)%list /\ lacks "." ext /\
    stem <> ""%string /\ Forall (fun p => p = "" \/ p = ".")%string trailing /\
    In (lowercase ext, f) extensions.

(** The library that decodes a format. *)
Definition same_decoder (f : Format) (D D' : decoders) (contents : list Z) : Prop :=
  match f with
  | Jpeg => dec_jpeg D contents = dec_jpeg D' contents
  | Png => dec_png D contents = dec_png D' contents
  | Gif => dec_gif D contents = dec_gif D' contents
  | Bmp => dec_bmp D contents = dec_bmp D' contents
  | Ico => dec_ico D contents = dec_ico D' contents
  | WebP => dec_webp D contents = dec_webp D' contents
  end.

(** ** Layouts *)

(** The samples of a pixel, in order. *)
Definition gray_samples (L : libm) (c : Rgb) : list f32 := [d0 (rgb_to_srgb L (to_gray c))].
Definition graya_samples (L : libm) (c : Rgb) : list f32 := [d0 (rgb_to_srgb L (to_gray c)); alpha (rgb_to_srgb L (to_gray c))].
Definition rgb_samples (L : libm) (c : Rgb) : list f32 := let s := rgb_to_srgb L c in [d0 s; d1 s; d2 s].
Definition rgba_samples (L : libm) (c : Rgb) : list f32 := let s := rgb_to_srgb L c in [d0 s; d1 s; d2 s; alpha s].

(** A sample as one byte or as two, the most significant first. *)
Definition sample_bytes (d : png_depth) (v : f32) : list Z :=
  match d with Eight => [quant8 v] | Sixteen => [quant16 v / 256; quant16 v mod 256] end.

(** What a PNG colour type promises: colour type, bit depth and samples. *)
Definition png_promise (L : libm) (ct : PngColorType) : png_color * png_depth * (Rgb -> list f32) :=
  match ct with
  | PL8 => (Grayscale, Eight, gray_samples L)
  | PLa8 => (GrayscaleAlpha, Eight, graya_samples L)
  | PL16 => (Grayscale, Sixteen, gray_samples L)
  | PLa16 => (GrayscaleAlpha, Sixteen, graya_samples L)
  | PRgb8 => (ColRgb, Eight, rgb_samples L)
  | PRgba8 => (ColRgba, Eight, rgba_samples L)
  | PRgb16 => (ColRgb, Sixteen, rgb_samples L)
  | PRgba16 => (ColRgba, Sixteen, rgba_samples L)
  end.
Definition channels (c : png_color) : Z :=
  match c with Grayscale => 1 | GrayscaleAlpha => 2 | ColRgb => 3 | ColRgba => 4 end.
Definition depth_bytes (d : png_depth) : Z := match d with Eight => 1 | Sixteen => 2 end.

(** [raw] holds [size] bytes per pixel, row by row from the top left, those of
    pixel (x,y) being [bytes_of] its colour. *)
Definition laid_out (b : PixelBuffer Rgb) (size : Z) (bytes_of : Rgb -> list Z) (raw : list Z) : Prop :=
  zlen raw = width b * height b * size /\ Forall is_byte raw /\
  forall m x y c, inside b x y -> get_pixel m b x y = Ok c ->
    slice raw ((y * width b + x) * size) ((y * width b + x + 1) * size) = Ok (bytes_of c).

Definition image_promise (L : libm) (ct : BmpColorType) : image_color * Z * (Rgb -> list f32) :=
  match ct with
  | BL8 => (L8, 1, gray_samples L) | BLa8 => (La8, 2, graya_samples L)
  | BRgb8 => (Rgb8, 3, rgb_samples L) | BRgba8 => (Rgba8, 4, rgba_samples L)
  end.

(** ** Files *)

(** The format a file is saved in: the given one or that of its extension. *)
Definition chosen (path : string) (f : option EncodingFormat) : Result EncodingFormat EncodingError :=
  match f with Some f => ROk f | None => encoding_from_path path end.
(** All bytes an encoder writes. *)
Definition output (ops : list write_op) : list Z :=
  flat_map (fun o => match o with Write l | WriteIgnored l => l | Flush => [] end) ops.
Definition no_ignored (ops : list write_op) : Prop :=
  Forall (fun o => match o with WriteIgnored _ => False | _ => True end) ops.

(** ** What decoding libraries deliver *)

Definition jpeg_bytes (f : jpeg_format) : Z := match f with JL8 => 1 | JL16 => 2 | JRgb24 => 3 | JCmyk32 => 4 end.
Definition dyn_count (p : dyn_pixels) : option Z :=
  match p with
  | ImageRgb8 l => Some (zlen l) | ImageRgba8 l => Some (zlen l) | ImageRgb16 l => Some (zlen l)
  | ImageRgba16 l => Some (zlen l) | ImageLuma8 l => Some (zlen l) | ImageLumaA8 l => Some (zlen l)
  | ImageLuma16 l => Some (zlen l) | ImageLumaA16 l => Some (zlen l) | ImageRgb32F l => Some (zlen l)
  | ImageRgba32F l => Some (zlen l) | ImageOther => None
  end.
Definition good_dyn (img : dyn_image) : Prop :=
  is_u32 (dyn_width img) /\ is_u32 (dyn_height img) /\
  forall n, dyn_count (dyn_data img) = Some n -> n = dyn_width img * dyn_height img.
(** Sizes fit the file formats and there is as much data as the size says. *)
Record good_decoders (D : decoders) : Prop := {
  good_png : forall c img, dec_png D c = ROk img -> is_u32 (png_width img) /\ is_u32 (png_height img) /\
    forall n l, next_frame img n = ROk l -> zlen l = n;
  good_jpeg : forall c raw w h f, dec_jpeg D c = ROk (raw, Some (w, h, f)) ->
    0 < w <= 65535 /\ 0 < h <= 65535 /\ zlen raw = w * h * jpeg_bytes f;
  good_gif : forall c w h raw, dec_gif D c = ROk (Some (w, h, raw)) ->
    0 <= w <= 65535 /\ 0 <= h <= 65535 /\ zlen raw = w * h * 4;
  good_bmp : forall c img, dec_bmp D c = ROk img -> good_dyn img;
  good_ico : forall c img, dec_ico D c = ROk img -> good_dyn img;
  good_webp : forall c w h raw, dec_webp D c = Some (w, h, raw) ->
    0 < w <= 16383 /\ 0 < h <= 16383 /\ zlen raw = w * h * 4
}.

(** A colour from samples between 0 and 1. *)
Definition color_of (L : libm) (v : list f32) : option Rgb :=
  match v with
  | [g] => Some (srgb_to_rgb L (mkC g g g f1))
  | [g; a] => Some (srgb_to_rgb L (mkC g g g a))
  | [r; g; b] => Some (srgb_to_rgb L (mkC r g b f1))
  | [r; g; b; a] => Some (srgb_to_rgb L (mkC r g b a))
  | _ => None
  end.
(** The samples of a pixel from its bytes. *)
Fixpoint samples8 (l : list Z) : list f32 := match l with [] => [] | b :: l => fdiv (ofZ b) (ofZ 255) :: samples8 l end.
Fixpoint samples16 (l : list Z) : list f32 :=
  match l with a :: b :: l => fdiv (ofZ (a * 256 + b)) (ofZ 65535) :: samples16 l | _ => [] end.
Definition samples_of (d : png_depth) : list Z -> list f32 := match d with Eight => samples8 | Sixteen => samples16 end.

(** The [j]th sample of a byte sequence, and the largest one. *)
Definition sample (d : png_depth) (raw : list Z) (j : Z) : res Z :=
  match d with Eight => idx raw j | Sixteen => a <- idx raw (2 * j); b <- idx raw (2 * j + 1); Ok (a * 256 + b) end.
Definition max_sample (d : png_depth) : Z := match d with Eight => 255 | Sixteen => 65535 end.
(** Whether sample [k] of a pixel is its alpha. *)
Definition alpha_channel (color : png_color) (k : Z) : bool :=
  match color with GrayscaleAlpha => k =? 1 | ColRgba => k =? 3 | _ => false end.

(** [b] shows what [raw] holds: [size] bytes per pixel, row by row from the top
    left. *)
Definition decoded (L : libm) (size : Z) (samples : list Z -> list f32) (raw : list Z) (w h : Z) (b : PixelBuffer Rgb) : Prop :=
  valid b /\ width b = w /\ height b = h /\
  forall m x y, inside b x y -> exists bytes c,
    slice raw ((y * w + x) * size) ((y * w + x + 1) * size) = Ok bytes /\
    color_of L (samples bytes) = Some c /\ get_pixel m b x y = Ok c.
(** The samples and colours of an image of the image crate, in row-major
    order; [None] for a kind that is not known. *)
Definition dyn_samples (p : dyn_pixels) : option (list (list f32)) :=
  let s8 v := fdiv (ofZ v) (ofZ 255) in
  let s16 v := fdiv (ofZ v) (ofZ 65535) in
  match p with
  | ImageRgb8 l => Some (map (fun '(r, g, b) => [s8 r; s8 g; s8 b]) l)
  | ImageRgba8 l => Some (map (fun '(r, g, b, a) => [s8 r; s8 g; s8 b; s8 a]) l)
  | ImageRgb16 l => Some (map (fun '(r, g, b) => [s16 r; s16 g; s16 b]) l)
  | ImageRgba16 l => Some (map (fun '(r, g, b, a) => [s16 r; s16 g; s16 b; s16 a]) l)
  | ImageLuma8 l => Some (map (fun v => [s8 v]) l)
  | ImageLumaA8 l => Some (map (fun '(v, a) => [s8 v; s8 a]) l)
  | ImageLuma16 l => Some (map (fun v => [s16 v]) l)
  | ImageLumaA16 l => Some (map (fun '(v, a) => [s16 v; s16 a]) l)
  | ImageRgb32F l => Some (map (fun '(r, g, b) => [r; g; b]) l)
  | ImageRgba32F l => Some (map (fun '(r, g, b, a) => [r; g; b; a]) l)
  | ImageOther => None
  end.

(** ** Well-behaved JPEG libraries, for simulating JPEG compression *)
Definition jpeg_round_trip (E : encoders) (D : decoders) : Prop :=
  forall quality sampling progressive optimize (raw : list Z) w h (gray : bool), 0 < w <= 65535 -> 0 < h <= 65535 ->
    zlen raw = w * h * (if gray then 1 else 3) ->
    exists ops out, E (JobJpeg quality sampling progressive optimize raw w h gray) = (ops, true) /\
      has_signature (output ops) Jpeg /\
      dec_jpeg D (output ops) = ROk (out, Some (w, h, if gray then JL8 else JRgb24)) /\
      zlen out = zlen raw /\ Forall is_byte out.

(** ** Example libraries, for showing that hypotheses can be met *)
Definition example_encoders : encoders := fun j =>
  match j with
  | JobJpeg _ _ _ _ raw w h gray => ([Write ([255; 216; 255; w; h; if gray then 1 else 3]); Write raw; Flush], true)
  | JobPng _ _ _ _ w h raw => ([Write [137; 80; 78; 71; 13; 10; 26; 10; w; h]; WriteIgnored raw], true)
  | JobGif w h raw => ([Write [71; 73; 70; 56; 55; 97; w; h]; Write raw], true)
  | JobBmp raw w h _ => ([Write [66; 77; w; h]; Write raw], true)
  | JobIco raw w h _ => ([Write [0; 0; 1; 0; w; h]; Write raw], true)
  | JobWebP _ _ _ _ _ _ => ([], false)
  end.
Definition example_decoders : decoders := {|
  dec_png := fun c => ROk (mkPngImage (Some (ColRgba, Eight)) 2 1 (fun n => if n <? 0 then RErr DDecoding else ROk (repeat 9 (Z.to_nat n))));
  dec_jpeg := fun c => match skipn 3 c with
    | w :: h :: n :: raw => if (0 <? w) && (w <=? 65535) && (0 <? h) && (h <=? 65535) && ((n =? 1) || (n =? 3)) && (zlen raw =? w * h * n)
                            then ROk (map (fun _ => 128) raw, Some (w, h, if n =? 1 then JL8 else JRgb24)) else RErr DDecoding
    | _ => RErr DDecoding end;
  dec_gif := fun c => ROk (Some (1, 2, [1; 2; 3; 4; 5; 6; 7; 8]));
  dec_bmp := fun c => ROk (mkDyn 2 1 (ImageRgb16 [(1, 2, 3); (60000, 50000, 40000)]));
  dec_ico := fun c => ROk (mkDyn 1 1 (ImageLumaA8 [(7, 130)]));
  dec_webp := fun c => Some (1, 1, [10; 20; 30; 40])
|}.
Definition huge : list Z := repeat 0 (Z.to_nat (65535 * 65535)).
(** A JPEG decoder that delivers the largest image a JPEG file can hold. *)
Definition huge_decoders : decoders := {|
  dec_png := dec_png example_decoders;
  dec_jpeg := fun c => ROk (huge, Some (65535, 65535, JL8));
  dec_gif := dec_gif example_decoders; dec_bmp := dec_bmp example_decoders; dec_ico := dec_ico example_decoders; dec_webp := dec_webp example_decoders
|}.
Definition example_fs (limit : Z) : fs :=
  mkFs (fun p => if String.eqb p "old.bmp" then Some [66; 77; 1; 2; 3] else if String.eqb p "photo.PNG" then Some [71; 73; 70; 56; 57; 97; 0]
                 else if String.eqb p "photo.Jpeg" then Some [1; 2; 3] else None)
       (fun p => negb (String.eqb p "ro.png")) (fun _ => limit).
(** powf(1, y) = 1, and 0 elsewhere *)
Definition step_powf : libm := mkLibm (fun x y => if feq x f1 then f1 else f0) (fun x => x) (fun x => x) (fun x => x) (fun x => x) (fun x y => x) (fun x => x).
