(** Model of d10-codecs: pixel layouts, format detection, encoding, decoding
    and the files they are read from and written to.  The codec libraries
    themselves (png, jpeg-decoder, jpeg-encoder, gif, image, libwebp) are
    parameters: what they are given and what they deliver is modelled, not how
    they compress.  Bytes are integers 0..255. *)
From Coq Require Import ZArith List Bool String Ascii.
From Flocq Require Import IEEE754.BinarySingleNaN.
From Verif Require Import Base PixelBuffer F32 Color.
Import ListNotations.
Open Scope Z_scope.

(** * utils.rs *)

(** utils.rs:9-11 [as_u8] *)
Definition quant8 (value : f32) : Z := as_u8 (fclamp (fmul value (ofZ 255)) f0 (ofZ 255)).
(** utils.rs:14-16 [as_u16] *)
Definition quant16 (value : f32) : Z := as_u16 (fclamp (fmul value (ofZ 65535)) f0 (ofZ 65535)).

(** [u16::to_be_bytes] and [u16::from_be_bytes]; [from_ne_bytes] on a
    little-endian machine *)
Definition u16_be (v : Z) : list Z := [v / 256; v mod 256].
Definition of_be (hi lo : Z) : Z := hi * 256 + lo.

(** [f32::to_bits]; all NaN are the quiet one here *)
Definition f32_bits (v : f32) : Z :=
  match v with
  | B754_zero s => if s then 2147483648 else 0
  | B754_infinity s => (if s then 2147483648 else 0) + 255 * 8388608
  | B754_nan => 2143289344
  | B754_finite s m e _ =>
      (if s then 2147483648 else 0) +
      (if Zpos m <? 8388608 then Zpos m else (e + 150) * 8388608 + (Zpos m - 8388608))
  end.
(** [f32::to_be_bytes] *)
Definition f32_be (v : f32) : list Z :=
  let b := f32_bits v in [b / 16777216; b / 65536 mod 256; b / 256 mod 256; b mod 256].

(** utils.rs:18-27 *)
Definition to_l8_vec (L : libm) (b : PixelBuffer Rgb) : list Z :=
  flat_map (fun color => let c := rgb_to_srgb L (to_gray color) in [quant8 (d0 c)]) (data b).
(** utils.rs:29-40 *)
Definition to_la8_vec (L : libm) (b : PixelBuffer Rgb) : list Z :=
  flat_map (fun color => let c := rgb_to_srgb L (to_gray color) in [quant8 (d0 c); quant8 (alpha c)]) (data b).
(** utils.rs:42-55 *)
Definition to_rgb8_vec (L : libm) (b : PixelBuffer Rgb) : list Z :=
  flat_map (fun color => let c := rgb_to_srgb L color in [quant8 (d0 c); quant8 (d1 c); quant8 (d2 c)]) (data b).
(** utils.rs:57-71 *)
Definition to_rgba8_vec (L : libm) (b : PixelBuffer Rgb) : list Z :=
  flat_map (fun color => let c := rgb_to_srgb L color in
    [quant8 (d0 c); quant8 (d1 c); quant8 (d2 c); quant8 (alpha c)]) (data b).
(** utils.rs:73-87 *)
Definition to_argb8_vec32 (L : libm) (b : PixelBuffer Rgb) : list Z :=
  map (fun color => let c := rgb_to_srgb L color in
    Z.lor (Z.lor (Z.lor (Z.shiftl (quant8 (alpha c)) 24) (Z.shiftl (quant8 (d0 c)) 16))
      (Z.shiftl (quant8 (d1 c)) 8)) (quant8 (d2 c))) (data b).
(** utils.rs:89-99; it pushes the four bytes of the f32, not a 16 bit sample *)
Definition to_l16_be_vec (L : libm) (b : PixelBuffer Rgb) : list Z :=
  flat_map (fun color => let c := rgb_to_srgb L (to_gray color) in f32_be (d0 c)) (data b).
(** utils.rs:101-113 *)
Definition to_la16_be_vec (L : libm) (b : PixelBuffer Rgb) : list Z :=
  flat_map (fun color => let c := rgb_to_srgb L (to_gray color) in
    u16_be (quant16 (d0 c)) ++ u16_be (quant16 (alpha c))) (data b).
(** utils.rs:115-128 *)
Definition to_rgb16_be_vec (L : libm) (b : PixelBuffer Rgb) : list Z :=
  flat_map (fun color => let c := rgb_to_srgb L color in
    u16_be (quant16 (d0 c)) ++ u16_be (quant16 (d1 c)) ++ u16_be (quant16 (d2 c))) (data b).
(** utils.rs:130-144 *)
Definition to_rgba16_be_vec (L : libm) (b : PixelBuffer Rgb) : list Z :=
  flat_map (fun color => let c := rgb_to_srgb L color in
    u16_be (quant16 (d0 c)) ++ u16_be (quant16 (d1 c)) ++ u16_be (quant16 (d2 c)) ++ u16_be (quant16 (alpha c))) (data b).

(** utils.rs:146-148 *)
Definition from_u8 (v : Z) : f32 := fdiv (ofZ v) (ofZ 255).
(** utils.rs:150-156: [from_u16_be], [from_u16_ne] (little-endian machine) *)
Definition from_u16 (v : Z) : f32 := fdiv (ofZ v) (ofZ 65535).
Definition from_u16_be (hi lo : Z) : f32 := from_u16 (of_be hi lo).
Definition from_u16_ne (b0 b1 : Z) : f32 := from_u16 (of_be b1 b0).

(** errors.rs:5-12; messages are not modelled *)
Inductive DecodingError :=
| DBadFileExtension (path : string) | DUnknownFormat | DInvalidBufferSize (width height : Z) | DDecoding | DIoError.
(** errors.rs:38-47 *)
Inductive EncodingError :=
| EBadFileExtension (path : string) | EBadDimensions (width height : Z) | EEncoding | EIoError.

(** The images of the image crate that read_into_buffer knows, as lists of
    pixels in row-major order; [ImageOther] is any newer kind. *)
Inductive dyn_pixels :=
| ImageRgb8 (l : list (Z * Z * Z)) | ImageRgba8 (l : list (Z * Z * Z * Z))
| ImageRgb16 (l : list (Z * Z * Z)) | ImageRgba16 (l : list (Z * Z * Z * Z))
| ImageLuma8 (l : list Z) | ImageLumaA8 (l : list (Z * Z))
| ImageLuma16 (l : list Z) | ImageLumaA16 (l : list (Z * Z))
| ImageRgb32F (l : list (f32 * f32 * f32)) | ImageRgba32F (l : list (f32 * f32 * f32 * f32))
| ImageOther.
Record dyn_image := mkDyn { dyn_width : Z; dyn_height : Z; dyn_data : dyn_pixels }.

(** utils.rs:158-308 *)
Definition read_into_buffer (L : libm) (img : dyn_image) : res (Result (PixelBuffer Rgb) DecodingError) :=
  let w := dyn_width img in
  let h := dyn_height img in
  if negb (is_valid_buffer_size w h) then Ok (RErr (DInvalidBufferSize w h)) else
  let finish l := buf <- new_from_raw w h (map (srgb_to_rgb L) l); Ok (ROk buf) in
  match dyn_data img with
  | ImageRgb8 l => finish (map (fun '(r, g, b) => mkC (from_u8 r) (from_u8 g) (from_u8 b) f1) l)
  | ImageRgba8 l => finish (map (fun '(r, g, b, a) => mkC (from_u8 r) (from_u8 g) (from_u8 b) (from_u8 a)) l)
  | ImageRgb16 l => finish (map (fun '(r, g, b) => mkC (from_u16 r) (from_u16 g) (from_u16 b) f0) l)
  | ImageRgba16 l => finish (map (fun '(r, g, b, a) => mkC (from_u16 r) (from_u16 g) (from_u16 b) (from_u16 a)) l)
  | ImageLuma8 l => finish (map (fun v => mkC (from_u8 v) (from_u8 v) (from_u8 v) f1) l)
  | ImageLumaA8 l => finish (map (fun '(v, a) => mkC (from_u8 v) (from_u8 v) (from_u8 v) (from_u8 a)) l)
  | ImageLuma16 l => finish (map (fun v => mkC (from_u16 v) (from_u16 v) (from_u16 v) f1) l)
  | ImageLumaA16 l => finish (map (fun '(v, a) => mkC (from_u16 v) (from_u16 v) (from_u16 v) (from_u16 a)) l)
  | ImageRgb32F l => finish (map (fun '(r, g, b) => mkC r g b f1) l)
  | ImageRgba32F l => finish (map (fun '(r, g, b, a) => mkC r g b a) l)
  | ImageOther => Ok (RErr DDecoding)
  end.

(** utils.rs:310-324 *)
Definition cmyk_to_rgb (L : libm) (c m y k : Z) : Rgb :=
  let c := fsub (ofZ 255) (ofZ c) in
  let m := fsub (ofZ 255) (ofZ m) in
  let y := fsub (ofZ 255) (ofZ y) in
  let k := fsub (ofZ 255) (ofZ k) in
  srgb_to_rgb L (rgb_new (fdiv (fmul c k) (ofZ 65536)) (fdiv (fmul m k) (ofZ 65536)) (fdiv (fmul y k) (ofZ 65536))).

(** * lib.rs: formats *)

(** lib.rs:30-38 *)
Inductive Format := Jpeg | Png | Gif | Bmp | Ico | WebP.

(** [str::to_ascii_lowercase].  Paths are byte strings; [to_string_lossy] only
    replaces bytes that are not ASCII, by ones that are not, so that it cannot
    change the outcome of the comparisons below. *)
Definition lower (c : ascii) : ascii :=
  let n := nat_of_ascii c in
  if Nat.leb 65 n && Nat.leb n 90 then ascii_of_nat (n + 32) else c.
Fixpoint lowercase (s : string) : string :=
  match s with EmptyString => EmptyString | String c s => String (lower c) (lowercase s) end.

(** The parts of [s] between separators. *)
Fixpoint split (sep : ascii) (s : string) : list string :=
  match s with
  | EmptyString => [EmptyString]
  | String c s =>
      if Ascii.eqb c sep then EmptyString :: split sep s
      else match split sep s with [] => [String c EmptyString] | p :: ps => String c p :: ps end
  end.

(** [Path::file_name] on Unix: the last component that is not a "." or empty,
    if it is not "..". *)
Definition file_name (path : string) : option string :=
  match rev (filter (fun p => negb (String.eqb p "" || String.eqb p ".")) (split "/" path)) with
  | [] => None
  | p :: _ => if String.eqb p ".." then None else Some p
  end.
(** [Path::extension]: what follows the last dot of the file name unless that
    dot is its first character. *)
Definition extension (path : string) : option string :=
  match file_name path with
  | None => None
  | Some f =>
      match rev (split "." f) with
      | [] | [_] => None
      | ext :: before => if String.eqb (String.concat "." (rev before)) "" then None else Some ext
      end
  end.

(** lib.rs:41-53 *)
Definition format_from_path (path : string) : option Format :=
  match extension path with
  | None => None
  | Some e =>
      let ext := lowercase e in
      if String.eqb ext "jpg" || String.eqb ext "jpeg" then Some Jpeg
      else if String.eqb ext "png" then Some Png
      else if String.eqb ext "gif" then Some Gif
      else if String.eqb ext "bmp" then Some Bmp
      else if String.eqb ext "ico" then Some Ico
      else if String.eqb ext "webp" then Some WebP
      else None
  end.

(** A slice pattern [b0, b1, .., ..]; [None] is the pattern [_]. *)
Fixpoint starts (pat : list (option Z)) (buf : list Z) : bool :=
  match pat, buf with
  | [], _ => true
  | None :: pat, _ :: buf => starts pat buf
  | Some p :: pat, b :: buf => (p =? b) && starts pat buf
  | _, [] => false
  end.
Definition bytes := map (@Some Z).

(** lib.rs:55-76; a read is assumed to deliver twelve bytes if there are as
    many, and not to fail. *)
Definition from_reader (contents : list Z) : Result Format DecodingError :=
  let buf := firstn 12 contents in
  if starts (bytes [255; 216; 255]) buf then ROk Jpeg
  else if starts (bytes [137; 80; 78; 71; 13; 10; 26; 10]) buf then ROk Png
  else if starts (bytes [71; 73; 70; 56; 55; 97]) buf then ROk Gif
  else if starts (bytes [71; 73; 70; 56; 57; 97]) buf then ROk Gif
  else if starts (bytes [66; 77]) buf then ROk Bmp
  else if starts (bytes [0; 0; 1; 0]) buf then ROk Ico
  else if starts (bytes [82; 73; 70; 70] ++ [None; None; None; None] ++ bytes [87; 69; 66; 80]) buf
          && (zlen buf =? 12) then ROk WebP
  else RErr DUnknownFormat.

(** png.rs:17-27, 47-54, 84-89; jpeg.rs:14-64; bmp.rs:13-19; ico.rs:13-19;
    webp.rs:22-31 *)
Inductive PngColorType := PL8 | PLa8 | PL16 | PLa16 | PRgb8 | PRgba8 | PRgb16 | PRgba16.
Inductive PngFilterType := FNoFilter | FSub | FUp | FAvg | FPaeth.
Inductive PngCompression := CDefault | CFast | CBest.
Inductive JpegSamplingFactor :=
| F_1_1 | F_2_1 | F_1_2 | F_2_2 | F_4_1 | F_4_2 | F_1_4 | F_2_4
| R_4_4_4 | R_4_4_0 | R_4_4_1 | R_4_2_2 | R_4_2_0 | R_4_2_1 | R_4_1_1 | R_4_1_0.
Inductive BmpColorType := BL8 | BLa8 | BRgb8 | BRgba8.
Inductive WebPPreset := WDefault | WPicture | WPhoto | WDrawing | WIcon | WText | WLossless.

(** lib.rs:79-104; bmp and ico have the same colour types *)
Inductive EncodingFormat :=
| EJpeg (quality : Z) (progressive : bool) (sampling : option JpegSamplingFactor) (grayscale optimize : bool)
| EPng (color_type : PngColorType) (compression : PngCompression) (filter : PngFilterType)
| EGif
| EBmp (color_type : BmpColorType)
| EIco (color_type : BmpColorType)
| EWebP (quality : Z) (preset : WebPPreset).

(** lib.rs:107-116 *)
Definition format_of (f : EncodingFormat) : Format :=
  match f with
  | EJpeg _ _ _ _ _ => Jpeg | EPng _ _ _ => Png | EGif => Gif | EBmp _ => Bmp | EIco _ => Ico | EWebP _ _ => WebP
  end.
(** lib.rs:118-178 *)
Definition jpeg_with_quality (quality : Z) : EncodingFormat := EJpeg quality false None false true.
Definition jpeg_default : EncodingFormat := EJpeg 85 false None false true.
Definition png_default : EncodingFormat := EPng PRgba8 CDefault FSub.
Definition gif_default : EncodingFormat := EGif.
Definition bmp_default : EncodingFormat := EBmp BRgba8.
Definition ico_default : EncodingFormat := EIco BRgba8.
Definition webp_default : EncodingFormat := EWebP 90 WDefault.
(** lib.rs:180-193 *)
Definition encoding_from_path (path : string) : Result EncodingFormat EncodingError :=
  match format_from_path path with
  | Some Jpeg => ROk jpeg_default
  | Some Png => ROk png_default
  | Some Gif => ROk gif_default
  | Some Bmp => ROk bmp_default
  | Some Ico => ROk ico_default
  | Some WebP => ROk webp_default
  | None => RErr (EBadFileExtension path)
  end.

(** * Encoding *)

(** The colour type and bit depth of the png crate, the colour type of the
    image crate *)
Inductive png_color := Grayscale | GrayscaleAlpha | ColRgb | ColRgba.
Inductive png_depth := Eight | Sixteen.
Inductive image_color := L8 | La8 | Rgb8 | Rgba8.

(** What is handed to a codec library, in the order of its parameters. *)
Inductive job :=
| JobPng (c : png_color) (d : png_depth) (compression : PngCompression) (filter : PngFilterType) (w h : Z) (raw : list Z)
| JobJpeg (quality : Z) (sampling : option JpegSamplingFactor) (progressive optimize : bool) (raw : list Z) (w h : Z) (gray : bool)
| JobGif (w h : Z) (raw : list Z)
| JobBmp (raw : list Z) (w h : Z) (c : image_color)
| JobIco (raw : list Z) (w h : Z) (c : image_color)
| JobWebP (preset : WebPPreset) (quality : Z) (w h stride : Z) (argb : list Z).

(** png.rs:123-164 up to the calls of the library *)
Definition job_png (L : libm) (b : PixelBuffer Rgb) (ct : PngColorType) (comp : PngCompression) (filter : PngFilterType) : job :=
  let '(out, color, depth) :=
    match ct with
    | PL8 => (to_l8_vec L b, Grayscale, Eight)
    | PLa8 => (to_la8_vec L b, GrayscaleAlpha, Eight)
    | PL16 => (to_l16_be_vec L b, Grayscale, Sixteen)
    | PLa16 => (to_la16_be_vec L b, GrayscaleAlpha, Sixteen)
    | PRgb8 => (to_rgb8_vec L b, ColRgb, Eight)
    | PRgba8 => (to_rgba8_vec L b, ColRgba, Eight)
    | PRgb16 => (to_rgb16_be_vec L b, ColRgb, Sixteen)
    | PRgba16 => (to_rgba16_be_vec L b, ColRgba, Sixteen)
    end in
  JobPng color depth comp filter (width b) (height b) out.

(** jpeg.rs:116-161; the width and height are [as u16] *)
Definition job_jpeg (L : libm) (b : PixelBuffer Rgb) (quality : Z) (progressive : bool)
  (sampling : option JpegSamplingFactor) (grayscale optimize : bool) : Result job EncodingError :=
  let w := width b in
  let h := height b in
  if (65535 <? w) || (65535 <? h) then RErr (EBadDimensions w h) else
  let out := if grayscale then to_l8_vec L b else to_rgb8_vec L b in
  let quality := Z.max 1 (Z.min quality 100) in
  ROk (JobJpeg quality sampling progressive optimize out (w mod 65536) (h mod 65536) grayscale).

(** gif.rs:21-48; [Frame::from_rgba_speed] and the encoder are the library *)
Definition job_gif (L : libm) (b : PixelBuffer Rgb) : Result job EncodingError :=
  let w := width b in
  let h := height b in
  if (65535 <? w) || (65535 <? h) then RErr (EBadDimensions w h) else
  ROk (JobGif (w mod 65536) (h mod 65536) (to_rgba8_vec L b)).

(** bmp.rs:37-52 and ico.rs:37-52 *)
Definition image_bytes (L : libm) (b : PixelBuffer Rgb) (ct : BmpColorType) : list Z * image_color :=
  match ct with
  | BL8 => (to_l8_vec L b, L8)
  | BLa8 => (to_la8_vec L b, La8)
  | BRgb8 => (to_rgb8_vec L b, Rgb8)
  | BRgba8 => (to_rgba8_vec L b, Rgba8)
  end.
Definition job_bmp (L : libm) (b : PixelBuffer Rgb) (ct : BmpColorType) : job :=
  let '(out, c) := image_bytes L b ct in JobBmp out (width b) (height b) c.
Definition job_ico (L : libm) (b : PixelBuffer Rgb) (ct : BmpColorType) : job :=
  let '(out, c) := image_bytes L b ct in JobIco out (width b) (height b) c.

(** webp.rs:128-176; the lossless preset has no quality (100 is its level) *)
Definition job_webp (L : libm) (b : PixelBuffer Rgb) (quality : Z) (preset : WebPPreset) : job :=
  let quality := Z.max 0 (Z.min quality 100) in
  let w := as_i32 (width b) in
  let h := as_i32 (height b) in
  JobWebP preset (match preset with WLossless => 100 | _ => quality end) w h w (to_argb8_vec32 L b).

(** lib.rs:254-288 *)
Definition make_job (L : libm) (b : PixelBuffer Rgb) (f : EncodingFormat) : Result job EncodingError :=
  match f with
  | EJpeg quality progressive sampling grayscale optimize => job_jpeg L b quality progressive sampling grayscale optimize
  | EPng ct comp filter => ROk (job_png L b ct comp filter)
  | EGif => job_gif L b
  | EBmp ct => ROk (job_bmp L b ct)
  | EIco ct => ROk (job_ico L b ct)
  | EWebP quality preset => ROk (job_webp L b quality preset)
  end.

(** What an encoder does with its writer: it writes some bytes and stops if
    that fails, writes some bytes and ignores a failure (the png crate does so
    when its writer is dropped), or flushes. *)
Inductive write_op := Write (l : list Z) | WriteIgnored (l : list Z) | Flush.

(** The codec libraries: for each job the operations on the writer and whether
    the library then reports success. *)
Definition encoders := job -> list write_op * bool.

(** A writer: its state after [write_all], and whether that succeeded. *)
Record writer (W : Type) := mkWriter {
  write_all : W -> list Z -> W * bool;
  flush : W -> W * bool
}.
Arguments write_all {W}.
Arguments flush {W}.

(** Running an encoder: it returns [IoError] at the first failed write. *)
Fixpoint run_ops {W} (wr : writer W) (ops : list write_op) (ok : bool) (w : W) : W * Result unit EncodingError :=
  match ops with
  | [] => (w, if ok then ROk tt else RErr EEncoding)
  | Write l :: ops => let '(w, r) := write_all wr w l in if r then run_ops wr ops ok w else (w, RErr EIoError)
  | WriteIgnored l :: ops => let '(w, _) := write_all wr w l in run_ops wr ops ok w
  | Flush :: ops => let '(w, r) := flush wr w in if r then run_ops wr ops ok w else (w, RErr EIoError)
  end.

(** lib.rs:254-288 with png.rs:116-121, 163-167, jpeg.rs:162-169,
    gif.rs:14-19, 42-47, bmp.rs:52-61, ico.rs:52-61 and webp.rs:109-126, 178-193: the result of the
    library is mapped to IoError or Encoding *)
Definition encode {W} (E : encoders) (L : libm) (wr : writer W) (w : W) (b : PixelBuffer Rgb) (f : EncodingFormat)
  : W * Result unit EncodingError :=
  match make_job L b f with
  | RErr e => (w, RErr e)
  | ROk j => let '(ops, ok) := E j in run_ops wr ops ok w
  end.

(** Writing to a [Vec<u8>] cannot fail. *)
Definition vec_writer : writer (list Z) := mkWriter _ (fun w l => (w ++ l, true)) (fun w => (w, true)).

(** A file being written: its contents and how many bytes it can hold; a write
    beyond that stores what fits and fails. *)
Record file := mkFile { stored_bytes : list Z; capacity : Z }.
Definition file_write_all (f : file) (l : list Z) : file * bool :=
  let room := capacity f - zlen (stored_bytes f) in
  (mkFile (stored_bytes f ++ firstn (Z.to_nat room) l) (capacity f), zlen l <=? room).

(** std::io::BufWriter with its default capacity of 8192 bytes.  [flush_buf]
    writes the buffer and removes from it what was written. *)
Record buf_writer := mkBuf { inner : file; pending : list Z }.
Definition flush_buf (w : buf_writer) : buf_writer * bool :=
  let room := capacity (inner w) - zlen (stored_bytes (inner w)) in
  let '(f, r) := file_write_all (inner w) (pending w) in
  (mkBuf f (skipn (Z.to_nat room) (pending w)), r).
(** [BufWriter::write_all] and [write_all_cold] *)
Definition buf_write_all (w : buf_writer) (l : list Z) : buf_writer * bool :=
  let spare := 8192 - zlen (pending w) in
  if zlen l <? spare then (mkBuf (inner w) (pending w ++ l), true)
  else
    let '(w, r) := if spare <? zlen l then flush_buf w else (w, true) in
    if negb r then (w, false)
    else if 8192 <=? zlen l then
      let '(f, r) := file_write_all (inner w) l in (mkBuf f (pending w), r)
    else (mkBuf (inner w) (pending w ++ l), true).
Definition file_writer : writer buf_writer := mkWriter _ buf_write_all flush_buf.
(** [Drop for BufWriter]: the buffer is flushed, errors are ignored. *)
Definition drop_buf (w : buf_writer) : file := inner (fst (flush_buf w)).

(** The file system: the files that can be read, the paths that can be created
    or overwritten, and how much each of them can hold. *)
Record fs := mkFs {
  files : string -> option (list Z);
  creatable : string -> bool;
  limits : string -> Z
}.
Definition set_file (s : fs) (path : string) (contents : list Z) : fs :=
  mkFs (fun p => if String.eqb p path then Some contents else files s p) (creatable s) (limits s).

(** lib.rs:236-252; [File::create] truncates an existing file *)
Definition encode_to_file (E : encoders) (L : libm) (s : fs) (path : string) (b : PixelBuffer Rgb)
  (f : option EncodingFormat) : fs * Result unit EncodingError :=
  match (match f with Some f => ROk f | None => encoding_from_path path end) with
  | RErr e => (s, RErr e)
  | ROk f =>
      if creatable s path then
        let w := mkBuf (mkFile [] (limits s path)) [] in
        let '(w, r) := encode E L file_writer w b f in
        (set_file s path (stored_bytes (drop_buf w)), r)
      else (s, RErr EIoError)
  end.

(** * Decoding *)

(** What the libraries deliver.  png: colour type, bit depth ([None] if it is
    another one) and size, and [next_frame], which fills a buffer of the given
    size; jpeg: the data and the image info; gif: the first frame as RGBA;
    bmp and ico: an image of the image crate; webp: size and RGBA data. *)
Record png_image := mkPngImage {
  png_layout : option (png_color * png_depth); png_width : Z; png_height : Z;
  next_frame : Z -> Result (list Z) DecodingError
}.
Inductive jpeg_format := JL8 | JL16 | JRgb24 | JCmyk32.
Record decoders := mkDecoders {
  dec_png : list Z -> Result png_image DecodingError;
  dec_jpeg : list Z -> Result (list Z * option (Z * Z * jpeg_format)) DecodingError;
  dec_gif : list Z -> Result (option (Z * Z * list Z)) DecodingError;
  dec_bmp : list Z -> Result dyn_image DecodingError;
  dec_ico : list Z -> Result dyn_image DecodingError;
  dec_webp : list Z -> option (Z * Z * list Z)
}.

(** [slice::chunks] *)
Fixpoint chunks_ (fuel k : nat) (l : list Z) : list (list Z) :=
  match fuel, l with
  | _, [] | O, _ => []
  | S fuel, _ => firstn k l :: chunks_ fuel k (skipn k l)
  end.
Definition chunks (k : nat) (l : list Z) : list (list Z) := chunks_ (List.length l) k l.

(** The closures passed to [map]: png.rs, jpeg.rs, gif.rs *)
Definition px_rgba8 (L : libm) (c : list Z) : res Rgb :=
  r <- idx c 0; g <- idx c 1; b <- idx c 2; a <- idx c 3;
  Ok (srgb_to_rgb L (rgb_new_with_alpha (from_u8 r) (from_u8 g) (from_u8 b) (from_u8 a))).
Definition px_rgb8 (L : libm) (c : list Z) : res Rgb :=
  r <- idx c 0; g <- idx c 1; b <- idx c 2;
  Ok (srgb_to_rgb L (rgb_new (from_u8 r) (from_u8 g) (from_u8 b))).
Definition px_l8 (L : libm) (v : Z) : res Rgb :=
  Ok (srgb_to_rgb L (rgb_new (from_u8 v) (from_u8 v) (from_u8 v))).
Definition px_la8 (L : libm) (c : list Z) : res Rgb :=
  v <- idx c 0; a <- idx c 1;
  Ok (srgb_to_rgb L (rgb_new_with_alpha (from_u8 v) (from_u8 v) (from_u8 v) (from_u8 a))).
Definition px_rgba16 (L : libm) (c : list Z) : res Rgb :=
  r0 <- idx c 0; r1 <- idx c 1; g0 <- idx c 2; g1 <- idx c 3;
  b0 <- idx c 4; b1 <- idx c 5; a0 <- idx c 6; a1 <- idx c 7;
  Ok (srgb_to_rgb L (rgb_new_with_alpha (from_u16_be r0 r1) (from_u16_be g0 g1) (from_u16_be b0 b1) (from_u16_be a0 a1))).
Definition px_rgb16 (L : libm) (c : list Z) : res Rgb :=
  r0 <- idx c 0; r1 <- idx c 1; g0 <- idx c 2; g1 <- idx c 3; b0 <- idx c 4; b1 <- idx c 5;
  Ok (srgb_to_rgb L (rgb_new (from_u16_be r0 r1) (from_u16_be g0 g1) (from_u16_be b0 b1))).
Definition px_l16 (L : libm) (c : list Z) : res Rgb :=
  v0 <- idx c 0; v1 <- idx c 1;
  Ok (srgb_to_rgb L (rgb_new (from_u16_be v0 v1) (from_u16_be v0 v1) (from_u16_be v0 v1))).
Definition px_la16 (L : libm) (c : list Z) : res Rgb :=
  v0 <- idx c 0; v1 <- idx c 1; a0 <- idx c 2; a1 <- idx c 3;
  Ok (srgb_to_rgb L (rgb_new_with_alpha (from_u16_be v0 v1) (from_u16_be v0 v1) (from_u16_be v0 v1) (from_u16_be a0 a1))).
Definition px_l16_ne (L : libm) (c : list Z) : res Rgb :=
  v0 <- idx c 0; v1 <- idx c 1;
  Ok (srgb_to_rgb L (rgb_new (from_u16_ne v0 v1) (from_u16_ne v0 v1) (from_u16_ne v0 v1))).
Definition px_cmyk (L : libm) (c : list Z) : res Rgb :=
  a <- idx c 0; b <- idx c 1; d <- idx c 2; k <- idx c 3; Ok (cmyk_to_rgb L a b d k).

(** png.rs:176-329; [num_pixel] is a product in u32 *)
Definition decode_png (m : build) (D : decoders) (L : libm) (contents : list Z) : res (Result (PixelBuffer Rgb) DecodingError) :=
  match dec_png D contents with
  | RErr e => Ok (RErr e)
  | ROk img =>
      let w := png_width img in
      let h := png_height img in
      if negb (is_valid_buffer_size w h) then Ok (RErr (DInvalidBufferSize w h)) else
      num_pixel <- u32 m (w * h);
      let read (n : Z) (f : list Z -> res (list Rgb)) :=
        match next_frame img (num_pixel * n) with
        | RErr e => Ok (RErr e)
        | ROk buf => raw <- f buf; out <- new_from_raw w h raw; Ok (ROk out)
        end in
      match png_layout img with
      | Some (ColRgba, Eight) => read 4 (fun buf => map_res (px_rgba8 L) (chunks 4 buf))
      | Some (ColRgb, Eight) => read 3 (fun buf => map_res (px_rgb8 L) (chunks 3 buf))
      | Some (Grayscale, Eight) => read 1 (fun buf => map_res (px_l8 L) buf)
      | Some (GrayscaleAlpha, Eight) => read 2 (fun buf => map_res (px_la8 L) (chunks 2 buf))
      | Some (ColRgba, Sixteen) => read 8 (fun buf => map_res (px_rgba16 L) (chunks 8 buf))
      | Some (ColRgb, Sixteen) => read 6 (fun buf => map_res (px_rgb16 L) (chunks 6 buf))
      | Some (Grayscale, Sixteen) => read 2 (fun buf => map_res (px_l16 L) (chunks 2 buf))
      | Some (GrayscaleAlpha, Sixteen) => read 4 (fun buf => map_res (px_la16 L) (chunks 4 buf))
      | None => Ok (RErr DDecoding)
      end
  end.

(** jpeg.rs:172-217; the size is not checked before [new_from_raw] *)
Definition decode_jpeg (D : decoders) (L : libm) (contents : list Z) : res (Result (PixelBuffer Rgb) DecodingError) :=
  match dec_jpeg D contents with
  | RErr e => Ok (RErr e)
  | ROk (_, None) => Ok (RErr DDecoding)
  | ROk (raw, Some (w, h, format)) =>
      d <- match format with
           | JL8 => map_res (px_l8 L) raw
           | JL16 => map_res (px_l16_ne L) (chunks 2 raw)
           | JRgb24 => map_res (px_rgb8 L) (chunks 3 raw)
           | JCmyk32 => map_res (px_cmyk L) (chunks 4 raw)
           end;
      out <- new_from_raw w h d; Ok (ROk out)
  end.

(** gif.rs:57-95 *)
Definition decode_gif (D : decoders) (L : libm) (contents : list Z) : res (Result (PixelBuffer Rgb) DecodingError) :=
  match dec_gif D contents with
  | RErr e => Ok (RErr e)
  | ROk None => Ok (RErr DDecoding)
  | ROk (Some (w, h, raw)) =>
      d <- map_res (px_rgba8 L) (chunks 4 raw);
      if negb (is_valid_buffer_size w h) then Ok (RErr (DInvalidBufferSize w h)) else
      out <- new_from_raw w h d; Ok (ROk out)
  end.

(** bmp.rs:64-79, ico.rs:64-79 *)
Definition decode_image (L : libm) (r : Result dyn_image DecodingError) : res (Result (PixelBuffer Rgb) DecodingError) :=
  match r with RErr e => Ok (RErr e) | ROk img => read_into_buffer L img end.

(** webp.rs:51-96: the whole file is read in pieces of 4096 bytes first *)
Definition decode_webp (m : build) (D : decoders) (L : libm) (contents : list Z) : res (Result (PixelBuffer Rgb) DecodingError) :=
  match dec_webp D contents with
  | None => Ok (RErr DDecoding)
  | Some (w, h, raw) =>
      buf <- new_from_fn m (as_u32 w) (as_u32 h) (fun x y =>
        let offset := (x + y * w) * 4 in
        r <- idx raw offset; g <- idx raw (offset + 1); b <- idx raw (offset + 2); a <- idx raw (offset + 3);
        Ok (srgb_to_rgb L (rgb_new_with_alpha (from_u8 r) (from_u8 g) (from_u8 b) (from_u8 a))));
      Ok (ROk buf)
  end.

(** lib.rs:222-234 *)
Definition decode (m : build) (D : decoders) (L : libm) (contents : list Z) (f : Format) : res (Result (PixelBuffer Rgb) DecodingError) :=
  match f with
  | Jpeg => decode_jpeg D L contents
  | Png => decode_png m D L contents
  | Gif => decode_gif D L contents
  | Bmp => decode_image L (dec_bmp D contents)
  | Ico => decode_image L (dec_ico D contents)
  | WebP => decode_webp m D L contents
  end.

(** lib.rs:215-220 *)
Definition decode_buffer (m : build) (D : decoders) (L : libm) (contents : list Z) : res (Result (PixelBuffer Rgb) DecodingError) :=
  match from_reader contents with RErr e => Ok (RErr e) | ROk f => decode m D L contents f end.

(** lib.rs:199-213; a file that cannot be opened is [None] *)
Definition decode_file (m : build) (D : decoders) (L : libm) (s : fs) (path : string) : res (Result (PixelBuffer Rgb) DecodingError) :=
  match files s path with
  | None => Ok (RErr DIoError)
  | Some contents =>
      match from_reader contents with
      | ROk f => decode m D L contents f
      | RErr _ =>
          match format_from_path path with
          | Some f => decode m D L contents f
          | None => Ok (RErr DUnknownFormat)
          end
      end
  end.

(** d10-ops/src/jpeg_quality.rs:8-31: [expect] panics on errors *)
Definition jpeg_quality (m : build) (E : encoders) (D : decoders) (L : libm) (b : PixelBuffer Rgb) (quality : Z) (preserve_alpha : bool)
  : res (PixelBuffer Rgb) :=
  let '(temp, r) := encode E L vec_writer [] b (jpeg_with_quality quality) in
  _ <- match r with ROk _ => Ok tt | RErr _ => Panic end;
  r <- decode_buffer m D L temp;
  out <- match r with ROk out => Ok out | RErr _ => Panic end;
  if preserve_alpha then
    let k := List.length (data b) in
    Ok (mkPB (width out) (height out)
      (map (fun p => mkC (d0 (snd p)) (d1 (snd p)) (d2 (snd p)) (d3 (fst p))) (combine (data b) (data out))
       ++ skipn k (data out)))
  else Ok out.
