(** Model of the Python class Image and of EncodingFormat in
    d10-python/src/image.rs, without the NumPy methods (Numpy.v).  What PyO3 does is part of it as far as it is visible: an integer
    that does not fit the Rust type raises OverflowError before the method
    runs, an error converted by [py_err] (lib.rs:18-25) raises OSError, a
    Python function can raise an exception of its own, and a Rust panic ends
    the call ([Panic]; Python sees a PanicException).  A float argument is
    modelled after its conversion to f32.  A Python function is a
    state-passing function: its state is all of the interpreter. *)
From Coq Require Import ZArith List Bool String.
From Verif Require Import Base PixelBuffer Geometry F32 Color Blend Resample Kernel Ops Codec Names Image.
Import ListNotations.
Local Open Scope string_scope.
Open Scope Z_scope.

(** lib.rs:18-25, image.rs:401.  OSError carries the text of the error it
    was made from; the model keeps that error. *)
Inductive py_exn :=
| OverflowError
| OSErrorName (e : ParseEnumError)
| OSErrorRange (y x : Z)
| OSErrorDecoding (e : DecodingError)
| OSErrorEncoding (e : EncodingError).

(** The result of a method: a value, an exception, or a panic. *)
Definition py A := res (Result A py_exn).
Definition py_ok {A} (r : res A) : py A := a <- r; Ok (ROk a).
Definition py_bind {A B} (r : Result A py_exn) (k : A -> py B) : py B :=
  match r with ROk a => k a | RErr e => Ok (RErr e) end.

(** PyO3's conversion of a Python int to u8, u32, i32 and usize. *)
Definition py_int (lo hi z : Z) : Result Z py_exn :=
  if (lo <=? z) && (z <=? hi) then ROk z else RErr OverflowError.
Definition py_u8 := py_int 0 255.
Definition py_u32 := py_int 0 4294967295.
Definition py_i32 := py_int (-2147483648) 2147483647.
Definition py_usize := py_int 0 18446744073709551615.
Definition py_opt (conv : Z -> Result Z py_exn) (o : option Z) : Result (option Z) py_exn :=
  match o with
  | None => ROk None
  | Some z => match conv z with ROk z => ROk (Some z) | RErr e => RErr e end
  end.

(** [unwrap_or] *)
Definition or_default {A} (o : option A) (d : A) : A := match o with Some a => a | None => d end.
(** lib.rs:18-25 for the names of enum variants *)
Definition py_name {A} (parse : string -> Result A ParseEnumError) (s : string) : Result A py_exn :=
  match parse s with ROk a => ROk a | RErr e => RErr (OSErrorName e) end.
(** [match name { Some(name) => name.parse().py_err()?, None => d }] *)
Definition py_name_or {A} (parse : string -> Result A ParseEnumError) (name : option string) (d : A) : Result A py_exn :=
  match name with Some s => py_name parse s | None => ROk d end.

(** * Creating images and reading them as lists *)

(** image.rs:29-36 *)
Definition py_new (m : build) (w h : Z) (color : option Rgb) : py Image :=
  py_bind (py_u32 w) (fun w => py_bind (py_u32 h) (fun h =>
  py_ok (match color with Some c => image_new_with_color m w h c | None => image_new m w h end))).
(** image.rs:38-47 *)
Definition py_from_list (w h : Z) (l : list Rgb) : py Image :=
  py_bind (py_u32 w) (fun w => py_bind (py_u32 h) (fun h => py_ok (image_new_from_raw w h l))).
(** image.rs:49-51 *)
Definition py_to_list (i : Image) : list Rgb := data (buffer i).
(** image.rs:392-394 *)
Definition py_len (i : Image) : Z := zlen (data (buffer i)).
(** image.rs:63-66 *)
Definition py_open (m : build) (D : decoders) (L : libm) (s : fs) (path : string) : py Image :=
  r <- image_open m D L s path;
  Ok (match r with ROk i => ROk i | RErr e => RErr (OSErrorDecoding e) end).
(** image.rs:68-77 *)
Definition py_save (E : encoders) (L : libm) (s : fs) (i : Image) (path : string) (format : option EncodingFormat)
  : fs * Result unit py_exn :=
  let '(s, r) := match format with
                 | Some f => image_save_with_format E L s i path f
                 | None => image_save E L s i path
                 end in
  (s, match r with ROk u => ROk u | RErr e => RErr (OSErrorEncoding e) end).

(** * Single pixels *)

(** image.rs:134-136 *)
Definition py_get_pixel (m : build) (i : Image) (x y : Z) : py (option Rgb) :=
  py_bind (py_i32 x) (fun x => py_bind (py_i32 y) (fun y => py_ok (get_pixel_optional m (buffer i) x y))).
(** image.rs:138-140 *)
Definition py_get_pixel_clamped (m : build) (i : Image) (x y : Z) : py Rgb :=
  py_bind (py_i32 x) (fun x => py_bind (py_i32 y) (fun y => py_ok (get_pixel_clamped m (buffer i) x y))).
(** image.rs:142-144; the image after the call *)
Definition py_put_pixel (m : build) (i : Image) (x y : Z) (c : Rgb) : py Image :=
  py_bind (py_u32 x) (fun x => py_bind (py_u32 y) (fun y => py_ok (image_put_pixel m x y c i))).
(** image.rs:146-148 *)
Definition py_is_in_image (i : Image) (x y : Z) : py bool :=
  py_bind (py_i32 x) (fun x => py_bind (py_i32 y) (fun y => Ok (ROk (is_in_image (buffer i) x y)))).
(** image.rs:396-402: [img[x, y]] *)
Definition py_getitem (m : build) (i : Image) (x y : Z) : py Rgb :=
  py_bind (py_i32 x) (fun x => py_bind (py_i32 y) (fun y =>
  o <- get_pixel_optional m (buffer i) x y;
  Ok (match o with Some c => ROk c | None => RErr (OSErrorRange y x) end))).
(** image.rs:404-409: [img[x, y] = c] *)
Definition py_setitem (m : build) (i : Image) (x y : Z) (c : Rgb) : py Image := py_put_pixel m i x y c.

(** * Python functions over all pixels *)

(** image.rs:87-95; [X] are the exceptions of the Python function.  The state
    after the call, the image after the call, and the result. *)
Definition py_mod_colors {S X} (func : S -> Rgb -> res (S * Result Rgb X)) (s : S) (i : Image)
  : res (S * Image * Result unit X) :=
  '(s, b, r) <- try_mod_colors func s (buffer i);
  Ok (s, mkImage b (bg_color i), r).
(** image.rs:97-108 with pixelbuffer.rs:183-194; the coordinates are passed
    [as i32] *)
Definition py_mod_colors_enumerated {S X} (func : S -> Z -> Z -> Rgb -> res (S * Result Rgb X)) (s : S) (i : Image)
  : res (S * Image * Result unit X) :=
  items <- enumerate (buffer i);
  '(s, d, r) <- try_mod_list (fun s '(x, y, c) => func s (as_i32 x) (as_i32 y) c) (fun '(_, _, c) => c) s items;
  Ok (s, mkImage (mkPB (width (buffer i)) (height (buffer i)) d) (bg_color i), r).
(** image.rs:110-119 *)
Definition py_map_colors {S X} (func : S -> Rgb -> res (S * Result Rgb X)) (s : S) (i : Image)
  : res (S * Result Image X) := image_try_map_colors func s i.
(** image.rs:121-132 with pixelbuffer.rs:226-239 *)
Definition py_map_colors_enumerated {S X} (func : S -> Z -> Z -> Rgb -> res (S * Result Rgb X)) (s : S) (i : Image)
  : res (S * Result Image X) :=
  items <- enumerate (buffer i);
  '(s, r) <- try_map_st (fun s '(x, y, c) => func s (as_i32 x) (as_i32 y) c) items s;
  Ok (s, match r with
         | ROk d => ROk (mkImage (mkPB (width (buffer i)) (height (buffer i)) d) (bg_color i))
         | RErr e => RErr e
         end).
(** image.rs:289-314; the images have been checked to be images *)
Definition py_compose {S X} (m : build) (images : list Image) (default : option Rgb)
  (func : S -> Z -> Z -> list Rgb -> res (S * Result Rgb X)) (s : S) : res (S * Result Image X) :=
  image_try_compose_slice m images (or_default default RGB_NONE) func s.

(** * The methods that return a new image *)

Inductive py_call :=
| CallCrop (x y w h : Z)
| CallFlipHorizontal | CallFlipVertical | CallRotate90 | CallRotate180 | CallRotate270
| CallRotate (radians : f32) (filter : option string)
| CallResize (w h : Z) (filter : option string)
| CallResizePct (pct_100 : f32) (filter : option string)
| CallEdgeDetection (mode : option string)
| CallJpegQuality (quality : Z) (preserve_alpha : option bool)
| CallGaussianBlur (radius : Z) (sigma : option f32)
| CallUnsharp (radius : Z) (factor sigma : option f32)
| CallDrawing (radius : Z) (mode : option string)
| CallInterlace (offset : Z)
| CallApplyPalette (palette : Image)
| CallDespeckle (threshold : option f32) (amount : option Z)
| CallSymmetricNearestNeighbor (radius : option Z) (with_center : option bool)
| CallBlend (image : Image) (blend_op : option string) (intensity : option f32)
| CallStretchContrast (threshold : option f32)
| CallOptimizeSaturation (offset : option f32) (mode : option string)
| CallChangeColorTemperature (orig_temp new_temp : f32) (tint_correction : option f32)
| CallOptimizeColorTemperature (factor : f32) (tint_correction : option f32)
| CallOptimizeLightness (factor : f32)
| CallWhiteBalance (threshold : option f32)
| CallBalance (mode : option string) (threshold : option f32)
| CallEqualize (mode : option string).

(** image.rs:150-390, in the same order: PyO3 converts the arguments, then the
    body runs. *)
Definition py_run (m : build) (E : encoders) (D : decoders) (L : libm) (i : Image) (c : py_call) : py Image :=
  match c with
  | CallCrop x y w h =>
      py_bind (py_u32 x) (fun x => py_bind (py_u32 y) (fun y => py_bind (py_u32 w) (fun w => py_bind (py_u32 h) (fun h =>
      py_ok (image_crop m x y w h i)))))
  | CallFlipHorizontal => py_ok (image_flip_horizontal m i)
  | CallFlipVertical => py_ok (image_flip_vertical m i)
  | CallRotate90 => py_ok (image_rotate90 m i)
  | CallRotate180 => py_ok (image_rotate180 m i)
  | CallRotate270 => py_ok (image_rotate270 m i)
  | CallRotate radians filter =>
      py_bind (py_name_or parse_filter_mode filter Bilinear) (fun filter => py_ok (image_rotate L m radians filter i))
  | CallResize w h filter =>
      py_bind (py_u32 w) (fun w => py_bind (py_u32 h) (fun h =>
      py_bind (py_name_or parse_filter_mode filter Bilinear) (fun filter => py_ok (image_resize L m w h filter i))))
  | CallResizePct pct filter =>
      py_bind (py_name_or parse_filter_mode filter Bilinear) (fun filter => py_ok (image_resize_pct L m pct filter i))
  | CallEdgeDetection mode =>
      py_bind (py_name_or parse_edge_mode mode Sobel) (fun mode => py_ok (image_edge_detection m mode i))
  | CallJpegQuality quality preserve_alpha =>
      py_bind (py_u8 quality) (fun quality =>
      py_ok (image_with_jpeg_quality m E D L quality (or_default preserve_alpha true) i))
  | CallGaussianBlur radius sigma =>
      py_bind (py_u32 radius) (fun radius => py_ok (image_gaussian_blur L m radius sigma i))
  | CallUnsharp radius factor sigma =>
      py_bind (py_u32 radius) (fun radius => py_ok (image_unsharp L m radius (or_default factor f1) sigma i))
  | CallDrawing radius mode =>
      py_bind (py_u32 radius) (fun radius =>
      py_bind (py_name parse_drawing_mode (or_default mode "default")) (fun mode => py_ok (image_drawing L m radius mode i)))
  | CallInterlace offset => py_bind (py_u32 offset) (fun offset => py_ok (image_interlace m offset i))
  | CallApplyPalette palette => py_ok (image_apply_palette L palette i)
  | CallDespeckle threshold amount =>
      py_bind (py_opt py_u8 amount) (fun amount =>
      py_ok (image_despeckle m (or_default threshold (dec 1 10)) (or_default amount 1) i))
  | CallSymmetricNearestNeighbor radius with_center =>
      py_bind (py_opt py_usize radius) (fun radius =>
      py_ok (image_symmetric_nearest_neighbor m (or_default radius 4) (or_default with_center true) i))
  | CallBlend other op intensity =>
      py_bind (py_name parse_blend_op (or_default op "normal")) (fun op =>
      py_ok (image_blend L m other op (or_default intensity f1) i))
  | CallStretchContrast threshold => py_ok (image_stretch_contrast L (or_default threshold (dec 1 2)) i)
  | CallOptimizeSaturation offset mode =>
      py_bind (py_name parse_saturation_mode (or_default mode "hsl")) (fun mode =>
      py_ok (image_optimize_saturation L (or_default offset f1) mode i))
  | CallChangeColorTemperature orig_temp new_temp tint =>
      py_ok (image_change_color_temperature L orig_temp new_temp (or_default tint f0) i)
  | CallOptimizeColorTemperature factor tint =>
      py_ok (image_optimize_color_temperature L factor (or_default tint f0) i)
  | CallOptimizeLightness factor => py_ok (image_optimize_lightness L factor i)
  | CallWhiteBalance threshold => py_ok (image_white_balance L (or_default threshold (dec 1 2)) i)
  | CallBalance mode threshold =>
      py_bind (py_name_or parse_balance_mode mode BRgb) (fun mode =>
      py_ok (image_balance L mode (or_default threshold (dec 1 2)) i))
  | CallEqualize mode =>
      py_bind (py_name_or parse_equalize_mode mode ESrgb) (fun mode => py_ok (image_equalize L m mode i))
  end.

(** image.rs:269-271; the image after the call *)
Definition py_apply_palette_in_place (L : libm) (i palette : Image) : py Image :=
  py_ok (image_apply_palette_in_place L palette i).

(** * Random noise: the generator is a parameter as in Ops.v; the methods that
    return nothing give the image after the call *)

(** image.rs:213-243 *)
Definition py_random_noise {R} (g : rng R) (s : R) (i : Image) (alpha : f32) : res (R * Image) := image_random_noise g alpha s i.
Definition py_add_random_noise {R} (g : rng R) (s : R) (i : Image) (alpha : f32) : res (R * Image) := image_add_random_noise g alpha s i.
Definition py_salt_n_pepper_noise {R} (g : rng R) (s : R) (i : Image) (threshold : f32) : res (R * Image) :=
  image_salt_n_pepper_noise g threshold s i.
Definition py_add_salt_n_pepper_noise {R} (g : rng R) (s : R) (i : Image) (threshold : f32) : res (R * Image) :=
  image_add_salt_n_pepper_noise g threshold s i.
Definition py_rgb_noise {R} (g : rng R) (s : R) (i : Image) (threshold : f32) : res (R * Image) := image_rgb_noise g threshold s i.
Definition py_add_rgb_noise {R} (g : rng R) (s : R) (i : Image) (threshold : f32) : res (R * Image) := image_add_rgb_noise g threshold s i.
Definition py_gaussian_noise {R} (g : rng R) (s : R) (i : Image) (alpha : f32) : res (R * Image) := image_gaussian_noise g alpha s i.
Definition py_add_gaussian_noise {R} (g : rng R) (s : R) (i : Image) (alpha : f32) : res (R * Image) := image_add_gaussian_noise g alpha s i.

(** * Encoding formats *)

Inductive py_format :=
| FormatJpeg (quality : option Z) (progressive : option bool) (sampling_factor : option string)
    (grayscale optimize_huffman_tables : option bool)
| FormatPng (color_type compression filter : option string)
| FormatGif
| FormatBmp (color_type : option string)
| FormatIco (color_type : option string)
| FormatWebp (quality : option Z) (preset : option string).

Definition py_then {A B} (r : Result A py_exn) (k : A -> Result B py_exn) : Result B py_exn :=
  match r with ROk a => k a | RErr e => RErr e end.

(** image.rs:745-843 *)
Definition py_make_format (f : py_format) : Result EncodingFormat py_exn :=
  match f with
  | FormatJpeg quality progressive sampling grayscale optimize =>
      py_then (py_opt py_u8 quality) (fun quality =>
      py_then (match sampling with
               | Some s => py_then (py_name parse_jpeg_sampling_factor s) (fun s => ROk (Some s))
               | None => ROk None
               end) (fun sampling =>
      ROk (EJpeg (or_default quality 85) (or_default progressive false) sampling
             (or_default grayscale false) (or_default optimize true))))
  | FormatPng color_type compression filter =>
      py_then (py_name_or parse_png_color_type color_type PRgba8) (fun color_type =>
      py_then (py_name_or parse_png_compression compression CDefault) (fun compression =>
      py_then (py_name_or parse_png_filter_type filter FSub) (fun filter =>
      ROk (EPng color_type compression filter))))
  | FormatGif => ROk EGif
  | FormatBmp color_type => py_then (py_name_or parse_bmp_color_type color_type BRgba8) (fun c => ROk (EBmp c))
  | FormatIco color_type => py_then (py_name_or parse_ico_color_type color_type BRgba8) (fun c => ROk (EIco c))
  | FormatWebp quality preset =>
      py_then (py_opt py_u8 quality) (fun quality =>
      py_then (py_name_or parse_webp_preset preset WDefault) (fun preset =>
      ROk (EWebP (or_default quality 85) preset)))
  end.
