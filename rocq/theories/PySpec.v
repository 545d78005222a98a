(** Specification of the Python methods: what an omitted argument means, which
    integers fit, and which operation of the library a call stands for. *)
From Coq Require Import ZArith List Bool String.
From Verif Require Import Base PixelBuffer Geometry F32 Color Blend Resample Kernel Ops Codec Names Image PyImage BufferSpec CliSpec.
Import ListNotations.
Local Open Scope string_scope.
Open Scope Z_scope.

(** The argument, or [d] if it was omitted. *)
Definition given {A} (o : option A) (d : A) : A := match o with Some a => a | None => d end.
(** [v] is the variant called by the given name, or by [d] if it was omitted. *)
Definition called {A} (names : list (string * A)) (o : option string) (d : string) (v : A) : Prop := In (given o d, v) names.
(** The given name is not one of the names. *)
Definition uncalled {A} (names : list (string * A)) (o : option string) (s : string) : Prop :=
  o = Some s /\ forall v, ~ In (s, v) names.

(** The integers of a call, each with the largest value its type has. *)
Definition integers (c : py_call) : list (Z * Z) :=
  let u8 := 255 in let u32 := 4294967295 in let usize := 18446744073709551615 in
  match c with
  | CallCrop x y w h => [(x, u32); (y, u32); (w, u32); (h, u32)]
  | CallResize w h _ => [(w, u32); (h, u32)]
  | CallJpegQuality q _ => [(q, u8)]
  | CallGaussianBlur r _ | CallUnsharp r _ _ | CallDrawing r _ | CallInterlace r => [(r, u32)]
  | CallDespeckle _ (Some n) => [(n, u8)]
  | CallSymmetricNearestNeighbor (Some r) _ => [(r, usize)]
  | _ => []
  end.
Definition fit (l : list (Z * Z)) : Prop := Forall (fun p => 0 <= fst p <= snd p) l.

Section Library.
Context (m : build) (E : encoders) (D : decoders) (L : libm).

(** The documented meaning of every call, with the defaults. *)
Inductive means : py_call -> (Image -> res Image) -> Prop :=
| m_crop x y w h : means (CallCrop x y w h) (image_crop m x y w h)
| m_flip_horizontal : means CallFlipHorizontal (image_flip_horizontal m)
| m_flip_vertical : means CallFlipVertical (image_flip_vertical m)
| m_rotate90 : means CallRotate90 (image_rotate90 m)
| m_rotate180 : means CallRotate180 (image_rotate180 m)
| m_rotate270 : means CallRotate270 (image_rotate270 m)
| m_rotate r n f : called filter_mode_names n "bilinear" f -> means (CallRotate r n) (image_rotate L m r f)
| m_resize w h n f : called filter_mode_names n "bilinear" f -> means (CallResize w h n) (image_resize L m w h f)
| m_resize_pct p n f : called filter_mode_names n "bilinear" f -> means (CallResizePct p n) (image_resize_pct L m p f)
| m_edge n e : called edge_mode_names n "sobel" e -> means (CallEdgeDetection n) (image_edge_detection m e)
| m_jpeg q a : means (CallJpegQuality q a) (image_with_jpeg_quality m E D L q (given a true))
| m_blur r s : means (CallGaussianBlur r s) (image_gaussian_blur L m r s)
| m_unsharp r f s : means (CallUnsharp r f s) (image_unsharp L m r (given f (ofZ 1)) s)
| m_drawing r n d : called drawing_mode_names n "colored" d -> means (CallDrawing r n) (image_drawing L m r d)
| m_interlace o : means (CallInterlace o) (image_interlace m o)
| m_palette p : means (CallApplyPalette p) (image_apply_palette L p)
| m_despeckle t n : means (CallDespeckle t n) (image_despeckle m (given t (dec 1 10)) (given n 1))
| m_neighbor r c : means (CallSymmetricNearestNeighbor r c) (image_symmetric_nearest_neighbor m (given r 4) (given c true))
| m_blend i n op s : called blend_op_names n "normal" op -> means (CallBlend i n s) (image_blend L m i op (given s (ofZ 1)))
| m_stretch t : means (CallStretchContrast t) (image_stretch_contrast L (given t (dec 1 2)))
| m_saturation o n s : called saturation_mode_names n "hsl" s ->
    means (CallOptimizeSaturation o n) (image_optimize_saturation L (given o (ofZ 1)) s)
| m_temperature a b t : means (CallChangeColorTemperature a b t) (image_change_color_temperature L a b (given t (ofZ 0)))
| m_optimize_temperature f t : means (CallOptimizeColorTemperature f t) (image_optimize_color_temperature L f (given t (ofZ 0)))
| m_lightness f : means (CallOptimizeLightness f) (image_optimize_lightness L f)
| m_white_balance t : means (CallWhiteBalance t) (image_balance L BRgb (given t (dec 1 2)))
| m_balance n b t : called balance_mode_names n "rgb" b -> means (CallBalance n t) (image_balance L b (given t (dec 1 2)))
| m_equalize n e : called equalize_mode_names n "srgb" e -> means (CallEqualize n) (image_equalize L m e).
End Library.

(** A call whose name [s] is none of the enum type [ty]. *)
Inductive unknown_name (s : string) : py_call -> string -> Prop :=
| u_rotate r n : uncalled filter_mode_names n s -> unknown_name s (CallRotate r n) "FilterMode"
| u_resize w h n : uncalled filter_mode_names n s -> unknown_name s (CallResize w h n) "FilterMode"
| u_resize_pct p n : uncalled filter_mode_names n s -> unknown_name s (CallResizePct p n) "FilterMode"
| u_edge n : uncalled edge_mode_names n s -> unknown_name s (CallEdgeDetection n) "EdgeDetection"
| u_drawing r n : uncalled drawing_mode_names n s -> unknown_name s (CallDrawing r n) "DrawingMode"
| u_blend i n a : uncalled blend_op_names n s -> unknown_name s (CallBlend i n a) "BlendOp"
| u_saturation o n : uncalled saturation_mode_names n s -> unknown_name s (CallOptimizeSaturation o n) "SaturationMode"
| u_balance n t : uncalled balance_mode_names n s -> unknown_name s (CallBalance n t) "BalanceMode"
| u_equalize n : uncalled equalize_mode_names n s -> unknown_name s (CallEqualize n) "EqualizeMode".

(** ** Encoding formats *)

Definition format_integers (f : py_format) : list (Z * Z) :=
  match f with
  | FormatJpeg (Some q) _ _ _ _ => [(q, 255)]
  | FormatWebp (Some q) _ => [(q, 255)]
  | _ => []
  end.
Inductive format_means : py_format -> EncodingFormat -> Prop :=
| fm_jpeg q p n s g o : match n with Some n => exists v, s = Some v /\ In (n, v) jpeg_sampling_factor_names | None => s = None end ->
    format_means (FormatJpeg q p n g o) (EJpeg (given q 85) (given p false) s (given g false) (given o true))
| fm_png a b c ct comp filter : called png_color_type_names a "rgba8" ct -> called png_compression_names b "default" comp ->
    called png_filter_type_names c "sub" filter -> format_means (FormatPng a b c) (EPng ct comp filter)
| fm_gif : format_means FormatGif EGif
| fm_bmp a ct : called bmp_color_type_names a "rgba8" ct -> format_means (FormatBmp a) (EBmp ct)
| fm_ico a ct : called bmp_color_type_names a "rgba8" ct -> format_means (FormatIco a) (EIco ct)
| fm_webp q a p : called webp_preset_names a "default" p -> format_means (FormatWebp q a) (EWebP (given q 85) p).
(** The first unknown name. *)
Inductive format_unknown (s : string) : py_format -> string -> Prop :=
| fu_jpeg q p n g o : uncalled jpeg_sampling_factor_names n s -> format_unknown s (FormatJpeg q p n g o) "JpegSamplingFactor"
| fu_png_a a b c : uncalled png_color_type_names a s -> format_unknown s (FormatPng a b c) "PngColorType"
| fu_png_b a b c : (exists v, called png_color_type_names a "rgba8" v) -> uncalled png_compression_names b s ->
    format_unknown s (FormatPng a b c) "PngCompression"
| fu_png_c a b c : (exists v, called png_color_type_names a "rgba8" v) -> (exists v, called png_compression_names b "default" v) ->
    uncalled png_filter_type_names c s -> format_unknown s (FormatPng a b c) "PngFilterType"
| fu_bmp a : uncalled bmp_color_type_names a s -> format_unknown s (FormatBmp a) "BmpColorType"
| fu_ico a : uncalled bmp_color_type_names a s -> format_unknown s (FormatIco a) "IcoColorType"
| fu_webp q a : uncalled webp_preset_names a s -> format_unknown s (FormatWebp q a) "WebPPreset".

(** The constructors without arguments. *)
Definition plain_formats : list py_format :=
  [FormatJpeg None None None None None; FormatPng None None None; FormatGif; FormatBmp None; FormatIco None; FormatWebp None None].
(** A WebP library that writes the quality it is asked for. *)
Definition quality_writer : encoders := fun j => match j with JobWebP _ q _ _ _ _ => ([Write [q]], true) | _ => ([], true) end.

(** ** Functions over all pixels *)

(** The pixels of an image with their coordinates, row by row. *)
Definition pixels (i : Image) : list (Z * Z * Rgb) :=
  combine (row_major (width (buffer i)) (height (buffer i))) (data (buffer i)).
(** The function called with one of them. *)
Definition at_pixel {S X} (f : S -> Z -> Z -> Rgb -> res (S * Result Rgb X)) (s : S) (p : Z * Z * Rgb) : res (S * Result Rgb X) :=
  let '(x, y, c) := p in f s x y c.
(** An image with the same size and metadata and other pixels. *)
Definition same_with (i : Image) (d : list Rgb) : Image :=
  mkImage (mkPB (width (buffer i)) (height (buffer i)) d) (bg_color i).
