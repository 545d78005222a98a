(** Property theorems, generated from PyThm.v by tools/mkp.py. *)

From Coq Require Import ZArith List Bool String.
From Verif Require Import Base PixelBuffer BufferSpec Geometry F32 Color Blend Resample Kernel Ops Codec CodecSpec Names Image
  ImageSpec PyImage CliSpec PySpec.
Import ListNotations.
Local Open Scope string_scope.
Open Scope Z_scope.
From Coq Require Import Lia ZifyBool.
From Verif Require Import BaseLemmas PixelBufferProofs EnumProofs GeometryProofs ComposeProofs PyProofs BufferThm CliThm.

From Verif Require Import PyThm.


(** C111: [Image(w, h, color)] for any two Python integers: an image of that
    size filled with the colour (or with transparent black), a panic if an
    image cannot have that size, an OverflowError if it does not fit. *)

Theorem C111_python_new : forall m w h color,
  (valid_size w h -> exists i, py_new m w h color = Ok (ROk i) /\ good_image i /\
     width (buffer i) = w /\ height (buffer i) = h /\ bg_color i = None /\
     forall c, In c (py_to_list i) -> c = given color RGB_NONE) /\
  (is_u32 w -> is_u32 h -> ~ valid_size w h -> py_new m w h color = Panic) /\
  (~ (is_u32 w /\ is_u32 h) -> py_new m w h color = Ok (RErr OverflowError)).
Proof. exact python_new. Qed.
Print Assumptions C111_python_new.


(** C111: a list becomes an image exactly if its length is the number of
    pixels of a possible size; [to_list] is the inverse; [len] is the number of
    pixels. *)

Theorem C111_python_lists : forall w h l, is_u32 w -> is_u32 h ->
  (valid_size w h -> zlen l = w * h -> exists i, py_from_list w h l = Ok (ROk i) /\ good_image i /\
     width (buffer i) = w /\ height (buffer i) = h /\ py_to_list i = l /\ py_len i = w * h) /\
  (~ (valid_size w h /\ zlen l = w * h) -> py_from_list w h l = Panic).
Proof. exact python_lists. Qed.
Print Assumptions C111_python_lists.

Theorem C111_python_list_round_trip : forall i, good_image i ->
  py_len i = width (buffer i) * height (buffer i) /\
  py_from_list (width (buffer i)) (height (buffer i)) (py_to_list i) = Ok (ROk (mkImage (buffer i) None)).
Proof. exact python_list_round_trip. Qed.
Print Assumptions C111_python_list_round_trip.


(** C111: [img[x, y]] for any two Python integers: the pixel if there is one,
    otherwise an exception, never a panic.  [get_pixel] gives None instead of
    the OSError, [is_in_image] tells which. *)

Theorem C111_python_getitem : forall m i x y, good_image i ->
  (inside (buffer i) x y -> exists c, get_pixel m (buffer i) x y = Ok c /\ py_getitem m i x y = Ok (ROk c) /\
     py_get_pixel m i x y = Ok (ROk (Some c)) /\ py_is_in_image i x y = Ok (ROk true)) /\
  (~ inside (buffer i) x y -> is_i32 x -> is_i32 y -> py_getitem m i x y = Ok (RErr (OSErrorRange y x)) /\
     py_get_pixel m i x y = Ok (ROk None) /\ py_is_in_image i x y = Ok (ROk false)) /\
  (~ (is_i32 x /\ is_i32 y) -> py_getitem m i x y = Ok (RErr OverflowError) /\
     py_get_pixel m i x y = Ok (RErr OverflowError) /\ py_is_in_image i x y = Ok (RErr OverflowError)).
Proof. exact python_getitem. Qed.
Print Assumptions C111_python_getitem.


(** C111: [img[x, y] = c] and [put_pixel]: inside exactly that pixel changes.  A
    user expects an exception outside, as for reading; the code violates that:
    it is one only for integers that do not fit u32 (negative ones among
    them), all others panic. *)

Theorem C111_python_setitem_refuted : forall m i x y c, good_image i ->
  py_setitem m i x y c = py_put_pixel m i x y c /\
  (inside (buffer i) x y -> exists i', py_setitem m i x y c = Ok (ROk i') /\ good_image i' /\
     width (buffer i') = width (buffer i) /\ height (buffer i') = height (buffer i) /\ bg_color i' = bg_color i /\
     forall x' y', inside (buffer i) x' y' ->
       get_pixel m (buffer i') x' y' = if (x' =? x) && (y' =? y) then Ok c else get_pixel m (buffer i) x' y') /\
  (~ inside (buffer i) x y -> is_u32 x -> is_u32 y -> py_setitem m i x y c = Panic) /\
  (~ (is_u32 x /\ is_u32 y) -> py_setitem m i x y c = Ok (RErr OverflowError)).
Proof. exact python_setitem_refuted. Qed.
Print Assumptions C111_python_setitem_refuted.


(** C111: [mod_colors] and [mod_colors_enumerated] call the Python function once
    per pixel in row-major order and store what it returns.  If it raises, the
    exception is passed on and the pixels before that one stay changed. *)

Theorem C111_python_mod_colors : forall S X (f : S -> Rgb -> res (S * Result Rgb X)) s i s' i' r,
  py_mod_colors f s i = Ok (s', i', r) <->
  exists d, i' = same_with i d /\
  match r with
  | ROk _ => runs (call_ok f) s (py_to_list i) s' d
  | RErr e => exists pre new p post, first_error f s (py_to_list i) s' e pre new p post /\ d = (new ++ p :: post)%list
  end.
Proof. exact python_mod_colors. Qed.
Print Assumptions C111_python_mod_colors.

Theorem C111_python_mod_colors_enumerated : forall S X (f : S -> Z -> Z -> Rgb -> res (S * Result Rgb X)) s i s' i' r, good_image i ->
  py_mod_colors_enumerated f s i = Ok (s', i', r) <->
  exists d, i' = same_with i d /\
  match r with
  | ROk _ => runs (call_ok (at_pixel f)) s (pixels i) s' d
  | RErr e => exists pre new p post, first_error (at_pixel f) s (pixels i) s' e pre new p post /\ d = (new ++ map snd (p :: post))%list
  end.
Proof. exact python_mod_colors_enumerated. Qed.
Print Assumptions C111_python_mod_colors_enumerated.


(** C111: [map_colors] and [map_colors_enumerated] do the same for a new image
    and return none if the function raises; the image itself is not changed. *)

Theorem C111_python_map_colors : forall S X (f : S -> Rgb -> res (S * Result Rgb X)) s i s' r,
  py_map_colors f s i = Ok (s', r) <->
  match r with
  | ROk i' => exists d, i' = same_with i d /\ runs (call_ok f) s (py_to_list i) s' d
  | RErr e => exists pre new p post, first_error f s (py_to_list i) s' e pre new p post
  end.
Proof. exact python_map_colors. Qed.
Print Assumptions C111_python_map_colors.

Theorem C111_python_map_colors_enumerated : forall S X (f : S -> Z -> Z -> Rgb -> res (S * Result Rgb X)) s i s' r, good_image i ->
  py_map_colors_enumerated f s i = Ok (s', r) <->
  match r with
  | ROk i' => exists d, i' = same_with i d /\ runs (call_ok (at_pixel f)) s (pixels i) s' d
  | RErr e => exists pre new p post, first_error (at_pixel f) s (pixels i) s' e pre new p post
  end.
Proof. exact python_map_colors_enumerated. Qed.
Print Assumptions C111_python_map_colors_enumerated.


(** C111: [Image.compose]: the function gets the coordinates and the pixels of
    all images there, with the default colour (transparent black) where an
    image has none; the result is as large as the largest, with the metadata
    of the first; without images it panics. *)

Theorem C111_python_compose : forall S X m images default (f : S -> Z -> Z -> list Rgb -> res (S * Result Rgb X)) s s' i,
  Forall good_image images -> py_compose m images default f s = Ok (s', ROk i) ->
  good_image i /\ (exists first rest, images = first :: rest /\ bg_color i = bg_color first) /\
  (forall a, In a images -> width (buffer a) <= width (buffer i) /\ height (buffer a) <= height (buffer i)) /\
  (exists a, In a images /\ width (buffer a) = width (buffer i)) /\
  (exists a, In a images /\ height (buffer a) = height (buffer i)) /\
  exists seen : Z -> Z -> list Rgb,
    (forall x y, inside (buffer i) x y ->
      Forall2 (fun a c => (inside (buffer a) x y -> get_pixel m (buffer a) x y = Ok c) /\
                          (~ inside (buffer a) x y -> c = given default RGB_NONE)) images (seen x y)) /\
    runs (call_ok (fun s p => f s (fst p) (snd p) (seen (fst p) (snd p)))) s
         (row_major (width (buffer i)) (height (buffer i))) s' (py_to_list i).
Proof. exact python_compose. Qed.
Print Assumptions C111_python_compose.

Theorem C111_python_compose_raises : forall S X m images default (f : S -> Z -> Z -> list Rgb -> res (S * Result Rgb X)) s,
  py_compose m [] default f s = Panic /\
  forall s' e, Forall good_image images -> py_compose m images default f s = Ok (s', RErr e) ->
    exists w h (seen : Z -> Z -> list Rgb) pre vs p post,
      (forall x y, 0 <= x < w -> 0 <= y < h ->
        Forall2 (fun a c => (inside (buffer a) x y -> get_pixel m (buffer a) x y = Ok c) /\
                            (~ inside (buffer a) x y -> c = given default RGB_NONE)) images (seen x y)) /\
      first_error (fun s p => f s (fst p) (snd p) (seen (fst p) (snd p))) s (row_major w h) s' e pre vs p post.
Proof. exact python_compose_raises. Qed.
Print Assumptions C111_python_compose_raises.

Example C111_python_pixels_example :
  let i := mkImage (mkPB 2 1 [RGB_NONE; mkC f1 f0 f0 f1]) None in
  good_image i /\ py_getitem Checked i 1 0 = Ok (ROk (mkC f1 f0 f0 f1)) /\
  py_getitem Checked i 2 0 = Ok (RErr (OSErrorRange 0 2)) /\ py_getitem Checked i (-1) 0 = Ok (RErr (OSErrorRange 0 (-1))) /\
  py_setitem Checked i 2 0 RGB_NONE = Panic /\ py_setitem Checked i (-1) 0 RGB_NONE = Ok (RErr OverflowError) /\
  py_setitem Checked i 1 0 RGB_NONE = Ok (ROk (mkImage (mkPB 2 1 [RGB_NONE; RGB_NONE]) None)) /\
  py_mod_colors_enumerated (fun n x y c => Ok (n + 1, if x =? 0 then ROk (mkC f0 f1 f0 f1) else RErr "ValueError")) 0 i =
    Ok (2, mkImage (mkPB 2 1 [mkC f0 f1 f0 f1; mkC f1 f0 f0 f1]) None, RErr "ValueError").
Proof. exact python_pixels_example. Qed.


(** C112: every call of a method that returns a new image: an integer that does
    not fit raises OverflowError, an unknown name an OSError with that name,
    both before anything is computed; otherwise it is the library's operation
    with the documented value for every omitted argument. *)

Theorem C112_python_calls : forall m E D L i c,
  (~ fit (integers c) -> py_run m E D L i c = Ok (RErr OverflowError)) /\
  (fit (integers c) -> forall s ty, unknown_name s c ty -> py_run m E D L i c = Ok (RErr (OSErrorName (mkPEE s ty)))) /\
  (fit (integers c) -> forall op, means m E D L c op -> py_run m E D L i c = (r <- op i; Ok (ROk r))) /\
  ((exists op, means m E D L c op) \/ exists s ty, unknown_name s c ty).
Proof. exact python_calls. Qed.
Print Assumptions C112_python_calls.


(** C112: in particular an omitted argument is the same as its default. *)

Theorem C112_python_defaults : forall m E D L i,
  (forall r, py_run m E D L i (CallRotate r None) = py_run m E D L i (CallRotate r (Some "bilinear"))) /\
  (forall w h, py_run m E D L i (CallResize w h None) = py_run m E D L i (CallResize w h (Some "bilinear"))) /\
  (forall p, py_run m E D L i (CallResizePct p None) = py_run m E D L i (CallResizePct p (Some "bilinear"))) /\
  py_run m E D L i (CallEdgeDetection None) = py_run m E D L i (CallEdgeDetection (Some "sobel")) /\
  (forall q, py_run m E D L i (CallJpegQuality q None) = py_run m E D L i (CallJpegQuality q (Some true))) /\
  (forall r s, py_run m E D L i (CallUnsharp r None s) = py_run m E D L i (CallUnsharp r (Some (ofZ 1)) s)) /\
  (forall r, py_run m E D L i (CallDrawing r None) = py_run m E D L i (CallDrawing r (Some "colored"))) /\
  py_run m E D L i (CallDespeckle None None) = py_run m E D L i (CallDespeckle (Some (dec 1 10)) (Some 1)) /\
  py_run m E D L i (CallSymmetricNearestNeighbor None None) = py_run m E D L i (CallSymmetricNearestNeighbor (Some 4) (Some true)) /\
  (forall o, py_run m E D L i (CallBlend o None None) = py_run m E D L i (CallBlend o (Some "normal") (Some (ofZ 1)))) /\
  py_run m E D L i (CallStretchContrast None) = py_run m E D L i (CallStretchContrast (Some (dec 1 2))) /\
  py_run m E D L i (CallOptimizeSaturation None None) = py_run m E D L i (CallOptimizeSaturation (Some (ofZ 1)) (Some "hsl")) /\
  (forall a b, py_run m E D L i (CallChangeColorTemperature a b None) = py_run m E D L i (CallChangeColorTemperature a b (Some (ofZ 0)))) /\
  (forall f, py_run m E D L i (CallOptimizeColorTemperature f None) = py_run m E D L i (CallOptimizeColorTemperature f (Some (ofZ 0)))) /\
  py_run m E D L i (CallWhiteBalance None) = py_run m E D L i (CallBalance (Some "rgb") (Some (dec 1 2))) /\
  py_run m E D L i (CallBalance None None) = py_run m E D L i (CallBalance (Some "rgb") (Some (dec 1 2))) /\
  py_run m E D L i (CallEqualize None) = py_run m E D L i (CallEqualize (Some "srgb")).
Proof. exact python_defaults. Qed.
Print Assumptions C112_python_defaults.


(** C112: the constructors of EncodingFormat, with the same rules. *)

Theorem C112_python_formats : forall f,
  (~ fit (format_integers f) -> py_make_format f = RErr OverflowError) /\
  (fit (format_integers f) -> forall s ty, format_unknown s f ty -> py_make_format f = RErr (OSErrorName (mkPEE s ty))) /\
  (fit (format_integers f) -> forall e, format_means f e -> py_make_format f = ROk e) /\
  ((exists e, format_means f e) \/ exists s ty, format_unknown s f ty).
Proof. exact python_formats. Qed.
Print Assumptions C112_python_formats.


(** C112: a user expects [save(path)] and [save(path, format)] with the format
    of the path and no further arguments to write the same file.  That holds
    for all formats but WebP, where the code violates it: without a format the
    quality is 90, with EncodingFormat.webp() it is 85. *)

Theorem C112_python_save_defaults_refuted : forall L s i path f e, In f plain_formats -> py_make_format f = ROk e ->
  format_from_path path = Some (format_of e) ->
  (format_of e <> WebP -> forall E, py_save E L s i path None = py_save E L s i path (Some e)) /\
  (format_of e = WebP -> creatable s path = true -> 1 <= limits s path ->
     files (fst (py_save quality_writer L s i path None)) path = Some [90] /\
     files (fst (py_save quality_writer L s i path (Some e))) path = Some [85]).
Proof. exact python_save_defaults_refuted. Qed.
Print Assumptions C112_python_save_defaults_refuted.

Example C112_python_save_example : forall E D L i, py_make_format (FormatWebp None None) = ROk (EWebP 85 WDefault) /\
  py_make_format (FormatWebp (Some 256) (Some "nonsense")) = RErr OverflowError /\
  py_make_format (FormatPng None (Some "fastest") (Some "")) = RErr (OSErrorName (mkPEE "fastest" "PngCompression")) /\
  format_from_path "a.webp" = Some WebP /\
  py_run Checked E D L i (CallResize (-1) 5 (Some "x")) = Ok (RErr OverflowError) /\
  py_run Checked E D L i (CallResize 1 5 (Some "x")) = Ok (RErr (OSErrorName (mkPEE "x" "FilterMode"))).
Proof. exact python_save_example. Qed.
