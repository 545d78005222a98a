(** Property theorems, generated from ImageThm.v by tools/mkp.py. *)

From Coq Require Import Reals.
From Coq Require Import ZArith List Bool String.
From Flocq Require Import BinarySingleNaN.
From Verif Require Import Base PixelBuffer BufferSpec F32 Color ColorSpec Resample Kernel Ops OpsSpec Codec CodecSpec Commands Image ImageSpec.
Import ListNotations.
Open Scope Z_scope.

From Verif Require Import ImageThm.


(** C67: every call that returns keeps the background colour of the image it
    is made on and gives a well-formed image of the size it documents. *)

Theorem C67_calls_keep_metadata : forall R (e : env R) i others i' size, good_decoders (e_dec e) ->
  good_image i -> (forall o, In o others -> good_image o) -> call_on e i others i' size ->
  bg_color i' = bg_color i /\ good_image i' /\
  forall w h, size = Some (w, h) -> width (buffer i') = w /\ height (buffer i') = h.
Proof. exact calls_keep_metadata. Qed.
Print Assumptions C67_calls_keep_metadata.


(** C67: so every image a program can make is well-formed and has no
    background colour. *)

Theorem C67_obtainable_images : forall R (e : env R) i, good_decoders (e_dec e) -> obtainable e i ->
  good_image i /\ bg_color i = None.
Proof. exact obtainable_images. Qed.
Print Assumptions C67_obtainable_images.


(** C67: and free rotation of such an image fills uncovered pixels with
    transparent black. *)

Theorem C67_rotation_fill : forall R (e : env R) i a f i', good_decoders (e_dec e) -> obtainable e i ->
  image_rotate (e_libm e) (e_build e) a f i = Ok i' ->
  rotate (e_libm e) (e_build e) (buffer i) a (mkC f0 f0 f0 f0) f = Ok (buffer i') /\
  (f = Nearest -> forall c, In c (data (buffer i')) -> In c (data (buffer i)) \/ c = mkC f0 f0 f0 f0).
Proof. exact rotation_fill. Qed.
Print Assumptions C67_rotation_fill.

Example C67_calls_example :
  let g := mkRng Z (fun s => (s + 1, f0)) (fun s => (s + 1, f1)) (fun s => (s + 1, s mod 3)) (fun s => (s + 1, f1)) in
  let e := mkEnv Z example_libm Checked g example_encoders example_decoders in
  let i := mkImage (mkPB 2 1 [RGB_BLACK; RGB_WHITE]) (Some RGB_WHITE) in
  good_image i /\
  call_on e i [] (mkImage (mkPB 1 2 [RGB_BLACK; RGB_WHITE]) (Some RGB_WHITE)) (Some (1, 2)) /\
  obtainable e (mkImage (mkPB 1 2 [RGB_BLACK; RGB_WHITE]) None).
Proof. exact calls_example. Qed.


(** C68: resize_pct by [p] percent scales both sides by [p] / 100, rounded to
    the nearest number and not below 1. *)

Theorem C68_resize_pct_sides : forall L m i p f i', good_image i -> nonempty (buffer i) ->
  is_finite p = true -> (0 <= B2R p)%R -> image_resize_pct L m p f i = Ok i' ->
  1 <= width (buffer i') /\ scaled_to (width (buffer i')) (percent p (width (buffer i))) /\
  1 <= height (buffer i') /\ scaled_to (height (buffer i')) (percent p (height (buffer i))).
Proof. exact resize_pct_sides. Qed.
Print Assumptions C68_resize_pct_sides.


(** C68: it succeeds when the size asked for is well below the limit. *)

Theorem C68_resize_pct_succeeds : forall L m i p f, good_image i -> nonempty (buffer i) -> is_finite p = true -> (0 <= B2R p)%R ->
  (f = Auto -> width (buffer i) <= 268435456 /\ height (buffer i) <= 268435456) ->
  (let side n := Rmax 1 (percent p n) * (1 + / 4194304) + 1 in side (width (buffer i)) * side (height (buffer i)) <= 1073741823)%R ->
  exists i', image_resize_pct L m p f i = Ok i'.
Proof. exact resize_pct_succeeds. Qed.
Print Assumptions C68_resize_pct_succeeds.


(** C68: 100 percent gives the same image back. *)

Theorem C68_resize_pct_100 : forall L m i f, 0 < width (buffer i) < 16777216 -> 0 < height (buffer i) < 16777216 ->
  image_resize_pct L m (ofZ 100) f i = Ok i.
Proof. exact resize_pct_100. Qed.
Print Assumptions C68_resize_pct_100.


(** C68: a percentage that is not above 0 (or not a number) gives one pixel. *)

Theorem C68_resize_pct_nonpositive : forall L m i p f i', good_image i -> nonempty (buffer i) -> flt f0 p = false ->
  image_resize_pct L m p f i = Ok i' -> width (buffer i') = 1 /\ height (buffer i') = 1.
Proof. exact resize_pct_nonpositive. Qed.
Print Assumptions C68_resize_pct_nonpositive.

Example C68_resize_pct_example :
  let i := mkImage (mkPB 3 2 (repeat RGB_WHITE 6)) None in
  let size p := match image_resize_pct example_libm Checked p Nearest i with Ok i' => (width (buffer i'), height (buffer i')) | Panic => (0, 0) end in
  size (ofZ 200) = (6, 4) /\ size (dec 333 10) = (1, 1) /\ size (ofZ 50) = (2, 1) /\ size (ofZ (-5)) = (1, 1) /\ size fnan = (1, 1).
Proof. exact resize_pct_example. Qed.


(** C82: has_transparency tells exactly whether some pixel is more transparent
    than 1/32768. *)

Theorem C82_has_transparency_exact : forall i, good_image i -> every_pixel (buffer i) (fun c => in01 (alpha c)) ->
  (image_has_transparency i = true <-> some_pixel (buffer i) see_through).
Proof. exact has_transparency_exact. Qed.
Print Assumptions C82_has_transparency_exact.


(** C82: is_grayscale never holds with a channel difference of 1/32768 or
    more, and always holds with differences slightly below that. *)

Theorem C82_is_grayscale_bounds : forall i, good_image i -> every_pixel (buffer i) in_gamut ->
  (image_is_grayscale i = true -> every_pixel (buffer i) (gray_below (/ 32768))) /\
  (every_pixel (buffer i) (gray_below (/ 32768 * (1 - / 16777216))) -> image_is_grayscale i = true).
Proof. exact is_grayscale_bounds. Qed.
Print Assumptions C82_is_grayscale_bounds.

Example C82_inspection_example :
  let i cs := mkImage (mkPB (zlen cs) 1 cs) None in
  image_has_transparency (i [RGB_WHITE; RGB_BLACK]) = false /\ image_has_transparency (i [RGB_WHITE; RGB_NONE]) = true /\
  image_has_transparency (i [mkC f0 f0 f0 (fsub f1 (dec 1 32768)); RGB_BLACK]) = false /\ image_has_transparency (i [mkC f0 f0 f0 (fsub f1 (dec 1 16384)); RGB_BLACK]) = true /\
  image_is_grayscale (i [RGB_WHITE; RGB_NONE]) = true /\ image_is_grayscale (i [RGB_WHITE; mkC f0 (dec 1 16384) f0 f1]) = false /\
  image_is_grayscale (i [RGB_WHITE; mkC f0 f0 (dec 1 32768) f1]) = false /\ image_is_grayscale (i [mkC f0 f0 (dec 1 65536) f1]) = true.
Proof. exact inspection_example. Qed.


(** C53: saving to memory gives exactly the bytes the encoder writes if it
    succeeds, and its error otherwise. *)

Theorem C53_save_to_buffer : forall E L i f,
  (forall e, make_job L (buffer i) f = RErr e -> image_save_to_buffer E L i f = RErr e) /\
  (forall j ops ok, make_job L (buffer i) f = ROk j -> E j = (ops, ok) ->
     image_save_to_buffer E L i f = if ok then ROk (output ops) else RErr EEncoding).
Proof. exact save_to_buffer. Qed.
Print Assumptions C53_save_to_buffer.

Example C53_save_to_buffer_example : let b := mkPB 1 1 [mkC f1 f0 f1 f1] in
  make_job example_libm (mkPB 65536 1 (repeat (mkC f1 f0 f1 f1) (Z.to_nat 65536))) EGif = RErr (EBadDimensions 65536 1) /\
  image_save_to_buffer example_encoders example_libm (mkImage b None) bmp_default = ROk [66; 77; 1; 1; 254; 0; 254; 255].
Proof. exact save_to_buffer_example. Qed.


(** C77: white balance stretches red, green and blue, each between its own
    black and white point, and keeps alpha and the background colour. *)

Theorem C77_white_balance : forall L t i, good_image i ->
  exists i', image_white_balance L t i = Ok i' /\ good_image i' /\ bg_color i' = bg_color i /\
    width (buffer i') = width (buffer i) /\ height (buffer i') = height (buffer i) /\
    forall m x y, inside (buffer i) x y -> exists c c', get_pixel m (buffer i) x y = Ok c /\ get_pixel m (buffer i') x y = Ok c' /\
      let t' := fdiv t (ofZ 1000) in
      balanced L t' d0 (data (buffer i)) (d0 c) (d0 c') /\ balanced L t' d1 (data (buffer i)) (d1 c) (d1 c') /\
      balanced L t' d2 (data (buffer i)) (d2 c) (d2 c') /\ alpha c' = alpha c.
Proof. exact white_balance. Qed.
Print Assumptions C77_white_balance.

Example C77_white_balance_example : good_image (mkImage (mkPB 1 1 [RGB_WHITE]) (Some RGB_BLACK)).
Proof. exact white_balance_example. Qed.
