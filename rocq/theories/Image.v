(** Model of d10/src/image.rs: an image is a buffer of Rgb pixels and an
    optional background colour.  [L] is the mathematical library, [m] the
    build, [g] the random number generator, [E] and [D] the codec libraries. *)
From Coq Require Import ZArith List Bool String.
From Verif Require Import Base PixelBuffer Geometry F32 Color Blend Resample Kernel Ops Codec.
Import ListNotations.
Open Scope Z_scope.

(** image.rs:13-17 *)
Record Image := mkImage { buffer : PixelBuffer Rgb; bg_color : option Rgb }.

(** image.rs:41-46 *)
Definition new_from_buffer (b : PixelBuffer Rgb) : Image := mkImage b None.
(** image.rs:57-62 *)
Definition new_from_buffer_with_meta (orig_image : Image) (b : PixelBuffer Rgb) : Image :=
  mkImage b (bg_color orig_image).
(** image.rs:20-25; the default colour is NONE (rgb.rs:366-370) *)
Definition image_new (m : build) (w h : Z) : res Image :=
  b <- new m RGB_NONE w h; Ok (mkImage b None).
(** image.rs:27-32 *)
Definition image_new_with_color (m : build) (w h : Z) (color : Rgb) : res Image :=
  b <- new_with_color m w h color; Ok (mkImage b None).
(** image.rs:34-39 *)
Definition image_new_from_raw (w h : Z) (d : list Rgb) : res Image :=
  b <- new_from_raw w h d; Ok (mkImage b None).
(** image.rs:48-55 *)
Definition new_from_raw_with_meta (orig_image : Image) (w h : Z) (d : list Rgb) : res Image :=
  b <- new_from_raw w h d; Ok (new_from_buffer_with_meta orig_image b).

(** image.rs:64-70 *)
Definition image_open (m : build) (D : decoders) (L : libm) (s : fs) (path : string)
  : res (Result Image DecodingError) :=
  r <- decode_file m D L s path;
  Ok (match r with ROk b => ROk (new_from_buffer b) | RErr e => RErr e end).
(** image.rs:72-75 *)
Definition image_read_from_buffer (m : build) (D : decoders) (L : libm) (contents : list Z)
  : res (Result Image DecodingError) :=
  r <- decode_buffer m D L contents;
  Ok (match r with ROk b => ROk (new_from_buffer b) | RErr e => RErr e end).
(** image.rs:77-82 *)
Definition image_save (E : encoders) (L : libm) (s : fs) (i : Image) (path : string) : fs * Result unit EncodingError :=
  encode_to_file E L s path (buffer i) None.
(** image.rs:84-89 *)
Definition image_save_with_format (E : encoders) (L : libm) (s : fs) (i : Image) (path : string) (f : EncodingFormat)
  : fs * Result unit EncodingError :=
  encode_to_file E L s path (buffer i) (Some f).
(** image.rs:91-96 *)
Definition image_save_to_writer {W} (E : encoders) (L : libm) (wr : writer W) (w : W) (i : Image) (f : EncodingFormat)
  : W * Result unit EncodingError := encode E L wr w (buffer i) f.
(** image.rs:98-102 *)
Definition image_save_to_buffer (E : encoders) (L : libm) (i : Image) (f : EncodingFormat) : Result (list Z) EncodingError :=
  let '(out, r) := encode E L vec_writer [] (buffer i) f in
  match r with ROk _ => ROk out | RErr e => RErr e end.

(** pixelbuffer.rs:328-330, image.rs:132-134 *)
Definition buffer_has_transparency (b : PixelBuffer Rgb) : bool := existsb has_transparency (data b).
Definition image_has_transparency (i : Image) : bool := buffer_has_transparency (buffer i).
(** image.rs:136-138 *)
Definition image_is_grayscale (i : Image) : bool := buffer_is_grayscale (buffer i).

(** The methods that change the buffer in place keep the rest of the image;
    those that return a new one pass the background colour on. *)
Definition in_place (i : Image) (r : res (PixelBuffer Rgb)) : res Image :=
  b <- r; Ok (mkImage b (bg_color i)).
Definition with_meta (i : Image) (r : res (PixelBuffer Rgb)) : res Image :=
  b <- r; Ok (new_from_buffer_with_meta i b).
(** The same for methods that advance the state of a closure or generator. *)
Definition in_place_st {S} (i : Image) (r : res (S * PixelBuffer Rgb)) : res (S * Image) :=
  '(s, b) <- r; Ok (s, mkImage b (bg_color i)).
Definition with_meta_st {S} (i : Image) (r : res (S * PixelBuffer Rgb)) : res (S * Image) :=
  '(s, b) <- r; Ok (s, new_from_buffer_with_meta i b).

(** image.rs:140-142; an [Fn] closure has no state *)
Definition image_mod_colors (f : Rgb -> res Rgb) (i : Image) : res Image :=
  '(_, r) <- in_place_st i (mod_colors (fun (_ : unit) c => c <- f c; Ok (tt, c)) tt (buffer i)); Ok r.
(** image.rs:144-146: the image is left as modified up to the error *)
Definition image_try_mod_colors {E} (f : Rgb -> res (Result Rgb E)) (i : Image) : res (Image * Result unit E) :=
  '(_, b, r) <- try_mod_colors (fun (_ : unit) c => c <- f c; Ok (tt, c)) tt (buffer i);
  Ok (mkImage b (bg_color i), r).
(** image.rs:148-150 *)
Definition image_mod_colors_enumerated (f : Z -> Z -> Rgb -> res Rgb) (i : Image) : res Image :=
  in_place i (mod_colors_enumerated f (buffer i)).
(** image.rs:152-157 *)
Definition image_try_mod_colors_enumerated {E} (f : Z -> Z -> Rgb -> res (Result Rgb E)) (i : Image)
  : res (Image * Result unit E) :=
  '(b, r) <- try_mod_colors_enumerated f (buffer i); Ok (mkImage b (bg_color i), r).
(** image.rs:159-161 *)
Definition image_map_colors {S} (f : S -> Rgb -> res (S * Rgb)) (s : S) (i : Image) : res (S * Image) :=
  with_meta_st i (map_colors f s (buffer i)).
(** image.rs:163-168 *)
Definition image_try_map_colors {S E} (f : S -> Rgb -> res (S * Result Rgb E)) (s : S) (i : Image)
  : res (S * Result Image E) :=
  '(s, r) <- try_map_colors f s (buffer i);
  Ok (s, match r with ROk b => ROk (new_from_buffer_with_meta i b) | RErr e => RErr e end).
(** image.rs:170-172 *)
Definition image_map_colors_enumerated (f : Z -> Z -> Rgb -> res Rgb) (i : Image) : res Image :=
  with_meta i (map_colors_enumerated f (buffer i)).
(** image.rs:174-182 *)
Definition image_try_map_colors_enumerated {E} (f : Z -> Z -> Rgb -> res (Result Rgb E)) (i : Image)
  : res (Result Image E) :=
  r <- try_map_colors_enumerated f (buffer i);
  Ok (match r with ROk b => ROk (new_from_buffer_with_meta i b) | RErr e => RErr e end).
(** image.rs:188-190 *)
Definition image_put_pixel (m : build) (x y : Z) (c : Rgb) (i : Image) : res Image :=
  in_place i (put_pixel m (buffer i) x y c).

(** image.rs:206-211 *)
Definition image_crop (m : build) (ox oy w h : Z) (i : Image) : res Image :=
  with_meta i (crop m RGB_NONE (buffer i) ox oy w h).
(** image.rs:214-236 *)
Definition image_flip_horizontal (m : build) (i : Image) : res Image := with_meta i (flip_horizontal m RGB_NONE (buffer i)).
Definition image_flip_vertical (m : build) (i : Image) : res Image := with_meta i (flip_vertical m RGB_NONE (buffer i)).
Definition image_rotate90 (m : build) (i : Image) : res Image := with_meta i (rotate90 m RGB_NONE (buffer i)).
Definition image_rotate180 (m : build) (i : Image) : res Image := with_meta i (rotate180 m RGB_NONE (buffer i)).
Definition image_rotate270 (m : build) (i : Image) : res Image := with_meta i (rotate270 m RGB_NONE (buffer i)).
(** image.rs:239-249 *)
Definition image_rotate (L : libm) (m : build) (radians : f32) (filter : filter_mode) (i : Image) : res Image :=
  with_meta i (rotate L m (buffer i) radians (match bg_color i with Some c => c | None => RGB_NONE end) filter).
(** image.rs:252-254 *)
Definition image_edge_detection (m : build) (mode : edge_mode) (i : Image) : res Image :=
  with_meta i (edge_detection m (buffer i) mode).
(** image.rs:257-262 *)
Definition image_resize (L : libm) (m : build) (w h : Z) (filter : filter_mode) (i : Image) : res Image :=
  with_meta i (resize L m (buffer i) w h filter).
(** image.rs:265-272 *)
Definition image_resize_pct (L : libm) (m : build) (pct_100 : f32) (filter : filter_mode) (i : Image) : res Image :=
  let factor := fdiv pct_100 (ofZ 100) in
  let w := f_as_u32 (fround (fmul (ofZ (width (buffer i))) factor)) in
  let h := f_as_u32 (fround (fmul (ofZ (height (buffer i))) factor)) in
  image_resize L m (Z.max w 1) (Z.max h 1) filter i.
(** image.rs:277-282 *)
Definition image_with_jpeg_quality (m : build) (E : encoders) (D : decoders) (L : libm) (quality : Z) (preserve_alpha : bool)
  (i : Image) : res Image :=
  with_meta i (jpeg_quality m E D L (buffer i) quality preserve_alpha).

(** image.rs:285-322 *)
Definition image_random_noise {R} (g : rng R) (strength : f32) (s : R) (i : Image) : res (R * Image) :=
  with_meta_st i (random_noise g KRgb s (buffer i) strength).
Definition image_add_random_noise {R} (g : rng R) (strength : f32) (s : R) (i : Image) : res (R * Image) :=
  in_place_st i (add_random_noise g KRgb s (buffer i) strength).
Definition image_salt_n_pepper_noise {R} (g : rng R) (threshold : f32) (s : R) (i : Image) : res (R * Image) :=
  with_meta_st i (salt_n_pepper_noise g s (buffer i) threshold).
Definition image_add_salt_n_pepper_noise {R} (g : rng R) (threshold : f32) (s : R) (i : Image) : res (R * Image) :=
  in_place_st i (add_salt_n_pepper_noise g s (buffer i) threshold).
Definition image_rgb_noise {R} (g : rng R) (threshold : f32) (s : R) (i : Image) : res (R * Image) :=
  with_meta_st i (rgb_noise g s (buffer i) threshold).
Definition image_add_rgb_noise {R} (g : rng R) (threshold : f32) (s : R) (i : Image) : res (R * Image) :=
  in_place_st i (add_rgb_noise g s (buffer i) threshold).
Definition image_gaussian_noise {R} (g : rng R) (strength : f32) (s : R) (i : Image) : res (R * Image) :=
  with_meta_st i (gaussian_noise g KRgb s (buffer i) strength).
Definition image_add_gaussian_noise {R} (g : rng R) (strength : f32) (s : R) (i : Image) : res (R * Image) :=
  in_place_st i (add_gaussian_noise g KRgb s (buffer i) strength).

(** image.rs:325-332 *)
Definition image_gaussian_blur (L : libm) (m : build) (radius : Z) (sigma : option f32) (i : Image) : res Image :=
  with_meta i (gaussian_blur L m (buffer i) radius sigma).
Definition image_unsharp (L : libm) (m : build) (radius : Z) (factor : f32) (sigma : option f32) (i : Image) : res Image :=
  with_meta i (unsharp L m (buffer i) radius factor sigma).
(** image.rs:338-347 *)
Definition image_white_balance (L : libm) (threshold : f32) (i : Image) : res Image :=
  with_meta i (balance L (buffer i) BRgb threshold).
Definition image_balance (L : libm) (mode : balance_mode) (threshold : f32) (i : Image) : res Image :=
  with_meta i (balance L (buffer i) mode threshold).

(** image.rs:349-365, 381-388: [images[0]] panics without images, and
    [try_compose] does before *)
Definition image_try_compose {S E} (m : build) (images : list Image) (default : Rgb)
  (f : S -> Z -> Z -> list Rgb -> res (S * Result Rgb E)) (s : S) : res (S * Result Image E) :=
  '(s, r) <- try_compose m (map buffer images) default f s;
  match r with
  | RErr e => Ok (s, RErr e)
  | ROk b => first <- idx images 0; Ok (s, ROk (new_from_buffer_with_meta first b))
  end.
Definition image_try_compose_slice {S E} (m : build) (images : list Image) (default : Rgb)
  (f : S -> Z -> Z -> list Rgb -> res (S * Result Rgb E)) (s : S) : res (S * Result Image E) :=
  '(s, r) <- try_compose_slice m (map buffer images) default f s;
  match r with
  | RErr e => Ok (s, RErr e)
  | ROk b => first <- idx images 0; Ok (s, ROk (new_from_buffer_with_meta first b))
  end.
(** image.rs:367-379, 390-397 *)
Definition image_compose {S} (m : build) (images : list Image) (default : Rgb)
  (f : S -> Z -> Z -> list Rgb -> res (S * Rgb)) (s : S) : res (S * Image) :=
  '(s, b) <- compose m (map buffer images) default f s;
  first <- idx images 0; Ok (s, new_from_buffer_with_meta first b).
Definition image_compose_slice {S} (m : build) (images : list Image) (default : Rgb)
  (f : S -> Z -> Z -> list Rgb -> res (S * Rgb)) (s : S) : res (S * Image) :=
  '(s, b) <- compose_slice m (map buffer images) default f s;
  first <- idx images 0; Ok (s, new_from_buffer_with_meta first b).

(** image.rs:399-404 *)
Definition image_blend (L : libm) (m : build) (other : Image) (op : blend_op) (strength : f32) (i : Image) : res Image :=
  with_meta i (blend_image L m (buffer i) (buffer other) op strength).
(** image.rs:406-412 *)
Definition image_drawing (L : libm) (m : build) (radius : Z) (mode : drawing_mode) (i : Image) : res Image :=
  with_meta i (drawing L m (buffer i) radius mode).
Definition image_interlace (m : build) (offset : Z) (i : Image) : res Image :=
  with_meta i (interlace m (buffer i) offset).
(** image.rs:414-420 *)
Definition image_apply_palette (L : libm) (palette : Image) (i : Image) : res Image :=
  with_meta i (apply_palette L KRgb (buffer i) (buffer palette)).
Definition image_apply_palette_in_place (L : libm) (palette : Image) (i : Image) : res Image :=
  in_place i (apply_palette_in_place L KRgb (buffer i) (buffer palette)).
(** image.rs:422-424 *)
Definition image_despeckle (m : build) (threshold : f32) (amount : Z) (i : Image) : res Image :=
  with_meta i (despeckle m (buffer i) threshold amount).
(** image.rs:430-436 *)
Definition image_stretch_contrast (L : libm) (threshold : f32) (i : Image) : res Image :=
  with_meta i (stretch_contrast L (buffer i) threshold).
Definition image_optimize_saturation (L : libm) (offset : f32) (mode : saturation_mode) (i : Image) : res Image :=
  with_meta i (optimize_saturation L (buffer i) offset mode).
(** image.rs:438-462 *)
Definition image_change_color_temperature (L : libm) (orig_temp new_temp tint_correction : f32) (i : Image) : res Image :=
  with_meta i (change_color_temperature L (buffer i) orig_temp new_temp tint_correction).
Definition image_optimize_color_temperature (L : libm) (factor tint_correction : f32) (i : Image) : res Image :=
  with_meta i (optimize_color_temperature L (buffer i) factor tint_correction).
Definition image_optimize_lightness (L : libm) (factor : f32) (i : Image) : res Image :=
  with_meta i (optimize_lightness L (buffer i) factor).
(** image.rs:464-470 *)
Definition image_equalize (L : libm) (m : build) (mode : equalize_mode) (i : Image) : res Image :=
  with_meta i (equalize L m (buffer i) mode).
Definition image_symmetric_nearest_neighbor (m : build) (radius : Z) (with_center : bool) (i : Image) : res Image :=
  with_meta i (symmetric_nearest_neighbor m (buffer i) radius with_center).
