(** Specification vocabulary for images (C67, C68, C82): the histories of
    calls a program can make. *)
From Coq Require Import ZArith Reals List Bool String.
From Verif Require Import Base PixelBuffer BufferSpec Geometry F32 Color Blend Resample Kernel Ops Codec Commands Image.
Import ListNotations.
Open Scope Z_scope.

Definition good_image (i : Image) : Prop := valid (buffer i).
Definition same_size (i : Image) : option (Z * Z) := Some (width (buffer i), height (buffer i)).
(** wide and high enough for all of [images] *)
Definition covering_size (images : list Image) : option (Z * Z) :=
  Some (fold_right Z.max 0 (map (fun i => width (buffer i)) images),
        fold_right Z.max 0 (map (fun i => height (buffer i)) images)).
Definition turned_size (i : Image) : option (Z * Z) := Some (height (buffer i), width (buffer i)).

(** [call_on e i others i' size]: a call on image [i], which also uses the
    images [others], can leave [i] as, or return, [i'], whose documented size
    is [size] if there is one. *)
Inductive call_on {R} (e : env R) (i : Image) : list Image -> Image -> option (Z * Z) -> Prop :=
(* access to the pixels *)
| on_data_mut d : zlen d = zlen (data (buffer i)) -> call_on e i [] (mkImage (mkPB (width (buffer i)) (height (buffer i)) d) (bg_color i)) (same_size i)
| on_buffer_mut b : valid b -> call_on e i [] (mkImage b (bg_color i)) None
| on_put_pixel x y c i' : is_u32 x -> is_u32 y -> image_put_pixel (e_build e) x y c i = Ok i' -> call_on e i [] i' (same_size i)
| on_mod_colors f i' : image_mod_colors f i = Ok i' -> call_on e i [] i' (same_size i)
| on_try_mod E f i' (r : Result unit E) : image_try_mod_colors f i = Ok (i', r) -> call_on e i [] i' (same_size i)
| on_mod_enumerated f i' : image_mod_colors_enumerated f i = Ok i' -> call_on e i [] i' (same_size i)
| on_try_mod_enumerated E f i' (r : Result unit E) : image_try_mod_colors_enumerated f i = Ok (i', r) -> call_on e i [] i' (same_size i)
| on_map_colors S f (s s' : S) i' : image_map_colors f s i = Ok (s', i') -> call_on e i [] i' (same_size i)
| on_try_map S E f (s s' : S) i' : image_try_map_colors (E := E) f s i = Ok (s', ROk i') -> call_on e i [] i' (same_size i)
| on_map_enumerated f i' : image_map_colors_enumerated f i = Ok i' -> call_on e i [] i' (same_size i)
| on_try_map_enumerated E f i' : image_try_map_colors_enumerated (E := E) f i = Ok (ROk i') -> call_on e i [] i' (same_size i)
(* geometry *)
| on_crop ox oy w h i' : is_u32 ox -> is_u32 oy -> is_u32 w -> is_u32 h -> image_crop (e_build e) ox oy w h i = Ok i' -> call_on e i [] i' None
| on_flip_horizontal i' : image_flip_horizontal (e_build e) i = Ok i' -> call_on e i [] i' (same_size i)
| on_flip_vertical i' : image_flip_vertical (e_build e) i = Ok i' -> call_on e i [] i' (same_size i)
| on_rotate90 i' : image_rotate90 (e_build e) i = Ok i' -> call_on e i [] i' (turned_size i)
| on_rotate180 i' : image_rotate180 (e_build e) i = Ok i' -> call_on e i [] i' (same_size i)
| on_rotate270 i' : image_rotate270 (e_build e) i = Ok i' -> call_on e i [] i' (turned_size i)
| on_rotate a f i' : image_rotate (e_libm e) (e_build e) a f i = Ok i' -> call_on e i [] i' (same_size i)
| on_resize w h f i' : is_u32 w -> is_u32 h -> image_resize (e_libm e) (e_build e) w h f i = Ok i' -> call_on e i [] i' (Some (w, h))
| on_resize_pct p f i' : image_resize_pct (e_libm e) (e_build e) p f i = Ok i' -> call_on e i [] i' None
| on_interlace o i' : is_u32 o -> image_interlace (e_build e) o i = Ok i' -> call_on e i [] i' (same_size i)
(* several images *)
| on_compose S images d f (s s' : S) i' : image_compose (e_build e) (i :: images) d f s = Ok (s', i') -> call_on e i images i' (covering_size (i :: images))
| on_try_compose S E images d f (s s' : S) i' : image_try_compose (E := E) (e_build e) (i :: images) d f s = Ok (s', ROk i') -> call_on e i images i' (covering_size (i :: images))
| on_compose_slice S images d f (s s' : S) i' : image_compose_slice (e_build e) (i :: images) d f s = Ok (s', i') -> call_on e i images i' (covering_size (i :: images))
| on_try_compose_slice S E images d f (s s' : S) i' : image_try_compose_slice (E := E) (e_build e) (i :: images) d f s = Ok (s', ROk i') -> call_on e i images i' (covering_size (i :: images))
| on_blend other op strength i' : image_blend (e_libm e) (e_build e) other op strength i = Ok i' -> call_on e i [other] i' (covering_size [i; other])
| on_apply_palette palette i' : image_apply_palette (e_libm e) palette i = Ok i' -> call_on e i [palette] i' (same_size i)
| on_apply_palette_in_place palette i' : image_apply_palette_in_place (e_libm e) palette i = Ok i' -> call_on e i [palette] i' (same_size i)
(* filters *)
| on_edge_detection mode i' : image_edge_detection (e_build e) mode i = Ok i' -> call_on e i [] i' (same_size i)
| on_gaussian_blur r s i' : image_gaussian_blur (e_libm e) (e_build e) r s i = Ok i' -> call_on e i [] i' (same_size i)
| on_unsharp r f s i' : image_unsharp (e_libm e) (e_build e) r f s i = Ok i' -> call_on e i [] i' (same_size i)
| on_drawing r mode i' : image_drawing (e_libm e) (e_build e) r mode i = Ok i' -> call_on e i [] i' (same_size i)
| on_despeckle t a i' : image_despeckle (e_build e) t a i = Ok i' -> call_on e i [] i' (same_size i)
| on_snn r c i' : image_symmetric_nearest_neighbor (e_build e) r c i = Ok i' -> call_on e i [] i' (same_size i)
(* colours *)
| on_white_balance t i' : image_white_balance (e_libm e) t i = Ok i' -> call_on e i [] i' (same_size i)
| on_balance mode t i' : image_balance (e_libm e) mode t i = Ok i' -> call_on e i [] i' (same_size i)
| on_stretch_contrast t i' : image_stretch_contrast (e_libm e) t i = Ok i' -> call_on e i [] i' (same_size i)
| on_optimize_saturation o mode i' : image_optimize_saturation (e_libm e) o mode i = Ok i' -> call_on e i [] i' (same_size i)
| on_change_temperature a b t i' : image_change_color_temperature (e_libm e) a b t i = Ok i' -> call_on e i [] i' (same_size i)
| on_optimize_temperature f t i' : image_optimize_color_temperature (e_libm e) f t i = Ok i' -> call_on e i [] i' (same_size i)
| on_optimize_lightness f i' : image_optimize_lightness (e_libm e) f i = Ok i' -> call_on e i [] i' (same_size i)
| on_equalize mode i' : image_equalize (e_libm e) (e_build e) mode i = Ok i' -> call_on e i [] i' (same_size i)
| on_jpeg_quality q a i' : image_with_jpeg_quality (e_build e) (e_enc e) (e_dec e) (e_libm e) q a i = Ok i' -> call_on e i [] i' None
(* noise *)
| on_random_noise v s s' i' : image_random_noise (e_rng e) v s i = Ok (s', i') -> call_on e i [] i' (same_size i)
| on_add_random_noise v s s' i' : image_add_random_noise (e_rng e) v s i = Ok (s', i') -> call_on e i [] i' (same_size i)
| on_salt v s s' i' : image_salt_n_pepper_noise (e_rng e) v s i = Ok (s', i') -> call_on e i [] i' (same_size i)
| on_add_salt v s s' i' : image_add_salt_n_pepper_noise (e_rng e) v s i = Ok (s', i') -> call_on e i [] i' (same_size i)
| on_rgb_noise v s s' i' : image_rgb_noise (e_rng e) v s i = Ok (s', i') -> call_on e i [] i' (same_size i)
| on_add_rgb_noise v s s' i' : image_add_rgb_noise (e_rng e) v s i = Ok (s', i') -> call_on e i [] i' (same_size i)
| on_gaussian_noise v s s' i' : image_gaussian_noise (e_rng e) v s i = Ok (s', i') -> call_on e i [] i' (same_size i)
| on_add_gaussian_noise v s s' i' : image_add_gaussian_noise (e_rng e) v s i = Ok (s', i') -> call_on e i [] i' (same_size i).

(** The images a program can make. *)
Inductive obtainable {R} (e : env R) : Image -> Prop :=
| by_new w h i : is_u32 w -> is_u32 h -> image_new (e_build e) w h = Ok i -> obtainable e i
| by_color w h c i : is_u32 w -> is_u32 h -> image_new_with_color (e_build e) w h c = Ok i -> obtainable e i
| by_raw w h d i : is_u32 w -> is_u32 h -> image_new_from_raw w h d = Ok i -> obtainable e i
| by_raw_with_meta i0 w h d i : obtainable e i0 -> is_u32 w -> is_u32 h -> new_from_raw_with_meta i0 w h d = Ok i -> obtainable e i
| by_buffer b : valid b -> obtainable e (new_from_buffer b)
| by_buffer_with_meta i0 b : obtainable e i0 -> valid b -> obtainable e (new_from_buffer_with_meta i0 b)
| by_open s path i : image_open (e_build e) (e_dec e) (e_libm e) s path = Ok (ROk i) -> obtainable e i
| by_read c i : image_read_from_buffer (e_build e) (e_dec e) (e_libm e) c = Ok (ROk i) -> obtainable e i
| by_call i others i' size : obtainable e i -> (forall o, In o others -> obtainable e o) -> call_on e i others i' size -> obtainable e i'.

Open Scope R_scope.
(** [n] is [r] rounded to a whole number and at least 1, with an error of at
    most one part in 4194304 before rounding. *)
Definition scaled_to (n : Z) (r : R) : Prop := Rabs (IZR n - Rmax 1 r) <= / 2 + r * / 4194304.
(** [p] percent of [n] *)
Definition percent (p : f32) (n : Z) : R := IZR n * (BinarySingleNaN.B2R p / 100).
(** More transparent than 1/32768. *)
Definition see_through (c : Rgb) : Prop := BinarySingleNaN.B2R (alpha c) < 1 - / 32768.
(** Red and green differ by less than [t], and so do green and blue. *)
Definition gray_below (t : R) (c : Rgb) : Prop :=
  Rabs (BinarySingleNaN.B2R (d0 c) - BinarySingleNaN.B2R (d1 c)) < t /\ Rabs (BinarySingleNaN.B2R (d1 c) - BinarySingleNaN.B2R (d2 c)) < t.
Definition some_pixel (b : PixelBuffer Rgb) (P : Rgb -> Prop) : Prop :=
  exists x y c, inside b x y /\ (forall m, get_pixel m b x y = Ok c) /\ P c.
Definition every_pixel (b : PixelBuffer Rgb) (P : Rgb -> Prop) : Prop :=
  forall m x y c, inside b x y -> get_pixel m b x y = Ok c -> P c.
