(** What the methods of an image do to its pixels (the vocabulary of C136). *)
From Coq Require Import ZArith List.
From Verif Require Import Base PixelBuffer Geometry F32 Color Blend Resample Kernel Ops Codec Commands Image.
Import ListNotations.
Open Scope Z_scope.

(** [f] replaces the pixels of an image by what [op] makes of them, keeps the
    background colour, and panics exactly when [op] does. *)
Definition acts_on (f : Image -> res Image) (i : Image) (pixels : res (PixelBuffer Rgb)) : Prop :=
  (forall b, pixels = Ok b -> f i = Ok (mkImage b (bg_color i))) /\ (pixels = Panic -> f i = Panic).
Definition acts (f : Image -> res Image) (op : PixelBuffer Rgb -> res (PixelBuffer Rgb)) : Prop := forall i, acts_on f i (op (buffer i)).
(** The same for methods that use random numbers: [op] also gives the state after it. *)
Definition acts_random {S} (f : S -> Image -> res (S * Image)) (op : S -> PixelBuffer Rgb -> res (S * PixelBuffer Rgb)) : Prop :=
  forall s i, (forall s' b, op s (buffer i) = Ok (s', b) -> f s i = Ok (s', mkImage b (bg_color i))) /\ (op s (buffer i) = Panic -> f s i = Panic).

(** The table: method and operation, with the same arguments. *)
Inductive method {R} (e : env R) : (Image -> res Image) -> (PixelBuffer Rgb -> res (PixelBuffer Rgb)) -> Prop :=
| m_put_pixel x y c : method e (image_put_pixel (e_build e) x y c) (fun b => put_pixel (e_build e) b x y c)
| m_mod_enumerated f : method e (image_mod_colors_enumerated f) (mod_colors_enumerated f)
| m_map_enumerated f : method e (image_map_colors_enumerated f) (map_colors_enumerated f)
| m_crop x y w h : method e (image_crop (e_build e) x y w h) (fun b => crop (e_build e) RGB_NONE b x y w h)
| m_flip_horizontal : method e (image_flip_horizontal (e_build e)) (flip_horizontal (e_build e) RGB_NONE)
| m_flip_vertical : method e (image_flip_vertical (e_build e)) (flip_vertical (e_build e) RGB_NONE)
| m_rotate90 : method e (image_rotate90 (e_build e)) (rotate90 (e_build e) RGB_NONE)
| m_rotate180 : method e (image_rotate180 (e_build e)) (rotate180 (e_build e) RGB_NONE)
| m_rotate270 : method e (image_rotate270 (e_build e)) (rotate270 (e_build e) RGB_NONE)
| m_resize w h mode : method e (image_resize (e_libm e) (e_build e) w h mode) (fun b => resize (e_libm e) (e_build e) b w h mode)
| m_interlace o : method e (image_interlace (e_build e) o) (fun b => interlace (e_build e) b o)
| m_edge_detection mode : method e (image_edge_detection (e_build e) mode) (fun b => edge_detection (e_build e) b mode)
| m_gaussian_blur r s : method e (image_gaussian_blur (e_libm e) (e_build e) r s) (fun b => gaussian_blur (e_libm e) (e_build e) b r s)
| m_unsharp r k s : method e (image_unsharp (e_libm e) (e_build e) r k s) (fun b => unsharp (e_libm e) (e_build e) b r k s)
| m_drawing r mode : method e (image_drawing (e_libm e) (e_build e) r mode) (fun b => drawing (e_libm e) (e_build e) b r mode)
| m_despeckle t n : method e (image_despeckle (e_build e) t n) (fun b => despeckle (e_build e) b t n)
| m_nearest_neighbour r c : method e (image_symmetric_nearest_neighbor (e_build e) r c) (fun b => symmetric_nearest_neighbor (e_build e) b r c)
| m_white_balance t : method e (image_white_balance (e_libm e) t) (fun b => balance (e_libm e) b BRgb t)
| m_balance mode t : method e (image_balance (e_libm e) mode t) (fun b => balance (e_libm e) b mode t)
| m_stretch_contrast t : method e (image_stretch_contrast (e_libm e) t) (fun b => stretch_contrast (e_libm e) b t)
| m_optimize_saturation o mode : method e (image_optimize_saturation (e_libm e) o mode) (fun b => optimize_saturation (e_libm e) b o mode)
| m_optimize_lightness k : method e (image_optimize_lightness (e_libm e) k) (fun b => optimize_lightness (e_libm e) b k)
| m_change_temperature old new tint : method e (image_change_color_temperature (e_libm e) old new tint) (fun b => change_color_temperature (e_libm e) b old new tint)
| m_optimize_temperature k tint : method e (image_optimize_color_temperature (e_libm e) k tint) (fun b => optimize_color_temperature (e_libm e) b k tint)
| m_equalize mode : method e (image_equalize (e_libm e) (e_build e) mode) (fun b => equalize (e_libm e) (e_build e) b mode)
| m_jpeg_quality q a : method e (image_with_jpeg_quality (e_build e) (e_enc e) (e_dec e) (e_libm e) q a) (fun b => jpeg_quality (e_build e) (e_enc e) (e_dec e) (e_libm e) b q a)
| m_blend other op k : method e (image_blend (e_libm e) (e_build e) other op k) (fun b => blend_image (e_libm e) (e_build e) b (buffer other) op k)
| m_apply_palette p : method e (image_apply_palette (e_libm e) p) (fun b => apply_palette (e_libm e) KRgb b (buffer p))
| m_apply_palette_in_place p : method e (image_apply_palette_in_place (e_libm e) p) (fun b => apply_palette_in_place (e_libm e) KRgb b (buffer p)).
Inductive random_method {R} (e : env R) : (R -> Image -> res (R * Image)) -> (R -> PixelBuffer Rgb -> res (R * PixelBuffer Rgb)) -> Prop :=
| m_random_noise k : random_method e (image_random_noise (e_rng e) k) (fun s b => random_noise (e_rng e) KRgb s b k)
| m_add_random_noise k : random_method e (image_add_random_noise (e_rng e) k) (fun s b => add_random_noise (e_rng e) KRgb s b k)
| m_salt k : random_method e (image_salt_n_pepper_noise (e_rng e) k) (fun s b => salt_n_pepper_noise (e_rng e) s b k)
| m_add_salt k : random_method e (image_add_salt_n_pepper_noise (e_rng e) k) (fun s b => add_salt_n_pepper_noise (e_rng e) s b k)
| m_rgb_noise k : random_method e (image_rgb_noise (e_rng e) k) (fun s b => rgb_noise (e_rng e) s b k)
| m_add_rgb_noise k : random_method e (image_add_rgb_noise (e_rng e) k) (fun s b => add_rgb_noise (e_rng e) s b k)
| m_gaussian_noise k : random_method e (image_gaussian_noise (e_rng e) k) (fun s b => gaussian_noise (e_rng e) KRgb s b k)
| m_add_gaussian_noise k : random_method e (image_add_gaussian_noise (e_rng e) k) (fun s b => add_gaussian_noise (e_rng e) KRgb s b k).

(** Several methods in a row, or several operations: each works on the result
    of the one before, and the random numbers go on from where they were. *)
Inductive step {R} (e : env R) : (R -> Image -> res (R * Image)) -> (R -> PixelBuffer Rgb -> res (R * PixelBuffer Rgb)) -> Prop :=
| plain_step f op : method e f op -> step e (fun s i => i <- f i; Ok (s, i)) (fun s b => b <- op b; Ok (s, b))
| random_step f op : random_method e f op -> step e f op.
Fixpoint in_a_row {S A} (fs : list (S -> A -> res (S * A))) (s : S) (a : A) : res (S * A) :=
  match fs with [] => Ok (s, a) | f :: fs => '(s, a) <- f s a; in_a_row fs s a end.
