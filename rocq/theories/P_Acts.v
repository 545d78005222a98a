(** Property theorems, generated from ActsThm.v by tools/mkp.py. *)

From Coq Require Import ZArith List.
From Verif Require Import Base PixelBuffer BufferSpec Geometry F32 Color ColorSpec Blend Resample Kernel Ops Codec CodecSpec Commands Image ImageSpec ActsSpec.
Import ListNotations.
Open Scope Z_scope.

From Verif Require Import ActsThm.


(** C136: each method does to the pixels what the operation of its name does, with the arguments it is given, and keeps the background colour. *)

Theorem C136_methods_act : forall R (e : env R) f op, method e f op -> acts f op.
Proof. exact methods_act. Qed.
Print Assumptions C136_methods_act.

Theorem C136_random_methods_act : forall R (e : env R) f op, random_method e f op -> acts_random f op.
Proof. exact random_methods_act. Qed.
Print Assumptions C136_random_methods_act.


(** C136: any number of them in a row is the row of the operations. *)

Theorem C136_methods_in_a_row : forall R (e : env R) fs ops, Forall2 (step e) fs ops -> acts_random (in_a_row fs) (in_a_row ops).
Proof. exact methods_in_a_row. Qed.
Print Assumptions C136_methods_in_a_row.


(** C136: a method that changes the image in place leaves it as what the method that returns a new image returns. *)

Theorem C136_in_place_or_new : forall R (e : env R) k s p i,
  image_add_random_noise (e_rng e) k s i = image_random_noise (e_rng e) k s i /\
  image_add_salt_n_pepper_noise (e_rng e) k s i = image_salt_n_pepper_noise (e_rng e) k s i /\
  image_add_rgb_noise (e_rng e) k s i = image_rgb_noise (e_rng e) k s i /\
  image_add_gaussian_noise (e_rng e) k s i = image_gaussian_noise (e_rng e) k s i /\
  image_apply_palette_in_place (e_libm e) p i = image_apply_palette (e_libm e) p i.
Proof. exact in_place_or_new. Qed.
Print Assumptions C136_in_place_or_new.


(** C136: rotation by any angle fills with the background colour if there is one and with transparent black otherwise. *)

Theorem C136_rotation_fills : forall L m angle mode b,
  (forall c, acts_on (image_rotate L m angle mode) (mkImage b (Some c)) (rotate L m b angle c mode)) /\
  acts_on (image_rotate L m angle mode) (mkImage b None) (rotate L m b angle (mkC f0 f0 f0 f0) mode).
Proof. exact rotation_fills. Qed.
Print Assumptions C136_rotation_fills.


(** C136: functions of colours, with or without coordinates, errors and a state, see the pixels of the image. *)

Theorem C136_functions_on_images : forall i,
  (forall f, acts_on (image_mod_colors f) i ('(_, b) <- mod_colors (fun (_ : unit) c => c <- f c; Ok (tt, c)) tt (buffer i); Ok b)) /\
  (forall S (f : S -> Rgb -> res (S * Rgb)) s s' b, map_colors f s (buffer i) = Ok (s', b) -> image_map_colors f s i = Ok (s', mkImage b (bg_color i))) /\
  (forall S E (f : S -> Rgb -> res (S * Result Rgb E)) s s' b, try_map_colors f s (buffer i) = Ok (s', ROk b) -> image_try_map_colors f s i = Ok (s', ROk (mkImage b (bg_color i)))) /\
  (forall S E (f : S -> Rgb -> res (S * Result Rgb E)) s s' x, try_map_colors f s (buffer i) = Ok (s', RErr x) -> image_try_map_colors f s i = Ok (s', RErr x)) /\
  (forall E (f : Z -> Z -> Rgb -> res (Result Rgb E)) b, try_map_colors_enumerated f (buffer i) = Ok (ROk b) -> image_try_map_colors_enumerated f i = Ok (ROk (mkImage b (bg_color i)))) /\
  (forall E (f : Z -> Z -> Rgb -> res (Result Rgb E)) x, try_map_colors_enumerated f (buffer i) = Ok (RErr x) -> image_try_map_colors_enumerated f i = Ok (RErr x)) /\
  (forall E (f : Z -> Z -> Rgb -> res (Result Rgb E)) b r, try_mod_colors_enumerated f (buffer i) = Ok (b, r) -> image_try_mod_colors_enumerated f i = Ok (mkImage b (bg_color i), r)) /\
  (forall E (f : Rgb -> res (Result Rgb E)) b r, try_mod_colors (fun (_ : unit) c => c <- f c; Ok (tt, c)) tt (buffer i) = Ok (tt, b, r) -> image_try_mod_colors f i = Ok (mkImage b (bg_color i), r)).
Proof. exact functions_on_images. Qed.
Print Assumptions C136_functions_on_images.


(** C136: compose sees the pixels of all images in the given order and keeps the background colour of the first. *)

Theorem C136_compose_on_images : forall m i rest d,
  (forall S (f : S -> Z -> Z -> list Rgb -> res (S * Rgb)) s s' b, compose m (buffer i :: map buffer rest) d f s = Ok (s', b) -> image_compose m (i :: rest) d f s = Ok (s', mkImage b (bg_color i))) /\
  (forall S (f : S -> Z -> Z -> list Rgb -> res (S * Rgb)) s s' b, compose_slice m (buffer i :: map buffer rest) d f s = Ok (s', b) -> image_compose_slice m (i :: rest) d f s = Ok (s', mkImage b (bg_color i))) /\
  (forall S E (f : S -> Z -> Z -> list Rgb -> res (S * Result Rgb E)) s s' b, try_compose m (buffer i :: map buffer rest) d f s = Ok (s', ROk b) -> image_try_compose m (i :: rest) d f s = Ok (s', ROk (mkImage b (bg_color i)))) /\
  (forall S E (f : S -> Z -> Z -> list Rgb -> res (S * Result Rgb E)) s s' x, try_compose m (buffer i :: map buffer rest) d f s = Ok (s', RErr x) -> image_try_compose m (i :: rest) d f s = Ok (s', RErr x)) /\
  (forall S E (f : S -> Z -> Z -> list Rgb -> res (S * Result Rgb E)) s s' b, try_compose_slice m (buffer i :: map buffer rest) d f s = Ok (s', ROk b) -> image_try_compose_slice m (i :: rest) d f s = Ok (s', ROk (mkImage b (bg_color i)))) /\
  (forall S E (f : S -> Z -> Z -> list Rgb -> res (S * Result Rgb E)) s s' x, try_compose_slice m (buffer i :: map buffer rest) d f s = Ok (s', RErr x) -> image_try_compose_slice m (i :: rest) d f s = Ok (s', RErr x)).
Proof. exact compose_on_images. Qed.
Print Assumptions C136_compose_on_images.


(** C136: resize_pct is resize to the size it gives (C68), with the filter it is given. *)

Theorem C136_resize_pct_is_resize : forall L m i p mode i', good_image i -> nonempty (buffer i) -> image_resize_pct L m p mode i = Ok i' ->
  image_resize L m (width (buffer i')) (height (buffer i')) mode i = Ok i'.
Proof. exact resize_pct_is_resize. Qed.
Print Assumptions C136_resize_pct_is_resize.

Example C136_methods_example : forall e : env unit, let i := mkImage (mkPB 2 1 [RGB_RED; RGB_BLUE]) (Some RGB_WHITE) in
  (exists fs ops, Forall2 (step e) fs ops /\ List.length fs = 3%nat /\ in_a_row ops tt (buffer i) = Ok (tt, mkPB 1 2 [RGB_BLUE; RGB_RED]) /\
     in_a_row fs tt i = Ok (tt, mkImage (mkPB 1 2 [RGB_BLUE; RGB_RED]) (Some RGB_WHITE))).
Proof. exact methods_example. Qed.
