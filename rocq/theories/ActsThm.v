(** C136: the methods of images and the operations on their pixels. *)
From Coq Require Import ZArith List.
From Verif Require Import Base PixelBuffer BufferSpec Geometry F32 Color ColorSpec Blend Resample Kernel Ops Codec CodecSpec Commands Image ImageSpec ActsSpec.
Import ListNotations.
Open Scope Z_scope.

(* PROPERTIES *)
From Coq Require Import Lia.
From Verif Require Import PixelBufferProofs ImageProofs ActsProofs.

(** C136: each method does to the pixels what the operation of its name does, with the arguments it is given, and keeps the background colour. *)
Lemma methods_act : forall R (e : env R) f op, method e f op -> acts f op.
Proof. exact @every_method. Qed.
Lemma random_methods_act : forall R (e : env R) f op, random_method e f op -> acts_random f op.
Proof. exact @every_random_method. Qed.
(** C136: any number of them in a row is the row of the operations. *)
Lemma methods_in_a_row : forall R (e : env R) fs ops, Forall2 (step e) fs ops -> acts_random (in_a_row fs) (in_a_row ops).
Proof. exact @rows. Qed.
(** C136: a method that changes the image in place leaves it as what the method that returns a new image returns. *)
Lemma in_place_or_new : forall R (e : env R) k s p i,
  image_add_random_noise (e_rng e) k s i = image_random_noise (e_rng e) k s i /\
  image_add_salt_n_pepper_noise (e_rng e) k s i = image_salt_n_pepper_noise (e_rng e) k s i /\
  image_add_rgb_noise (e_rng e) k s i = image_rgb_noise (e_rng e) k s i /\
  image_add_gaussian_noise (e_rng e) k s i = image_gaussian_noise (e_rng e) k s i /\
  image_apply_palette_in_place (e_libm e) p i = image_apply_palette (e_libm e) p i.
Proof.
  intros R e k s p i. repeat split.
Qed.
(** C136: rotation by any angle fills with the background colour if there is one and with transparent black otherwise. *)
Lemma rotation_fills : forall L m angle mode b,
  (forall c, acts_on (image_rotate L m angle mode) (mkImage b (Some c)) (rotate L m b angle c mode)) /\
  acts_on (image_rotate L m angle mode) (mkImage b None) (rotate L m b angle (mkC f0 f0 f0 f0) mode).
Proof. intros L m angle mode b. split; [intros c|]; (split; [intros r H|intros H]); unfold image_rotate, with_meta; cbn [bg_color buffer]; unfold RGB_NONE; rewrite ?H; reflexivity. Qed.
(** C136: functions of colours, with or without coordinates, errors and a state, see the pixels of the image. *)
Lemma functions_on_images : forall i,
  (forall f, acts_on (image_mod_colors f) i ('(_, b) <- mod_colors (fun (_ : unit) c => c <- f c; Ok (tt, c)) tt (buffer i); Ok b)) /\
  (forall S (f : S -> Rgb -> res (S * Rgb)) s s' b, map_colors f s (buffer i) = Ok (s', b) -> image_map_colors f s i = Ok (s', mkImage b (bg_color i))) /\
  (forall S E (f : S -> Rgb -> res (S * Result Rgb E)) s s' b, try_map_colors f s (buffer i) = Ok (s', ROk b) -> image_try_map_colors f s i = Ok (s', ROk (mkImage b (bg_color i)))) /\
  (forall S E (f : S -> Rgb -> res (S * Result Rgb E)) s s' x, try_map_colors f s (buffer i) = Ok (s', RErr x) -> image_try_map_colors f s i = Ok (s', RErr x)) /\
  (forall E (f : Z -> Z -> Rgb -> res (Result Rgb E)) b, try_map_colors_enumerated f (buffer i) = Ok (ROk b) -> image_try_map_colors_enumerated f i = Ok (ROk (mkImage b (bg_color i)))) /\
  (forall E (f : Z -> Z -> Rgb -> res (Result Rgb E)) x, try_map_colors_enumerated f (buffer i) = Ok (RErr x) -> image_try_map_colors_enumerated f i = Ok (RErr x)) /\
  (forall E (f : Z -> Z -> Rgb -> res (Result Rgb E)) b r, try_mod_colors_enumerated f (buffer i) = Ok (b, r) -> image_try_mod_colors_enumerated f i = Ok (mkImage b (bg_color i), r)) /\
  (forall E (f : Rgb -> res (Result Rgb E)) b r, try_mod_colors (fun (_ : unit) c => c <- f c; Ok (tt, c)) tt (buffer i) = Ok (tt, b, r) -> image_try_mod_colors f i = Ok (mkImage b (bg_color i), r)).
Proof.
  intros i. split.
  { intros f. unfold image_mod_colors, in_place_st, acts_on. destruct (mod_colors _ _ _) as [[[] b']|]; cbn [bind]; split; intros; try discriminate; try reflexivity. match goal with H : Ok _ = Ok _ |- _ => injection H as -> end. reflexivity. }
  split; [intros S f s s' b H; unfold image_map_colors, with_meta_st; rewrite H; reflexivity|].
  split; [intros S E f s s' b H; unfold image_try_map_colors; rewrite H; reflexivity|].
  split; [intros S E f s s' x H; unfold image_try_map_colors; rewrite H; reflexivity|].
  split; [intros E f b H; unfold image_try_map_colors_enumerated; rewrite H; reflexivity|].
  split; [intros E f x H; unfold image_try_map_colors_enumerated; rewrite H; reflexivity|].
  split; [intros E f b r H; unfold image_try_mod_colors_enumerated; rewrite H; reflexivity|].
  intros E f b r H; unfold image_try_mod_colors; rewrite H; reflexivity.
Qed.
(** C136: compose sees the pixels of all images in the given order and keeps the background colour of the first. *)
Lemma compose_on_images : forall m i rest d,
  (forall S (f : S -> Z -> Z -> list Rgb -> res (S * Rgb)) s s' b, compose m (buffer i :: map buffer rest) d f s = Ok (s', b) -> image_compose m (i :: rest) d f s = Ok (s', mkImage b (bg_color i))) /\
  (forall S (f : S -> Z -> Z -> list Rgb -> res (S * Rgb)) s s' b, compose_slice m (buffer i :: map buffer rest) d f s = Ok (s', b) -> image_compose_slice m (i :: rest) d f s = Ok (s', mkImage b (bg_color i))) /\
  (forall S E (f : S -> Z -> Z -> list Rgb -> res (S * Result Rgb E)) s s' b, try_compose m (buffer i :: map buffer rest) d f s = Ok (s', ROk b) -> image_try_compose m (i :: rest) d f s = Ok (s', ROk (mkImage b (bg_color i)))) /\
  (forall S E (f : S -> Z -> Z -> list Rgb -> res (S * Result Rgb E)) s s' x, try_compose m (buffer i :: map buffer rest) d f s = Ok (s', RErr x) -> image_try_compose m (i :: rest) d f s = Ok (s', RErr x)) /\
  (forall S E (f : S -> Z -> Z -> list Rgb -> res (S * Result Rgb E)) s s' b, try_compose_slice m (buffer i :: map buffer rest) d f s = Ok (s', ROk b) -> image_try_compose_slice m (i :: rest) d f s = Ok (s', ROk (mkImage b (bg_color i)))) /\
  (forall S E (f : S -> Z -> Z -> list Rgb -> res (S * Result Rgb E)) s s' x, try_compose_slice m (buffer i :: map buffer rest) d f s = Ok (s', RErr x) -> image_try_compose_slice m (i :: rest) d f s = Ok (s', RErr x)).
Proof.
  intros m i rest d.
  split; [intros S f s s' b H; unfold image_compose; cbn [map]; rewrite H; reflexivity|].
  split; [intros S f s s' b H; unfold image_compose_slice; cbn [map]; rewrite H; reflexivity|].
  split; [intros S E f s s' b H; unfold image_try_compose; cbn [map]; rewrite H; reflexivity|].
  split; [intros S E f s s' x H; unfold image_try_compose; cbn [map]; rewrite H; reflexivity|].
  split; [intros S E f s s' b H; unfold image_try_compose_slice; cbn [map]; rewrite H; reflexivity|].
  intros S E f s s' x H; unfold image_try_compose_slice; cbn [map]; rewrite H; reflexivity.
Qed.
(** C136: resize_pct is resize to the size it gives (C68), with the filter it is given. *)
Lemma resize_pct_is_resize : forall L m i p mode i', good_image i -> nonempty (buffer i) -> image_resize_pct L m p mode i = Ok i' ->
  image_resize L m (width (buffer i')) (height (buffer i')) mode i = Ok i'.
Proof.
  intros L m i p mode i' V (N1 & N2) H. pose proof H as H'. unfold image_resize_pct in H'. cbv zeta in H'. pose proof H' as H0. unfold image_resize in H'.
  apply with_meta_inv in H' as (b & E & ->). pose proof (valid_bounds _ V) as B. apply resize_made in E as (_ & Wb & Hb); [|exact V|lia|lia]. cbn [buffer]. rewrite Wb, Hb. exact H0.
Qed.

Example methods_example : forall e : env unit, let i := mkImage (mkPB 2 1 [RGB_RED; RGB_BLUE]) (Some RGB_WHITE) in
  (exists fs ops, Forall2 (step e) fs ops /\ List.length fs = 3%nat /\ in_a_row ops tt (buffer i) = Ok (tt, mkPB 1 2 [RGB_BLUE; RGB_RED]) /\
     in_a_row fs tt i = Ok (tt, mkImage (mkPB 1 2 [RGB_BLUE; RGB_RED]) (Some RGB_WHITE))).
Proof.
  intros e i. set (fs := [fun (s : unit) i => i <- image_flip_horizontal (e_build e) i; Ok (s, i); fun s i => i <- image_rotate90 (e_build e) i; Ok (s, i); fun s i => i <- image_flip_horizontal (e_build e) i; Ok (s, i)]).
  set (ops := [fun (s : unit) b => b <- flip_horizontal (e_build e) RGB_NONE b; Ok (s, b); fun s b => b <- rotate90 (e_build e) RGB_NONE b; Ok (s, b); fun s b => b <- flip_horizontal (e_build e) RGB_NONE b; Ok (s, b)]).
  assert (F : Forall2 (step e) fs ops).
  { constructor; [apply (plain_step e _ _ (m_flip_horizontal e))|]. constructor; [apply (plain_step e _ _ (m_rotate90 e))|]. constructor; [apply (plain_step e _ _ (m_flip_horizontal e))|constructor]. }
  assert (O : in_a_row ops tt (buffer i) = Ok (tt, mkPB 1 2 [RGB_BLUE; RGB_RED])) by (subst ops; destruct (e_build e); reflexivity).
  exists fs, ops. split; [exact F|]. split; [reflexivity|]. split; [exact O|]. exact (proj1 (methods_in_a_row unit e fs ops F tt i) tt _ O).
Qed.
