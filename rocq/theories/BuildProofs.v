(** Release builds do what debug builds do (the proofs of C129). *)
From Coq Require Import ZArith List Bool String Lia.
From Verif Require Import Base PixelBuffer Geometry F32 Color Resample Kernel Ops Blend Codec Image Commands Cli PyImage PyColor PyObjects BuildSpec.
Import ListNotations.
Open Scope Z_scope.

Definition le {A} (x y : res A) : Prop := forall v, x = Ok v -> y = Ok v.

Lemma le_refl {A} (x : res A) : le x x. Proof. intros v H. exact H. Qed.
Lemma le_bind {A B} (x y : res A) (f g : A -> res B) : le x y -> (forall a, le (f a) (g a)) -> le (bind x f) (bind y g).
Proof. intros H K v E. destruct x as [a|]; [|discriminate E]. rewrite (H a eq_refl). exact (K a v E). Qed.
Lemma le_u32 z : le (u32 Checked z) (u32 Wrapping z).
Proof. unfold u32. intros v H. destruct (in_u32 z); [exact H|discriminate H]. Qed.
Lemma le_i32 z : le (i32 Checked z) (i32 Wrapping z).
Proof. unfold i32. intros v H. destruct (in_i32 z); [exact H|discriminate H]. Qed.
Lemma le_for {A S} (l : list A) (f g : A -> S -> res S) : (forall a s, le (f a s) (g a s)) -> forall s, le (for_ l f s) (for_ l g s).
Proof. intros H. induction l as [|a l IH]; intros s; cbn [for_]; [apply le_refl|]. apply le_bind; [apply H|exact IH]. Qed.
Lemma le_map_res {A B} (f g : A -> res B) l : (forall a, le (f a) (g a)) -> le (map_res f l) (map_res g l).
Proof. intros H. induction l as [|a l IH]; cbn [map_res]; [apply le_refl|]. apply le_bind; [apply H|intros b]. apply le_bind; [exact IH|intros bs; apply le_refl]. Qed.
Lemma le_map_st {S A B} (f g : S -> A -> res (S * B)) l : (forall s a, le (f s a) (g s a)) -> forall s, le (map_st f l s) (map_st g l s).
Proof. intros H. induction l as [|a l IH]; intros s; cbn [map_st]; [apply le_refl|]. apply le_bind; [apply H|intros [s1 b]]. apply le_bind; [apply IH|intros [s2 bs]; apply le_refl]. Qed.
Lemma le_try_map_st {S A B X} (f g : S -> A -> res (S * Result B X)) l : (forall s a, le (f s a) (g s a)) -> forall s, le (try_map_st f l s) (try_map_st g l s).
Proof.
  intros H. induction l as [|a l IH]; intros s; cbn [try_map_st]; [apply le_refl|]. apply le_bind; [apply H|intros [s1 [b|x]]; [|apply le_refl]].
  apply le_bind; [apply IH|intros [s2 bs]; apply le_refl].
Qed.

Lemma le_try_mod_list {S A T X} (f g : S -> A -> res (S * Result T X)) old l : (forall s a, le (f s a) (g s a)) ->
  forall s, le (try_mod_list f old s l) (try_mod_list g old s l).
Proof.
  intros H. induction l as [|a l IH]; intros s; cbn [try_mod_list]; [apply le_refl|]. apply le_bind; [apply H|intros [s1 [c|x]]; [|apply le_refl]].
  apply le_bind; [apply IH|intros y; apply le_refl].
Qed.

Create HintDb builds discriminated.
#[local] Hint Constants Opaque : builds.
Ltac le_more := fail.
Ltac le_step :=
  match goal with
  | |- forall _, _ => intro
  | |- le ?x ?x => apply le_refl
  | |- le (bind _ _) _ => apply le_bind
  | |- le (u32 _ _) _ => apply le_u32
  | |- le (i32 _ _) _ => apply le_i32
  | |- le (for_ _ _ _) _ => apply le_for
  | |- le (map_res _ _) _ => apply le_map_res
  | |- le (map_st _ _ _) _ => apply le_map_st
  | |- le (try_map_st _ _ _) _ => apply le_try_map_st
  | |- le (try_mod_list _ _ _ _) _ => apply le_try_mod_list
  | |- le (match ?d with _ => _ end) _ => destruct d
  | |- le ((match ?d with _ => _ end) _) _ => destruct d
  | |- le (let _ := _ in _) _ => cbv zeta
  | |- le _ _ => solve [auto 1 with builds nocore]
  | H : forall _, _ |- le _ _ => apply H
  | |- le _ _ => le_more
  end.
Ltac le_all := repeat le_step.

Lemma le_new_with_color {T} w h (c : T) : le (new_with_color Checked w h c) (new_with_color Wrapping w h c).
Proof. intros; unfold new_with_color; le_all. Qed.
#[local] Hint Resolve le_new_with_color : builds.
Lemma le_new {T} (c : T) w h : le (new Checked c w h) (new Wrapping c w h).
Proof. intros; unfold new; le_all. Qed.
#[local] Hint Resolve le_new : builds.
Lemma le_try_new_from_func {S T X} w h (f g : S -> Z -> Z -> res (S * Result T X)) s : (forall s x y, le (f s x y) (g s x y)) ->
  le (try_new_from_func Checked w h f s) (try_new_from_func Wrapping w h g s).
Proof. intros; unfold try_new_from_func; le_all. Qed.
Lemma le_new_from_func {S T} w h (f g : S -> Z -> Z -> res (S * T)) s : (forall s x y, le (f s x y) (g s x y)) ->
  le (new_from_func Checked w h f s) (new_from_func Wrapping w h g s).
Proof. intros; unfold new_from_func; le_all. Qed.
Ltac le_more ::= match goal with
  | |- le (try_new_from_func _ _ _ _ _) _ => apply le_try_new_from_func
  | |- le (new_from_func _ _ _ _ _) _ => apply le_new_from_func
  end.
Lemma le_new_from_fn {T} w h (f g : Z -> Z -> res T) : (forall x y, le (f x y) (g x y)) ->
  le (new_from_fn Checked w h f) (new_from_fn Wrapping w h g).
Proof. intros; unfold new_from_fn; le_all. Qed.
Lemma le_map_colors_enumerated {T} (f g : Z -> Z -> T -> res T) b : (forall x y c, le (f x y c) (g x y c)) ->
  le (map_colors_enumerated f b) (map_colors_enumerated g b).
Proof. intros; unfold map_colors_enumerated; le_all. Qed.
Lemma le_map_colors {S T U} (f g : S -> T -> res (S * U)) s b : (forall s c, le (f s c) (g s c)) ->
  le (map_colors f s b) (map_colors g s b).
Proof. intros; unfold map_colors; le_all. Qed.
Lemma le_try_map_colors {S T U X} (f g : S -> T -> res (S * Result U X)) s b : (forall s c, le (f s c) (g s c)) ->
  le (try_map_colors f s b) (try_map_colors g s b).
Proof. intros; unfold try_map_colors; le_all. Qed.
Lemma le_try_mod_colors {S T X} (f g : S -> T -> res (S * Result T X)) s b : (forall s c, le (f s c) (g s c)) ->
  le (try_mod_colors f s b) (try_mod_colors g s b).
Proof. intros; unfold try_mod_colors; le_all. Qed.
Ltac le_more ::= match goal with
  | |- le (try_new_from_func _ _ _ _ _) _ => apply le_try_new_from_func
  | |- le (new_from_func _ _ _ _ _) _ => apply le_new_from_func
  | |- le (new_from_fn _ _ _ _) _ => apply le_new_from_fn
  | |- le (map_colors_enumerated _ _) _ => apply le_map_colors_enumerated
  | |- le (map_colors _ _ _) _ => apply le_map_colors
  | |- le (try_map_colors _ _ _) _ => apply le_try_map_colors
  | |- le (try_mod_colors _ _ _) _ => apply le_try_mod_colors
  end.
Lemma le_get_pixel {T} (b : PixelBuffer T) x y : le (get_pixel Checked b x y) (get_pixel Wrapping b x y).
Proof. intros; unfold get_pixel; le_all. Qed.
#[local] Hint Resolve le_get_pixel : builds.
Lemma le_put_pixel {T} (b : PixelBuffer T) x y c : le (put_pixel Checked b x y c) (put_pixel Wrapping b x y c).
Proof. intros; unfold put_pixel; le_all. Qed.
#[local] Hint Resolve le_put_pixel : builds.
Lemma le_get_pixel_clamped {T} (b : PixelBuffer T) x y : le (get_pixel_clamped Checked b x y) (get_pixel_clamped Wrapping b x y).
Proof. intros; unfold get_pixel_clamped; le_all. Qed.
#[local] Hint Resolve le_get_pixel_clamped : builds.
Lemma le_get_pixel_optional {T} (b : PixelBuffer T) x y : le (get_pixel_optional Checked b x y) (get_pixel_optional Wrapping b x y).
Proof. intros; unfold get_pixel_optional; le_all. Qed.
#[local] Hint Resolve le_get_pixel_optional : builds.
Lemma le_get_kernel {T} (b : PixelBuffer T) N x y : le (get_kernel Checked b N x y) (get_kernel Wrapping b N x y).
Proof. intros; unfold get_kernel; le_all. Qed.
#[local] Hint Resolve le_get_kernel : builds.
Lemma le_get_kernel_dyn {T} (b : PixelBuffer T) x y n : le (get_kernel_dyn Checked b x y n) (get_kernel_dyn Wrapping b x y n).
Proof. intros; unfold get_kernel_dyn; le_all. Qed.
#[local] Hint Resolve le_get_kernel_dyn : builds.

(** * Geometry *)

Lemma le_copy_loop {T} (f g : Z -> Z -> res Z) (b : PixelBuffer T) r : (forall x y, le (f x y) (g x y)) ->
  le (copy_loop Checked f b r) (copy_loop Wrapping g b r).
Proof. intros; unfold copy_loop; le_all. Qed.
Ltac le_more ::= match goal with
  | |- le (try_new_from_func _ _ _ _ _) _ => apply le_try_new_from_func
  | |- le (new_from_func _ _ _ _ _) _ => apply le_new_from_func
  | |- le (new_from_fn _ _ _ _) _ => apply le_new_from_fn
  | |- le (map_colors_enumerated _ _) _ => apply le_map_colors_enumerated
  | |- le (map_colors _ _ _) _ => apply le_map_colors
  | |- le (try_map_colors _ _ _) _ => apply le_try_map_colors
  | |- le (try_mod_colors _ _ _) _ => apply le_try_mod_colors
  | |- le (copy_loop _ _ _ _) _ => apply le_copy_loop
  end.
Lemma le_rotate90 {T} (d : T) b : le (rotate90 Checked d b) (rotate90 Wrapping d b).
Proof. intros; unfold rotate90; le_all. Qed.
#[local] Hint Resolve le_rotate90 : builds.
Lemma le_rotate180 {T} (d : T) b : le (rotate180 Checked d b) (rotate180 Wrapping d b).
Proof. intros; unfold rotate180; le_all. Qed.
#[local] Hint Resolve le_rotate180 : builds.
Lemma le_rotate270 {T} (d : T) b : le (rotate270 Checked d b) (rotate270 Wrapping d b).
Proof. intros; unfold rotate270; le_all. Qed.
#[local] Hint Resolve le_rotate270 : builds.
Lemma le_flip_horizontal {T} (d : T) b : le (flip_horizontal Checked d b) (flip_horizontal Wrapping d b).
Proof. intros; unfold flip_horizontal; le_all. Qed.
#[local] Hint Resolve le_flip_horizontal : builds.
Lemma le_flip_vertical {T} (d : T) b : le (flip_vertical Checked d b) (flip_vertical Wrapping d b).
Proof. intros; unfold flip_vertical; le_all. Qed.
#[local] Hint Resolve le_flip_vertical : builds.
Lemma le_crop {T} (d : T) b x y w h : le (crop Checked d b x y w h) (crop Wrapping d b x y w h).
Proof. intros; unfold crop; le_all. Qed.
#[local] Hint Resolve le_crop : builds.
Lemma le_interlace {T} (b : PixelBuffer T) o : le (interlace Checked b o) (interlace Wrapping b o).
Proof. intros; unfold interlace; le_all. Qed.
#[local] Hint Resolve le_interlace : builds.
Lemma le_try_compose {S T X} bs (d : T) (f g : S -> Z -> Z -> list T -> res (S * Result T X)) s : (forall s x y l, le (f s x y l) (g s x y l)) ->
  le (try_compose Checked bs d f s) (try_compose Wrapping bs d g s).
Proof. intros; unfold try_compose; le_all. Qed.
Lemma le_try_compose_slice {S T X} bs (d : T) (f g : S -> Z -> Z -> list T -> res (S * Result T X)) s : (forall s x y l, le (f s x y l) (g s x y l)) ->
  le (try_compose_slice Checked bs d f s) (try_compose_slice Wrapping bs d g s).
Proof. intros; unfold try_compose_slice; le_all. Qed.
Ltac le_more ::= match goal with
  | |- le (try_new_from_func _ _ _ _ _) _ => apply le_try_new_from_func
  | |- le (new_from_func _ _ _ _ _) _ => apply le_new_from_func
  | |- le (new_from_fn _ _ _ _) _ => apply le_new_from_fn
  | |- le (map_colors_enumerated _ _) _ => apply le_map_colors_enumerated
  | |- le (map_colors _ _ _) _ => apply le_map_colors
  | |- le (try_map_colors _ _ _) _ => apply le_try_map_colors
  | |- le (try_mod_colors _ _ _) _ => apply le_try_mod_colors
  | |- le (copy_loop _ _ _ _) _ => apply le_copy_loop
  | |- le (try_compose _ _ _ _ _) _ => apply le_try_compose
  | |- le (try_compose_slice _ _ _ _ _) _ => apply le_try_compose_slice
  end.
Lemma le_compose {S T} bs (d : T) (f g : S -> Z -> Z -> list T -> res (S * T)) s : (forall s x y l, le (f s x y l) (g s x y l)) ->
  le (compose Checked bs d f s) (compose Wrapping bs d g s).
Proof. intros; unfold compose; le_all. Qed.
Lemma le_compose_slice {S T} bs (d : T) (f g : S -> Z -> Z -> list T -> res (S * T)) s : (forall s x y l, le (f s x y l) (g s x y l)) ->
  le (compose_slice Checked bs d f s) (compose_slice Wrapping bs d g s).
Proof. intros; unfold compose_slice; le_all. Qed.
Ltac le_more ::= match goal with
  | |- le (try_new_from_func _ _ _ _ _) _ => apply le_try_new_from_func
  | |- le (new_from_func _ _ _ _ _) _ => apply le_new_from_func
  | |- le (new_from_fn _ _ _ _) _ => apply le_new_from_fn
  | |- le (map_colors_enumerated _ _) _ => apply le_map_colors_enumerated
  | |- le (map_colors _ _ _) _ => apply le_map_colors
  | |- le (try_map_colors _ _ _) _ => apply le_try_map_colors
  | |- le (try_mod_colors _ _ _) _ => apply le_try_mod_colors
  | |- le (copy_loop _ _ _ _) _ => apply le_copy_loop
  | |- le (try_compose _ _ _ _ _) _ => apply le_try_compose
  | |- le (try_compose_slice _ _ _ _ _) _ => apply le_try_compose_slice
  | |- le (compose _ _ _ _ _) _ => apply le_compose
  | |- le (compose_slice _ _ _ _ _) _ => apply le_compose_slice
  end.

(** * Filters *)

Lemma le_blend_image_with_func a b i f : le (blend_image_with_func Checked a b i f) (blend_image_with_func Wrapping a b i f).
Proof. intros; unfold blend_image_with_func; le_all. Qed.
#[local] Hint Resolve le_blend_image_with_func : builds.
Lemma le_blend_image L a b op i : le (blend_image L Checked a b op i) (blend_image L Wrapping a b op i).
Proof. intros; unfold blend_image; le_all. Qed.
#[local] Hint Resolve le_blend_image : builds.
Lemma le_kernel_dyn_new d w h : le (kernel_dyn_new Checked d w h) (kernel_dyn_new Wrapping d w h).
Proof. intros; unfold kernel_dyn_new; le_all. Qed.
#[local] Hint Resolve le_kernel_dyn_new : builds.
Lemma le_new_gaussian_dyn L n s : le (new_gaussian_dyn L Checked n s) (new_gaussian_dyn L Wrapping n s).
Proof. intros; unfold new_gaussian_dyn; le_all. Qed.
#[local] Hint Resolve le_new_gaussian_dyn : builds.
Lemma le_apply_kernel N k b : le (apply_kernel Checked N k b) (apply_kernel Wrapping N k b).
Proof. intros; unfold apply_kernel; le_all. Qed.
#[local] Hint Resolve le_apply_kernel : builds.
Lemma le_get_kernel_value b x y k : le (get_kernel_value Checked b x y k) (get_kernel_value Wrapping b x y k).
Proof. intros; unfold get_kernel_value; le_all. Qed.
#[local] Hint Resolve le_get_kernel_value : builds.
Lemma le_apply_kernel_dyn k b : le (apply_kernel_dyn Checked k b) (apply_kernel_dyn Wrapping k b).
Proof. intros; unfold apply_kernel_dyn; le_all. Qed.
#[local] Hint Resolve le_apply_kernel_dyn : builds.
Lemma le_blur_size r : le (blur_size Checked r) (blur_size Wrapping r).
Proof. intros; unfold blur_size; le_all. Qed.
#[local] Hint Resolve le_blur_size : builds.
Lemma le_gaussian_blur L b r s : le (gaussian_blur L Checked b r s) (gaussian_blur L Wrapping b r s).
Proof. intros; unfold gaussian_blur; le_all. Qed.
#[local] Hint Resolve le_gaussian_blur : builds.
Lemma le_unsharp L b r f s : le (unsharp L Checked b r f s) (unsharp L Wrapping b r f s).
Proof. intros; unfold unsharp; le_all. Qed.
#[local] Hint Resolve le_unsharp : builds.
Lemma le_compose2 a b d f : le (compose2 Checked a b d f) (compose2 Wrapping a b d f).
Proof. intros; unfold compose2; le_all. Qed.
#[local] Hint Resolve le_compose2 : builds.
Lemma le_edge_detection_sobel b : le (edge_detection_sobel Checked b) (edge_detection_sobel Wrapping b).
Proof. intros; unfold edge_detection_sobel; le_all. Qed.
#[local] Hint Resolve le_edge_detection_sobel : builds.
Lemma le_edge_detection_laplace b : le (edge_detection_laplace Checked b) (edge_detection_laplace Wrapping b).
Proof. intros; unfold edge_detection_laplace; le_all. Qed.
#[local] Hint Resolve le_edge_detection_laplace : builds.
Lemma le_edge_detection b mode : le (edge_detection Checked b mode) (edge_detection Wrapping b mode).
Proof. intros; unfold edge_detection; le_all. Qed.
#[local] Hint Resolve le_edge_detection : builds.
Lemma le_despeckle b t a : le (despeckle Checked b t a) (despeckle Wrapping b t a).
Proof. intros; unfold despeckle; le_all. Qed.
#[local] Hint Resolve le_despeckle : builds.
Lemma le_snn_pick b c x y r p : le (snn_pick Checked b c x y r p) (snn_pick Wrapping b c x y r p).
Proof. intros; unfold snn_pick; le_all. Qed.
#[local] Hint Resolve le_snn_pick : builds.
Lemma le_symmetric_nearest_neighbor b r c : le (symmetric_nearest_neighbor Checked b r c) (symmetric_nearest_neighbor Wrapping b r c).
Proof. intros; unfold symmetric_nearest_neighbor; le_all. Qed.
#[local] Hint Resolve le_symmetric_nearest_neighbor : builds.
Lemma le_merge_color a b : le (merge_color Checked a b) (merge_color Wrapping a b).
Proof. intros; unfold merge_color; le_all. Qed.
#[local] Hint Resolve le_merge_color : builds.
Lemma le_merge_color_reduced L a b : le (merge_color_reduced L Checked a b) (merge_color_reduced L Wrapping a b).
Proof. intros; unfold merge_color_reduced; le_all. Qed.
#[local] Hint Resolve le_merge_color_reduced : builds.
Lemma le_drawing L b r mode : le (drawing L Checked b r mode) (drawing L Wrapping b r mode).
Proof. intros; unfold drawing; le_all. Qed.
#[local] Hint Resolve le_drawing : builds.
Lemma le_channel_table b c : le (channel_table Checked b c) (channel_table Wrapping b c).
Proof. intros; unfold channel_table; le_all. Qed.
#[local] Hint Resolve le_channel_table : builds.
Lemma le_equalize_colors f b : le (equalize_colors Checked f b) (equalize_colors Wrapping f b).
Proof. intros; unfold equalize_colors; le_all. Qed.
#[local] Hint Resolve le_equalize_colors : builds.
Lemma le_equalize_hsl L s l b : le (equalize_hsl L Checked s l b) (equalize_hsl L Wrapping s l b).
Proof. intros; unfold equalize_hsl; le_all. Qed.
#[local] Hint Resolve le_equalize_hsl : builds.
Lemma le_equalize L b mode : le (equalize L Checked b mode) (equalize L Wrapping b mode).
Proof. intros; unfold equalize; le_all. Qed.
#[local] Hint Resolve le_equalize : builds.

(** * Resampling *)

Lemma le_get_pixel_bilinear b x y : le (get_pixel_bilinear Checked b x y) (get_pixel_bilinear Wrapping b x y).
Proof. intros; unfold get_pixel_bilinear; le_all. Qed.
#[local] Hint Resolve le_get_pixel_bilinear : builds.
Lemma le_get_pixel_bicubic b x y : le (get_pixel_bicubic Checked b x y) (get_pixel_bicubic Wrapping b x y).
Proof. intros; unfold get_pixel_bicubic; le_all. Qed.
#[local] Hint Resolve le_get_pixel_bicubic : builds.
Lemma le_get_pixel_lanczos L N b x y : le (get_pixel_lanczos L Checked N b x y) (get_pixel_lanczos L Wrapping N b x y).
Proof. intros; unfold get_pixel_lanczos; le_all. Qed.
#[local] Hint Resolve le_get_pixel_lanczos : builds.
Lemma le_get_pixel_lanczos3 L b x y : le (get_pixel_lanczos3 L Checked b x y) (get_pixel_lanczos3 L Wrapping b x y).
Proof. intros; unfold get_pixel_lanczos3; le_all. Qed.
#[local] Hint Resolve le_get_pixel_lanczos3 : builds.
Lemma le_get_pixel_lanczos_dyn L b x y n : le (get_pixel_lanczos_dyn L Checked b x y n) (get_pixel_lanczos_dyn L Wrapping b x y n).
Proof. intros; unfold get_pixel_lanczos_dyn; le_all. Qed.
#[local] Hint Resolve le_get_pixel_lanczos_dyn : builds.
Lemma le_resize_pixel_nearest b x y u v : le (resize_pixel_nearest Checked b x y u v) (resize_pixel_nearest Wrapping b x y u v).
Proof. intros; unfold resize_pixel_nearest; le_all. Qed.
#[local] Hint Resolve le_resize_pixel_nearest : builds.
Lemma le_resize_pixel_bilinear b x y u v : le (resize_pixel_bilinear Checked b x y u v) (resize_pixel_bilinear Wrapping b x y u v).
Proof. intros; unfold resize_pixel_bilinear; le_all. Qed.
#[local] Hint Resolve le_resize_pixel_bilinear : builds.
Lemma le_resize_pixel_bicubic b x y u v : le (resize_pixel_bicubic Checked b x y u v) (resize_pixel_bicubic Wrapping b x y u v).
Proof. intros; unfold resize_pixel_bicubic; le_all. Qed.
#[local] Hint Resolve le_resize_pixel_bicubic : builds.
Lemma le_resize_pixel_lanczos L N b x y u v : le (resize_pixel_lanczos L Checked N b x y u v) (resize_pixel_lanczos L Wrapping N b x y u v).
Proof. intros; unfold resize_pixel_lanczos; le_all. Qed.
#[local] Hint Resolve le_resize_pixel_lanczos : builds.
Lemma le_resize_with_fn b w h (f g : PixelBuffer Rgb -> Z -> Z -> f32 -> f32 -> res Rgb) : (forall b x y u v, le (f b x y u v) (g b x y u v)) ->
  le (resize_with_fn Checked b w h f) (resize_with_fn Wrapping b w h g).
Proof. intros; unfold resize_with_fn; le_all. Qed.
Lemma le_rotate_with_fn L b a c (f g : PixelBuffer Rgb -> f32 -> f32 -> res (option Rgb)) : (forall b x y, le (f b x y) (g b x y)) ->
  le (rotate_with_fn L Checked b a c f) (rotate_with_fn L Wrapping b a c g).
Proof. intros; unfold rotate_with_fn; le_all. Qed.
Lemma le_rotate_pixel_with (f g : PixelBuffer Rgb -> f32 -> f32 -> res Rgb) b x y : (forall b x y, le (f b x y) (g b x y)) ->
  le (rotate_pixel_with f b x y) (rotate_pixel_with g b x y).
Proof. intros; unfold rotate_pixel_with; le_all. Qed.
Ltac le_more ::= match goal with
  | |- le (try_new_from_func _ _ _ _ _) _ => apply le_try_new_from_func
  | |- le (new_from_func _ _ _ _ _) _ => apply le_new_from_func
  | |- le (new_from_fn _ _ _ _) _ => apply le_new_from_fn
  | |- le (map_colors_enumerated _ _) _ => apply le_map_colors_enumerated
  | |- le (map_colors _ _ _) _ => apply le_map_colors
  | |- le (try_map_colors _ _ _) _ => apply le_try_map_colors
  | |- le (try_mod_colors _ _ _) _ => apply le_try_mod_colors
  | |- le (copy_loop _ _ _ _) _ => apply le_copy_loop
  | |- le (try_compose _ _ _ _ _) _ => apply le_try_compose
  | |- le (try_compose_slice _ _ _ _ _) _ => apply le_try_compose_slice
  | |- le (compose _ _ _ _ _) _ => apply le_compose
  | |- le (compose_slice _ _ _ _ _) _ => apply le_compose_slice
  | |- le (resize_with_fn _ _ _ _ _) _ => apply le_resize_with_fn
  | |- le (rotate_with_fn _ _ _ _ _ _) _ => apply le_rotate_with_fn
  | |- le (rotate_pixel_with _ _ _ _) _ => apply le_rotate_pixel_with
  end.
Lemma le_resize_auto L b w h : le (resize_auto L Checked b w h) (resize_auto L Wrapping b w h).
Proof. intros; unfold resize_auto; le_all. Qed.
#[local] Hint Resolve le_resize_auto : builds.
Lemma le_resize L b w h f : le (resize L Checked b w h f) (resize L Wrapping b w h f).
Proof. intros; unfold resize; le_all. Qed.
#[local] Hint Resolve le_resize : builds.
Lemma le_rotate_pixel_nearest b x y : le (rotate_pixel_nearest Checked b x y) (rotate_pixel_nearest Wrapping b x y).
Proof. intros; unfold rotate_pixel_nearest; le_all. Qed.
#[local] Hint Resolve le_rotate_pixel_nearest : builds.
Lemma le_rotate L b a c f : le (rotate L Checked b a c f) (rotate L Wrapping b a c f).
Proof. intros; unfold rotate; le_all. Qed.
#[local] Hint Resolve le_rotate : builds.

(** * Files *)

Lemma le_decode_png D L c : le (decode_png Checked D L c) (decode_png Wrapping D L c).
Proof. intros; unfold decode_png; le_all. Qed.
#[local] Hint Resolve le_decode_png : builds.
Lemma le_decode_webp D L c : le (decode_webp Checked D L c) (decode_webp Wrapping D L c).
Proof. intros; unfold decode_webp; le_all. Qed.
#[local] Hint Resolve le_decode_webp : builds.
Lemma le_decode D L c f : le (decode Checked D L c f) (decode Wrapping D L c f).
Proof. intros; unfold decode; le_all. Qed.
#[local] Hint Resolve le_decode : builds.
Lemma le_decode_buffer D L c : le (decode_buffer Checked D L c) (decode_buffer Wrapping D L c).
Proof. intros; unfold decode_buffer; le_all. Qed.
#[local] Hint Resolve le_decode_buffer : builds.
Lemma le_decode_file D L s p : le (decode_file Checked D L s p) (decode_file Wrapping D L s p).
Proof. intros; unfold decode_file; le_all. Qed.
#[local] Hint Resolve le_decode_file : builds.
Lemma le_jpeg_quality E D L b q a : le (jpeg_quality Checked E D L b q a) (jpeg_quality Wrapping E D L b q a).
Proof. intros; unfold jpeg_quality; le_all. Qed.
#[local] Hint Resolve le_jpeg_quality : builds.

(** * Images *)

Ltac le_image := intros; unfold with_meta, in_place, py_bind, py_ok; le_all.
Lemma le_open D L s p : le (image_open Checked D L s p) (image_open Wrapping D L s p).
Proof. intros. unfold image_open. le_all. Qed.
#[local] Hint Resolve le_open : builds.
Lemma le_py_open D L s p : le (py_open Checked D L s p) (py_open Wrapping D L s p).
Proof. intros. unfold py_open. le_all. Qed.
#[local] Hint Resolve le_py_open : builds.
Lemma le_image_rotate L a f i : le (image_rotate L Checked a f i) (image_rotate L Wrapping a f i).
Proof. unfold image_rotate. le_image. Qed.
#[local] Hint Resolve le_image_rotate : builds.
Lemma le_py_new w h c : le (py_new Checked w h c) (py_new Wrapping w h c).
Proof. unfold py_new, image_new, image_new_with_color. le_image. Qed.
Lemma le_py_get_pixel i x y : le (py_get_pixel Checked i x y) (py_get_pixel Wrapping i x y).
Proof. unfold py_get_pixel. le_image. Qed.
Lemma le_py_get_pixel_clamped i x y : le (py_get_pixel_clamped Checked i x y) (py_get_pixel_clamped Wrapping i x y).
Proof. unfold py_get_pixel_clamped. le_image. Qed.
Lemma le_py_put_pixel i x y c : le (py_put_pixel Checked i x y c) (py_put_pixel Wrapping i x y c).
Proof. unfold py_put_pixel, image_put_pixel. le_image. Qed.
Lemma le_py_getitem i x y : le (py_getitem Checked i x y) (py_getitem Wrapping i x y).
Proof. unfold py_getitem. le_image. Qed.
Lemma le_py_run E D L i c : le (py_run Checked E D L i c) (py_run Wrapping E D L i c).
Proof.
  unfold py_run, image_crop, image_flip_horizontal, image_flip_vertical, image_rotate90, image_rotate180, image_rotate270, image_resize_pct, image_resize,
    image_edge_detection, image_with_jpeg_quality, image_gaussian_blur, image_unsharp, image_drawing, image_interlace, image_despeckle,
    image_symmetric_nearest_neighbor, image_blend, image_equalize.
  le_image.
Qed.
#[local] Hint Resolve le_py_new le_py_get_pixel le_py_get_pixel_clamped le_py_put_pixel le_py_getitem le_py_run : builds.
Lemma le_image_try_compose_slice {S X} is d (f g : S -> Z -> Z -> list Rgb -> res (S * Result Rgb X)) s : (forall s x y l, le (f s x y l) (g s x y l)) ->
  le (image_try_compose_slice Checked is d f s) (image_try_compose_slice Wrapping is d g s).
Proof. intros H. unfold image_try_compose_slice. le_all. Qed.

(** * Programs *)

Lemma le_run_line {R} (e : env R) l s r i : le (run_line (built Checked e) l s r i) (run_line (built Wrapping e) l s r i).
Proof. unfold run_line, built. cbn [e_build e_libm e_rng e_enc e_dec]. le_all. Qed.
Lemma le_run_lines {R} (e : env R) ls : forall s r i, le (run_lines (built Checked e) ls s r i) (run_lines (built Wrapping e) ls s r i).
Proof. induction ls as [|l ls IH]; intros; cbn [run_lines]; [apply le_refl|]. apply le_bind; [apply le_run_line|]. le_all. Qed.
Lemma le_run_script {R} (e : env R) p ls s r : le (run_script (built Checked e) p ls s r) (run_script (built Wrapping e) p ls s r).
Proof. unfold run_script, built. cbn [e_build e_libm e_dec]. apply le_bind; [apply le_py_open|]. intros [i|x]; [apply (le_run_lines e)|apply le_refl]. Qed.

Lemma le_execute_cmd {R} (e : env R) c ctx w : le (execute_cmd (built Checked e) c ctx w) (execute_cmd (built Wrapping e) c ctx w).
Proof. unfold execute_cmd, execute_open, execute_save, with_image, built. cbn [e_build e_libm e_rng e_enc e_dec]. le_all. Qed.
Lemma le_execute {R} (e : env R) cs : forall ctx lg w, le (execute (built Checked e) cs ctx lg w) (execute (built Wrapping e) cs ctx lg w).
Proof.
  induction cs as [|c cs IH]; intros; cbn [execute]; [apply le_refl|]. destruct (if negb (ignore_in_log c) then _ else _) as [lg' w'].
  apply le_bind; [apply le_execute_cmd|]. le_all.
Qed.
Lemma le_queue_run {R} (e : env R) cs w : le (queue_run (built Checked e) cs w) (queue_run (built Wrapping e) cs w).
Proof. apply le_execute. Qed.
Lemma le_main {R} (e : env R) text number args w : le (main (built Checked e) text number args w) (main (built Wrapping e) text number args w).
Proof. unfold main. destruct (zlen args =? 1); [apply le_refl|]. destruct (parse text number args) as [q|x]; [|apply le_refl]. apply le_bind; [apply le_queue_run|]. le_all. Qed.

Lemma le_perform {V} E D L o (w : PyObjects.world V) : le (perform Checked E D L o w) (perform Wrapping E D L o w).
Proof. unfold perform, need, give_image. le_all. Qed.
Lemma le_objects {V} E D L (a : act V) : forall w, le (run Checked E D L a w) (run Wrapping E D L a w).
Proof.
  induction a as [r|k IH|v a IH|o k IH|i f IF k IH|i f IF k IH|i f IF k IH|i f IF k IH|l d f IF k IH|c f IF k IH]; intros w; cbn [run].
  - apply le_refl.
  - apply IH.
  - apply IH.
  - apply le_bind; [apply le_perform|]. intros [w' r]. apply IH.
  - destruct (borrow_mut (PyObjects.images w) i) as [[l img]|x]; [|apply IH]. apply le_bind; [|intros [[w' img'] r]; apply IH].
    unfold py_mod_colors. apply le_bind; [|intros y; apply le_refl]. apply le_try_mod_colors. intros s c. unfold call_back. le_all.
  - destruct (borrow_mut (PyObjects.images w) i) as [[l img]|x]; [|apply IH]. apply le_bind; [|intros [[w' img'] r]; apply IH].
    unfold py_mod_colors_enumerated, call_back. le_all.
  - destruct (borrow_ref (PyObjects.images w) i) as [[l img]|x]; [|apply IH]. apply le_bind; [|intros [w' r]; destruct (made _ _) as [w2 r2]; apply IH].
    unfold py_map_colors, image_try_map_colors, call_back. le_all.
  - destruct (borrow_ref (PyObjects.images w) i) as [[l img]|x]; [|apply IH]. apply le_bind; [|intros [w' r]; destruct (made _ _) as [w2 r2]; apply IH].
    unfold py_map_colors_enumerated, call_back. le_all.
  - destruct (match d with Some c => _ | None => _ end) as [dc|x]; [|apply IH]. destruct (all_images w l); [|apply IH].
    apply le_bind; [apply le_refl|]. intros [l' imgs]. apply le_bind; [|intros [w' r]; destruct (made _ _) as [w2 r2]; apply IH].
    unfold py_compose. apply le_image_try_compose_slice. intros s x y cs. unfold call_back_list. le_all.
  - destruct (borrow_ref (PyObjects.colours w) c) as [[l p]|x]; [|apply IH]. apply le_bind; [|intros [w' [q|x]]; [destruct (new_colour _ _) as [w2 n]|]; apply IH].
    unfold try_map_color_channels, call_back_f32. le_all.
Qed.
