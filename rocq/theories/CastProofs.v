(** Proofs for C126: red, green and blue are treated alike. *)
From Coq Require Import ZArith List Bool Lia.
From Verif Require Import Base PixelBuffer Geometry F32 Color Resample Kernel Blend Image StepsSpec CastSpec.
From Verif Require Import BaseLemmas StepsProofs.
Import ListNotations.
Open Scope Z_scope.

(** * Loops and buffers under a change of all colours *)

Lemma for_conv {A S T} (g : S -> T) (F : A -> S -> res S) (G : A -> T -> res T) l :
  (forall a s, G a (g s) = bind (F a s) (lift g)) -> forall s, for_ l G (g s) = bind (for_ l F s) (lift g).
Proof.
  intros H. induction l as [|a l IH]; intros s; [reflexivity|]. cbn [for_]. rewrite H. destruct (F a s) as [s'|]; [|reflexivity].
  cbn [bind]. apply IH.
Qed.
Lemma upd_nat_conv {A B} (f : A -> B) (l : list A) i v : upd_nat (map f l) i (f v) = option_map (map f) (upd_nat l i v).
Proof.
  revert i. induction l as [|a l IH]; intros [|i]; try reflexivity. cbn [map upd_nat]. rewrite IH. destruct (upd_nat l i v); reflexivity.
Qed.
Lemma upd_conv {A B} (f : A -> B) (l : list A) i v : upd (map f l) i (f v) = bind (upd l i v) (lift (map f)).
Proof. unfold upd. destruct (i <? 0); [reflexivity|]. rewrite upd_nat_conv. destruct (upd_nat l _ v); reflexivity. Qed.

Lemma copy_conv {A B} (f : A -> B) m dst b r : copy_loop m dst (convert f b) (map f r) = bind (copy_loop m dst b r) (lift (map f)).
Proof.
  unfold copy_loop. change (width (convert f b)) with (width b). change (height (convert f b)) with (height b). change (data (convert f b)) with (map f (data b)).
  apply (for_conv (map f)). intros x s. apply (for_conv (map f)). intros y s'.
  destruct (dst x y) as [d|]; [|reflexivity]. cbn [bind]. destruct (u32 m (y * width b)) as [yw|]; [|reflexivity]. cbn [bind].
  destruct (u32 m (x + yw)) as [i|]; [|reflexivity]. cbn [bind]. rewrite idx_conv. destruct (idx (data b) i) as [v|]; [|reflexivity]. cbn [bind].
  apply upd_conv.
Qed.
Lemma raw_conv {A B} (f : A -> B) w h d : new_from_raw w h (map f d) = bind (new_from_raw w h d) (lift (convert f)).
Proof. unfold new_from_raw. rewrite zlen_map. destruct (negb _); [reflexivity|]. destruct (validate_size w h); reflexivity. Qed.
Lemma turn_conv (f : Rgb -> Rgb) t m b : f RGB_NONE = RGB_NONE -> op_of t m RGB_NONE (convert f b) = bind (op_of t m RGB_NONE b) (lift (convert f)).
Proof.
  intros N.
  assert (R : repeat RGB_NONE (length (data (convert f b))) = map f (repeat RGB_NONE (length (data b)))).
  { cbn [convert data]. rewrite map_length. induction (data b) as [|a l IH]; [reflexivity|]. cbn [length repeat map]. rewrite <- IH, N. reflexivity. }
  destruct t; cbn [op_of]; unfold rotate90, rotate180, rotate270, flip_horizontal, flip_vertical; rewrite R, copy_conv;
    change (width (convert f b)) with (width b); change (height (convert f b)) with (height b);
    (destruct (copy_loop m _ b _); [|reflexivity]); cbn [bind]; apply raw_conv.
Qed.

Lemma optional_conv {A B} (f : A -> B) m b x y : get_pixel_optional m (convert f b) x y = bind (get_pixel_optional m b x y) (lift (option_map f)).
Proof.
  unfold get_pixel_optional. change (is_in_image (convert f b) x y) with (is_in_image b x y). destruct (is_in_image b x y); [|reflexivity].
  change (width (convert f b)) with (width b). destruct (u32 m (as_u32 y * width b)) as [yw|]; [|reflexivity]. cbn [bind].
  destruct (u32 m (as_u32 x + yw)) as [i|]; [|reflexivity]. cbn [bind]. change (data (convert f b)) with (map f (data b)). rewrite idx_conv.
  destruct (idx (data b) i); reflexivity.
Qed.

Lemma window_conv {A B} (f : A -> B) m b N x y : get_kernel m (convert f b) N x y = bind (get_kernel m b N x y) (lift (map (map f))).
Proof.
  unfold get_kernel. change (is_in_image (convert f b)) with (is_in_image b). change (width (convert f b)) with (width b). change (data (convert f b)) with (map f (data b)).
  destruct (i32 m (x - Z.quot (as_i32 N) 2)) as [sx|]; [|reflexivity]. cbn [bind]. destruct (i32 m (y - Z.quot (as_i32 N) 2)) as [sy|]; [|reflexivity]. cbn [bind].
  match goal with |- bind ?e _ = _ => destruct e as [[|]|]; [| |reflexivity] end; cbn [bind].
  - apply (map_res_conv (map f)). intros ty. cbv zeta. apply slice_conv.
  - apply (map_res_conv (map f)). intros ty. apply (map_res_conv f). intros tx.
    destruct (i32 m (as_i32 tx + x)) as [a|]; [|reflexivity]. cbn [bind]. destruct (i32 m (a - _)) as [px|]; [|reflexivity]. cbn [bind].
    destruct (i32 m (as_i32 ty + y)) as [c|]; [|reflexivity]. cbn [bind]. destruct (i32 m (c - _)) as [py|]; [|reflexivity]. cbn [bind]. apply clamped_conv.
Qed.
Lemma window_dyn_conv {A B} (f : A -> B) m b N x y : get_kernel_dyn m (convert f b) x y N = bind (get_kernel_dyn m b x y N) (lift (map (map f))).
Proof. exact (window_conv f m b N x y). Qed.

Lemma enumerate_conv {A B} (f : A -> B) w l : forall i, enumerate_from w i (map f l) = bind (enumerate_from w i l) (lift (map (fun '(x, y, c) => (x, y, f c)))).
Proof.
  induction l as [|a l IH]; intros i; [reflexivity|]. cbn [map enumerate_from]. destruct (assert_ _); [|reflexivity]. cbn [bind]. rewrite IH.
  destruct (enumerate_from w (i + 1) l); reflexivity.
Qed.
Lemma enumerated_conv {A} (f : A -> A) (F G : Z -> Z -> A -> res A) b : (forall x y c, G x y (f c) = bind (F x y c) (lift f)) ->
  map_colors_enumerated G (convert f b) = bind (map_colors_enumerated F b) (lift (convert f)).
Proof.
  intros H. unfold map_colors_enumerated, enumerate. change (width (convert f b)) with (width b). change (data (convert f b)) with (map f (data b)). rewrite enumerate_conv.
  destruct (enumerate_from (width b) 0 (data b)) as [items|]; [|reflexivity]. cbn [bind].
  assert (E : map_res (fun '(x, y, c) => G x y c) (map (fun '(x, y, c) => (x, y, f c)) items) = bind (map_res (fun '(x, y, c) => F x y c) items) (lift (map f))).
  { induction items as [|[[x y] c] l IH]; [reflexivity|]. cbn [map map_res]. rewrite H. destruct (F x y c); [|reflexivity]. cbn [bind]. rewrite IH.
    destruct (map_res _ l); reflexivity. }
  rewrite E. destruct (map_res _ items); reflexivity.
Qed.
Lemma each_conv (f g : Rgb -> Rgb) b : (forall c, g (f c) = f (g c)) -> map_pure g (convert f b) = bind (map_pure g b) (lift (convert f)).
Proof.
  intros H. unfold map_pure. rewrite !map_colors_recolour. unfold recolour. cbn [convert data width height bind].
  assert (E : forall l, map_res (fun a : Rgb => Ok (g a)) (map f l) = bind (map_res (fun a => Ok (g a)) l) (lift (map f))).
  { induction l as [|a l IH]; [reflexivity|]. cbn [map map_res bind]. rewrite IH, H. destruct (map_res _ l); reflexivity. }
  rewrite E. destruct (map_res _ (data b)); reflexivity.
Qed.

Lemma try_map_conv {I A B} (f : A -> B) (F : unit -> I -> res (unit * Result A unit)) (G : unit -> I -> res (unit * Result B unit)) l :
  (forall i, G tt i = bind (F tt i) (fun '(s, r) => Ok (s, match r with ROk a => ROk (f a) | RErr e => RErr e end))) ->
  try_map_st G l tt = bind (try_map_st F l tt) (fun '(s, r) => Ok (s, match r with ROk a => ROk (map f a) | RErr e => RErr e end)).
Proof.
  intros H. induction l as [|i l IH]; [reflexivity|]. cbn [try_map_st]. rewrite H. destruct (F tt i) as [[[] [a|e]]|]; cbn [bind]; [|reflexivity|reflexivity].
  rewrite IH. destruct (try_map_st F l tt) as [[[] [d|e]]|]; reflexivity.
Qed.
Lemma compose2_conv (f : Rgb -> Rgb) h m b1 b2 d : (forall c1 c2, h (f c1) (f c2) = f (h c1 c2)) -> f d = d ->
  compose2 m (convert f b1) (convert f b2) d h = bind (compose2 m b1 b2 d h) (lift (convert f)).
Proof.
  intros H D. unfold compose2, compose, try_compose. cbn [zlen length map]. change (width (convert f b1)) with (width b1). change (width (convert f b2)) with (width b2).
  change (height (convert f b1)) with (height b1). change (height (convert f b2)) with (height b2).
  destruct (assert_ _); [|reflexivity]. cbn [bind]. destruct (max_list [width b1; width b2]) as [w|]; [|reflexivity]. cbn [bind].
  destruct (max_list [height b1; height b2]) as [hh|]; [|reflexivity]. cbn [bind]. unfold try_new_from_func.
  destruct (validate_size w hh); [|reflexivity]. cbn [bind]. destruct (u32 m (w * hh)) as [n|]; [|reflexivity]. cbn [bind].
  match goal with |- context [try_map_st ?G (zrange 0 n) tt] =>
    match goal with |- context [bind (bind (bind (bind (try_map_st ?F (zrange 0 n) tt) _) _) _) (lift (convert f))] =>
      rewrite (try_map_conv f F G) end end.
  - destruct (try_map_st _ (zrange 0 n) tt) as [[[] [l|e]]|]; reflexivity.
  - intros i. destruct (assert_ (negb (w =? 0))); [|reflexivity]. cbn [bind map_res]. rewrite !optional_conv.
    destruct (get_pixel_optional m b1 _ _) as [c1|]; [|reflexivity]. cbn [bind]. destruct (get_pixel_optional m b2 _ _) as [c2|]; [|reflexivity]. cbn [bind].
    destruct c1 as [c1|], c2 as [c2|]; cbn [option_map]; rewrite <- ?H, ?D; reflexivity.
Qed.

(** * Samples *)

Lemma reordered_none o : reordered o RGB_NONE = RGB_NONE. Proof. destruct o; reflexivity. Qed.
Lemma reordered_zero o : reordered o (mkC f0 f0 f0 f0) = mkC f0 f0 f0 f0. Proof. destruct o; reflexivity. Qed.
(** One formula for all four channels. *)
Lemma reordered_new o (g : (col -> f32) -> f32) (g' : (col -> f32) -> f32) : (forall d d', (forall c, d (reordered o c) = d' c) -> g' d = g d') ->
  rgb_new_with_alpha (g' d0) (g' d1) (g' d2) (g' d3) = reordered o (rgb_new_with_alpha (g d0) (g d1) (g d2) (g d3)).
Proof.
  intros H. unfold rgb_new_with_alpha. destruct o; cbn [reordered d0 d1 d2 d3].
  - rewrite (H d0 d0), (H d1 d1), (H d2 d2), (H d3 d3) by reflexivity. reflexivity.
  - rewrite (H d0 d0), (H d1 d2), (H d2 d1), (H d3 d3) by reflexivity. reflexivity.
  - rewrite (H d0 d1), (H d1 d0), (H d2 d2), (H d3 d3) by reflexivity. reflexivity.
  - rewrite (H d0 d1), (H d1 d2), (H d2 d0), (H d3 d3) by reflexivity. reflexivity.
  - rewrite (H d0 d2), (H d1 d0), (H d2 d1), (H d3 d3) by reflexivity. reflexivity.
  - rewrite (H d0 d2), (H d1 d1), (H d2 d0), (H d3 d3) by reflexivity. reflexivity.
Qed.

Lemma bilinear_conv o m b x y : get_pixel_bilinear m (convert (reordered o) b) x y = bind (get_pixel_bilinear m b x y) (lift (reordered o)).
Proof.
  unfold get_pixel_bilinear. destruct (get_base_and_offset x) as [ix tx]. destruct (get_base_and_offset y) as [iy ty]. rewrite !clamped_conv.
  destruct (get_pixel_clamped m b ix iy) as [c1|]; [|reflexivity]. cbn [bind]. destruct (i32 m (ix + 1)) as [x1|]; [|reflexivity]. cbn [bind]. rewrite !clamped_conv.
  destruct (get_pixel_clamped m b x1 iy) as [c2|]; [|reflexivity]. cbn [bind]. destruct (i32 m (iy + 1)) as [y1|]; [|reflexivity]. cbn [bind]. rewrite !clamped_conv.
  destruct (get_pixel_clamped m b ix y1) as [c3|]; [|reflexivity]. cbn [bind]. destruct (get_pixel_clamped m b x1 y1) as [c4|]; [|reflexivity]. cbn [bind]. cbv zeta. f_equal.
  apply (reordered_new o
    (fun d => linear_interpolate (linear_interpolate (d c1) (d c2) tx) (linear_interpolate (d c3) (d c4) tx) ty)
    (fun d => linear_interpolate (linear_interpolate (d (reordered o c1)) (d (reordered o c2)) tx) (linear_interpolate (d (reordered o c3)) (d (reordered o c4)) tx) ty)).
  intros d d' E. rewrite !E. reflexivity.
Qed.

Lemma bicubic_conv o m b x y : get_pixel_bicubic m (convert (reordered o) b) x y = bind (get_pixel_bicubic m b x y) (lift (reordered o)).
Proof.
  unfold get_pixel_bicubic. destruct (get_base_and_offset x) as [ix tx]. destruct (get_base_and_offset y) as [iy ty].
  set (q := fun '(a, c, d, e) => (reordered o a, reordered o c, reordered o d, reordered o e)).
  set (row := fun (b : PixelBuffer Rgb) (dy : Z) => xm <- i32 m (ix - 1); yy <- i32 m (iy + dy); a <- get_pixel_clamped m b xm yy; c <- get_pixel_clamped m b ix yy;
    xp <- i32 m (ix + 1); d <- get_pixel_clamped m b xp yy; xq <- i32 m (ix + 2); e <- get_pixel_clamped m b xq yy; Ok (a, c, d, e)).
  assert (R : forall dy, row (convert (reordered o) b) dy = bind (row b dy) (lift q)).
  { intros dy. unfold row. destruct (i32 m (ix - 1)) as [xm|]; [|reflexivity]. cbn [bind]. destruct (i32 m (iy + dy)) as [yy|]; [|reflexivity]. cbn [bind]. rewrite !clamped_conv.
    destruct (get_pixel_clamped m b xm yy); [|reflexivity]. cbn [bind]. destruct (get_pixel_clamped m b ix yy); [|reflexivity]. cbn [bind].
    destruct (i32 m (ix + 1)) as [xp|]; [|reflexivity]. cbn [bind]. rewrite !clamped_conv. destruct (get_pixel_clamped m b xp yy); [|reflexivity]. cbn [bind].
    destruct (i32 m (ix + 2)) as [xq|]; [|reflexivity]. cbn [bind]. rewrite !clamped_conv. destruct (get_pixel_clamped m b xq yy); reflexivity. }
  fold (row (convert (reordered o) b)). fold (row b).
  change (bind (row (convert (reordered o) b) (-1)) (fun r0 => bind (row (convert (reordered o) b) 0) (fun r1 => bind (row (convert (reordered o) b) 1) (fun r2 => bind (row (convert (reordered o) b) 2) (fun r3 =>
    let calc (d : col -> f32) := let line (r : col * col * col * col) := let '(a, c, e, g) := r in cubic_hermite_interpolate (d a) (d c) (d e) (d g) tx in
      cubic_hermite_interpolate (line r0) (line r1) (line r2) (line r3) ty in Ok (rgb_new_with_alpha (calc d0) (calc d1) (calc d2) (calc d3)))))) =
    bind (bind (row b (-1)) (fun r0 => bind (row b 0) (fun r1 => bind (row b 1) (fun r2 => bind (row b 2) (fun r3 =>
    let calc (d : col -> f32) := let line (r : col * col * col * col) := let '(a, c, e, g) := r in cubic_hermite_interpolate (d a) (d c) (d e) (d g) tx in
      cubic_hermite_interpolate (line r0) (line r1) (line r2) (line r3) ty in Ok (rgb_new_with_alpha (calc d0) (calc d1) (calc d2) (calc d3))))))) (lift (reordered o))).
  rewrite !R. clearbody row. destruct (row b (-1)) as [[[[a0 b0] c0] e0]|]; [|reflexivity]. destruct (row b 0) as [[[[a1 b1] c1] e1]|]; [|reflexivity].
  destruct (row b 1) as [[[[a2 b2] c2] e2]|]; [|reflexivity]. destruct (row b 2) as [[[[a3 b3] c3] e3]|]; [|reflexivity]. unfold q. cbn [bind]. cbv zeta. f_equal.
  apply (reordered_new o
    (fun d => cubic_hermite_interpolate (cubic_hermite_interpolate (d a0) (d b0) (d c0) (d e0) tx) (cubic_hermite_interpolate (d a1) (d b1) (d c1) (d e1) tx)
       (cubic_hermite_interpolate (d a2) (d b2) (d c2) (d e2) tx) (cubic_hermite_interpolate (d a3) (d b3) (d c3) (d e3) tx) ty)
    (fun d => let r := reordered o in cubic_hermite_interpolate (cubic_hermite_interpolate (d (r a0)) (d (r b0)) (d (r c0)) (d (r e0)) tx) (cubic_hermite_interpolate (d (r a1)) (d (r b1)) (d (r c1)) (d (r e1)) tx)
       (cubic_hermite_interpolate (d (r a2)) (d (r b2)) (d (r c2)) (d (r e2)) tx) (cubic_hermite_interpolate (d (r a3)) (d (r b3)) (d (r c3)) (d (r e3)) tx) ty)).
  intros d d' E. cbv zeta. rewrite !E. reflexivity.
Qed.

Lemma acc_conv o s a v : acc_add s (reordered o a) (reordered o v) = reordered o (acc_add s a v).
Proof. destruct o; reflexivity. Qed.
Lemma lanczos_sum_conv o n k rs cs : lanczos_sum n (map (map (reordered o)) k) rs cs = bind (lanczos_sum n k rs cs) (lift (reordered o)).
Proof.
  unfold lanczos_sum.
  rewrite (map_res_conv (reordered o) (fun y => for_ (zrange 0 n) (fun x acc => scale <- idx rs x; row <- idx k y; v <- idx row x; Ok (acc_add scale acc v)) (mkC f0 f0 f0 f0))).
  - destruct (map_res _ (zrange 0 n)) as [rows|]; [|reflexivity]. cbn [bind]. rewrite <- (reordered_zero o) at 1. apply (for_conv (reordered o)). intros y a. rewrite idx_conv. unfold Rgb in *.
    destruct (idx rows y) as [v|]; [|reflexivity]. cbn [bind]. rewrite acc_conv. reflexivity.
  - intros y. rewrite <- (reordered_zero o) at 1. apply (for_conv (reordered o)). intros x a. destruct (idx rs x) as [s|]; [|reflexivity]. cbn [bind]. rewrite idx_conv. unfold Rgb in *.
    destruct (idx k y) as [row|]; [|reflexivity]. cbn [bind]. rewrite idx_conv. destruct (idx row x) as [v|]; [|reflexivity]. cbn [bind]. rewrite acc_conv. reflexivity.
Qed.
Lemma lanczos_conv o L m N b x y : get_pixel_lanczos L m N (convert (reordered o) b) x y = bind (get_pixel_lanczos L m N b x y) (lift (reordered o)).
Proof.
  unfold get_pixel_lanczos. destruct (get_base_and_offset x) as [ix tx]. destruct (get_base_and_offset y) as [iy ty]. rewrite window_conv.
  destruct (get_kernel m b N ix iy) as [k|]; [|reflexivity]. cbn [bind]. apply lanczos_sum_conv.
Qed.
Lemma lanczos_dyn_conv o L m b x y size : get_pixel_lanczos_dyn L m (convert (reordered o) b) x y size = bind (get_pixel_lanczos_dyn L m b x y size) (lift (reordered o)).
Proof.
  unfold get_pixel_lanczos_dyn. destruct (get_base_and_offset x) as [ix tx]. destruct (get_base_and_offset y) as [iy ty]. rewrite window_dyn_conv.
  destruct (get_kernel_dyn m b ix iy _) as [k|]; [|reflexivity]. cbn [bind]. apply lanczos_sum_conv.
Qed.

Lemma resize_conv o L m b w h f : resize L m (convert (reordered o) b) w h f = bind (resize L m b w h f) (lift (convert (reordered o))).
Proof.
  unfold resize. change (width (convert (reordered o) b)) with (width b). change (height (convert (reordered o) b)) with (height b).
  destruct ((width b =? w) && (height b =? h)); [reflexivity|].
  assert (B : resize_with_fn m (convert (reordered o) b) w h (resize_pixel_bicubic m) = bind (resize_with_fn m b w h (resize_pixel_bicubic m)) (lift (convert (reordered o)))).
  { apply new_conv. intros x y. apply bicubic_conv. }
  assert (Z : forall N, resize_with_fn m (convert (reordered o) b) w h (resize_pixel_lanczos L m N) = bind (resize_with_fn m b w h (resize_pixel_lanczos L m N)) (lift (convert (reordered o)))).
  { intros N. apply new_conv. intros x y. apply lanczos_conv. }
  destruct f; [apply new_conv; intros x y; apply (clamped_conv (reordered o) m b)|apply new_conv; intros x y; apply bilinear_conv|exact B|apply Z|].
  destruct ((width b <=? w) || (height b <=? h)); [exact B|]. unfold resize_auto.
  change (width (convert (reordered o) b)) with (width b). change (height (convert (reordered o) b)) with (height b). cbv zeta.
  destruct (auto_size _ _ =? 3); [apply Z|]. destruct (auto_size _ _ =? 4); [apply Z|]. destruct (auto_size _ _ =? 5); [apply Z|]. destruct (auto_size _ _ =? 6); [apply Z|].
  apply new_conv. intros x y. apply lanczos_dyn_conv.
Qed.

Lemma rotate_conv o L m b a bg f : rotate L m (convert (reordered o) b) a (reordered o bg) f = bind (rotate L m b a bg f) (lift (convert (reordered o))).
Proof.
  unfold rotate. destruct (flt _ f32_EPSILON); [reflexivity|].
  assert (R : forall g g', (forall x y, g' (convert (reordered o) b) x y = bind (g b x y) (lift (option_map (reordered o)))) ->
    rotate_with_fn L m (convert (reordered o) b) a (reordered o bg) g' = bind (rotate_with_fn L m b a bg g) (lift (convert (reordered o)))).
  { intros g g' H. unfold rotate_with_fn. change (width (convert (reordered o) b)) with (width b). change (height (convert (reordered o) b)) with (height b). cbv zeta.
    destruct (u32 m (width b + 1)) as [w1|]; [|reflexivity]. cbn [bind]. destruct (u32 m (height b + 1)) as [h1|]; [|reflexivity]. cbn [bind].
    apply new_conv. intros x y. rewrite H. destruct (g b _ _) as [[c|]|]; reflexivity. }
  assert (W : forall get, (forall x y, get (convert (reordered o) b) x y = bind (get b x y) (lift (reordered o))) ->
    rotate_with_fn L m (convert (reordered o) b) a (reordered o bg) (rotate_pixel_with get) = bind (rotate_with_fn L m b a bg (rotate_pixel_with get)) (lift (convert (reordered o)))).
  { intros get H. apply R. intros x y. unfold rotate_pixel_with. change (is_in_image (convert (reordered o) b)) with (is_in_image b).
    destruct (is_in_image b _ _); [|reflexivity]. rewrite H. destruct (get b x y); reflexivity. }
  destruct f.
  - apply R. intros x y. apply (optional_conv (reordered o) m b).
  - apply W. intros x y. apply bilinear_conv.
  - apply W. intros x y. apply bicubic_conv.
  - apply W. intros x y. apply (lanczos_conv o L m 7 b x y).
  - apply W. intros x y. apply bicubic_conv.
Qed.

(** * Kernels *)

Lemma cell_conv {A B} (f : A -> B) l y x : cell (map (map f) l) y x = bind (cell l y x) (lift f).
Proof. unfold cell. rewrite idx_conv. destruct (idx l y) as [r|]; [|reflexivity]. cbn [bind]. apply idx_conv. Qed.
Lemma weighted_conv o k c a : add_weighted k (reordered o c) (reordered o a) = reordered o (add_weighted k c a).
Proof. destruct o; reflexivity. Qed.
Lemma weighted_dyn_conv o k c a : add_weighted_dyn (reordered o c) k (reordered o a) = reordered o (add_weighted_dyn c k a).
Proof. destruct o; reflexivity. Qed.
Lemma fixed_conv o m N k b : apply_kernel m N k (convert (reordered o) b) = bind (apply_kernel m N k b) (lift (convert (reordered o))).
Proof.
  unfold apply_kernel. apply enumerated_conv. intros x y _. rewrite window_conv. destruct (get_kernel m b N _ _) as [d|]; [|reflexivity]. cbn [bind].
  unfold kernel_apply. rewrite <- (reordered_zero o) at 1. apply (for_conv (reordered o)). intros ty a. apply (for_conv (reordered o)). intros tx a'.
  destruct (cell k ty tx) as [kv|]; [|reflexivity]. cbn [bind]. rewrite cell_conv. destruct (cell d ty tx) as [c|]; [|reflexivity]. cbn [bind]. rewrite weighted_conv. reflexivity.
Qed.
Lemma value_conv o m b x y k : get_kernel_value m (convert (reordered o) b) x y k = bind (get_kernel_value m b x y k) (lift (reordered o)).
Proof.
  unfold get_kernel_value. destruct (kernel_enumerate k) as [items|]; [|reflexivity]. cbn [bind]. rewrite <- (reordered_zero o) at 1. apply (for_conv (reordered o)).
  intros [[kx ky] kv] a. destruct (u32 m (x + kx)) as [ax|]; [|reflexivity]. cbn [bind]. destruct (i32 m (as_i32 ax - _)) as [px|]; [|reflexivity]. cbn [bind].
  destruct (u32 m (y + ky)) as [ay|]; [|reflexivity]. cbn [bind]. destruct (i32 m (as_i32 ay - _)) as [py|]; [|reflexivity]. cbn [bind]. rewrite clamped_conv.
  destruct (get_pixel_clamped m b px py) as [c|]; [|reflexivity]. cbn [bind]. rewrite weighted_dyn_conv. reflexivity.
Qed.
Lemma dyn_conv o m k b : apply_kernel_dyn m k (convert (reordered o) b) = bind (apply_kernel_dyn m k b) (lift (convert (reordered o))).
Proof. unfold apply_kernel_dyn. apply enumerated_conv. intros x y _. apply value_conv. Qed.
Lemma blur_conv' o L m b r s : gaussian_blur L m (convert (reordered o) b) r s = bind (gaussian_blur L m b r s) (lift (convert (reordered o))).
Proof.
  unfold gaussian_blur. destruct (blur_size m r) as [n|]; [|reflexivity]. cbn [bind]. cbv zeta.
  destruct (n =? 3); [destruct (new_gaussian L 3 _); [apply fixed_conv|reflexivity]|].
  destruct (n =? 5); [destruct (new_gaussian L 5 _); [apply fixed_conv|reflexivity]|].
  destruct (n =? 7); [destruct (new_gaussian L 7 _); [apply fixed_conv|reflexivity]|].
  destruct (new_gaussian_dyn L m n _); [apply dyn_conv|reflexivity].
Qed.
Lemma unsharp_conv o L m b r a s : unsharp L m (convert (reordered o) b) r a s = bind (unsharp L m b r a s) (lift (convert (reordered o))).
Proof.
  unfold unsharp. destruct (blur_size m r) as [n|]; [|reflexivity]. cbn [bind]. cbv zeta. destruct (new_gaussian_dyn L m n _) as [k|]; [|reflexivity]. cbn [bind].
  apply enumerated_conv. intros x y c. rewrite value_conv. destruct (get_kernel_value m b x y k) as [bl|]; [|reflexivity]. cbn [bind]. f_equal. destruct o; reflexivity.
Qed.
Lemma edges_conv o m b mode : edge_detection m (convert (reordered o) b) mode = bind (edge_detection m b mode) (lift (convert (reordered o))).
Proof.
  destruct mode; cbn [edge_detection].
  - unfold edge_detection_sobel. rewrite !fixed_conv. destruct (apply_kernel m 3 sobel_x b) as [bx|]; [|reflexivity]. cbn [bind]. destruct (apply_kernel m 3 sobel_y b) as [by_|]; [|reflexivity]. cbn [bind].
    apply compose2_conv; [intros c1 c2; destruct o; reflexivity|destruct o; reflexivity].
  - unfold edge_detection_laplace. rewrite fixed_conv. destruct (apply_kernel m 3 laplace_kernel b) as [r|]; [|reflexivity]. cbn [bind].
    apply each_conv. intros c. destruct o; reflexivity.
Qed.

(** * Blending *)

Lemma blend_func_conv o L op c1 c2 s : blend_func L (as_op op) (reordered o c1) (reordered o c2) s = reordered o (blend_func L (as_op op) c1 c2 s).
Proof. destruct op, o; reflexivity. Qed.
Lemma blend_conv o L m b1 b2 op s : blend_image L m (convert (reordered o) b1) (convert (reordered o) b2) (as_op op) s = bind (blend_image L m b1 b2 (as_op op) s) (lift (convert (reordered o))).
Proof.
  unfold blend_image, blend_image_with_func. change (width (convert (reordered o) b1)) with (width b1). change (width (convert (reordered o) b2)) with (width b2).
  change (height (convert (reordered o) b1)) with (height b1). change (height (convert (reordered o) b2)) with (height b2). cbv zeta.
  apply new_conv. intros x y. rewrite !optional_conv. destruct (get_pixel_optional m b1 _ _) as [c1|]; [|reflexivity]. cbn [bind]. destruct (get_pixel_optional m b2 _ _) as [c2|]; [|reflexivity]. cbn [bind].
  destruct c1 as [c1|], c2 as [c2|]; cbn [option_map]; rewrite ?blend_func_conv, ?reordered_none; reflexivity.
Qed.

(** * Steps *)

Lemma meta_conv o i r : bind (bind r (lift (convert (reordered o)))) (fun b => Ok (new_from_buffer_with_meta (reordered_image o i) b)) = bind (with_meta i r) (lift (reordered_image o)).
Proof. unfold with_meta. destruct r; reflexivity. Qed.
Lemma each_image o f i : (forall c, f (reordered o c) = reordered o (f c)) ->
  ('(_, r) <- image_map_colors (fun (_ : unit) c => Ok (tt, f c)) tt (reordered_image o i); Ok r) =
  bind ('(_, r) <- image_map_colors (fun (_ : unit) c => Ok (tt, f c)) tt i; Ok r) (lift (reordered_image o)).
Proof.
  intros H. pose proof (each_conv (reordered o) f (buffer i) H) as E. unfold map_pure in E. unfold image_map_colors, with_meta_st.
  change (buffer (reordered_image o i)) with (convert (reordered o) (buffer i)).
  destruct (map_colors _ tt (convert (reordered o) (buffer i))) as [[[] r]|], (map_colors _ tt (buffer i)) as [[[] r']|]; cbn [bind] in *; try discriminate; [|reflexivity].
  injection E as ->. reflexivity.
Qed.

Lemma step_conv o L m s i : performed L m (reordered_step o s) (reordered_image o i) = bind (performed L m s i) (lift (reordered_image o)).
Proof.
  destruct s; cbn [reordered_step performed]; cbv zeta; try (apply each_image; intros c; destruct o; reflexivity).
  - rewrite !turned_eq. unfold with_meta at 1. change (buffer (reordered_image o i)) with (convert (reordered o) (buffer i)). rewrite (turn_conv (reordered o)) by apply reordered_none. apply meta_conv.
  - unfold image_crop. unfold with_meta at 1. change (buffer (reordered_image o i)) with (convert (reordered o) (buffer i)). rewrite (crop_conv (reordered o) m RGB_NONE). apply meta_conv.
  - unfold image_interlace. unfold with_meta at 1. change (buffer (reordered_image o i)) with (convert (reordered o) (buffer i)). rewrite interlace_conv. apply meta_conv.
  - unfold image_resize. unfold with_meta at 1. change (buffer (reordered_image o i)) with (convert (reordered o) (buffer i)). rewrite resize_conv. apply meta_conv.
  - unfold image_rotate. unfold with_meta at 1. change (buffer (reordered_image o i)) with (convert (reordered o) (buffer i)).
    replace (match bg_color (reordered_image o i) with Some c => c | None => RGB_NONE end) with (reordered o (match bg_color i with Some c => c | None => RGB_NONE end))
      by (cbn [reordered_image bg_color]; destruct (bg_color i); [reflexivity|apply reordered_none]).
    rewrite rotate_conv. apply meta_conv.
  - unfold with_meta at 1. change (buffer (reordered_image o i)) with (convert (reordered o) (buffer i)). rewrite fixed_conv. apply meta_conv.
  - unfold with_meta at 1. change (buffer (reordered_image o i)) with (convert (reordered o) (buffer i)). rewrite dyn_conv. apply meta_conv.
  - unfold image_gaussian_blur. unfold with_meta at 1. change (buffer (reordered_image o i)) with (convert (reordered o) (buffer i)). rewrite blur_conv'. apply meta_conv.
  - unfold image_unsharp. unfold with_meta at 1. change (buffer (reordered_image o i)) with (convert (reordered o) (buffer i)). rewrite unsharp_conv. apply meta_conv.
  - unfold image_edge_detection. unfold with_meta at 1. change (buffer (reordered_image o i)) with (convert (reordered o) (buffer i)). rewrite edges_conv. apply meta_conv.
  - unfold image_blend. unfold with_meta at 1. change (buffer (reordered_image o i)) with (convert (reordered o) (buffer i)). change (buffer (reordered_image o other)) with (convert (reordered o) (buffer other)).
    rewrite blend_conv. apply meta_conv.
Qed.

Lemma steps_conv o L m ss : forall i, performed_all L m (map (reordered_step o) ss) (reordered_image o i) = bind (performed_all L m ss i) (lift (reordered_image o)).
Proof.
  induction ss as [|s ss IH]; intros i; [reflexivity|]. cbn [map performed_all]. rewrite step_conv. destruct (performed L m s i) as [j|]; [|reflexivity]. cbn [bind]. apply IH.
Qed.

(** * Greys *)

Lemma grey_fixed o c : grey c -> reordered o c = c.
Proof. destruct c as [r g b a]. unfold grey. cbn [d0 d1 d2]. intros [-> ->]. destruct o; reflexivity. Qed.
Lemma fixed_grey c : (forall o, reordered o c = c) -> grey c.
Proof.
  intros H. pose proof (f_equal d0 (H GreenRedBlue)) as A. pose proof (f_equal d1 (H RedBlueGreen)) as B. cbn [reordered d0 d1] in A, B. split; congruence.
Qed.
Lemma grey_image_fixed o i : grey_image i -> reordered_image o i = i.
Proof.
  intros [A B]. destruct i as [[w h d] bg]. unfold reordered_image. cbn [buffer width height data bg_color] in *. f_equal.
  - f_equal. rewrite <- (map_id d) at 2. apply map_ext_in. intros c Hc. apply grey_fixed, A, Hc.
  - destruct bg as [c|]; [|reflexivity]. cbn [option_map]. f_equal. apply grey_fixed, B. reflexivity.
Qed.
Lemma fixed_grey_image i : (forall o, reordered_image o i = i) -> grey_image i.
Proof.
  intros H. destruct i as [[w h d] bg]. split; cbn [buffer width height data bg_color] in *.
  - intros c Hc. apply fixed_grey. intros o. specialize (H o). unfold reordered_image in H. cbn [buffer width height data bg_color] in H.
    apply (f_equal (fun i => data (buffer i))) in H. cbn [buffer data] in H. clear bg.
    induction d as [|a d IH]; [destruct Hc|]. cbn [map] in H. pose proof (f_equal (hd a) H) as H1. pose proof (f_equal (@tl _) H) as H2. cbn [hd tl] in H1, H2.
    destruct Hc as [->|Hc]; [exact H1|exact (IH H2 Hc)].
  - intros c ->. apply fixed_grey. intros o. specialize (H o). apply (f_equal bg_color) in H. cbn [reordered_image bg_color option_map] in H.
    apply (f_equal (fun q => match q with Some x => x | None => c end)) in H. exact H.
Qed.
Lemma grey_stays_grey L m ss i r : Forall grey_step ss -> grey_image i -> performed_all L m ss i = Ok r -> grey_image r.
Proof.
  intros G I E. apply fixed_grey_image. intros o. pose proof (steps_conv o L m ss i) as C. rewrite grey_image_fixed in C by exact I.
  replace (map (reordered_step o) ss) with ss in C.
  - rewrite E in C. cbn [bind] in C. symmetry. apply (f_equal (fun q => match q with Ok x => x | Panic => r end)) in C. exact C.
  - rewrite <- (map_id ss) at 1. apply map_ext_in. intros s Hs. rewrite Forall_forall in G. specialize (G s Hs).
    destruct s; try reflexivity. cbn [reordered_step]. rewrite grey_image_fixed by exact G. reflexivity.
Qed.
