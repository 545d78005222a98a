(** Proofs for C127: colours and transparency are treated apart. *)
From Coq Require Import ZArith List Bool Lia.
From Verif Require Import Base PixelBuffer Geometry F32 Color Resample Kernel Blend Image StepsSpec CastSpec PickSpec.
From Verif Require Import BaseLemmas StepsProofs CastProofs.
Import ListNotations.
Open Scope Z_scope.

Lemma picked_none o : picked o RGB_NONE = RGB_NONE. Proof. destruct o as [[[[] []] []] []]; reflexivity. Qed.
Lemma picked_zero o : picked o (mkC f0 f0 f0 f0) = mkC f0 f0 f0 f0. Proof. destruct o as [[[[] []] []] []]; reflexivity. Qed.
(** One formula for all four numbers. *)
Lemma picked_new o (g : (col -> f32) -> f32) (g' : (col -> f32) -> f32) : (forall d d', (forall c, d (picked o c) = d' c) -> g' d = g d') ->
  rgb_new_with_alpha (g' d0) (g' d1) (g' d2) (g' d3) = picked o (rgb_new_with_alpha (g d0) (g d1) (g d2) (g d3)).
Proof.
  intros H. unfold rgb_new_with_alpha. destruct o as [[[p q] r] t]; cbn [picked d0 d1 d2 d3].
  rewrite (H d0 (value p)), (H d1 (value q)), (H d2 (value r)), (H d3 (value t)) by reflexivity. destruct p, q, r, t; reflexivity.
Qed.

Lemma bilinear_pick o m b x y : get_pixel_bilinear m (convert (picked o) b) x y = bind (get_pixel_bilinear m b x y) (lift (picked o)).
Proof.
  unfold get_pixel_bilinear. destruct (get_base_and_offset x) as [ix tx]. destruct (get_base_and_offset y) as [iy ty]. rewrite !clamped_conv.
  destruct (get_pixel_clamped m b ix iy) as [c1|]; [|reflexivity]. cbn [bind]. destruct (i32 m (ix + 1)) as [x1|]; [|reflexivity]. cbn [bind]. rewrite !clamped_conv.
  destruct (get_pixel_clamped m b x1 iy) as [c2|]; [|reflexivity]. cbn [bind]. destruct (i32 m (iy + 1)) as [y1|]; [|reflexivity]. cbn [bind]. rewrite !clamped_conv.
  destruct (get_pixel_clamped m b ix y1) as [c3|]; [|reflexivity]. cbn [bind]. destruct (get_pixel_clamped m b x1 y1) as [c4|]; [|reflexivity]. cbn [bind]. cbv zeta. f_equal.
  apply (picked_new o
    (fun d => linear_interpolate (linear_interpolate (d c1) (d c2) tx) (linear_interpolate (d c3) (d c4) tx) ty)
    (fun d => linear_interpolate (linear_interpolate (d (picked o c1)) (d (picked o c2)) tx) (linear_interpolate (d (picked o c3)) (d (picked o c4)) tx) ty)).
  intros d d' E. rewrite !E. reflexivity.
Qed.

Lemma bicubic_pick o m b x y : get_pixel_bicubic m (convert (picked o) b) x y = bind (get_pixel_bicubic m b x y) (lift (picked o)).
Proof.
  unfold get_pixel_bicubic. destruct (get_base_and_offset x) as [ix tx]. destruct (get_base_and_offset y) as [iy ty].
  set (q := fun '(a, c, d, e) => (picked o a, picked o c, picked o d, picked o e)).
  set (row := fun (b : PixelBuffer Rgb) (dy : Z) => xm <- i32 m (ix - 1); yy <- i32 m (iy + dy); a <- get_pixel_clamped m b xm yy; c <- get_pixel_clamped m b ix yy;
    xp <- i32 m (ix + 1); d <- get_pixel_clamped m b xp yy; xq <- i32 m (ix + 2); e <- get_pixel_clamped m b xq yy; Ok (a, c, d, e)).
  assert (R : forall dy, row (convert (picked o) b) dy = bind (row b dy) (lift q)).
  { intros dy. unfold row. destruct (i32 m (ix - 1)) as [xm|]; [|reflexivity]. cbn [bind]. destruct (i32 m (iy + dy)) as [yy|]; [|reflexivity]. cbn [bind]. rewrite !clamped_conv.
    destruct (get_pixel_clamped m b xm yy); [|reflexivity]. cbn [bind]. destruct (get_pixel_clamped m b ix yy); [|reflexivity]. cbn [bind].
    destruct (i32 m (ix + 1)) as [xp|]; [|reflexivity]. cbn [bind]. rewrite !clamped_conv. destruct (get_pixel_clamped m b xp yy); [|reflexivity]. cbn [bind].
    destruct (i32 m (ix + 2)) as [xq|]; [|reflexivity]. cbn [bind]. rewrite !clamped_conv. destruct (get_pixel_clamped m b xq yy); reflexivity. }
  fold (row (convert (picked o) b)). fold (row b).
  change (bind (row (convert (picked o) b) (-1)) (fun r0 => bind (row (convert (picked o) b) 0) (fun r1 => bind (row (convert (picked o) b) 1) (fun r2 => bind (row (convert (picked o) b) 2) (fun r3 =>
    let calc (d : col -> f32) := let line (r : col * col * col * col) := let '(a, c, e, g) := r in cubic_hermite_interpolate (d a) (d c) (d e) (d g) tx in
      cubic_hermite_interpolate (line r0) (line r1) (line r2) (line r3) ty in Ok (rgb_new_with_alpha (calc d0) (calc d1) (calc d2) (calc d3)))))) =
    bind (bind (row b (-1)) (fun r0 => bind (row b 0) (fun r1 => bind (row b 1) (fun r2 => bind (row b 2) (fun r3 =>
    let calc (d : col -> f32) := let line (r : col * col * col * col) := let '(a, c, e, g) := r in cubic_hermite_interpolate (d a) (d c) (d e) (d g) tx in
      cubic_hermite_interpolate (line r0) (line r1) (line r2) (line r3) ty in Ok (rgb_new_with_alpha (calc d0) (calc d1) (calc d2) (calc d3))))))) (lift (picked o))).
  rewrite !R. clearbody row. destruct (row b (-1)) as [[[[a0 b0] c0] e0]|]; [|reflexivity]. destruct (row b 0) as [[[[a1 b1] c1] e1]|]; [|reflexivity].
  destruct (row b 1) as [[[[a2 b2] c2] e2]|]; [|reflexivity]. destruct (row b 2) as [[[[a3 b3] c3] e3]|]; [|reflexivity]. unfold q. cbn [bind]. cbv zeta. f_equal.
  apply (picked_new o
    (fun d => cubic_hermite_interpolate (cubic_hermite_interpolate (d a0) (d b0) (d c0) (d e0) tx) (cubic_hermite_interpolate (d a1) (d b1) (d c1) (d e1) tx)
       (cubic_hermite_interpolate (d a2) (d b2) (d c2) (d e2) tx) (cubic_hermite_interpolate (d a3) (d b3) (d c3) (d e3) tx) ty)
    (fun d => let r := picked o in cubic_hermite_interpolate (cubic_hermite_interpolate (d (r a0)) (d (r b0)) (d (r c0)) (d (r e0)) tx) (cubic_hermite_interpolate (d (r a1)) (d (r b1)) (d (r c1)) (d (r e1)) tx)
       (cubic_hermite_interpolate (d (r a2)) (d (r b2)) (d (r c2)) (d (r e2)) tx) (cubic_hermite_interpolate (d (r a3)) (d (r b3)) (d (r c3)) (d (r e3)) tx) ty)).
  intros d d' E. cbv zeta. rewrite !E. reflexivity.
Qed.

Lemma acc_pick o s a v : acc_add s (picked o a) (picked o v) = picked o (acc_add s a v).
Proof. destruct o as [[[[] []] []] []]; reflexivity. Qed.
Lemma lanczos_sum_pick o n k rs cs : lanczos_sum n (map (map (picked o)) k) rs cs = bind (lanczos_sum n k rs cs) (lift (picked o)).
Proof.
  unfold lanczos_sum.
  rewrite (map_res_conv (picked o) (fun y => for_ (zrange 0 n) (fun x acc => scale <- idx rs x; row <- idx k y; v <- idx row x; Ok (acc_add scale acc v)) (mkC f0 f0 f0 f0))).
  - destruct (map_res _ (zrange 0 n)) as [rows|]; [|reflexivity]. cbn [bind]. rewrite <- (picked_zero o) at 1. apply (for_conv (picked o)). intros y a. rewrite idx_conv. unfold Rgb in *.
    destruct (idx rows y) as [v|]; [|reflexivity]. cbn [bind]. rewrite acc_pick. reflexivity.
  - intros y. rewrite <- (picked_zero o) at 1. apply (for_conv (picked o)). intros x a. destruct (idx rs x) as [s|]; [|reflexivity]. cbn [bind]. rewrite idx_conv. unfold Rgb in *.
    destruct (idx k y) as [row|]; [|reflexivity]. cbn [bind]. rewrite idx_conv. destruct (idx row x) as [v|]; [|reflexivity]. cbn [bind]. rewrite acc_pick. reflexivity.
Qed.
Lemma lanczos_pick o L m N b x y : get_pixel_lanczos L m N (convert (picked o) b) x y = bind (get_pixel_lanczos L m N b x y) (lift (picked o)).
Proof.
  unfold get_pixel_lanczos. destruct (get_base_and_offset x) as [ix tx]. destruct (get_base_and_offset y) as [iy ty]. rewrite window_conv.
  destruct (get_kernel m b N ix iy) as [k|]; [|reflexivity]. cbn [bind]. apply lanczos_sum_pick.
Qed.
Lemma lanczos_dyn_pick o L m b x y size : get_pixel_lanczos_dyn L m (convert (picked o) b) x y size = bind (get_pixel_lanczos_dyn L m b x y size) (lift (picked o)).
Proof.
  unfold get_pixel_lanczos_dyn. destruct (get_base_and_offset x) as [ix tx]. destruct (get_base_and_offset y) as [iy ty]. rewrite window_dyn_conv.
  destruct (get_kernel_dyn m b ix iy _) as [k|]; [|reflexivity]. cbn [bind]. apply lanczos_sum_pick.
Qed.

Lemma resize_pick o L m b w h f : resize L m (convert (picked o) b) w h f = bind (resize L m b w h f) (lift (convert (picked o))).
Proof.
  unfold resize. change (width (convert (picked o) b)) with (width b). change (height (convert (picked o) b)) with (height b).
  destruct ((width b =? w) && (height b =? h)); [reflexivity|].
  assert (B : resize_with_fn m (convert (picked o) b) w h (resize_pixel_bicubic m) = bind (resize_with_fn m b w h (resize_pixel_bicubic m)) (lift (convert (picked o)))).
  { apply new_conv. intros x y. apply bicubic_pick. }
  assert (Z : forall N, resize_with_fn m (convert (picked o) b) w h (resize_pixel_lanczos L m N) = bind (resize_with_fn m b w h (resize_pixel_lanczos L m N)) (lift (convert (picked o)))).
  { intros N. apply new_conv. intros x y. apply lanczos_pick. }
  destruct f; [apply new_conv; intros x y; apply (clamped_conv (picked o) m b)|apply new_conv; intros x y; apply bilinear_pick|exact B|apply Z|].
  destruct ((width b <=? w) || (height b <=? h)); [exact B|]. unfold resize_auto.
  change (width (convert (picked o) b)) with (width b). change (height (convert (picked o) b)) with (height b). cbv zeta.
  destruct (auto_size _ _ =? 3); [apply Z|]. destruct (auto_size _ _ =? 4); [apply Z|]. destruct (auto_size _ _ =? 5); [apply Z|]. destruct (auto_size _ _ =? 6); [apply Z|].
  apply new_conv. intros x y. apply lanczos_dyn_pick.
Qed.

Lemma rotate_pick o L m b a bg f : rotate L m (convert (picked o) b) a (picked o bg) f = bind (rotate L m b a bg f) (lift (convert (picked o))).
Proof.
  unfold rotate. destruct (flt _ f32_EPSILON); [reflexivity|].
  assert (R : forall g g', (forall x y, g' (convert (picked o) b) x y = bind (g b x y) (lift (option_map (picked o)))) ->
    rotate_with_fn L m (convert (picked o) b) a (picked o bg) g' = bind (rotate_with_fn L m b a bg g) (lift (convert (picked o)))).
  { intros g g' H. unfold rotate_with_fn. change (width (convert (picked o) b)) with (width b). change (height (convert (picked o) b)) with (height b). cbv zeta.
    destruct (u32 m (width b + 1)) as [w1|]; [|reflexivity]. cbn [bind]. destruct (u32 m (height b + 1)) as [h1|]; [|reflexivity]. cbn [bind].
    apply new_conv. intros x y. rewrite H. destruct (g b _ _) as [[c|]|]; reflexivity. }
  assert (W : forall get, (forall x y, get (convert (picked o) b) x y = bind (get b x y) (lift (picked o))) ->
    rotate_with_fn L m (convert (picked o) b) a (picked o bg) (rotate_pixel_with get) = bind (rotate_with_fn L m b a bg (rotate_pixel_with get)) (lift (convert (picked o)))).
  { intros get H. apply R. intros x y. unfold rotate_pixel_with. change (is_in_image (convert (picked o) b)) with (is_in_image b).
    destruct (is_in_image b _ _); [|reflexivity]. rewrite H. destruct (get b x y); reflexivity. }
  destruct f.
  - apply R. intros x y. apply (optional_conv (picked o) m b).
  - apply W. intros x y. apply bilinear_pick.
  - apply W. intros x y. apply bicubic_pick.
  - apply W. intros x y. apply (lanczos_pick o L m 7 b x y).
  - apply W. intros x y. apply bicubic_pick.
Qed.

(** * Kernels *)

Lemma weighted_pick o k c a : add_weighted k (picked o c) (picked o a) = picked o (add_weighted k c a).
Proof. destruct o as [[[[] []] []] []]; reflexivity. Qed.
Lemma weighted_dyn_pick o k c a : add_weighted_dyn (picked o c) k (picked o a) = picked o (add_weighted_dyn c k a).
Proof. destruct o as [[[[] []] []] []]; reflexivity. Qed.
Lemma fixed_pick o m N k b : apply_kernel m N k (convert (picked o) b) = bind (apply_kernel m N k b) (lift (convert (picked o))).
Proof.
  unfold apply_kernel. apply enumerated_conv. intros x y _. rewrite window_conv. destruct (get_kernel m b N _ _) as [d|]; [|reflexivity]. cbn [bind].
  unfold kernel_apply. rewrite <- (picked_zero o) at 1. apply (for_conv (picked o)). intros ty a. apply (for_conv (picked o)). intros tx a'.
  destruct (cell k ty tx) as [kv|]; [|reflexivity]. cbn [bind]. rewrite cell_conv. destruct (cell d ty tx) as [c|]; [|reflexivity]. cbn [bind]. rewrite weighted_pick. reflexivity.
Qed.
Lemma value_pick o m b x y k : get_kernel_value m (convert (picked o) b) x y k = bind (get_kernel_value m b x y k) (lift (picked o)).
Proof.
  unfold get_kernel_value. destruct (kernel_enumerate k) as [items|]; [|reflexivity]. cbn [bind]. rewrite <- (picked_zero o) at 1. apply (for_conv (picked o)).
  intros [[kx ky] kv] a. destruct (u32 m (x + kx)) as [ax|]; [|reflexivity]. cbn [bind]. destruct (i32 m (as_i32 ax - _)) as [px|]; [|reflexivity]. cbn [bind].
  destruct (u32 m (y + ky)) as [ay|]; [|reflexivity]. cbn [bind]. destruct (i32 m (as_i32 ay - _)) as [py|]; [|reflexivity]. cbn [bind]. rewrite clamped_conv.
  destruct (get_pixel_clamped m b px py) as [c|]; [|reflexivity]. cbn [bind]. rewrite weighted_dyn_pick. reflexivity.
Qed.
Lemma dyn_pick o m k b : apply_kernel_dyn m k (convert (picked o) b) = bind (apply_kernel_dyn m k b) (lift (convert (picked o))).
Proof. unfold apply_kernel_dyn. apply enumerated_conv. intros x y _. apply value_pick. Qed.
Lemma blur_pick o L m b r s : gaussian_blur L m (convert (picked o) b) r s = bind (gaussian_blur L m b r s) (lift (convert (picked o))).
Proof.
  unfold gaussian_blur. destruct (blur_size m r) as [n|]; [|reflexivity]. cbn [bind]. cbv zeta.
  destruct (n =? 3); [destruct (new_gaussian L 3 _); [apply fixed_pick|reflexivity]|].
  destruct (n =? 5); [destruct (new_gaussian L 5 _); [apply fixed_pick|reflexivity]|].
  destruct (n =? 7); [destruct (new_gaussian L 7 _); [apply fixed_pick|reflexivity]|].
  destruct (new_gaussian_dyn L m n _); [apply dyn_pick|reflexivity].
Qed.
Lemma unsharp_pick o L m b r a s : unsharp L m (convert (picked o) b) r a s = bind (unsharp L m b r a s) (lift (convert (picked o))).
Proof.
  unfold unsharp. destruct (blur_size m r) as [n|]; [|reflexivity]. cbn [bind]. cbv zeta. destruct (new_gaussian_dyn L m n _) as [k|]; [|reflexivity]. cbn [bind].
  apply enumerated_conv. intros x y c. rewrite value_pick. destruct (get_kernel_value m b x y k) as [bl|]; [|reflexivity]. cbn [bind]. f_equal. destruct o as [[[[] []] []] []]; reflexivity.
Qed.

(** * Steps *)

Lemma meta_every f i r : bind (bind r (lift (convert f))) (fun b => Ok (new_from_buffer_with_meta (every_pixel f i) b)) = bind (with_meta i r) (lift (every_pixel f)).
Proof. unfold with_meta. destruct r; reflexivity. Qed.

Lemma linear_pick s L m st i : linear st -> performed L m st (every_pixel (picked s) i) = bind (performed L m st i) (lift (every_pixel (picked s))).
Proof.
  intros Li. destruct st; try contradiction Li; clear Li; cbn [performed]; cbv zeta.
  - rewrite !turned_eq. unfold with_meta at 1. change (buffer (every_pixel (picked s) i)) with (convert (picked s) (buffer i)). rewrite (turn_conv (picked s)) by apply picked_none. apply meta_every.
  - unfold image_crop. unfold with_meta at 1. change (buffer (every_pixel (picked s) i)) with (convert (picked s) (buffer i)). rewrite (crop_conv (picked s) m RGB_NONE). apply meta_every.
  - unfold image_interlace. unfold with_meta at 1. change (buffer (every_pixel (picked s) i)) with (convert (picked s) (buffer i)). rewrite interlace_conv. apply meta_every.
  - unfold image_resize. unfold with_meta at 1. change (buffer (every_pixel (picked s) i)) with (convert (picked s) (buffer i)). rewrite resize_pick. apply meta_every.
  - unfold image_rotate. unfold with_meta at 1. change (buffer (every_pixel (picked s) i)) with (convert (picked s) (buffer i)).
    replace (match bg_color (every_pixel (picked s) i) with Some c => c | None => RGB_NONE end) with (picked s (match bg_color i with Some c => c | None => RGB_NONE end))
      by (cbn [every_pixel bg_color]; destruct (bg_color i); [reflexivity|apply picked_none]).
    rewrite rotate_pick. apply meta_every.
  - unfold with_meta at 1. change (buffer (every_pixel (picked s) i)) with (convert (picked s) (buffer i)). rewrite fixed_pick. apply meta_every.
  - unfold with_meta at 1. change (buffer (every_pixel (picked s) i)) with (convert (picked s) (buffer i)). rewrite dyn_pick. apply meta_every.
  - unfold image_gaussian_blur. unfold with_meta at 1. change (buffer (every_pixel (picked s) i)) with (convert (picked s) (buffer i)). rewrite blur_pick. apply meta_every.
  - unfold image_unsharp. unfold with_meta at 1. change (buffer (every_pixel (picked s) i)) with (convert (picked s) (buffer i)). rewrite unsharp_pick. apply meta_every.
Qed.
Lemma linear_all s L m ss : Forall linear ss -> forall i,
  performed_all L m ss (every_pixel (picked s) i) = bind (performed_all L m ss i) (lift (every_pixel (picked s))).
Proof.
  induction 1 as [|st ss Hs _ IH]; intros i; [reflexivity|]. cbn [performed_all]. rewrite linear_pick by exact Hs.
  destruct (performed L m st i) as [j|]; [|reflexivity]. cbn [bind]. apply IH.
Qed.

(** * Steps that respect a view of the colours *)

(** [view]: the step sees only [f] of the colours as far as [f] of the result
    is concerned. *)
Definition view (L : libm) (m : build) (f : Rgb -> Rgb) (st : step) : Prop := forall i,
  bind (performed L m st (every_pixel f i)) (lift (every_pixel f)) = bind (performed L m st i) (lift (every_pixel f)).

Lemma every_twice f i : (forall c, f (f c) = f c) -> every_pixel f (every_pixel f i) = every_pixel f i.
Proof.
  intros H. destruct i as [[w h d] bg]. unfold every_pixel. cbn [buffer width height data bg_color]. rewrite map_map. f_equal.
  - f_equal. apply map_ext, H.
  - destruct bg as [c|]; [|reflexivity]. cbn [option_map]. rewrite H. reflexivity.
Qed.
Lemma natural_view L m f st : (forall c, f (f c) = f c) ->
  (forall i, performed L m st (every_pixel f i) = bind (performed L m st i) (lift (every_pixel f))) -> view L m f st.
Proof. intros T H i. rewrite H. destruct (performed L m st i) as [j|]; [|reflexivity]. cbn [bind]. rewrite every_twice by exact T. reflexivity. Qed.

Lemma map_pure_Ok g b : map_pure g b = Ok (convert g b).
Proof.
  unfold map_pure. rewrite map_colors_recolour. unfold recolour.
  assert (E : forall l, map_res (fun a : Rgb => Ok (g a)) l = Ok (map g l)).
  { induction l as [|a l IH]; [reflexivity|]. cbn [map map_res bind]. rewrite IH. reflexivity. }
  rewrite E. reflexivity.
Qed.
Lemma each_Ok g i : ('(_, r) <- image_map_colors (fun (_ : unit) c => Ok (tt, g c)) tt i; Ok r) = Ok (mkImage (convert g (buffer i)) (bg_color i)).
Proof.
  pose proof (map_pure_Ok g (buffer i)) as E. unfold map_pure in E. unfold image_map_colors, with_meta_st.
  destruct (map_colors _ tt (buffer i)) as [[[] r]|]; cbn [bind] in *; [|discriminate E]. injection E as ->. reflexivity.
Qed.
Lemma each_view f g i : (forall c, f (f c) = f c) -> (forall c, f (g (f c)) = f (g c)) ->
  bind ('(_, r) <- image_map_colors (fun (_ : unit) c => Ok (tt, g c)) tt (every_pixel f i); Ok r) (lift (every_pixel f)) =
  bind ('(_, r) <- image_map_colors (fun (_ : unit) c => Ok (tt, g c)) tt i; Ok r) (lift (every_pixel f)).
Proof.
  intros T H. rewrite !each_Ok. cbn [bind]. f_equal. destruct i as [[w h d] bg]. unfold every_pixel, convert. cbn [buffer width height data bg_color]. rewrite !map_map. f_equal.
  - f_equal. apply map_ext. exact H.
  - destruct bg as [c|]; [|reflexivity]. cbn [option_map]. rewrite T. reflexivity.
Qed.

Lemma compose2_view (f : Rgb -> Rgb) h m b1 b2 d : (forall c1 c2, f (h (f c1) (f c2)) = f (h c1 c2)) -> (forall c, f (h (f c) d) = f (h c d)) -> (forall c, f (h d (f c)) = f (h d c)) ->
  bind (compose2 m (convert f b1) (convert f b2) d h) (lift (convert f)) = bind (compose2 m b1 b2 d h) (lift (convert f)).
Proof.
  intros H D1 D2. unfold compose2, compose, try_compose. cbn [zlen length map]. change (width (convert f b1)) with (width b1). change (width (convert f b2)) with (width b2).
  change (height (convert f b1)) with (height b1). change (height (convert f b2)) with (height b2).
  destruct (assert_ _); [|reflexivity]. cbn [bind]. destruct (max_list [width b1; width b2]) as [w|]; [|reflexivity]. cbn [bind].
  destruct (max_list [height b1; height b2]) as [hh|]; [|reflexivity]. cbn [bind]. unfold try_new_from_func.
  destruct (validate_size w hh); [|reflexivity]. cbn [bind]. destruct (u32 m (w * hh)) as [n|]; [|reflexivity]. cbn [bind].
  match goal with |- bind (bind (bind (bind (try_map_st ?G _ tt) _) _) _) _ = bind (bind (bind (bind (try_map_st ?F _ tt) _) _) _) _ =>
    assert (E : forall l, bind (try_map_st G l tt) (fun '(s, r) => Ok (s, match r with ROk a => ROk (map f a) | RErr e => RErr e end)) =
                          bind (try_map_st F l tt) (fun '(s, r) => Ok (s, match r with ROk a => ROk (map f a) | RErr e => RErr e end))) end.
  - intros l.
    match goal with |- bind (try_map_st ?G _ tt) _ = bind (try_map_st ?F _ tt) _ =>
      set (K := fun (s : unit) i => bind (F s i) (fun '(s, r) => Ok (s, match r with ROk a => ROk (f a) | RErr e => RErr e end)));
      rewrite <- (try_map_conv f F K), <- (try_map_conv f G K); [reflexivity| |intros; reflexivity] end.
    intros i. unfold K. destruct (assert_ (negb (w =? 0))); [|reflexivity]. cbn [bind map_res]. rewrite !optional_conv.
    destruct (get_pixel_optional m b1 _ _) as [c1|]; [|reflexivity]. cbn [bind]. destruct (get_pixel_optional m b2 _ _) as [c2|]; [|reflexivity]. cbn [bind].
    destruct c1 as [c1|], c2 as [c2|]; cbn [option_map bind]; rewrite ?H, ?D1, ?D2; reflexivity.
  - specialize (E (zrange 0 n)).
    match type of E with bind ?p _ = bind ?q _ => set (P := p) in *; set (Q := q) in *; clearbody P Q end.
    destruct P as [[[] [l|e]]|], Q as [[[] [l'|e']]|]; cbn [bind] in *; try discriminate E; try reflexivity.
    apply (f_equal (fun r => match r with Ok (_, ROk a) => a | _ => [] end)) in E. cbn beta iota in E. unfold convert. cbn [width height data]. rewrite E. reflexivity.
Qed.
Definition cview : choice := (Red, Green, Blue, Red).
Definition aview : choice := (Alpha, Alpha, Alpha, Alpha).
Lemma pure_view f g b : (forall c, f (g (f c)) = f (g c)) -> bind (map_pure g (convert f b)) (lift (convert f)) = bind (map_pure g b) (lift (convert f)).
Proof.
  intros H. rewrite !map_pure_Ok. cbn [bind]. f_equal. unfold convert. cbn [width height data]. rewrite !map_map. f_equal. apply map_ext. exact H.
Qed.
Lemma edges_view s m b mode : s = cview \/ s = aview ->
  bind (edge_detection m (convert (picked s) b) mode) (lift (convert (picked s))) = bind (edge_detection m b mode) (lift (convert (picked s))).
Proof.
  intros S. destruct mode; cbn [edge_detection].
  - unfold edge_detection_sobel. rewrite !fixed_pick. destruct (apply_kernel m 3 sobel_x b) as [bx|]; [|reflexivity]. cbn [bind]. destruct (apply_kernel m 3 sobel_y b) as [by_|]; [|reflexivity]. cbn [bind].
    apply compose2_view; destruct S as [-> | ->]; reflexivity.
  - unfold edge_detection_laplace. rewrite fixed_pick. destruct (apply_kernel m 3 laplace_kernel b) as [r|]; [|reflexivity]. cbn [bind].
    apply pure_view. destruct S as [-> | ->]; reflexivity.
Qed.
Lemma pick_view s L m st : s = cview \/ s = aview -> one_image st -> view L m (picked s) st.
Proof.
  intros S O.
  assert (T : forall c, picked s (picked s c) = picked s c) by (destruct S as [-> | ->]; reflexivity).
  destruct st; try contradiction O; try (apply natural_view; [exact T|intros i; apply linear_pick; exact I]); intros i; cbn [performed]; cbv zeta;
    try (apply each_view; [exact T|destruct S as [-> | ->]; reflexivity]).
  pose proof (edges_view s m (buffer i) mode S) as E. unfold image_edge_detection, with_meta. change (buffer (every_pixel (picked s) i)) with (convert (picked s) (buffer i)).
  destruct (edge_detection m (convert (picked s) (buffer i)) mode) as [r|], (edge_detection m (buffer i) mode) as [r'|]; cbn [bind] in *; try discriminate E; [|reflexivity].
  apply (f_equal (fun r => match r with Ok a => a | Panic => r' end)) in E. cbn beta iota in E. f_equal. unfold every_pixel, new_from_buffer_with_meta. cbn [buffer bg_color].
  pose proof (f_equal (@width _) E) as Ew. pose proof (f_equal (@height _) E) as Eh. pose proof (f_equal (@data _) E) as Ed. unfold convert in Ew, Eh, Ed. cbn [width height data] in Ew, Eh, Ed.
  rewrite Ew, Eh, Ed. f_equal. destruct (bg_color i) as [c|]; [|reflexivity]. cbn [option_map]. rewrite T. reflexivity.
Qed.

(** What is invisible is made black. *)
Definition hide (c : Rgb) : Rgb := if feq (d3 c) f0 then RGB_NONE else c.
Lemma none_zero : feq (d3 RGB_NONE) f0 = true. Proof. vm_compute. reflexivity. Qed.
Lemma hide_none : hide RGB_NONE = RGB_NONE. Proof. unfold hide. rewrite none_zero. reflexivity. Qed.
Lemma hide_twice c : hide (hide c) = hide c.
Proof. unfold hide at 2 3. destruct (feq (d3 c) f0) eqn:E; [apply hide_none|]. unfold hide. rewrite E. reflexivity. Qed.
Lemma hide_each g c : (forall c, d3 (g c) = d3 c) -> hide (g (hide c)) = hide (g c).
Proof.
  intros A. unfold hide at 2. destruct (feq (d3 c) f0) eqn:E; [|reflexivity]. unfold hide. rewrite !A, E, none_zero. reflexivity.
Qed.
Lemma hide_view L m st : mixes_nothing st -> view L m hide st.
Proof.
  intros M. destruct st; try contradiction M; try (intros i; cbn [performed]; cbv zeta; apply each_view; [exact hide_twice|intros c; apply hide_each; intros c'; reflexivity]);
    (apply natural_view; [exact hide_twice|]); intros i; cbn [performed]; cbv zeta.
  - rewrite !turned_eq. unfold with_meta at 1. change (buffer (every_pixel hide i)) with (convert hide (buffer i)). rewrite (turn_conv hide) by apply hide_none. apply meta_every.
  - unfold image_crop. unfold with_meta at 1. change (buffer (every_pixel hide i)) with (convert hide (buffer i)). rewrite (crop_conv hide m RGB_NONE). apply meta_every.
  - unfold image_interlace. unfold with_meta at 1. change (buffer (every_pixel hide i)) with (convert hide (buffer i)). rewrite interlace_conv. apply meta_every.
  - destruct filter; try contradiction M. unfold image_resize. unfold with_meta at 1. change (buffer (every_pixel hide i)) with (convert hide (buffer i)).
    rewrite <- meta_every. f_equal. unfold resize. change (width (convert hide (buffer i))) with (width (buffer i)). change (height (convert hide (buffer i))) with (height (buffer i)).
    destruct ((width (buffer i) =? w) && (height (buffer i) =? h)); [reflexivity|]. apply new_conv. intros x y. apply (clamped_conv hide m (buffer i)).
  - destruct filter; try contradiction M. unfold image_rotate. unfold with_meta at 1. change (buffer (every_pixel hide i)) with (convert hide (buffer i)).
    replace (match bg_color (every_pixel hide i) with Some c => c | None => RGB_NONE end) with (hide (match bg_color i with Some c => c | None => RGB_NONE end))
      by (cbn [every_pixel bg_color]; destruct (bg_color i); [reflexivity|apply hide_none]).
    rewrite <- meta_every. f_equal. set (bg := match bg_color i with Some c => c | None => RGB_NONE end). clearbody bg. unfold rotate. destruct (flt _ f32_EPSILON); [reflexivity|].
    unfold rotate_with_fn. change (width (convert hide (buffer i))) with (width (buffer i)). change (height (convert hide (buffer i))) with (height (buffer i)). cbv zeta.
    destruct (u32 m (width (buffer i) + 1)) as [w1|]; [|reflexivity]. cbn [bind]. destruct (u32 m (height (buffer i) + 1)) as [h1|]; [|reflexivity]. cbn [bind].
    apply new_conv. intros x y. unfold rotate_pixel_nearest. rewrite (optional_conv hide m (buffer i)). destruct (get_pixel_optional m (buffer i) _ _) as [[c|]|]; reflexivity.
Qed.

(** * Whole programs *)

Lemma views_all L m f ss : Forall (view L m f) ss -> forall i i', every_pixel f i = every_pixel f i' ->
  both (fun r r' => every_pixel f r = every_pixel f r') (performed_all L m ss i) (performed_all L m ss i').
Proof.
  induction 1 as [|st ss V _ IH]; intros i i' E; [exact E|]. cbn [performed_all]. pose proof (V i) as A. rewrite E, (V i') in A.
  destruct (performed L m st i) as [r|], (performed L m st i') as [r'|]; cbn [bind] in *; try discriminate A; [|exact I].
  apply IH. apply (f_equal (fun q => match q with Ok x => x | Panic => r end)) in A. symmetry. exact A.
Qed.
Lemma agree_every {A} (v : Rgb -> A) (f : Rgb -> Rgb) (k : A -> Rgb) i i' : (forall c, v (f c) = v c) -> (forall c, f c = k (v c)) ->
  agree v i i' <-> every_pixel f i = every_pixel f i'.
Proof.
  intros V K. destruct i as [[w h d] bg], i' as [[w' h' d'] bg']. unfold agree, every_pixel. cbn [buffer width height data bg_color].
  assert (M : forall l, map f l = map k (map v l)) by (intros l; rewrite map_map; apply map_ext, K).
  assert (M' : forall l, map v l = map v (map f l)) by (intros l; rewrite map_map; apply map_ext; intros c; symmetry; apply V).
  assert (O : forall l, option_map f l = option_map k (option_map v l)) by (intros [c|]; [cbn [option_map]; rewrite K|]; reflexivity).
  assert (O' : forall l, option_map v l = option_map v (option_map f l)) by (intros [c|]; [cbn [option_map]; rewrite V|]; reflexivity).
  split.
  - intros (-> & -> & D & B). rewrite !M, !O, D, B. reflexivity.
  - intros E. pose proof (f_equal (fun i => data (buffer i)) E) as D. pose proof (f_equal bg_color E) as B.
    pose proof (f_equal (fun i => width (buffer i)) E) as W. pose proof (f_equal (fun i => height (buffer i)) E) as H. cbn [buffer width height data bg_color] in D, B, W, H.
    split; [exact W|]. split; [exact H|]. rewrite (M' d), (M' d'), (O' bg), (O' bg'), D, B. split; reflexivity.
Qed.
Lemma both_mono {A} (R R' : A -> A -> Prop) p q : (forall a b, R a b -> R' a b) -> both R p q -> both R' p q.
Proof. intros H. destruct p, q; cbn [both]; auto. Qed.

Lemma colours_apart L m ss i i' : Forall one_image ss -> agree colours i i' -> both (agree colours) (performed_all L m ss i) (performed_all L m ss i').
Proof.
  intros F E.
  assert (Q : forall a b, agree colours a b <-> every_pixel (picked cview) a = every_pixel (picked cview) b).
  { intros a b. apply (agree_every colours (picked cview) (fun '(r, g, b) => mkC r g b r)); intros c; reflexivity. }
  apply (both_mono (fun r r' => every_pixel (picked cview) r = every_pixel (picked cview) r')); [intros a b; apply Q|].
  apply views_all; [|apply Q, E]. eapply Forall_impl; [|exact F]. intros st. apply pick_view. left. reflexivity.
Qed.
Lemma alphas_apart L m ss i i' : Forall one_image ss -> agree d3 i i' -> both (agree d3) (performed_all L m ss i) (performed_all L m ss i').
Proof.
  intros F E.
  assert (Q : forall a b, agree d3 a b <-> every_pixel (picked aview) a = every_pixel (picked aview) b).
  { intros a b. apply (agree_every d3 (picked aview) (fun a => mkC a a a a)); intros c; reflexivity. }
  apply (both_mono (fun r r' => every_pixel (picked aview) r = every_pixel (picked aview) r')); [intros a b; apply Q|].
  apply views_all; [|apply Q, E]. eapply Forall_impl; [|exact F]. intros st. apply pick_view. right. reflexivity.
Qed.
Lemma seen_kept L m ss i i' : Forall mixes_nothing ss -> agree seen i i' -> both (agree seen) (performed_all L m ss i) (performed_all L m ss i').
Proof.
  intros F E.
  assert (Q : forall a b, agree seen a b <-> every_pixel hide a = every_pixel hide b).
  { intros a b. apply (agree_every seen hide (fun o => match o with Some c => c | None => RGB_NONE end)); intros c.
    - unfold seen, hide. destruct (feq (d3 c) f0) eqn:X; [rewrite none_zero|rewrite X]; reflexivity.
    - unfold seen, hide. destruct (feq (d3 c) f0); reflexivity. }
  apply (both_mono (fun r r' => every_pixel hide r = every_pixel hide r')); [intros a b; apply Q|].
  apply views_all; [|apply Q, E]. eapply Forall_impl; [|exact F]. intros st. apply hide_view.
Qed.

(** * What is hidden and shows *)

Definition red_in_the_middle (r : res Image) : bool :=
  match r with Ok i => match map seen (data (buffer i)) with [_; Some c; _] => flt (dec 9 10) (d0 c) | _ => false end | Panic => false end.
Lemma same_middle r r' : both (agree seen) r r' -> red_in_the_middle r = red_in_the_middle r'.
Proof. destruct r as [i|], r' as [i'|]; cbn [both]; try contradiction; [|reflexivity]. intros (_ & _ & D & _). unfold red_in_the_middle. rewrite D. reflexivity. Qed.
Lemma hidden_shows L m : ~ (forall s i i', one_image s -> agree seen i i' -> both (agree seen) (performed L m s i) (performed L m s i')).
Proof.
  intros H. set (i := fun c => mkImage (mkPB 2 1 [with_alpha c f0; RGB_WHITE]) None).
  assert (A : agree seen (i RGB_RED) (i RGB_BLUE)) by (repeat split; vm_compute; reflexivity).
  pose proof (same_middle _ _ (H (Resized 3 1 Bilinear) (i RGB_RED) (i RGB_BLUE) I A)) as E. clear H A.
  assert (R : red_in_the_middle (performed L m (Resized 3 1 Bilinear) (i RGB_RED)) = true) by (destruct m; vm_compute; reflexivity).
  assert (B : red_in_the_middle (performed L m (Resized 3 1 Bilinear) (i RGB_BLUE)) = false) by (destruct m; vm_compute; reflexivity).
  rewrite R, B in E. discriminate E.
Qed.
