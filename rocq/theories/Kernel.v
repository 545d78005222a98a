(** Model of d10-core/src/kernel.rs, kernel_dyn.rs, the convolutions of
    pixelbuffer.rs and of the operations built on neighbourhoods: blur,
    unsharp, edge detection, despeckle, symmetric nearest neighbour, drawing. *)
From Coq Require Import ZArith List Bool.
From Verif Require Import Base PixelBuffer Geometry F32 Color.
Import ListNotations.
Open Scope Z_scope.

(** [a[y][x]] and [a[y][x] = v] on an array of rows *)
Definition cell {A} (l : list (list A)) (y x : Z) : res A := row <- idx l y; idx row x.
Definition set_cell {A} (l : list (list A)) (y x : Z) (v : A) : res (list (list A)) :=
  row <- idx l y; row' <- upd row x v; upd l y row'.

(** kernel.rs:3-5; the size N is passed next to the rows. *)
Definition Kernel := list (list f32).

(** kernel.rs:22-24: [*v += kernel * channel] for the four channels *)
Definition add_weighted (k : f32) (c acc : Rgb) : Rgb :=
  mkC (fadd (d0 acc) (fmul k (d0 c))) (fadd (d1 acc) (fmul k (d1 c)))
      (fadd (d2 acc) (fmul k (d2 c))) (fadd (d3 acc) (fmul k (d3 c))).

(** kernel.rs:14-29 with the channel access of its only caller
    (pixelbuffer.rs:407), S = 4 *)
Definition kernel_apply (N : Z) (k : Kernel) (d : list (list Rgb)) : res Rgb :=
  for_ (zrange 0 N) (fun y acc =>
    for_ (zrange 0 N) (fun x acc =>
      kv <- cell k y x;
      c <- cell d y x;
      Ok (add_weighted kv c acc)) acc) (mkC f0 f0 f0 f0).

(** kernel.rs:38-46 and kernel_dyn.rs:48-56: the unnormalised coefficient,
    where [s] is [2.0 * sigma * sigma] *)
Definition gaussian_s (sigma : f32) : f32 := fmul (fmul f2 sigma) sigma.
Definition gaussian_value (L : libm) (s : f32) (x y : Z) : f32 :=
  let r := fsqrt (fadd (fmul (ofZ x) (ofZ x)) (fmul (ofZ y) (ofZ y))) in
  fdiv (fexp_ L (fdiv (fneg (fmul r r)) s)) (fmul fPI s).

(** kernel.rs:31-61 *)
Definition new_gaussian (L : libm) (N : Z) (sigma : f32) : res Kernel :=
  let size := N in
  let offset := Z.quot size 2 in
  let s := gaussian_s sigma in
  '(data, sum) <- for_ (zrange (- offset) (size - offset)) (fun x st =>
      for_ (zrange (- offset) (size - offset)) (fun y '(data, sum) =>
        let v := gaussian_value L s x y in
        data' <- set_cell data (y + offset) (x + offset) v;
        Ok (data', fadd sum v)) st)
    (repeat (repeat f0 (Z.to_nat N)) (Z.to_nat N), f0);
  Ok (map (map (fun v => fdiv v sum)) data).

(** kernel_dyn.rs:3-7 *)
Record KernelDyn := mkKD { kdata : list f32; kwidth : Z; kheight : Z }.

(** kernel_dyn.rs:10-18 *)
Definition kernel_dyn_new (m : build) (d : list f32) (w h : Z) : res KernelDyn :=
  n <- u32 m (w * h);
  _ <- assert_ (zlen d =? n);
  Ok (mkKD d w h).

(** kernel_dyn.rs:20-22 *)
Definition kernel_dyn_get (m : build) (k : KernelDyn) (x y : Z) : res f32 :=
  yw <- u32 m (y * kwidth k);
  i <- u32 m (x + yw);
  idx (kdata k) i.

(** kernel_dyn.rs:24-30 *)
Definition get_offset_x (k : KernelDyn) : Z := Z.quot (as_i32 (kwidth k)) 2.
Definition get_offset_y (k : KernelDyn) : Z := Z.quot (as_i32 (kheight k)) 2.

(** kernel_dyn.rs:32-39: the same arithmetic as PixelBuffer::enumerate *)
Definition kernel_enumerate (k : KernelDyn) : res (list (Z * Z * f32)) :=
  enumerate_from (kwidth k) 0 (kdata k).

(** kernel_dyn.rs:41-71 *)
Definition new_gaussian_dyn (L : libm) (m : build) (size : Z) (sigma : f32) : res KernelDyn :=
  n <- u32 m (size * size);
  let offset := Z.quot size 2 in
  let s := gaussian_s sigma in
  '(data, sum) <- for_ (zrange (- offset) (size - offset)) (fun x st =>
      for_ (zrange (- offset) (size - offset)) (fun y '(data, sum) =>
        let v := gaussian_value L s x y in
        let index := (x + offset) + (y + offset) * size in
        data' <- upd data index v;
        Ok (data', fadd sum v)) st)
    (repeat f0 (Z.to_nat n), f0);
  kernel_dyn_new m (map (fun v => fdiv v sum) data) size size.

(** kernel_dyn.rs:73-87 *)
Definition new_sobel_x : KernelDyn :=
  mkKD [ofZ (-1); f0; f1; ofZ (-2); f0; f2; ofZ (-1); f0; f1] 3 3.
Definition new_sobel_y : KernelDyn :=
  mkKD [f1; f2; f1; f0; f0; f0; ofZ (-1); ofZ (-2); ofZ (-1)] 3 3.

(** pixelbuffer.rs:402-410 *)
Definition apply_kernel (m : build) (N : Z) (k : Kernel) (b : PixelBuffer Rgb)
  : res (PixelBuffer Rgb) :=
  map_colors_enumerated (fun x y _ =>
    buffer_k <- get_kernel m b N (as_i32 x) (as_i32 y);
    kernel_apply N k buffer_k) b.

(** pixelbuffer.rs:428-430: [*value += color_value * kernel_value] *)
Definition add_weighted_dyn (c : Rgb) (k : f32) (acc : Rgb) : Rgb :=
  mkC (fadd (d0 acc) (fmul (d0 c) k)) (fadd (d1 acc) (fmul (d1 c) k))
      (fadd (d2 acc) (fmul (d2 c) k)) (fadd (d3 acc) (fmul (d3 c) k)).

(** pixelbuffer.rs:416-434 *)
Definition get_kernel_value (m : build) (b : PixelBuffer Rgb) (image_x image_y : Z)
  (k : KernelDyn) : res Rgb :=
  let offset_x := get_offset_x k in
  let offset_y := get_offset_y k in
  items <- kernel_enumerate k;
  for_ items (fun '(x, y, kv) acc =>
    ax <- u32 m (image_x + x);
    px <- i32 m (as_i32 ax - offset_x);
    ay <- u32 m (image_y + y);
    py <- i32 m (as_i32 ay - offset_y);
    c <- get_pixel_clamped m b px py;
    Ok (add_weighted_dyn c kv acc)) (mkC f0 f0 f0 f0).

(** pixelbuffer.rs:412-414 *)
Definition apply_kernel_dyn (m : build) (k : KernelDyn) (b : PixelBuffer Rgb)
  : res (PixelBuffer Rgb) :=
  map_colors_enumerated (fun x y _ => get_kernel_value m b x y k) b.

(** pixelbuffer.rs:398-400 *)
Definition buffer_is_grayscale (b : PixelBuffer Rgb) : bool := forallb is_grayscale (data b).

(** gaussian_blur.rs:28-30 *)
Definition get_default_sigma (kernel_size : Z) : f32 :=
  fdiv (fsub (ofZ kernel_size) f1) (ofZ 4).
(** gaussian_blur.rs:18, unsharp.rs:13 *)
Definition sigma_or_default (sigma : option f32) (kernel_size : Z) : f32 :=
  match sigma with Some s => s | None => get_default_sigma kernel_size end.
(** gaussian_blur.rs:17, unsharp.rs:11: [radius * 2 + 1] *)
Definition blur_size (m : build) (radius : Z) : res Z :=
  a <- u32 m (radius * 2); u32 m (a + 1).

(** gaussian_blur.rs:6-26 *)
Definition gaussian_blur (L : libm) (m : build) (b : PixelBuffer Rgb) (radius : Z)
  (sigma : option f32) : res (PixelBuffer Rgb) :=
  kernel_size <- blur_size m radius;
  let sigma := sigma_or_default sigma kernel_size in
  if kernel_size =? 3 then k <- new_gaussian L 3 sigma; apply_kernel m 3 k b
  else if kernel_size =? 5 then k <- new_gaussian L 5 sigma; apply_kernel m 5 k b
  else if kernel_size =? 7 then k <- new_gaussian L 7 sigma; apply_kernel m 7 k b
  else k <- new_gaussian_dyn L m kernel_size sigma; apply_kernel_dyn m k b.

(** unsharp.rs:21-24, one channel *)
Definition sharpen (factor v blurred : f32) : f32 := fadd v (fmul (fsub v blurred) factor).

(** unsharp.rs:5-27 *)
Definition unsharp (L : libm) (m : build) (b : PixelBuffer Rgb) (radius : Z) (factor : f32)
  (sigma : option f32) : res (PixelBuffer Rgb) :=
  kernel_size <- blur_size m radius;
  let sigma := sigma_or_default sigma kernel_size in
  kernel <- new_gaussian_dyn L m kernel_size sigma;
  map_colors_enumerated (fun x y c =>
    bl <- get_kernel_value m b x y kernel;
    Ok (rgb_new_with_alpha (sharpen factor (d0 c) (d0 bl)) (sharpen factor (d1 c) (d1 bl))
                           (sharpen factor (d2 c) (d2 bl)) (sharpen factor (d3 c) (d3 bl)))) b.

(** compose with the two-buffer closures used below: [compose] of Geometry.v
    on an array of two buffers and a closure without state *)
Definition compose2 (m : build) (b1 b2 : PixelBuffer Rgb) (default : Rgb) (f : Rgb -> Rgb -> Rgb)
  : res (PixelBuffer Rgb) :=
  '(_, r) <- compose m [b1; b2] default (fun (_ : unit) _ _ colors =>
     match colors with [c1; c2] => Ok (tt, f c1 c2) | _ => Panic end) tt;
  Ok r.

(** [map_colors] with a closure without state *)
Definition map_pure (f : Rgb -> Rgb) (b : PixelBuffer Rgb) : res (PixelBuffer Rgb) :=
  '(_, r) <- map_colors (fun (_ : unit) c => Ok (tt, f c)) tt b; Ok r.

(** edge_detection.rs:9-12 *)
Inductive edge_mode := Sobel | Laplace.

(** edge_detection.rs:26-46 *)
Definition sobel_x : Kernel := [[f1; f0; ofZ (-1)]; [f2; f0; ofZ (-2)]; [f1; f0; ofZ (-1)]].
Definition sobel_y : Kernel := [[f1; f2; f1]; [f0; f0; f0]; [ofZ (-1); ofZ (-2); ofZ (-1)]].
Definition hypot (a b : f32) : f32 := fsqrt (fadd (fmul a a) (fmul b b)).
Definition edge_detection_sobel (m : build) (b : PixelBuffer Rgb) : res (PixelBuffer Rgb) :=
  bx <- apply_kernel m 3 sobel_x b;
  by_ <- apply_kernel m 3 sobel_y b;
  compose2 m bx by_ RGB_BLACK (fun c1 c2 =>
    rgb_new (hypot (d0 c1) (d0 c2)) (hypot (d1 c1) (d1 c2)) (hypot (d2 c1) (d2 c2))).

(** edge_detection.rs:48-56 *)
Definition laplace_kernel : Kernel := [[f1; f1; f1]; [f1; ofZ (-8); f1]; [f1; f1; f1]].
Definition edge_detection_laplace (m : build) (b : PixelBuffer Rgb) : res (PixelBuffer Rgb) :=
  r <- apply_kernel m 3 laplace_kernel b;
  map_pure (fun c => with_alpha c f1) r.

(** edge_detection.rs:58-63 *)
Definition edge_detection (m : build) (b : PixelBuffer Rgb) (mode : edge_mode)
  : res (PixelBuffer Rgb) :=
  match mode with
  | Sobel => edge_detection_sobel m b
  | Laplace => edge_detection_laplace m b
  end.

(** despeckle.rs:6, 12: [c.to_gray_with_intensity(Average).red()] *)
Definition average (c : Rgb) : f32 := d0 (to_gray_with_intensity Average c).

(** despeckle.rs:9-30; [count] is a u8 and at most 9. *)
Definition despeckle_pixel (threshold : f32) (amount : Z) (k : list (list Rgb)) (c : Rgb) : Rgb :=
  let count := fold_left (fun n q => if flt (average q) threshold then n + 1 else n) (concat k) 0 in
  if count <=? amount then
    let '(r, g, b) := fold_left (fun '(r, g, b) q =>
        if fle threshold (average q) then (fadd r (d0 q), fadd g (d1 q), fadd b (d2 q)) else (r, g, b))
      (concat k) (f0, f0, f0) in
    let sum := ofZ (9 - count) in
    rgb_new_with_alpha (fdiv r sum) (fdiv g sum) (fdiv b sum) (alpha c)
  else c.

(** despeckle.rs:4-36 *)
Definition despeckle (m : build) (b : PixelBuffer Rgb) (threshold : f32) (amount : Z)
  : res (PixelBuffer Rgb) :=
  map_colors_enumerated (fun x y c =>
    if flt (average c) threshold then
      k <- get_kernel m b 3 (as_i32 x) (as_i32 y);
      Ok (despeckle_pixel threshold amount k c)
    else Ok c) b.

(** symmetric_nearest_neighbor.rs:4-5 *)
Definition PAIRS : list (Z * Z * Z * Z) :=
  [(-1, -1, 1, 1); (0, -1, 0, 1); (1, -1, -1, 1); (-1, 0, 1, 0)].

(** symmetric_nearest_neighbor.rs:7-13 *)
Definition rgb_distance (c1 c2 : Rgb) : f32 :=
  let dr := fsub (d0 c1) (d0 c2) in
  let dg := fsub (d1 c1) (d1 c2) in
  let db := fsub (d2 c1) (d2 c2) in
  fsqrt (fadd (fadd (fmul dr dr) (fmul dg dg)) (fmul db db)).

(** symmetric_nearest_neighbor.rs:47-51, 54-58: [*value += c.data[i]] *)
Definition add_color (c acc : Rgb) : Rgb :=
  mkC (fadd (d0 acc) (d0 c)) (fadd (d1 acc) (d1 c)) (fadd (d2 acc) (d2 c)) (fadd (d3 acc) (d3 c)).

(** symmetric_nearest_neighbor.rs:29-39: the nearer pixel of a pair *)
Definition snn_pick (m : build) (b : PixelBuffer Rgb) (center : Rgb) (x y radius : Z)
  (p : Z * Z * Z * Z) : res Rgb :=
  let '(x1, y1, x2, y2) := p in
  ox1 <- i32 m (x1 * radius); px1 <- i32 m (x + ox1);
  oy1 <- i32 m (y1 * radius); py1 <- i32 m (y + oy1);
  c1 <- get_pixel_clamped m b px1 py1;
  ox2 <- i32 m (x2 * radius); px2 <- i32 m (x + ox2);
  oy2 <- i32 m (y2 * radius); py2 <- i32 m (y + oy2);
  c2 <- get_pixel_clamped m b px2 py2;
  Ok (if flt (rgb_distance c1 center) (rgb_distance c2 center) then c1 else c2).

(** symmetric_nearest_neighbor.rs:15-67 *)
Definition symmetric_nearest_neighbor (m : build) (b : PixelBuffer Rgb) (radius : Z)
  (with_center : bool) : res (PixelBuffer Rgb) :=
  new_from_fn m (width b) (height b) (fun x y =>
    center <- get_pixel m b x y;
    let x := as_i32 x in
    let y := as_i32 y in
    colors <- map_res (fun r => map_res (snn_pick m b center x y r) PAIRS)
                      (zrange 1 (as_i32 radius + 1));
    let colors := concat colors in
    let len := ofZ (zlen colors) in
    let '(len, acc) := if with_center
                       then (fadd len f1, add_color center (mkC f0 f0 f0 f0))
                       else (len, mkC f0 f0 f0 f0) in
    let acc := fold_left (fun acc c => add_color c acc) colors acc in
    Ok (rgb_new_with_alpha (fdiv (d0 acc) len) (fdiv (d1 acc) len)
                           (fdiv (d2 acc) len) (fdiv (d3 acc) len))).

(** drawing.rs:9-13 *)
Inductive drawing_mode := DGray | DColored | DReducedColors.

(** drawing.rs:45-81: the closure that combines the sharpened and the
    inverted blurred image *)
Definition drawing_pixel (c1 c2 : Rgb) : Rgb :=
  let g1 := average c1 in
  let g2 := average c2 in
  let v0 := if flt (dec 5 100) g1 || flt g2 (dec 95 100) then [(g1, g2)] else [] in
  let pick a b := if flt (dec 8 10) a || flt b (dec 2 10) then [(a, b)] else [] in
  let vs := v0 ++ pick (d0 c1) (d0 c2) ++ pick (d1 c1) (d1 c2) ++ pick (d2 c1) (d2 c2) in
  let c '(v1, v2) := fabs (fdiv v1 (fmin (fadd (fsub f1 v2) (dec 1 100)) f1)) in
  let diff := fold_left fmin (map c vs) f1 in
  let diff := if flt (dec 8 10) diff then f1
              else fmax (fmul (fsub diff (dec 5 10)) (dec 12 10)) f0 in
  rgb_new diff diff diff.

(** drawing.rs:94-101 *)
Definition merge_color_pixel (d o : Rgb) : Rgb :=
  let d := rgb_to_hsl d in
  let o := rgb_to_hsl o in
  hsl_to_rgb (with_2 o (fmin (d2 o) (d2 d))).
Definition merge_color (m : build) (drawing orig : PixelBuffer Rgb) : res (PixelBuffer Rgb) :=
  compose2 m drawing orig RGB_NONE merge_color_pixel.

(** drawing.rs:103-141 *)
Definition reduce_color (c : Rgb) : Rgb :=
  let c := rgb_to_hsv c in
  let c := with_1 c (fdiv (fmul (d1 c) (ofZ 6)) (ofZ 12)) in
  let c := with_2 c (fmin (fdiv (fadd (fmul (d2 c) (dec 65 10)) (dec 2 10)) (dec 45 10)) f1) in
  hsv_to_rgb c.
Definition merge_color_reduced (L : libm) (m : build) (drawing orig : PixelBuffer Rgb)
  : res (PixelBuffer Rgb) :=
  reduced_color <- map_pure reduce_color orig;
  g2 <- gaussian_blur L m reduced_color 2 None;
  out1 <- compose2 m drawing g2 RGB_NONE (fun c1 c2 =>
    hsv_to_rgb (with_1 (rgb_to_hsv c1) (d1 (rgb_to_hsv c2))));
  g3 <- gaussian_blur L m orig 3 None;
  out1 <- compose2 m out1 g3 RGB_NONE (fun c1 c2 =>
    hsv_to_rgb (with_0 (rgb_to_hsv c1) (d0 (rgb_to_hsv c2))));
  g4 <- gaussian_blur L m orig 4 None;
  out1 <- compose2 m out1 g4 RGB_NONE (fun c1 c2 =>
    let c := rgb_to_hsv c1 in
    hsv_to_rgb (with_2 c (fmul (d2 c) (d2 (rgb_to_hsv c2)))));
  u <- unsharp L m out1 3 (dec 15 10) None;
  map_pure (fun x => with_vibrance L (dec 3 10) (with_gamma L (dec 11 10) (with_saturation (dec 13 10) x))) u.

(** drawing.rs:28-92 *)
Definition drawing (L : libm) (m : build) (b : PixelBuffer Rgb) (radius : Z) (mode : drawing_mode)
  : res (PixelBuffer Rgb) :=
  lightened <- map_pure (map_channels (fun v => fadd (fmul v (dec 8 10)) (dec 2 10))) b;
  b1 <- gaussian_blur L m lightened 1 None;
  b1 <- unsharp L m b1 4 (ofZ 4) (Some (ofZ 5));
  b1 <- map_pure (with_contrast (dec 105 100)) b1;
  b2 <- gaussian_blur L m lightened radius None;
  b2 <- map_pure invert b2;
  d <- compose2 m b1 b2 RGB_NONE drawing_pixel;
  d <- unsharp L m d 2 f1 None;
  d <- despeckle m d (dec 15 100) 1;
  match mode with
  | DGray => Ok d
  | DColored => merge_color m d b
  | DReducedColors => merge_color_reduced L m d b
  end.
