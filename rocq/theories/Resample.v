(** Model of d10-ops/src/filters.rs, resize.rs and rotate.rs. *)
From Coq Require Import ZArith List Bool.
From Verif Require Import Base PixelBuffer F32 Color.
Import ListNotations.
Open Scope Z_scope.

(** filters.rs:8-15 *)
Inductive filter_mode := Nearest | Bilinear | Bicubic | Lanczos3 | Auto.

(** filters.rs:33-35 *)
Definition linear_interpolate (v1 v2 t : f32) : f32 := fadd v1 (fmul (fsub v2 v1) t).

(** filters.rs:37-42 *)
Definition get_base_and_offset (pos : f32) : Z * f32 :=
  let pos_b := ffloor pos in
  let offset := fsub pos pos_b in
  (f_as_i32 pos_b, offset).

(** filters.rs:44-63; the closure [calc] is applied to the four channels. *)
Definition get_pixel_bilinear (m : build) (b : PixelBuffer Rgb) (x y : f32) : res Rgb :=
  let '(x, tx) := get_base_and_offset x in
  let '(y, ty) := get_base_and_offset y in
  c1 <- get_pixel_clamped m b x y;
  x1 <- i32 m (x + 1);
  c2 <- get_pixel_clamped m b x1 y;
  y1 <- i32 m (y + 1);
  c3 <- get_pixel_clamped m b x y1;
  c4 <- get_pixel_clamped m b x1 y1;
  let calc (d : col -> f32) :=
    linear_interpolate (linear_interpolate (d c1) (d c2) tx) (linear_interpolate (d c3) (d c4) tx) ty in
  Ok (rgb_new_with_alpha (calc d0) (calc d1) (calc d2) (calc d3)).

(** filters.rs:65-72 *)
Definition cubic_hermite_interpolate (v1 v2 v3 v4 t : f32) : f32 :=
  let f3 := ofZ 3 in
  let o1 := fadd (fsub (fadd (fdiv (fneg v1) f2) (fdiv (fmul f3 v2) f2)) (fdiv (fmul f3 v3) f2)) (fdiv v4 f2) in
  let o2 := fsub (fadd (fsub v1 (fdiv (fmul (ofZ 5) v2) f2)) (fmul f2 v3)) (fdiv v4 f2) in
  let o3 := fadd (fdiv (fneg v1) f2) (fdiv v3 f2) in
  let o4 := v2 in
  fadd (fadd (fadd (fmul (fmul (fmul o1 t) t) t) (fmul (fmul o2 t) t)) (fmul o3 t)) o4.

(** filters.rs:74-110; [row dy] reads the four pixels of one row. *)
Definition get_pixel_bicubic (m : build) (b : PixelBuffer Rgb) (x y : f32) : res Rgb :=
  let '(x, tx) := get_base_and_offset x in
  let '(y, ty) := get_base_and_offset y in
  let row dy :=
    xm <- i32 m (x - 1); yy <- i32 m (y + dy);
    a <- get_pixel_clamped m b xm yy;
    c <- get_pixel_clamped m b x yy;
    xp <- i32 m (x + 1);
    d <- get_pixel_clamped m b xp yy;
    xq <- i32 m (x + 2);
    e <- get_pixel_clamped m b xq yy;
    Ok (a, c, d, e) in
  r0 <- row (-1);
  r1 <- row 0;
  r2 <- row 1;
  r3 <- row 2;
  let calc (d : col -> f32) :=
    let line (r : col * col * col * col) :=
      let '(a, c, e, g) := r in cubic_hermite_interpolate (d a) (d c) (d e) (d g) tx in
    cubic_hermite_interpolate (line r0) (line r1) (line r2) (line r3) ty in
  Ok (rgb_new_with_alpha (calc d0) (calc d1) (calc d2) (calc d3)).

(** filters.rs:112-120 *)
Definition sinc (L : libm) (v : f32) : f32 :=
  if feq v f0 then f1
  else let v := fmul v fPI in fdiv (fsin L v) v.

(** filters.rs:122-141; the const generic [N] is an argument. *)
Definition lanczos (L : libm) (N : Z) (v : f32) : f32 :=
  let v := fabs v in
  if N =? 7 then
    if flt v (ofZ 3) then fmul (sinc L v) (sinc L (fdiv v (ofZ 3))) else f0
  else
    let size := ofZ N in
    let v := fmul (fdiv v size) (ofZ 3) in
    if flt v (ofZ 3)
    then fmul (fmul (sinc L v) (sinc L (fdiv v (ofZ 3)))) (fdiv (ofZ 3) size)
    else f0.

(** filters.rs:171-174 and 182-185: [acc[i] += v[i] * scale] for the four
    channels. *)
Definition acc_add (scale : f32) (acc v : col) : col :=
  mkC (fadd (d0 acc) (fmul (d0 v) scale)) (fadd (d1 acc) (fmul (d1 v) scale))
      (fadd (d2 acc) (fmul (d2 v) scale)) (fadd (d3 acc) (fmul (d3 v) scale)).

(** filters.rs:166-188 and 224-246, the common part: row sums with
    [row_scale], then the weighted sum of the rows. *)
Definition lanczos_sum (n : Z) (kernel : list (list Rgb)) (row_scale : list f32) (col_scale : Z -> f32) : res Rgb :=
  rows <- map_res (fun y =>
    for_ (zrange 0 n) (fun x acc =>
      scale <- idx row_scale x;
      row <- idx kernel y;
      v <- idx row x;
      Ok (acc_add scale acc v)) (mkC f0 f0 f0 f0)) (zrange 0 n);
  for_ (zrange 0 n) (fun y acc =>
    v <- idx rows y;
    Ok (acc_add (col_scale y) acc v)) (mkC f0 f0 f0 f0).

(** filters.rs:150-189 *)
Definition get_pixel_lanczos (L : libm) (m : build) (N : Z) (b : PixelBuffer Rgb) (x y : f32) : res Rgb :=
  let '(x, tx) := get_base_and_offset x in
  let '(y, ty) := get_base_and_offset y in
  kernel <- get_kernel m b N x y;
  let size := fdiv (fsub (ofZ N) f1) f2 in
  let row_scale := map (fun i => let pos := fsub (ofZ i) size in lanczos L N (fsub pos tx)) (zrange 0 N) in
  lanczos_sum N kernel row_scale (fun y => lanczos L N (fsub (fsub (ofZ y) size) ty)).

(** filters.rs:143-148 *)
Definition get_pixel_lanczos3 (L : libm) (m : build) (b : PixelBuffer Rgb) (x y : f32) : res Rgb :=
  get_pixel_lanczos L m 7 b x y.

(** filters.rs:191-203 *)
Definition lanczos_dyn (L : libm) (v : f32) (size : Z) : f32 :=
  let size := ofZ size in
  let v := fabs v in
  let v := fmul (fdiv v size) (ofZ 3) in
  if flt v (ofZ 3)
  then fmul (fmul (sinc L v) (sinc L (fdiv v (ofZ 3)))) (fdiv (ofZ 3) size)
  else f0.

(** filters.rs:205-247 *)
Definition get_pixel_lanczos_dyn (L : libm) (m : build) (b : PixelBuffer Rgb) (x y : f32) (size : Z) : res Rgb :=
  let '(x, tx) := get_base_and_offset x in
  let '(y, ty) := get_base_and_offset y in
  let rowsize := size * 2 + 1 in
  kernel <- get_kernel_dyn m b x y rowsize;
  let row_scale := map (fun i => lanczos_dyn L (fsub (ofZ (i - size)) tx) size) (zrange 0 rowsize) in
  lanczos_sum rowsize kernel row_scale (fun y => lanczos_dyn L (fsub (ofZ (y - size)) ty) size).

(** resize.rs:7-22 *)
Definition resize_with_fn (m : build) (b : PixelBuffer Rgb) (new_width new_height : Z)
  (func : PixelBuffer Rgb -> Z -> Z -> f32 -> f32 -> res Rgb) : res (PixelBuffer Rgb) :=
  let scale_x := fdiv (ofZ new_width) (ofZ (width b)) in
  let scale_y := fdiv (ofZ new_height) (ofZ (height b)) in
  new_from_fn m new_width new_height (fun x y => func b x y scale_x scale_y).

(** resize.rs:24-34 *)
Definition resize_pixel_nearest (m : build) (b : PixelBuffer Rgb) (x y : Z) (scale_x scale_y : f32) : res Rgb :=
  let x2 := f_as_i32 (ffloor (fadd (fdiv (ofZ x) scale_x) (dec 1 2))) in
  let y2 := f_as_i32 (ffloor (fadd (fdiv (ofZ y) scale_y) (dec 1 2))) in
  get_pixel_clamped m b x2 y2.

(** resize.rs:43-44, 55-56, 67-68, 84-85: the source position of a pixel
    centre. *)
Definition source_pos (x : Z) (scale : f32) : f32 :=
  fsub (fdiv (fadd (ofZ x) (dec 1 2)) scale) (dec 1 2).

(** resize.rs:36-46 *)
Definition resize_pixel_bilinear (m : build) (b : PixelBuffer Rgb) (x y : Z) (scale_x scale_y : f32) : res Rgb :=
  get_pixel_bilinear m b (source_pos x scale_x) (source_pos y scale_y).
(** resize.rs:48-58 *)
Definition resize_pixel_bicubic (m : build) (b : PixelBuffer Rgb) (x y : Z) (scale_x scale_y : f32) : res Rgb :=
  get_pixel_bicubic m b (source_pos x scale_x) (source_pos y scale_y).
(** resize.rs:60-70 *)
Definition resize_pixel_lanczos (L : libm) (m : build) (N : Z) (b : PixelBuffer Rgb) (x y : Z) (scale_x scale_y : f32) : res Rgb :=
  get_pixel_lanczos L m N b (source_pos x scale_x) (source_pos y scale_y).

(** resize.rs:76 *)
Definition auto_size (scale_x scale_y : f32) : Z :=
  f_as_usize (fceil (fmax (fmul (fdiv f1 (fmin scale_x scale_y)) f2) (ofZ 3))).

(** resize.rs:72-89 *)
Definition resize_auto (L : libm) (m : build) (b : PixelBuffer Rgb) (new_width new_height : Z) : res (PixelBuffer Rgb) :=
  let scale_x := fdiv (ofZ new_width) (ofZ (width b)) in
  let scale_y := fdiv (ofZ new_height) (ofZ (height b)) in
  let size := auto_size scale_x scale_y in
  if size =? 3 then resize_with_fn m b new_width new_height (resize_pixel_lanczos L m 7)
  else if size =? 4 then resize_with_fn m b new_width new_height (resize_pixel_lanczos L m 9)
  else if size =? 5 then resize_with_fn m b new_width new_height (resize_pixel_lanczos L m 11)
  else if size =? 6 then resize_with_fn m b new_width new_height (resize_pixel_lanczos L m 13)
  else new_from_fn m new_width new_height (fun x y =>
    get_pixel_lanczos_dyn L m b (source_pos x scale_x) (source_pos y scale_y) size).

(** resize.rs:91-118 *)
Definition resize (L : libm) (m : build) (b : PixelBuffer Rgb) (new_width new_height : Z) (filter : filter_mode)
  : res (PixelBuffer Rgb) :=
  if (width b =? new_width) && (height b =? new_height) then Ok b
  else match filter with
  | Nearest => resize_with_fn m b new_width new_height (resize_pixel_nearest m)
  | Bilinear => resize_with_fn m b new_width new_height (resize_pixel_bilinear m)
  | Bicubic => resize_with_fn m b new_width new_height (resize_pixel_bicubic m)
  | Lanczos3 => resize_with_fn m b new_width new_height (resize_pixel_lanczos L m 7)
  | Auto =>
    if (width b <=? new_width) || (height b <=? new_height)
    then resize_with_fn m b new_width new_height (resize_pixel_bicubic m)
    else resize_auto L m b new_width new_height
  end.

(** rotate.rs:8-39 *)
Definition rotate_with_fn (L : libm) (m : build) (b : PixelBuffer Rgb) (radians : f32) (bg_color : Rgb)
  (func : PixelBuffer Rgb -> f32 -> f32 -> res (option Rgb)) : res (PixelBuffer Rgb) :=
  let radians := fmul (fdiv radians (ofZ (-180))) fPI in
  let sinf := fsin L radians in
  let cosf := fcos L radians in
  w1 <- u32 m (width b + 1);
  h1 <- u32 m (height b + 1);
  let center_x := fdiv (ofZ w1) f2 in
  let center_y := fdiv (ofZ h1) f2 in
  new_from_fn m (width b) (height b) (fun x y =>
    let x := fadd (ofZ x) f1 in
    let y := fadd (ofZ y) f1 in
    let a := fsub x center_x in
    let c := fsub y center_y in
    let xx := fsub (fadd (fsub (fmul a cosf) (fmul c sinf)) center_x) f1 in
    let yy := fsub (fadd (fadd (fmul a sinf) (fmul c cosf)) center_y) f1 in
    r <- func b xx yy;
    Ok (match r with Some c => c | None => bg_color end)).

(** rotate.rs:41-46 *)
Definition rotate_pixel_nearest (m : build) (b : PixelBuffer Rgb) (x y : f32) : res (option Rgb) :=
  let x := f_as_i32 (fround x) in
  let y := f_as_i32 (fround y) in
  get_pixel_optional m b x y.

(** rotate.rs:48-70: the three filtering variants share their test. *)
Definition rotate_pixel_with (get : PixelBuffer Rgb -> f32 -> f32 -> res Rgb) (b : PixelBuffer Rgb) (x y : f32)
  : res (option Rgb) :=
  if is_in_image b (f_as_i32 (fround x)) (f_as_i32 (fround y)) then
    c <- get b x y; Ok (Some c)
  else Ok None.

(** rotate.rs:72-88 *)
Definition rotate (L : libm) (m : build) (b : PixelBuffer Rgb) (radians : f32) (bg_color : Rgb) (filter : filter_mode)
  : res (PixelBuffer Rgb) :=
  if flt (fabs (fsub radians (ofZ 360))) f32_EPSILON then Ok b
  else match filter with
  | Nearest => rotate_with_fn L m b radians bg_color (rotate_pixel_nearest m)
  | Bilinear => rotate_with_fn L m b radians bg_color (rotate_pixel_with (get_pixel_bilinear m))
  | Bicubic | Auto => rotate_with_fn L m b radians bg_color (rotate_pixel_with (get_pixel_bicubic m))
  | Lanczos3 => rotate_with_fn L m b radians bg_color (rotate_pixel_with (get_pixel_lanczos3 L m))
  end.
