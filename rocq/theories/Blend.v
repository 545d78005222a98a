(** Model of d10-ops/src/blend.rs. *)
From Coq Require Import ZArith List Bool.
From Verif Require Import Base PixelBuffer F32 Color.
Import ListNotations.
Open Scope Z_scope.

(** blend.rs:10-12 *)
Definition apply_intensity (v1 v2 intensity : f32) : f32 :=
  fadd (fmul v1 (fsub f1 intensity)) (fmul v2 intensity).

(** blend.rs:14-28 *)
Definition blend_color (c1 c2 : Rgb) (intensity : f32) (func : f32 -> f32 -> f32) : Rgb :=
  let intensity := fmul intensity (alpha c2) in
  let blend_values v1 v2 := apply_intensity v1 (func v1 v2) intensity in
  rgb_new_with_alpha (blend_values (d0 c1) (d0 c2)) (blend_values (d1 c1) (d1 c2))
    (blend_values (d2 c1) (d2 c2)) (alpha c2).

(** blend.rs:30-53 *)
Definition blend_image_with_func (m : build) (img1 img2 : PixelBuffer Rgb) (intensity : f32)
  (func : Rgb -> Rgb -> f32 -> Rgb) : res (PixelBuffer Rgb) :=
  let w := Z.max (width img1) (width img2) in
  let h := Z.max (height img1) (height img2) in
  new_from_fn m w h (fun x y =>
    c1 <- get_pixel_optional m img1 (as_i32 x) (as_i32 y);
    c2 <- get_pixel_optional m img2 (as_i32 x) (as_i32 y);
    Ok (match c1, c2 with
        | Some c1, Some c2 => func c1 c2 intensity
        | Some c1, None => c1
        | None, Some c2 => c2
        | None, None => RGB_NONE
        end)).

(** blend.rs:55-69 *)
Inductive blend_op :=
| Normal | Addition | Subtract | Darken | Lighten | HslDarken | HslLighten
| LchDarken | LchLighten | LchHue | LchSaturation | LchColor.

(** blend.rs:118-120 *)
Definition blend_normal (c1 c2 : Rgb) (intensity : f32) : Rgb :=
  alpha_blend c1 (with_alpha c2 (fmul (alpha c2) intensity)).
(** blend.rs:122-136 *)
Definition blend_addition (c1 c2 : Rgb) (intensity : f32) : Rgb := blend_color c1 c2 intensity fadd.
Definition blend_subtract (c1 c2 : Rgb) (intensity : f32) : Rgb := blend_color c1 c2 intensity fsub.
Definition blend_darken (c1 c2 : Rgb) (intensity : f32) : Rgb := blend_color c1 c2 intensity fmin.
Definition blend_lighten (c1 c2 : Rgb) (intensity : f32) : Rgb := blend_color c1 c2 intensity fmax.

(** blend.rs:138-148 *)
Definition blend_hsl_darken (c1 c2 : Rgb) (intensity : f32) : Rgb :=
  let c1 := rgb_to_hsl c1 in
  let c2 := rgb_to_hsl c2 in
  let l1 := d2 c1 in
  let l2 := fmin (d2 c1) (d2 c2) in
  let l := apply_intensity l1 l2 intensity in
  hsl_to_rgb (with_2 c1 l).
(** blend.rs:150-160 *)
Definition blend_hsl_lighten (c1 c2 : Rgb) (intensity : f32) : Rgb :=
  let c1 := rgb_to_hsl c1 in
  let c2 := rgb_to_hsl c2 in
  let l1 := d2 c1 in
  let l2 := fmax (d2 c1) (d2 c2) in
  let l := apply_intensity l1 l2 intensity in
  hsl_to_rgb (with_2 c1 l).

(** [to_lch::<D65, O2>()] of an Rgb and [to_rgb()] of the result *)
Definition rgb_lch (L : libm) (c : Rgb) : Lch := to_lch L D65 O2 KRgb c.
Definition lch_rgb (L : libm) (c : Lch) : Rgb := to_rgb L (KLch D65 O2) c.

(** blend.rs:162-172 *)
Definition blend_lch_darken (L : libm) (c1 c2 : Rgb) (intensity : f32) : Rgb :=
  let c1 := rgb_lch L c1 in
  let c2 := rgb_lch L c2 in
  let l1 := d0 c1 in
  let l2 := fmin (d0 c1) (d0 c2) in
  let l := apply_intensity l1 l2 intensity in
  lch_rgb L (with_0 c1 l).
(** blend.rs:174-184 *)
Definition blend_lch_lighten (L : libm) (c1 c2 : Rgb) (intensity : f32) : Rgb :=
  let c1 := rgb_lch L c1 in
  let c2 := rgb_lch L c2 in
  let l1 := d0 c1 in
  let l2 := fmax (d0 c1) (d0 c2) in
  let l := apply_intensity l1 l2 intensity in
  lch_rgb L (with_0 c1 l).

(** blend.rs:190-209 *)
Definition blend_hue (h1 h2 intensity : f32) : f32 :=
  let diff := fabs (fsub h1 h2) in
  if flt fPI diff then
    let h :=
      if flt h1 f0 then apply_intensity (fadd h1 (fmul f2 fPI)) h2 intensity
      else apply_intensity h1 (fadd h2 (fmul f2 fPI)) intensity in
    if flt fPI h then fsub h (fmul f2 fPI) else h
  else apply_intensity h1 h2 intensity.
(** blend.rs:186-213 *)
Definition blend_lch_hue (L : libm) (c1 c2 : Rgb) (intensity : f32) : Rgb :=
  let c1 := rgb_lch L c1 in
  let c2 := rgb_lch L c2 in
  lch_rgb L (with_2 c1 (blend_hue (d2 c1) (d2 c2) intensity)).

(** blend.rs:215-221 *)
Definition blend_lch_saturation (L : libm) (c1 c2 : Rgb) (intensity : f32) : Rgb :=
  let c1 := rgb_lch L c1 in
  let c2 := rgb_lch L c2 in
  lch_rgb L (with_1 c1 (apply_intensity (d1 c1) (d1 c2) intensity)).
(** blend.rs:223-230 *)
Definition blend_lch_color (L : libm) (c1 c2 : Rgb) (intensity : f32) : Rgb :=
  let c1 := rgb_lch L c1 in
  let c2 := rgb_lch L c2 in
  lch_rgb L (with_2 (with_1 c1 (apply_intensity (d1 c1) (d1 c2) intensity))
                    (apply_intensity (d2 c1) (d2 c2) intensity)).

(** blend.rs:94-116: the function an operation stands for *)
Definition blend_func (L : libm) (op : blend_op) : Rgb -> Rgb -> f32 -> Rgb :=
  match op with
  | Normal => blend_normal
  | Addition => blend_addition
  | Subtract => blend_subtract
  | Darken => blend_darken
  | Lighten => blend_lighten
  | HslDarken => blend_hsl_darken
  | HslLighten => blend_hsl_lighten
  | LchDarken => blend_lch_darken L
  | LchLighten => blend_lch_lighten L
  | LchHue => blend_lch_hue L
  | LchSaturation => blend_lch_saturation L
  | LchColor => blend_lch_color L
  end.
Definition blend_image (L : libm) (m : build) (img1 img2 : PixelBuffer Rgb) (op : blend_op) (intensity : f32)
  : res (PixelBuffer Rgb) :=
  blend_image_with_func m img1 img2 intensity (blend_func L op).
