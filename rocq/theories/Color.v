(** Model of d10-core/src/color: the colour types and their conversions.

    All eight colour types are a [data: [f32; 4]] array; the model uses one
    record for them and keeps the Rust type names as aliases.  [Display] and
    the [From] impls (which only call the [to_*] methods) are not modelled
    here; setters ([set_*]) are the [with_*] functions stored back. *)
From Coq Require Import ZArith List Bool.
From Verif Require Import Base F32.
Import ListNotations.
Open Scope Z_scope.

(** color/rgb.rs:41-43, srgb.rs:6-8, hsl.rs:6-8, hsv.rs:6-8, yuv.rs:18-20,
    xyz.rs:19-21, lab.rs:9-14 and lab.rs:276-281: [data: [f32; 4]]. *)
Record col := mkC { d0 : f32; d1 : f32; d2 : f32; d3 : f32 }.
Definition Rgb := col.
Definition Srgb := col.
Definition Hsl := col.
Definition Hsv := col.
Definition Yuv := col.
Definition Xyz := col.
Definition Lab := col.
Definition Lch := col.

(** [data[i]]: panics for [i > 3]. *)
Definition chan (c : col) (i : Z) : res f32 :=
  if i =? 0 then Ok (d0 c) else if i =? 1 then Ok (d1 c)
  else if i =? 2 then Ok (d2 c) else if i =? 3 then Ok (d3 c) else Panic.

(** [data[i] = v] *)
Definition set_chan (c : col) (i : Z) (v : f32) : res col :=
  if i =? 0 then Ok (mkC v (d1 c) (d2 c) (d3 c)) else if i =? 1 then Ok (mkC (d0 c) v (d2 c) (d3 c))
  else if i =? 2 then Ok (mkC (d0 c) (d1 c) v (d3 c)) else if i =? 3 then Ok (mkC (d0 c) (d1 c) (d2 c) v)
  else Panic.

(** mod.rs:26 *)
Definition EPSILON : f32 := fdiv f1 (ofZ 32768).

(** mod.rs:28-30 *)
Definition clamp (v : f32) : f32 := fclamp v f0 f1.

(** rgb.rs:46-56, srgb.rs:11-21: the clamping constructors of Rgb and Srgb. *)
Definition rgb_new (r g b : f32) : Rgb := mkC (clamp r) (clamp g) (clamp b) f1.
Definition rgb_new_with_alpha (r g b a : f32) : Rgb := mkC (clamp r) (clamp g) (clamp b) (clamp a).
(** hsl.rs:11-21, hsv.rs:11-21, yuv.rs:23-33, xyz.rs:24-34, lab.rs:124-134, 284-294:
    the other types store what they are given. *)
Definition raw_new (a b c : f32) : col := mkC a b c f1.
Definition raw_new_with_alpha (a b c alpha : f32) : col := mkC a b c alpha.

(** rgb.rs:377-379 and the same in every type *)
Definition alpha (c : col) : f32 := d3 c.
(** rgb.rs:385-389 and the same in every type *)
Definition with_alpha (c : col) (a : f32) : col := mkC (d0 c) (d1 c) (d2 c) a.
(** rgb.rs:66-70, hsl.rs:53-57, hsv.rs:37-41, lab.rs:152-154: [with_red],
    [with_hue], [with_l], ...; rgb.rs:80-84 [with_green], [with_saturation],
    [with_a]/[with_c]; rgb.rs:94-98 [with_blue], [with_lightness],
    [with_value], [with_b]/[with_h]. *)
Definition with_0 (c : col) (v : f32) : col := mkC v (d1 c) (d2 c) (d3 c).
Definition with_1 (c : col) (v : f32) : col := mkC (d0 c) v (d2 c) (d3 c).
Definition with_2 (c : col) (v : f32) : col := mkC (d0 c) (d1 c) v (d3 c).

(** rgb.rs:337-363: constants; rgb.rs:366-370 [Default] is [NONE], and the
    other types' [default] has the same data. *)
Definition RGB_NONE : Rgb := mkC f0 f0 f0 f0.
Definition RGB_WHITE : Rgb := mkC f1 f1 f1 f1.
Definition RGB_BLACK : Rgb := mkC f0 f0 f0 f1.
Definition RGB_RED : Rgb := mkC f1 f0 f0 f1.
Definition RGB_GREEN : Rgb := mkC f0 f1 f0 f1.
Definition RGB_BLUE : Rgb := mkC f0 f0 f1 f1.
Definition RGB_CYAN : Rgb := mkC f0 f1 f1 f1.
Definition RGB_MAGENTA : Rgb := mkC f1 f0 f1 f1.
Definition RGB_YELLOW : Rgb := mkC f1 f1 f0 f1.

(** rgb.rs:320-326: [fold(0.0, f32::max)] and [fold(1.0, f32::min)] *)
Definition rgb_max (c : Rgb) : f32 := fmax (fmax (fmax f0 (d0 c)) (d1 c)) (d2 c).
Definition rgb_min (c : Rgb) : f32 := fmin (fmin (fmin f1 (d0 c)) (d1 c)) (d2 c).

(** rgb.rs:416-425 and the same in every type: [PartialEq]. *)
Definition chan_eq (v1 v2 : f32) : bool := negb (flt EPSILON (fabs (fsub v1 v2))).
Definition color_eq (a b : col) : bool :=
  chan_eq (d0 a) (d0 b) && chan_eq (d1 a) (d1 b) && chan_eq (d2 a) (d2 b) && chan_eq (d3 a) (d3 b).

(** mod.rs:200-202 *)
Definition has_transparency (c : col) : bool := flt EPSILON (fabs (fsub f1 (alpha c))).

(** srgb.rs:149-164 *)
Definition gamma_to_linear (L : libm) (v : f32) : f32 :=
  if flt (dec 4045 100000) v
  then powf L (fdiv (fadd v (dec 55 1000)) (dec 1055 1000)) (dec 24 10)
  else fdiv v (dec 1292 100).
Definition linear_to_gamma (L : libm) (v : f32) : f32 :=
  if flt (dec 3130805 1000000000) v
  then fsub (fmul (dec 1055 1000) (powf L v (fdiv f1 (dec 24 10)))) (dec 55 1000)
  else fmul (dec 1292 100) v.

(** mod.rs:349-356 and 358-365 *)
Definition matrix := ((f32 * f32 * f32) * (f32 * f32 * f32) * (f32 * f32 * f32))%type.
Definition dot3 (c : col) (r : f32 * f32 * f32) : f32 :=
  let '(a, b, e) := r in
  fadd (fadd (fmul (d0 c) a) (fmul (d1 c) b)) (fmul (d2 c) e).
Definition apply_matrix (c : col) (m : matrix) : col :=
  let '(r0, r1, r2) := m in mkC (dot3 c r0) (dot3 c r1) (dot3 c r2) (d3 c).
Definition apply_matrix_clamped (c : col) (m : matrix) : col :=
  let '(r0, r1, r2) := m in mkC (clamp (dot3 c r0)) (clamp (dot3 c r1)) (clamp (dot3 c r2)) (d3 c).

(** yuv.rs:5-15 *)
Definition RGB_TO_YUV : matrix :=
  ((dec 299 1000, dec 587 1000, dec 114 1000),
   (dec (-14714119) 100000000, dec (-28886917) 100000000, dec 43601036 100000000),
   (dec 6149754 10000000, dec (-5149651) 10000000, dec (-10001026) 100000000)).
Definition YUV_TO_RGB : matrix :=
  ((f1, f0, dec 1139883 1000000),
   (f1, dec (-39464232) 100000000, dec (-58062184) 100000000),
   (f1, dec 20320618 10000000, f0)).

(** xyz.rs:5-15 *)
Definition RGB_TO_XYZ : matrix :=
  ((dec 412453 1000000, dec 357580 1000000, dec 180423 1000000),
   (dec 212671 1000000, dec 715160 1000000, dec 72169 1000000),
   (dec 19334 1000000, dec 119193 1000000, dec 950227 1000000)).
Definition XYZ_TO_RGB : matrix :=
  ((dec 3240479 1000000, dec (-153715) 100000, dec (-498535) 1000000),
   (dec (-969256) 1000000, dec 1875991 1000000, dec 41556 1000000),
   (dec 55648 1000000, dec (-204043) 1000000, dec 1057311 1000000)).

(** srgb.rs:79-86 *)
Definition srgb_to_rgb (L : libm) (c : Srgb) : Rgb :=
  rgb_new_with_alpha (gamma_to_linear L (d0 c)) (gamma_to_linear L (d1 c)) (gamma_to_linear L (d2 c)) (d3 c).
(** mod.rs:51-60 *)
Definition rgb_to_srgb (L : libm) (c : Rgb) : Srgb :=
  rgb_new_with_alpha (linear_to_gamma L (d0 c)) (linear_to_gamma L (d1 c)) (linear_to_gamma L (d2 c)) (d3 c).

(** mod.rs:62-104 *)
Definition rgb_to_hsl (rgb : Rgb) : Hsl :=
  let mx := rgb_max rgb in
  let mn := rgb_min rgb in
  let red := d0 rgb in let green := d1 rgb in let blue := d2 rgb in
  let lightness := fdiv (fadd mx mn) f2 in
  let delta := fsub mx mn in
  if flt delta EPSILON then mkC f0 f0 lightness (alpha rgb)
  else
    let d := fsub mx mn in
    let saturation :=
      if flt (dec 1 2) lightness then fdiv d (fsub (fsub f2 mx) mn) else fdiv d (fadd mx mn) in
    let hue :=
      if flt (fabs (fsub mx red)) EPSILON
      then fadd (fdiv (fsub green blue) d) (if flt green blue then ofZ 6 else f0)
      else if flt (fabs (fsub mx green)) EPSILON
      then fadd (fdiv (fsub blue red) d) f2
      else fadd (fdiv (fsub red green) d) (ofZ 4) in
    mkC (fdiv hue (ofZ 6)) saturation lightness (alpha rgb).

(** mod.rs:106-146 *)
Definition rgb_to_hsv (rgb : Rgb) : Hsv :=
  let mx := rgb_max rgb in
  let mn := rgb_min rgb in
  let red := d0 rgb in let green := d1 rgb in let blue := d2 rgb in
  let delta := fsub mx mn in
  if fle EPSILON delta || fle EPSILON mx then
    let saturation := fdiv delta mx in
    let hue :=
      if fle mx red then fdiv (fsub green blue) delta
      else if fle mx green then fadd f2 (fdiv (fsub blue red) delta)
      else fadd (ofZ 4) (fdiv (fsub red green) delta) in
    let hue := fmul hue (ofZ 60) in
    let hue := if flt hue f0 then fadd hue (ofZ 360) else hue in
    mkC (fdiv hue (ofZ 360)) saturation mx (alpha rgb)
  else mkC (fdiv f0 (ofZ 360)) f0 mx (alpha rgb).

(** hsl.rs:94-115: the inner function [hue2rgb] *)
Definition hue2rgb (p q t : f32) : f32 :=
  let t := if flt t f0 then fadd t f1 else t in
  let t := if flt f1 t then fsub t f1 else t in
  if flt t (fdiv f1 (ofZ 6)) then fadd p (fmul (fmul (fsub q p) (ofZ 6)) t)
  else if flt t (fdiv f1 f2) then q
  else if flt t (fdiv f2 (ofZ 3))
  then fadd p (fmul (fmul (fsub q p) (fsub (fdiv f2 (ofZ 3)) t)) (ofZ 6))
  else p.

(** hsl.rs:85-130 *)
Definition hsl_to_rgb (c : Hsl) : Rgb :=
  let hue := d0 c in let saturation := d1 c in let lightness := d2 c in
  let '(r, g, b) :=
    if feq saturation f0 then (lightness, lightness, lightness)
    else
      let q := if flt lightness (dec 1 2) then fmul lightness (fadd f1 saturation)
               else fsub (fadd lightness saturation) (fmul lightness saturation) in
      let p := fsub (fmul f2 lightness) q in
      (hue2rgb p q (fadd hue (fdiv f1 (ofZ 3))), hue2rgb p q hue,
       hue2rgb p q (fsub hue (fdiv f1 (ofZ 3)))) in
  rgb_new_with_alpha r g b (alpha c).

(** hsv.rs:85-120 *)
Definition hsv_to_rgb (c : Hsv) : Rgb :=
  let hue := fmul (d0 c) (ofZ 360) in
  let saturation := d1 c in
  let value := d2 c in
  if fle saturation f0 then mkC value value value (alpha c)
  else
    let hh := if fle (ofZ 360) hue then f0 else hue in
    let hh := fdiv hh (ofZ 60) in
    let i := f_as_u32 hh in
    let ff := fsub hh (ofZ i) in
    let p := fmul value (fsub f1 saturation) in
    let q := fmul value (fsub f1 (fmul saturation ff)) in
    let t := fmul value (fsub f1 (fmul saturation (fsub f1 ff))) in
    let '(r, g, b) :=
      if i =? 0 then (value, t, p) else if i =? 1 then (q, value, p)
      else if i =? 2 then (p, value, t) else if i =? 3 then (p, q, value)
      else if i =? 4 then (t, p, value) else (value, p, q) in
    rgb_new_with_alpha r g b (alpha c).

(** yuv.rs:97-102 *)
Definition yuv_to_rgb (L : libm) (c : Yuv) : Rgb := srgb_to_rgb L (apply_matrix c YUV_TO_RGB).
(** xyz.rs:98-102 *)
Definition xyz_to_rgb (c : Xyz) : Rgb := apply_matrix_clamped c XYZ_TO_RGB.

(** lab.rs:60-71 and 91-120: illuminants and observers; lab.rs:272-274 *)
Inductive illuminant := D50 | D65 | IllE.
Inductive observer := O2 | O10.
Definition get_refs (i : illuminant) (o : observer) : f32 * f32 * f32 :=
  match i, o with
  | D50, O2 => (dec 964212 1000000, f1, dec 8251883 10000000)
  | D50, O10 => (dec 9672063 10000000, f1, dec 81428015 100000000)
  | D65, O2 => (dec 95047 100000, f1, dec 108883 100000)
  | D65, O10 => (dec 9480967 10000000, f1, dec 10730513 10000000)
  | IllE, _ => (f1, f1, f1)
  end.

(** mod.rs:161-167: the inner function [func] of [to_lab] *)
Definition lab_f (L : libm) (v : f32) : f32 :=
  if flt v (dec 8856 1000000) then fdiv (fadd (fmul (dec 9033 10) v) (ofZ 16)) (ofZ 116)
  else powf L v (fdiv f1 (ofZ 3)).

(** mod.rs:160-186, from the colour's XYZ form *)
Definition xyz_to_lab (L : libm) (i : illuminant) (o : observer) (xyz : Xyz) : Lab :=
  let '(r0, r1, r2) := get_refs i o in
  let rx := fdiv (d0 xyz) r0 in
  let ry := fdiv (d1 xyz) r1 in
  let rz := fdiv (d2 xyz) r2 in
  let l := fsub (fmul (ofZ 116) (lab_f L ry)) (ofZ 16) in
  let a := fmul (ofZ 500) (fsub (lab_f L rx) (lab_f L ry)) in
  let b := fmul (ofZ 200) (fsub (lab_f L ry) (lab_f L rz)) in
  mkC (fdiv l (ofZ 100)) (fdiv a (ofZ 128)) (fdiv b (ofZ 128)) (alpha xyz).

(** lab.rs:193-199: the inner function [func] of [Lab::to_xyz] *)
Definition lab_finv (L : libm) (v : f32) : f32 :=
  if flt (dec 20689303 100000000) v then powf L v (ofZ 3)
  else fdiv (fsub v (fdiv (ofZ 16) (ofZ 116))) (dec 7787 1000).

(** lab.rs:192-216 *)
Definition lab_to_xyz (L : libm) (i : illuminant) (o : observer) (c : Lab) : Xyz :=
  let l := fmul (d0 c) (ofZ 100) in
  let a := fmul (d1 c) (ofZ 128) in
  let b := fmul (d2 c) (ofZ 128) in
  let ry := fdiv (fadd l (ofZ 16)) (ofZ 116) in
  let rx := fadd (fdiv a (ofZ 500)) ry in
  let rz := fsub ry (fdiv b (ofZ 200)) in
  let '(r0, r1, r2) := get_refs i o in
  mkC (fmul (lab_finv L rx) r0) (fmul (lab_finv L ry) r1) (fmul (lab_finv L rz) r2) (alpha c).

(** lab.rs:352-356 *)
Definition lch_to_xyz (L : libm) (i : illuminant) (o : observer) (c : Lch) : Xyz :=
  let a := fmul (d1 c) (fcos L (d2 c)) in
  let b := fmul (d1 c) (fsin L (d2 c)) in
  lab_to_xyz L i o (mkC (d0 c) a b (alpha c)).

(** mod.rs:188-198, from the colour's Lab form *)
Definition lab_to_lch (L : libm) (lab : Lab) : Lch :=
  let a := d1 lab in let b := d2 lab in
  let c := fsqrt (fadd (fmul a a) (fmul b b)) in
  let h := fatan2 L b a in
  mkC (d0 lab) c h (alpha lab).

(** The colour types that exist, as values: the type parameter [C: Color]. *)
Inductive kind :=
| KRgb | KSrgb | KHsl | KHsv | KYuv | KXyz
| KLab (i : illuminant) (o : observer) | KLch (i : illuminant) (o : observer).

(** The trait methods with their overrides (mod.rs:38-222):
    [to_rgb]: rgb.rs:373, srgb.rs:79, hsl.rs:85, hsv.rs:85, yuv.rs:97,
    xyz.rs:98, lab.rs:188, lab.rs:348;
    [to_xyz]: xyz.rs:94, lab.rs:192, lab.rs:352, default mod.rs:154-158. *)
Definition to_xyz (L : libm) (k : kind) (c : col) : Xyz :=
  match k with
  | KXyz => c
  | KLab i o => lab_to_xyz L i o c
  | KLch i o => lch_to_xyz L i o c
  | KRgb => apply_matrix c RGB_TO_XYZ
  | KSrgb => apply_matrix (srgb_to_rgb L c) RGB_TO_XYZ
  | KHsl => apply_matrix (hsl_to_rgb c) RGB_TO_XYZ
  | KHsv => apply_matrix (hsv_to_rgb c) RGB_TO_XYZ
  | KYuv => apply_matrix (yuv_to_rgb L c) RGB_TO_XYZ
  end.
(** mod.rs:160-186 (no type overrides it, not even Lab) *)
Definition to_lab (L : libm) (i : illuminant) (o : observer) (k : kind) (c : col) : Lab :=
  xyz_to_lab L i o (to_xyz L k c).
Definition to_rgb (L : libm) (k : kind) (c : col) : Rgb :=
  match k with
  | KRgb => c
  | KSrgb => srgb_to_rgb L c
  | KHsl => hsl_to_rgb c
  | KHsv => hsv_to_rgb c
  | KYuv => yuv_to_rgb L c
  | KXyz => xyz_to_rgb c
  | KLab i o => xyz_to_rgb (lab_to_xyz L i o c)
  | KLch i o => xyz_to_rgb (lab_to_xyz L i o (to_lab L i o (KLch i o) c))
  end.
(** mod.rs:51-60, overridden srgb.rs:110-112 *)
Definition to_srgb (L : libm) (k : kind) (c : col) : Srgb :=
  match k with KSrgb => c | _ => rgb_to_srgb L (to_rgb L k c) end.
(** mod.rs:62-104, overridden hsl.rs:81-83 *)
Definition to_hsl (L : libm) (k : kind) (c : col) : Hsl :=
  match k with KHsl => c | _ => rgb_to_hsl (to_rgb L k c) end.
(** mod.rs:106-146, overridden hsv.rs:81-83 *)
Definition to_hsv (L : libm) (k : kind) (c : col) : Hsv :=
  match k with KHsv => c | _ => rgb_to_hsv (to_rgb L k c) end.
(** mod.rs:148-152, overridden yuv.rs:93-95 *)
Definition to_yuv (L : libm) (k : kind) (c : col) : Yuv :=
  match k with KYuv => c | _ => apply_matrix (to_srgb L k c) RGB_TO_YUV end.
(** mod.rs:188-198 *)
Definition to_lch (L : libm) (i : illuminant) (o : observer) (k : kind) (c : col) : Lch :=
  lab_to_lch L (to_lab L i o k c).

(** The conversion from any type to any type: mod.rs:220-292 [From] impls and
    the [to_*] methods. *)
Definition convert_color (L : libm) (from to : kind) (c : col) : col :=
  match to with
  | KRgb => to_rgb L from c
  | KSrgb => to_srgb L from c
  | KHsl => to_hsl L from c
  | KHsv => to_hsv L from c
  | KYuv => to_yuv L from c
  | KXyz => to_xyz L from c
  | KLab i o => to_lab L i o from c
  | KLch i o => to_lch L i o from c
  end.

(** rgb.rs:399-409, srgb.rs:114-124, hsl.rs:154-164, hsv.rs:144-154,
    yuv.rs:126-136, xyz.rs:126-136, lab.rs:238-248, 378-388:
    [try_map_color_channels]; Rgb and Srgb go through a clamping constructor. *)
Definition new_with_alpha (k : kind) (a b c alpha : f32) : col :=
  match k with
  | KRgb | KSrgb => rgb_new_with_alpha a b c alpha
  | _ => raw_new_with_alpha a b c alpha
  end.
Definition try_map_color_channels {S E} (k : kind) (f : S -> f32 -> res (S * Result f32 E)) (s : S) (c : col)
  : res (S * Result col E) :=
  '(s, a) <- f s (d0 c);
  match a with
  | RErr e => Ok (s, RErr e)
  | ROk a =>
    '(s, b) <- f s (d1 c);
    match b with
    | RErr e => Ok (s, RErr e)
    | ROk b =>
      '(s, v) <- f s (d2 c);
      match v with
      | RErr e => Ok (s, RErr e)
      | ROk v => Ok (s, ROk (new_with_alpha k a b v (d3 c)))
      end
    end
  end.
(** mod.rs:205-208 *)
Definition map_color_channels {S} (k : kind) (f : S -> f32 -> res (S * f32)) (s : S) (c : col) : res (S * col) :=
  '(s, r) <- try_map_color_channels (E := unit) k
       (fun s v => '(s, v) <- f s v; Ok (s, ROk v)) s c;
  match r with ROk c => Ok (s, c) | RErr _ => Panic end.

(** ** Colour operations of Rgb *)

(** rgb.rs:100-102 *)
Definition is_grayscale (c : Rgb) : bool :=
  flt (fabs (fsub (d0 c) (d1 c))) EPSILON && flt (fabs (fsub (d1 c) (d2 c))) EPSILON.

(** rgb.rs:8-18 *)
Inductive intensity :=
| Average | Rec601Luma | Rec709Luma | Brightness | Lightness | Saturation | IRed | IGreen | IBlue.

(** rgb.rs:108-129 *)
Definition gray_value (i : intensity) (c : Rgb) : f32 :=
  match i with
  | Rec601Luma => fadd (fadd (fmul (d0 c) (dec 298839 1000000)) (fmul (d1 c) (dec 586811 1000000)))
                       (fmul (d2 c) (dec 114350 1000000))
  | Rec709Luma => fadd (fadd (fmul (d0 c) (dec 212656 1000000)) (fmul (d1 c) (dec 715158 1000000)))
                       (fmul (d2 c) (dec 72186 1000000))
  | Average => fdiv (fadd (fadd (d0 c) (d1 c)) (d2 c)) (ofZ 3)
  | Brightness => rgb_max c
  | Lightness => fdiv (fadd (rgb_min c) (rgb_max c)) f2
  | Saturation => d1 (rgb_to_hsl c)
  | IRed => d0 c
  | IGreen => d1 c
  | IBlue => d2 c
  end.
Definition to_gray_with_intensity (i : intensity) (c : Rgb) : Rgb :=
  let v := gray_value i c in mkC v v v (alpha c).
(** rgb.rs:104-106 *)
Definition to_gray (c : Rgb) : Rgb := to_gray_with_intensity Rec709Luma c.

(** rgb.rs:131-135 *)
Definition invert (c : Rgb) : Rgb :=
  mkC (fsub f1 (d0 c)) (fsub f1 (d1 c)) (fsub f1 (d2 c)) (alpha c).

(** rgb.rs:137-143 *)
Definition difference (c o : Rgb) : Rgb :=
  rgb_new (fabs (fsub (d0 c) (d0 o))) (fabs (fsub (d1 c) (d1 o))) (fabs (fsub (d2 c) (d2 o))).

(** rgb.rs:298-318 *)
Definition map_channels_unclamped (f : f32 -> f32) (c : Rgb) : Rgb :=
  mkC (f (d0 c)) (f (d1 c)) (f (d2 c)) (alpha c).
Definition map_channels (f : f32 -> f32) (c : Rgb) : Rgb :=
  mkC (clamp (f (d0 c))) (clamp (f (d1 c))) (clamp (f (d2 c))) (alpha c).

(** rgb.rs:145-157 *)
Definition with_gamma (L : libm) (gamma : f32) (c : Rgb) : Rgb :=
  map_channels (fun v => powf L (clamp v) (fdiv f1 gamma)) c.
Definition with_gamma_opt (L : libm) (gamma : f32) (c : Rgb) : Rgb :=
  map_channels (fun v =>
    if flt (dec 1 2) v
    then fadd (fdiv (powf L (clamp (fmul (fsub v (dec 1 2)) f2)) (fdiv f1 gamma)) f2) (dec 1 2)
    else fdiv (powf L (clamp (fmul v f2)) (fmul f1 gamma)) f2) c.

(** rgb.rs:159-173 *)
Definition level_value (L : libm) (black white gamma v : f32) : f32 :=
  let diff := fsub white black in
  let factor := if flt (fabs diff) f32_EPSILON then fdiv f1 EPSILON else fdiv f1 diff in
  powf L (clamp (fmul (fsub v black) factor)) (fdiv f1 gamma).
Definition with_level (L : libm) (black white gamma : f32) (c : Rgb) : Rgb :=
  map_channels (level_value L black white gamma) c.

(** rgb.rs:175-177 *)
Definition with_brightness (factor : f32) (c : Rgb) : Rgb := map_channels (fun v => fadd v factor) c.

(** rgb.rs:179-190 *)
Definition with_saturation (factor : f32) (c : Rgb) : Rgb :=
  let hsl := rgb_to_hsl c in
  hsl_to_rgb (mkC (d0 hsl) (clamp (fmul (d1 hsl) factor)) (d2 hsl) (alpha c)).
(** rgb.rs:192-202 *)
Definition stretch_saturation (factor : f32) (c : Rgb) : Rgb :=
  let hsl := rgb_to_hsl c in
  let s := fsub (d1 hsl) (dec 1 2) in
  let s := fadd (fmul s factor) (dec 1 2) in
  hsl_to_rgb (mkC (d0 hsl) (clamp s) (d2 hsl) (alpha c)).
(** rgb.rs:204-215 *)
Definition with_gamma_saturation (L : libm) (gamma : f32) (c : Rgb) : Rgb :=
  let hsl := rgb_to_hsl c in
  hsl_to_rgb (mkC (d0 hsl) (powf L (clamp (d1 hsl)) (fdiv f1 gamma)) (d2 hsl) (alpha c)).
(** rgb.rs:217-228 *)
Definition with_lightness (factor : f32) (c : Rgb) : Rgb :=
  let hsl := rgb_to_hsl c in
  hsl_to_rgb (mkC (d0 hsl) (d1 hsl) (clamp (fmul (d2 hsl) factor)) (alpha c)).
(** rgb.rs:230-244 *)
Definition rotated_hue (hue radians : f32) : f32 :=
  let hue := fadd hue (fdiv radians (ofZ 360)) in
  if fle f1 hue then fsub hue f1 else if flt hue f0 then fadd hue f1 else hue.
Definition with_hue_rotate (radians : f32) (c : Rgb) : Rgb :=
  let hsl := rgb_to_hsl c in
  hsl_to_rgb (mkC (rotated_hue (d0 hsl) radians) (d1 hsl) (d2 hsl) (alpha c)).
(** rgb.rs:246-252 *)
Definition with_contrast (factor : f32) (c : Rgb) : Rgb :=
  map_channels (fun v => fadd (fmul (fsub v (dec 1 2)) factor) (dec 1 2)) c.
Definition with_brightness_contrast (brightness contrast : f32) (c : Rgb) : Rgb :=
  map_channels (fun v => fadd (fmul (fsub (fadd v brightness) (dec 1 2)) contrast) (dec 1 2)) c.

(** rgb.rs:254-261: [self.alpha_blend(color)] *)
Definition alpha_blend (c color : Rgb) : Rgb :=
  let a := alpha color in
  rgb_new_with_alpha
    (fadd (fmul (d0 color) a) (fmul (fsub f1 a) (d0 c)))
    (fadd (fmul (d1 color) a) (fmul (fsub f1 a) (d1 c)))
    (fadd (fmul (d2 color) a) (fmul (fsub f1 a) (d2 c)))
    (fmin (fadd (alpha c) a) f1).

(** rgb.rs:263-282 *)
Definition with_vibrance (L : libm) (factor : f32) (c : Rgb) : Rgb :=
  let hsl := rgb_to_hsl c in
  let s := d1 hsl in
  let scale := fmul factor (fmin (fmul (fsin L (fmul (d0 hsl) fPI)) (dec 15 10)) f1) in
  let s := fadd s (fmul (fsin L (fmul s fPI)) scale) in
  hsl_to_rgb (raw_new (d0 hsl) (fmax (fmin s f1) f0) (d2 hsl)).

(** rgb.rs:284-290 *)
Definition with_sepia (c : Rgb) : Rgb :=
  let row a b e := fadd (fadd (fmul (d0 c) a) (fmul (d1 c) b)) (fmul (d2 c) e) in
  rgb_new_with_alpha
    (row (dec 393 1000) (dec 769 1000) (dec 189 1000))
    (row (dec 349 1000) (dec 686 1000) (dec 168 1000))
    (row (dec 272 1000) (dec 534 1000) (dec 131 1000)) (alpha c).

(** rgb.rs:292-296 *)
Definition mod_color_channels (f : f32 -> f32) (c : Rgb) : Rgb :=
  mkC (f (d0 c)) (f (d1 c)) (f (d2 c)) (d3 c).

(** rgb.rs:328-335 *)
Definition modulate (hue saturation lightness : f32) (c : Rgb) : Rgb :=
  let hsl := rgb_to_hsl c in
  hsl_to_rgb (mkC (clamp (fmul (d0 hsl) hue)) (clamp (fmul (d1 hsl) saturation))
                  (clamp (fmul (d2 hsl) lightness)) (d3 hsl)).
