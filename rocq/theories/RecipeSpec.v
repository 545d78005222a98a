(** Specification for C76: how a drawing is made, step by step, from the other
    operations and changes of single pixels. *)
From Coq Require Import ZArith List Bool.
From Verif Require Import Base PixelBuffer BufferSpec F32 Color Kernel.
Import ListNotations.
Open Scope Z_scope.

(** [out] is [b] with [f] applied to every pixel. *)
Definition each (b : PixelBuffer Rgb) (f : Rgb -> Rgb) (out : PixelBuffer Rgb) : Prop :=
  valid out /\ width out = width b /\ height out = height b /\
  forall m x y c, inside b x y -> get_pixel m b x y = Ok c -> get_pixel m out x y = Ok (f c).
(** [out] has for every position the combination of both pixels there. *)
Definition both (m : build) (a b : PixelBuffer Rgb) (f : Rgb -> Rgb -> Rgb) (out : PixelBuffer Rgb) : Prop :=
  valid out /\ width out = width a /\ height out = height a /\
  forall x y c1 c2, inside a x y -> get_pixel m a x y = Ok c1 -> get_pixel m b x y = Ok c2 -> get_pixel m out x y = Ok (f c1 c2).

(** The colour channels changed by [f] and limited to [0,1]. *)
Definition channels (f : f32 -> f32) (c : Rgb) : Rgb := mkC (clamp (f (d0 c))) (clamp (f (d1 c))) (clamp (f (d2 c))) (d3 c).
Definition lighter (v : f32) : f32 := fadd (fmul v (dec 8 10)) (dec 2 10).
Definition more_contrast (v : f32) : f32 := fadd (fmul (fsub v (dec 1 2)) (dec 105 100)) (dec 1 2).
Definition negative (c : Rgb) : Rgb := mkC (fsub f1 (d0 c)) (fsub f1 (d1 c)) (fsub f1 (d2 c)) (d3 c).

(** The grey value of a line, from the sharpened pixel [s] and the negative of the
    blurred one: the smallest quotient of the two (the averages and the channels
    that are bright enough), white above 0.8, otherwise made darker. *)
Definition line (s n : Rgb) : Rgb :=
  let quotient a b := fabs (fdiv a (fmin (fadd (fsub f1 b) (dec 1 100)) f1)) in
  let smaller (counts : bool) a b q := if counts then fmin q (quotient a b) else q in
  let bright a b := flt (dec 8 10) a || flt b (dec 2 10) in
  let ga := gray_value Average s in
  let gb := gray_value Average n in
  let q := smaller (flt (dec 5 100) ga || flt gb (dec 95 100)) ga gb f1 in
  let q := smaller (bright (d0 s) (d0 n)) (d0 s) (d0 n) q in
  let q := smaller (bright (d1 s) (d1 n)) (d1 s) (d1 n) q in
  let q := smaller (bright (d2 s) (d2 n)) (d2 s) (d2 n) q in
  let v := clamp (if flt (dec 8 10) q then f1 else fmax (fmul (fsub q (dec 5 10)) (dec 12 10)) f0) in
  mkC v v v f1.

(** The grey drawing. *)
Definition pencil_drawing (L : libm) (m : build) (b : PixelBuffer Rgb) (radius : Z) (d : PixelBuffer Rgb) : Prop :=
  exists light fine sharp strong coarse inverse lines crisp,
    each b (channels lighter) light /\
    gaussian_blur L m light 1 None = Ok fine /\ unsharp L m fine 4 (ofZ 4) (Some (ofZ 5)) = Ok sharp /\ each sharp (channels more_contrast) strong /\
    gaussian_blur L m light radius None = Ok coarse /\ each coarse negative inverse /\
    both m strong inverse line lines /\
    unsharp L m lines 2 (ofZ 1) None = Ok crisp /\ despeckle m crisp (dec 15 100) 1 = Ok d.

(** Lines in colour: the pixel of the image, as dark as the line if that is darker. *)
Definition colored_line (d o : Rgb) : Rgb :=
  let h := rgb_to_hsl o in
  hsl_to_rgb (mkC (d0 h) (d1 h) (fmin (d2 h) (d2 (rgb_to_hsl d))) (d3 h)).

(** Half the saturation, and a higher value. *)
Definition paler (c : Rgb) : Rgb :=
  let h := rgb_to_hsv c in
  hsv_to_rgb (mkC (d0 h) (fdiv (fmul (d1 h) (ofZ 6)) (ofZ 12)) (fmin (fdiv (fadd (fmul (d2 h) (dec 65 10)) (dec 2 10)) (dec 45 10)) f1) (d3 h)).

(** The reduced colours: the drawing [d] gets the saturation of a blurred paler
    image, the hue of a blurred image and is multiplied by the value of a more
    blurred one; then it is sharpened and its colours are made stronger. *)
Definition washed_drawing (L : libm) (m : build) (d b out : PixelBuffer Rgb) : Prop :=
  exists pale blurred2 blurred3 blurred4 saturated hued dark sharp,
    each b paler pale /\ gaussian_blur L m pale 2 None = Ok blurred2 /\
    both m d blurred2 (fun a c => let h := rgb_to_hsv a in hsv_to_rgb (mkC (d0 h) (d1 (rgb_to_hsv c)) (d2 h) (d3 h))) saturated /\
    gaussian_blur L m b 3 None = Ok blurred3 /\
    both m saturated blurred3 (fun a c => let h := rgb_to_hsv a in hsv_to_rgb (mkC (d0 (rgb_to_hsv c)) (d1 h) (d2 h) (d3 h))) hued /\
    gaussian_blur L m b 4 None = Ok blurred4 /\
    both m hued blurred4 (fun a c => let h := rgb_to_hsv a in hsv_to_rgb (mkC (d0 h) (d1 h) (fmul (d2 h) (d2 (rgb_to_hsv c))) (d3 h))) dark /\
    unsharp L m dark 3 (dec 15 10) None = Ok sharp /\
    each sharp (fun c => with_vibrance L (dec 3 10) (with_gamma L (dec 11 10) (with_saturation (dec 13 10) c))) out.
