(** Property theorems, generated from BlendThm.v by tools/mkp.py. *)

From Coq Require Import ZArith Reals List Bool.
From Flocq Require Import IEEE754.BinarySingleNaN.
From Verif Require Import Base PixelBuffer BufferSpec F32 Color ColorSpec Blend.
Import ListNotations.
Open Scope Z_scope.

From Verif Require Import BlendThm.


(** C20: the blended image covers both images; outside the overlap the pixels
    are untouched, inside it each pixel depends on the two pixels there. *)

Theorem C20_blend_overlap : forall L m a b op i, valid a -> valid b ->
  valid_size (Z.max (width a) (width b)) (Z.max (height a) (height b)) ->
  exists r, blend_image L m a b op i = Ok r /\ valid r /\
    width r = Z.max (width a) (width b) /\ height r = Z.max (height a) (height b) /\
    forall x y, inside r x y ->
      (forall c1 c2, inside a x y -> inside b x y -> get_pixel m a x y = Ok c1 -> get_pixel m b x y = Ok c2 ->
         get_pixel m r x y = Ok (blend_func L op c1 c2 i)) /\
      (inside a x y -> ~ inside b x y -> get_pixel m r x y = get_pixel m a x y) /\
      (~ inside a x y -> inside b x y -> get_pixel m r x y = get_pixel m b x y) /\
      (~ inside a x y -> ~ inside b x y -> get_pixel m r x y = Ok (mkC f0 f0 f0 f0)).
Proof. exact blend_overlap. Qed.
Print Assumptions C20_blend_overlap.


(** C20: a bounding box that is too big is refused by a panic. *)

Theorem C20_blend_too_big : forall L m a b op i, valid a -> valid b ->
  ~ valid_size (Z.max (width a) (width b)) (Z.max (height a) (height b)) ->
  blend_image L m a b op i = Panic.
Proof. exact blend_too_big. Qed.
Print Assumptions C20_blend_too_big.

Example C20_blend_overlap_example :
  let a := mkPB 2 1 [RGB_RED; RGB_BLUE] in let b := mkPB 1 2 [RGB_BLUE; RGB_WHITE] in
  valid a /\ valid b /\ valid_size 2 2 /\
  match blend_image example_libm Checked a b Addition f1 with Panic => False | Ok r =>
    map (fun c => (feq (d0 c) f1, feq (d1 c) f1, feq (d2 c) f1, feq (d3 c) f1)) (data r)
    = [(true, false, true, true); (false, false, true, true); (true, true, true, true); (false, false, false, false)] end.
Proof. exact blend_overlap_example. Qed.


(** C38: normal blending with intensity 0 returns the first colour. *)

Theorem C38_normal_intensity_0 : forall L c1 c2 i, in_gamut c1 -> in_gamut c2 -> same i f0 ->
  same_color (blend_func L Normal c1 c2 i) c1.
Proof. exact normal_intensity_0. Qed.
Print Assumptions C38_normal_intensity_0.


(** C38: addition, subtract, darken and lighten with intensity 0 return the
    channels of the first colour, but the alpha of the second. *)

Theorem C38_plain_intensity_0 : forall L op c1 c2 i, In op [Addition; Subtract; Darken; Lighten] ->
  in_gamut c1 -> in_gamut c2 -> same i f0 ->
  let r := blend_func L op c1 c2 i in
  same (d0 r) (d0 c1) /\ same (d1 r) (d1 c1) /\ same (d2 r) (d2 c1) /\ alpha r = alpha c2.
Proof. exact plain_intensity_0. Qed.
Print Assumptions C38_plain_intensity_0.


(** C38: so those four do not leave the first image unchanged: an opaque
    pixel becomes transparent. *)

Theorem C38_intensity_0_identity_refuted : forall L op, In op [Addition; Subtract; Darken; Lighten] ->
  exists c1 c2, in_gamut c1 /\ in_gamut c2 /\ color_eq (blend_func L op c1 c2 f0) c1 = false.
Proof. exact intensity_0_identity_refuted. Qed.
Print Assumptions C38_intensity_0_identity_refuted.


(** C38: the HSL operations with intensity 0 convert the first colour to HSL
    and back, with the same numbers in between. *)

Theorem C38_hsl_intensity_0 : forall L op c1 c2 i, In op [HslDarken; HslLighten] ->
  in_gamut c1 -> in_gamut c2 -> same i f0 ->
  exists h, same_color h (rgb_to_hsl c1) /\ blend_func L op c1 c2 i = hsl_to_rgb h.
Proof. exact hsl_intensity_0. Qed.
Print Assumptions C38_hsl_intensity_0.


(** C38: the LCh operations with intensity 0 convert the first colour to LCh
    and back, whatever the mathematical library, as long as it delivers
    numbers (and, for the hue, the hues are less than half a turn apart). *)

Theorem C38_lch_intensity_0 : forall L op c1 c2 i, In op [LchDarken; LchLighten; LchHue; LchSaturation; LchColor] ->
  let h1 := to_lch L D65 O2 KRgb c1 in let h2 := to_lch L D65 O2 KRgb c2 in
  is_finite (d0 h1) = true -> is_finite (d1 h1) = true -> is_finite (d2 h1) = true -> is_finite (d3 h1) = true ->
  is_finite (d0 h2) = true -> is_finite (d1 h2) = true -> is_finite (d2 h2) = true ->
  (op = LchHue -> flt fPI (fabs (fsub (d2 h1) (d2 h2))) = false) -> same i f0 ->
  exists h, same_color h h1 /\ blend_func L op c1 c2 i = to_rgb L (KLch D65 O2) h.
Proof. exact lch_intensity_0. Qed.
Print Assumptions C38_lch_intensity_0.

Example C38_intensity_0_example : in_gamut RGB_YELLOW /\ in_gamut RGB_NONE /\ same f0 f0 /\
  color_eq (blend_func example_libm Normal RGB_YELLOW RGB_NONE f0) RGB_YELLOW = true /\
  (let h := to_lch example_libm D65 O2 KRgb RGB_YELLOW in
   is_finite (d0 h) && is_finite (d1 h) && is_finite (d2 h) && is_finite (d3 h) = true).
Proof. exact intensity_0_example. Qed.


(** C70: normal blending with intensity 1 and an opaque second colour returns
    the second colour's channels, opaque. *)

Theorem C70_normal_intensity_1 : forall L c1 c2 i, in_gamut c1 -> in_gamut c2 -> same i f1 -> same (alpha c2) f1 ->
  same_color (blend_func L Normal c1 c2 i) c2.
Proof. exact normal_intensity_1. Qed.
Print Assumptions C70_normal_intensity_1.


(** C70: addition, subtract, darken and lighten with intensity 1 and an opaque
    second colour give the channel-wise sum, difference, minimum and maximum,
    brought into range, and an opaque colour. *)

Theorem C70_plain_intensity_1 : forall L c1 c2 i, in_gamut c1 -> in_gamut c2 -> same i f1 -> same (alpha c2) f1 ->
  Forall (fun p : blend_op * (f32 -> f32 -> f32) =>
    let r := blend_func L (fst p) c1 c2 i in let f := snd p in
    exists s0 s1 s2, clamped (f (d0 c1) (d0 c2)) s0 /\ clamped (f (d1 c1) (d1 c2)) s1 /\ clamped (f (d2 c1) (d2 c2)) s2 /\
    same_color r (mkC s0 s1 s2 f1))
    [(Addition, fadd); (Subtract, fsub); (Darken, fmin); (Lighten, fmax)].
Proof. exact plain_intensity_1. Qed.
Print Assumptions C70_plain_intensity_1.

Example C70_intensity_1_example :
  let r := blend_func example_libm Addition (mkC (dec 1 2) (dec 3 4) f0 f1) (mkC (dec 1 4) (dec 1 2) f1 f1) f1 in
  same_color r (mkC (dec 3 4) f1 f1 f1).
Proof. exact intensity_1_example. Qed.


(** C71: blending two in-gamut colours with an intensity in [0,1] stays in
    gamut for every operation except the LCh ones. *)

Theorem C71_blend_in_gamut : forall L op c1 c2 i,
  In op [Normal; Addition; Subtract; Darken; Lighten; HslDarken; HslLighten] ->
  in_gamut c1 -> in_gamut c2 -> in01 i -> in_gamut (blend_func L op c1 c2 i).
Proof. exact blend_in_gamut. Qed.
Print Assumptions C71_blend_in_gamut.


(** C71: for the LCh operations each channel is in range or NaN, and alpha is
    that of the first colour. *)

Theorem C71_blend_lch_clamps : forall L op c1 c2 i, In op [LchDarken; LchLighten; LchHue; LchSaturation; LchColor] ->
  let r := blend_func L op c1 c2 i in
  in01_or_nan (d0 r) /\ in01_or_nan (d1 r) /\ in01_or_nan (d2 r) /\ alpha r = alpha c1.
Proof. exact blend_lch_clamps. Qed.
Print Assumptions C71_blend_lch_clamps.

Example C71_blend_gamut_example : in_gamut RGB_CYAN /\ in01 (dec 1 2) /\
  same (d0 (blend_func example_libm Darken RGB_CYAN RGB_RED (dec 1 2))) f0 /\
  same (d1 (blend_func example_libm Darken RGB_CYAN RGB_RED (dec 1 2))) (dec 1 2).
Proof. exact blend_gamut_example. Qed.
