(** Property theorems, generated from DrawMeanThm.v by tools/mkp.py. *)

From Coq Require Import Reals ZArith List Bool.
From Flocq Require Import IEEE754.BinarySingleNaN.
From Verif Require Import Base PixelBuffer BufferSpec F32 Color ColorSpec MeaningSpec IdealPowf Kernel KernelSpec LanczosSpec IdealLibm DrawSpec.
Import ListNotations.
Open Scope R_scope.

From Verif Require Import DrawMeanThm.


(** C113: vibrance changes the saturation by the formula (and makes the colour
    opaque, see C27). *)

Theorem C113_vibrance_formula : forall L f c, accurate_sine L -> in_gamut c -> is_finite f = true -> Rabs (B2R f) <= 1000 ->
  let h := to_hsl L KRgb c in let o := with_vibrance L f c in
  is_hsl ((1 + Rabs (B2R f)) / 2 ^ 15) (B2R (d0 h)) (vibrant (B2R f) (B2R (d0 h)) (B2R (d1 h))) (B2R (d2 h)) o /\ d3 o = f1.
Proof. exact vibrance_formula. Qed.
Print Assumptions C113_vibrance_formula.

Example C113_vibrance_example : forall L, accurate_sine (full_libm L) /\ in_gamut (mkC (dec 1 4) (dec 3 4) (dec 1 4) f1) /\ is_finite (dec 1 2) = true /\ Rabs (B2R (dec 1 2)) <= 1000 /\
  vibrant (/ 2) (/ 3) (/ 2) = 1 /\ (forall f h, vibrant f h 0 = 0) /\ (forall f s, 0 <= s <= 1 -> vibrant f 0 s = s).
Proof. exact vibrance_example. Qed.


(** C76: in reduced colours mode every pixel is in gamut and opaque, whatever the image. *)

Theorem C76_drawing_reduced_mode : forall L m (b : PixelBuffer Rgb) radius out, valid b -> (0 <= radius <= 32767)%Z -> exp_ok L -> bounded_powf L ->
  drawing L m b radius DReducedColors = Ok out -> forall c, In c (data out) -> in_gamut c /\ d3 c = f1.
Proof. exact drawing_reduced_mode. Qed.
Print Assumptions C76_drawing_reduced_mode.

Example C76_drawing_reduced_example : exp_ok step_libm /\ bounded_powf step_libm /\ valid (mkPB 2 1 [RGB_RED; mkC fnan f2 f0 f0]) /\
  tested (drawing step_libm Checked (mkPB 2 1 [RGB_RED; mkC fnan f2 f0 f0]) 1 DReducedColors)
    (fun c => feq (d3 c) f1 && fle f0 (d0 c) && fle (d0 c) f1) = [true; true].
Proof. exact drawing_reduced_example. Qed.


(** C114: where all pixels within max(5, radius) + 2 have the same colour, the
    drawing in gray mode is white. *)

Theorem C114_plain_area_is_white : forall L m (b : PixelBuffer Rgb) radius c x y out, exp_ok L -> valid b -> (1 <= radius <= 100)%Z -> in_gamut c -> inside b x y ->
  plain_around m b (Z.max 5 radius + 2) x y c -> drawing L m b radius DGray = Ok out ->
  exists o, get_pixel m out x y = Ok o /\ nearly_white (/ 2 ^ 16) o.
Proof. exact plain_area_is_white. Qed.
Print Assumptions C114_plain_area_is_white.


(** C114: in coloured mode the drawing there has the colour of the image. *)

Theorem C114_plain_area_keeps_colour : forall L m (b : PixelBuffer Rgb) radius c x y out, exp_ok L -> valid b -> (1 <= radius <= 100)%Z -> in_gamut c -> inside b x y ->
  plain_around m b (Z.max 5 radius + 2) x y c -> drawing L m b radius DColored = Ok out ->
  exists o, get_pixel m out x y = Ok o /\ channelwise (/ 2 ^ 13) (fun v => v) c o.
Proof. exact plain_area_keeps_colour. Qed.
Print Assumptions C114_plain_area_keeps_colour.

Example C114_plain_area_example : 
  let b := mkPB 12 1 (repeat RGB_RED 8 ++ repeat RGB_BLACK 4) in
  exp_ok step_libm /\ valid b /\ in_gamut RGB_RED /\ inside b 0 0 /\ plain_around Checked b (Z.max 5 1 + 2) 0 0 RGB_RED /\
  tested (drawing step_libm Checked b 1 DGray) (fun c => fle (dec 9999 10000) (d1 c)) = repeat true 8 ++ repeat false 4 /\
  tested (drawing step_libm Checked b 1 DColored) (fun c => flt (d0 c) (dec 1 2)) = repeat false 8 ++ repeat true 4.
Proof. exact plain_area_example. Qed.
