(** Property theorems, generated from ConvThm.v by tools/mkp.py. *)

From Coq Require Import Reals ZArith.
From Flocq Require Import IEEE754.BinarySingleNaN.
From Verif Require Import F32 Color ColorSpec MeaningSpec ConvSpec IdealPowf IdealLibm.
Open Scope R_scope.

From Verif Require Import ConvThm.


(** C94: the XYZ colour of an RGB colour. *)

Theorem C94_xyz_of_colour : forall L c, in_gamut c ->
  let r := B2R (d0 c) in let g := B2R (d1 c) in let b := B2R (d2 c) in let o := to_xyz L KRgb c in
  colour_close (/ 2 ^ 21) (x_of r g b) (y_of r g b) (z_of r g b) o /\ d3 o = d3 c.
Proof. exact xyz_of_colour. Qed.
Print Assumptions C94_xyz_of_colour.


(** C94: the RGB colour of an XYZ colour, limited to what RGB can hold. *)

Theorem C94_colour_of_xyz : forall L c M, 1 <= M <= 100 -> channels_to M c ->
  let x := B2R (d0 c) in let y := B2R (d1 c) in let z := B2R (d2 c) in let o := to_rgb L KXyz c in
  colour_close (M / 2 ^ 19) (limited (xyz_red x y z)) (limited (xyz_green x y z)) (limited (xyz_blue x y z)) o /\ d3 o = d3 c.
Proof. exact colour_of_xyz. Qed.
Print Assumptions C94_colour_of_xyz.


(** C94: from RGB to XYZ and back. *)

Theorem C94_xyz_and_back : forall L c, in_gamut c -> channelwise (/ 2 ^ 17) (fun v => v) c (to_rgb L KXyz (to_xyz L KRgb c)).
Proof. exact xyz_and_back. Qed.
Print Assumptions C94_xyz_and_back.

Example C94_xyz_example :
  in_gamut (mkC (dec 1 100) (dec 1 2) f1 (dec 1 4)) /\ channels_to 1 (mkC (dec (-1) 100) (dec 1 2) f1 (dec 1 4)) /\
  y_of 1 1 1 = 1 /\ x_of 1 1 1 = 950456 / 1000000 /\ limited (xyz_green 1 0 0) = 0.
Proof. exact xyz_example. Qed.


(** C95: the YUV colour of an sRGB colour. *)

Theorem C95_yuv_of_colour : forall L c, in_gamut c ->
  let r := B2R (d0 c) in let g := B2R (d1 c) in let b := B2R (d2 c) in let o := to_yuv L KSrgb c in
  colour_close (/ 2 ^ 21) (luma r g b) (u_of r g b) (v_of r g b) o /\ d3 o = d3 c.
Proof. exact yuv_of_colour. Qed.
Print Assumptions C95_yuv_of_colour.


(** C95: the RGB colour of a YUV colour, limited to what RGB can hold. *)

Theorem C95_colour_of_yuv : forall L c, accurate_powf L -> accurate_powf_above L -> channels_to 1 c ->
  let y := B2R (d0 c) in let u := B2R (d1 c) in let v := B2R (d2 c) in let o := to_rgb L KYuv c in
  colour_close (/ 2 ^ 17) (srgb_decode (limited (yuv_red y v))) (srgb_decode (limited (yuv_green y u v))) (srgb_decode (limited (yuv_blue y u))) o /\
  (in01 (d3 c) -> d3 o = d3 c).
Proof. exact colour_of_yuv. Qed.
Print Assumptions C95_colour_of_yuv.


(** C95: from sRGB to YUV and back. *)

Theorem C95_yuv_and_back_srgb : forall L c, accurate_powf L -> accurate_powf_above L -> in_gamut c ->
  channelwise (/ 2 ^ 17) (fun v => v) c (to_srgb L KYuv (to_yuv L KSrgb c)).
Proof. exact yuv_and_back_srgb. Qed.
Print Assumptions C95_yuv_and_back_srgb.


(** C95: from RGB to YUV and back. *)

Theorem C95_yuv_and_back : forall L c, accurate_powf L -> accurate_powf_above L -> in_gamut c ->
  channelwise (/ 2 ^ 15) (fun v => v) c (to_rgb L KYuv (to_yuv L KRgb c)).
Proof. exact yuv_and_back. Qed.
Print Assumptions C95_yuv_and_back.

Example C95_yuv_example :
  (forall L, accurate_powf (full_libm L) /\ accurate_powf_above (full_libm L)) /\ channels_to 1 (mkC f1 (dec 1 2) f1 f1) /\
  (forall v, luma v v v = v /\ u_of v v v = 0 /\ v_of v v v = 0) /\ srgb_decode (limited (yuv_red 1 1)) = 1.
Proof. exact yuv_example. Qed.


(** C96: the Lab colour of an XYZ colour. *)

Theorem C96_lab_of_xyz : forall L i o c, accurate_powf L -> accurate_powf_above L -> xyz_range c ->
  let '(w0, w1, w2) := white i o in
  let x := B2R (d0 c) / w0 in let y := B2R (d1 c) / w1 in let z := B2R (d2 c) / w2 in let lab := to_lab L i o KXyz c in
  close (/ 2 ^ 17) (lab_l y) (d0 lab) /\ close (/ 2 ^ 15) (lab_a x y) (d1 lab) /\ close (/ 2 ^ 16) (lab_b y z) (d2 lab) /\ d3 lab = d3 c.
Proof. exact lab_of_xyz. Qed.
Print Assumptions C96_lab_of_xyz.


(** C96: the XYZ colour of a Lab colour. *)

Theorem C96_xyz_of_lab : forall L i o c, accurate_powf L -> accurate_powf_above L -> lab_range c ->
  let '(w0, w1, w2) := white i o in
  let y := (100 * B2R (d0 c) + 16) / 116 in let x := y + 128 * B2R (d1 c) / 500 in let z := y - 128 * B2R (d2 c) / 200 in
  let xyz := to_xyz L (KLab i o) c in
  colour_close (/ 2 ^ 13) (w0 * lab_uncurve x) (w1 * lab_uncurve y) (w2 * lab_uncurve z) xyz /\ d3 xyz = d3 c.
Proof. exact xyz_of_lab. Qed.
Print Assumptions C96_xyz_of_lab.


(** C96: from RGB to Lab and back, with any illuminant and observer. *)

Theorem C96_lab_and_back : forall L i o c, accurate_powf L -> accurate_powf_above L -> in_gamut c ->
  channelwise (/ 2 ^ 12) (fun v => v) c (to_rgb L (KLab i o) (to_lab L i o KRgb c)).
Proof. exact lab_and_back. Qed.
Print Assumptions C96_lab_and_back.


(** C96: with D65 and the 2 degree observer all greys are neutral. *)

Theorem C96_greys_neutral : forall L v a, accurate_powf L -> accurate_powf_above L -> in_gamut (mkC v v v a) ->
  let lab := to_lab L D65 O2 KRgb (mkC v v v a) in
  close (/ 2 ^ 10) 0 (d1 lab) /\ close (/ 2 ^ 10) 0 (d2 lab) /\ close (/ 2 ^ 16) (lab_l (B2R v)) (d0 lab).
Proof. exact greys_neutral. Qed.
Print Assumptions C96_greys_neutral.


(** C96: with every other illuminant and observer white is not neutral, with
    D50 its b channel is more than 19 of 128 steps off. *)

Theorem C96_white_neutral_refuted : forall L i o a, accurate_powf L -> accurate_powf_above L -> in01 a ->
  let b := d2 (to_lab L i o KRgb (mkC f1 f1 f1 a)) in
  (i <> D65 \/ o <> O2 -> B2R b <= - (7 / 1000)) /\ (i = D50 -> B2R b <= - (15 / 100)).
Proof. exact white_neutral_refuted. Qed.
Print Assumptions C96_white_neutral_refuted.

Example C96_lab_example :
  (forall L, accurate_powf (full_libm L) /\ accurate_powf_above (full_libm L)) /\ in_gamut (mkC (dec 1 100) (dec 1 2) f1 (dec 1 4)) /\
  xyz_range (mkC (dec 9 10) (dec 1 2) f1 f1) /\ lab_range (mkC (dec 1 2) (dec 1 2) (dec (-1) 2) f1) /\
  lab_l 0 = 0 /\ lab_l 1 = 1 /\ lab_a 1 1 = 0 /\ lab_b (27 / 64) 1 = - (50 / 128).
Proof. exact lab_example. Qed.


(** C97: LCh is the polar form of Lab. *)

Theorem C97_lch_is_polar : forall L i o k c, accurate_angles L ->
  let lab := to_lab L i o k c in let lch := to_lch L i o k c in lab_range lab ->
  let a := B2R (d1 lab) in let b := B2R (d2 lab) in
  d0 lch = d0 lab /\ d3 lch = d3 lab /\ close (/ 2 ^ 18) (sqrt (a * a + b * b)) (d1 lch) /\
  exists t, Rabs t <= PI /\ a = sqrt (a * a + b * b) * cos t /\ b = sqrt (a * a + b * b) * sin t /\ close (/ 2 ^ 20) t (d2 lch).
Proof. exact lch_is_polar. Qed.
Print Assumptions C97_lch_is_polar.


(** C97: from RGB to LCh and back, with any illuminant and observer. *)

Theorem C97_lch_and_back : forall L i o c, accurate_powf L -> accurate_powf_above L -> accurate_angles L -> in_gamut c ->
  channelwise (/ 2 ^ 11) (fun v => v) c (to_rgb L (KLch i o) (to_lch L i o KRgb c)).
Proof. exact lch_and_back. Qed.
Print Assumptions C97_lch_and_back.

Example C97_lch_example :
  (forall L, accurate_powf (full_libm L) /\ accurate_powf_above (full_libm L) /\ accurate_angles (full_libm L)) /\
  in_gamut (mkC (dec 1 100) (dec 1 2) f1 (dec 1 4)) /\
  (forall L, lab_range (to_lab (full_libm L) D65 O2 KRgb (mkC f1 f1 f1 f1))).
Proof. exact lch_example. Qed.
