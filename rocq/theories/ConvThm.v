(** What the conversions to XYZ, YUV, Lab and LCh compute, and the way back
    (C94-C97). *)
From Coq Require Import Reals ZArith.
From Flocq Require Import IEEE754.BinarySingleNaN.
From Verif Require Import F32 Color ColorSpec MeaningSpec ConvSpec IdealPowf IdealLibm.
Open Scope R_scope.

(* PROPERTIES *)
From Coq Require Import Lra Lia.
From Verif Require Import F32Lemmas ColorProofs Approx OpMeaningProofs HslMeaning SrgbMeaning LinearConv YuvMeaning LabCurve LabMeaning LchMeaning ConvProofs.
Open Scope R_scope.

(** C94: the XYZ colour of an RGB colour. *)
Lemma xyz_of_colour : forall L c, in_gamut c ->
  let r := B2R (d0 c) in let g := B2R (d1 c) in let b := B2R (d2 c) in let o := to_xyz L KRgb c in
  colour_close (/ 2 ^ 21) (x_of r g b) (y_of r g b) (z_of r g b) o /\ d3 o = d3 c.
Proof. intros L c G. rewrite (pow_IZR 2 21). split; [exact (xyz_rows c (in_gamut_to c G)) | reflexivity]. Qed.
(** C94: the RGB colour of an XYZ colour, limited to what RGB can hold. *)
Lemma colour_of_xyz : forall L c M, 1 <= M <= 100 -> channels_to M c ->
  let x := B2R (d0 c) in let y := B2R (d1 c) in let z := B2R (d2 c) in let o := to_rgb L KXyz c in
  colour_close (M / 2 ^ 19) (limited (xyz_red x y z)) (limited (xyz_green x y z)) (limited (xyz_blue x y z)) o /\ d3 o = d3 c.
Proof.
  intros L c M HM G. rewrite (pow_IZR 2 19). destruct (rgb_rows M c HM G) as (A & B & C). split; [|reflexivity].
  split; [|split]; apply close_clamp; assumption.
Qed.
(** C94: from RGB to XYZ and back. *)
Lemma xyz_and_back : forall L c, in_gamut c -> channelwise (/ 2 ^ 17) (fun v => v) c (to_rgb L KXyz (to_xyz L KRgb c)).
Proof. intros L c. rewrite (pow_IZR 2 17). exact (xyz_back c). Qed.
Example xyz_example :
  in_gamut (mkC (dec 1 100) (dec 1 2) f1 (dec 1 4)) /\ channels_to 1 (mkC (dec (-1) 100) (dec 1 2) f1 (dec 1 4)) /\
  y_of 1 1 1 = 1 /\ x_of 1 1 1 = 950456 / 1000000 /\ limited (xyz_green 1 0 0) = 0.
Proof.
  split; [repeat split; vm_compute; reflexivity|]. split; [exact xyz_example_range|].
  split; [unfold y_of; lra|]. split; [unfold x_of; lra|]. apply limited_lo. unfold xyz_green. lra.
Qed.

(** C95: the YUV colour of an sRGB colour. *)
Lemma yuv_of_colour : forall L c, in_gamut c ->
  let r := B2R (d0 c) in let g := B2R (d1 c) in let b := B2R (d2 c) in let o := to_yuv L KSrgb c in
  colour_close (/ 2 ^ 21) (luma r g b) (u_of r g b) (v_of r g b) o /\ d3 o = d3 c.
Proof. intros L c G. rewrite (pow_IZR 2 21). split; [exact (yuv_rows c (in_gamut_to c G)) | reflexivity]. Qed.
(** C95: the RGB colour of a YUV colour, limited to what RGB can hold. *)
Lemma colour_of_yuv : forall L c, accurate_powf L -> accurate_powf_above L -> channels_to 1 c ->
  let y := B2R (d0 c) in let u := B2R (d1 c) in let v := B2R (d2 c) in let o := to_rgb L KYuv c in
  colour_close (/ 2 ^ 17) (srgb_decode (limited (yuv_red y v))) (srgb_decode (limited (yuv_green y u v))) (srgb_decode (limited (yuv_blue y u))) o /\
  (in01 (d3 c) -> d3 o = d3 c).
Proof.
  intros L c AL AA C. rewrite (pow_IZR 2 17). split; [exact (yuv_colour L c AL AA C)|]. intros D.
  change (clamp (d3 c) = d3 c). now apply clamp_id.
Qed.
(** C95: from sRGB to YUV and back. *)
Lemma yuv_and_back_srgb : forall L c, accurate_powf L -> accurate_powf_above L -> in_gamut c ->
  channelwise (/ 2 ^ 17) (fun v => v) c (to_srgb L KYuv (to_yuv L KSrgb c)).
Proof. intros L c. rewrite (pow_IZR 2 17). exact (yuv_back_srgb L c). Qed.
(** C95: from RGB to YUV and back. *)
Lemma yuv_and_back : forall L c, accurate_powf L -> accurate_powf_above L -> in_gamut c ->
  channelwise (/ 2 ^ 15) (fun v => v) c (to_rgb L KYuv (to_yuv L KRgb c)).
Proof. intros L c. rewrite (pow_IZR 2 15). exact (yuv_back_linear L c). Qed.
Example yuv_example :
  (forall L, accurate_powf (full_libm L) /\ accurate_powf_above (full_libm L)) /\ channels_to 1 (mkC f1 (dec 1 2) f1 f1) /\
  (forall v, luma v v v = v /\ u_of v v v = 0 /\ v_of v v v = 0) /\ srgb_decode (limited (yuv_red 1 1)) = 1.
Proof.
  split; [intros L; split; [exact (full_accurate L) | exact (full_above L)]|]. split; [exact yuv_example_range|].
  split; [intros v; unfold u_of, v_of, luma; lra|]. rewrite limited_hi by (unfold yuv_red; lra). exact decode_1.
Qed.

(** C96: the Lab colour of an XYZ colour. *)
Lemma lab_of_xyz : forall L i o c, accurate_powf L -> accurate_powf_above L -> xyz_range c ->
  let '(w0, w1, w2) := white i o in
  let x := B2R (d0 c) / w0 in let y := B2R (d1 c) / w1 in let z := B2R (d2 c) / w2 in let lab := to_lab L i o KXyz c in
  close (/ 2 ^ 17) (lab_l y) (d0 lab) /\ close (/ 2 ^ 15) (lab_a x y) (d1 lab) /\ close (/ 2 ^ 16) (lab_b y z) (d2 lab) /\ d3 lab = d3 c.
Proof. intros L i o c. rewrite (pow_IZR 2 17), (pow_IZR 2 15), (pow_IZR 2 16). exact (lab_meaning L i o c). Qed.
(** C96: the XYZ colour of a Lab colour. *)
Lemma xyz_of_lab : forall L i o c, accurate_powf L -> accurate_powf_above L -> lab_range c ->
  let '(w0, w1, w2) := white i o in
  let y := (100 * B2R (d0 c) + 16) / 116 in let x := y + 128 * B2R (d1 c) / 500 in let z := y - 128 * B2R (d2 c) / 200 in
  let xyz := to_xyz L (KLab i o) c in
  colour_close (/ 2 ^ 13) (w0 * lab_uncurve x) (w1 * lab_uncurve y) (w2 * lab_uncurve z) xyz /\ d3 xyz = d3 c.
Proof. intros L i o c. rewrite (pow_IZR 2 13). exact (LabMeaning.xyz_of_lab L i o c). Qed.
(** C96: from RGB to Lab and back, with any illuminant and observer. *)
Lemma lab_and_back : forall L i o c, accurate_powf L -> accurate_powf_above L -> in_gamut c ->
  channelwise (/ 2 ^ 12) (fun v => v) c (to_rgb L (KLab i o) (to_lab L i o KRgb c)).
Proof. intros L i o c. rewrite (pow_IZR 2 12). exact (rgb_lab_rgb L i o c). Qed.
(** C96: with D65 and the 2 degree observer all greys are neutral. *)
Lemma greys_neutral : forall L v a, accurate_powf L -> accurate_powf_above L -> in_gamut (mkC v v v a) ->
  let lab := to_lab L D65 O2 KRgb (mkC v v v a) in
  close (/ 2 ^ 10) 0 (d1 lab) /\ close (/ 2 ^ 10) 0 (d2 lab) /\ close (/ 2 ^ 16) (lab_l (B2R v)) (d0 lab).
Proof. intros L v a. rewrite (pow_IZR 2 10), (pow_IZR 2 16). exact (neutral L v a). Qed.
(** C96: with every other illuminant and observer white is not neutral, with
    D50 its b channel is more than 19 of 128 steps off. *)
Lemma white_neutral_refuted : forall L i o a, accurate_powf L -> accurate_powf_above L -> in01 a ->
  let b := d2 (to_lab L i o KRgb (mkC f1 f1 f1 a)) in
  (i <> D65 \/ o <> O2 -> B2R b <= - (7 / 1000)) /\ (i = D50 -> B2R b <= - (15 / 100)).
Proof. intros L i o a AL AA A. exact (not_neutral L i o a AL AA A). Qed.
Example lab_example :
  (forall L, accurate_powf (full_libm L) /\ accurate_powf_above (full_libm L)) /\ in_gamut (mkC (dec 1 100) (dec 1 2) f1 (dec 1 4)) /\
  xyz_range (mkC (dec 9 10) (dec 1 2) f1 f1) /\ lab_range (mkC (dec 1 2) (dec 1 2) (dec (-1) 2) f1) /\
  lab_l 0 = 0 /\ lab_l 1 = 1 /\ lab_a 1 1 = 0 /\ lab_b (27 / 64) 1 = - (50 / 128).
Proof. exact lab_example_holds. Qed.

(** C97: LCh is the polar form of Lab. *)
Lemma lch_is_polar : forall L i o k c, accurate_angles L ->
  let lab := to_lab L i o k c in let lch := to_lch L i o k c in lab_range lab ->
  let a := B2R (d1 lab) in let b := B2R (d2 lab) in
  d0 lch = d0 lab /\ d3 lch = d3 lab /\ close (/ 2 ^ 18) (sqrt (a * a + b * b)) (d1 lch) /\
  exists t, Rabs t <= PI /\ a = sqrt (a * a + b * b) * cos t /\ b = sqrt (a * a + b * b) * sin t /\ close (/ 2 ^ 20) t (d2 lch).
Proof. intros L i o k c. rewrite (pow_IZR 2 18), (pow_IZR 2 20). exact (lch_polar L i o k c). Qed.
(** C97: from RGB to LCh and back, with any illuminant and observer. *)
Lemma lch_and_back : forall L i o c, accurate_powf L -> accurate_powf_above L -> accurate_angles L -> in_gamut c ->
  channelwise (/ 2 ^ 11) (fun v => v) c (to_rgb L (KLch i o) (to_lch L i o KRgb c)).
Proof. intros L i o c. rewrite (pow_IZR 2 11). exact (rgb_lch_rgb L i o c). Qed.
Example lch_example :
  (forall L, accurate_powf (full_libm L) /\ accurate_powf_above (full_libm L) /\ accurate_angles (full_libm L)) /\
  in_gamut (mkC (dec 1 100) (dec 1 2) f1 (dec 1 4)) /\
  (forall L, lab_range (to_lab (full_libm L) D65 O2 KRgb (mkC f1 f1 f1 f1))).
Proof. exact lch_example_holds. Qed.
