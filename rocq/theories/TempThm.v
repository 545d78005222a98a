(** Colour temperature (C100, C101). *)
From Coq Require Import Reals ZArith List.
From Flocq Require Import IEEE754.BinarySingleNaN.
From Verif Require Import Base F32 PixelBuffer BufferSpec Color ColorSpec MeaningSpec ConvSpec OpsSpec TempSpec EnhanceSpec Kernel Ops IdealTanh.
Import ListNotations.
Open Scope R_scope.

(* PROPERTIES *)
From Coq Require Import Lra Lia.
From Verif Require Import F32Lemmas ColorProofs Approx OpMeaningProofs HslMeaning LabCurve PixelBufferProofs TemperatureProofs TempProofs TempOpt.
Open Scope R_scope.

(** C100: without tint correction each channel is multiplied by the ratio of
    the white of the old and the white of the new temperature. *)
Lemma temperature_formula : forall L (b : PixelBuffer Rgb) t t' tint,
  valid b -> Forall in_gamut (data b) -> fle tint f0 = true -> (3000 <= kelvin t')%Z ->
  let old := kelvin t in let new := kelvin t' in
  exists r, change_color_temperature L b t t' tint = Ok r /\ valid r /\ width r = width b /\ height r = height b /\
  forall m x y c, inside b x y -> get_pixel m b x y = Ok c -> exists o, get_pixel m r x y = Ok o /\
    colour_close (/ 2 ^ 12) (limited (B2R (d0 c) * (white_red old / white_red new))) (limited (B2R (d1 c) * (white_green old / white_green new)))
                 (limited (B2R (d2 c) * (white_blue old / white_blue new))) o /\ d3 o = d3 c.
Proof.
  intros L b t t' tint Vb G Ht H3. cbv zeta. rewrite (pow_IZR 2 12). destruct (temperature_meaning L b t t' tint Vb G Ht H3) as (r & E & V1 & V2 & V3 & P).
  exists r. repeat (split; [assumption|]). intros m x y c I Q. destruct (P m x y c I Q) as (o & O & A & B & C0 & D). exists o. split; [exact O|]. split; [|exact D].
  split; [exact A|split; [exact B|exact C0]].
Qed.
(** C100: the limiting to [0,1] makes the white of every temperature up to
    7000 K full red, so that red does not change. *)
Lemma temperature_red_kept_refuted : forall L (b : PixelBuffer Rgb) t t' tint,
  valid b -> Forall in_gamut (data b) -> fle tint f0 = true -> (kelvin t <= 7000)%Z -> (kelvin t' <= 7000)%Z ->
  exists r, change_color_temperature L b t t' tint = Ok r /\
  forall m x y c, inside b x y -> get_pixel m b x y = Ok c -> exists o, get_pixel m r x y = Ok o /\ same (d0 o) (d0 c).
Proof. exact temperature_red. Qed.
Example temperature_formula_example :
  let b := mkPB 1 1 [mkC (dec 3 4) (dec 1 4) (dec 1 4) f1] in
  valid b /\ Forall in_gamut (data b) /\ fle f0 f0 = true /\ kelvin (ofZ 6500) = 6500%Z /\ kelvin (ofZ 4000) = 4000%Z /\
  cie_xy 2500 = ((526676280311873 + 436929833678155) / 2000000000000000, (413297274507630 + 404073616886221) / 2000000000000000) /\
  / 4 <= white_blue 4000 <= 6 / 10.
Proof.
  cbv zeta. split; [split; [right; cbn [width height]; lia|reflexivity]|]. split; [repeat constructor; vm_compute; reflexivity|].
  split; [reflexivity|]. split; [apply kelvin_ofZ; lia|]. split; [apply kelvin_ofZ; lia|]. split.
  - unfold cie_xy. change (2500 mod 1000 <=? 1)%Z with false. change (2500 / 1000 - 1)%Z with 1%Z. change (2500 / 1000)%Z with 2%Z. change (2500 mod 1000)%Z with 500%Z.
    unfold cie_entry. change (Z.to_nat 1) with 1%nat. change (Z.to_nat 2) with 2%nat. unfold cie_table. cbn [nth]. f_equal; lra.
  - split; [apply whites; lia|]. unfold white_blue, cie_xy. change (4000 mod 1000 <=? 1)%Z with true. change (4000 / 1000 - 1)%Z with 3%Z.
    unfold cie_entry. change (Z.to_nat 3) with 3%nat. unfold cie_table. cbn [nth]. rewrite limited_id; unfold xyz_blue; lra.
Qed.

(** C101: [optimize_color_temperature] changes from 6500 K to 6500 K less
    4000 K times [factor] times the hyperbolic tangent of the mean difference of
    red and blue. *)
Lemma optimize_temperature_formula : forall L (b : PixelBuffer Rgb) factor tint,
  accurate_tanh L -> valid b -> nonempty b -> Forall in_gamut (data b) -> is_finite factor = true -> Rabs (B2R factor) <= 2 ->
  exists t, is_finite t = true /\
  Rabs (B2R t - (6500 - tanh (mean (fun c => B2R (d0 c) - B2R (d2 c)) (data b)) * (4000 * B2R factor))) <= / 400 /\
  optimize_color_temperature L b factor tint = change_color_temperature L b (ofZ 6500) t tint.
Proof. exact optimize_temperature. Qed.
Example optimize_temperature_example :
  (forall L, accurate_tanh (tanh_libm L)) /\
  let b := mkPB 1 1 [mkC (dec 3 4) (dec 1 4) (dec 1 4) f1] in
  valid b /\ nonempty b /\ Forall in_gamut (data b) /\ is_finite f1 = true /\ Rabs (B2R f1) <= 2 /\
  mean (fun c => B2R (d0 c) - B2R (d2 c)) (data b) = / 2.
Proof.
  split; [exact tanh_accurate|]. cbv zeta. split; [split; [right; cbn [width height]; lia|reflexivity]|]. split; [split; reflexivity|].
  split; [repeat constructor; vm_compute; reflexivity|]. split; [reflexivity|]. split; [rewrite f1_R, Rabs_right; lra|].
  fval (dec 3 4) EE1. fval (dec 1 4) EE2. unfold mean, sum_of. cbn [data fold_right d0 d2]. rewrite EE1, EE2. change (length _) with 1%nat. change (INR 1) with 1. lra.
Qed.
