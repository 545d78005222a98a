(** What contrast stretching computes (C109). *)
From Coq Require Import Reals ZArith List.
From Flocq Require Import IEEE754.BinarySingleNaN.
From Verif Require Import Base PixelBuffer BufferSpec F32 Color ColorSpec MeaningSpec IdealPowf Ops OpsSpec StretchSpec.
Import ListNotations.
Open Scope R_scope.

(* PROPERTIES *)
From Coq Require Import Lra Lia.
From Flocq Require Import Core.Core.
From Verif Require Import PixelBufferProofs F32Lemmas ColorProofs Approx OpsProofs StretchProofs.
Open Scope R_scope.

(** C109: contrast stretching finds the lowest brightness level that more than
    threshold/1000 of the pixels do not exceed and the highest that more than
    as many reach, and maps these two to 0 and 1. *)
Lemma stretch_formula : forall L (b : PixelBuffer Rgb) threshold, accurate_powf L -> valid b -> (1 <= zlen (data b) <= 2 ^ 20)%Z ->
  (forall c, In c (data b) -> in_gamut c) -> is_finite threshold = true -> B2R threshold = 0 \/ / 2 ^ 20 <= B2R threshold <= 400 ->
  exists r lo hi, stretch_contrast L b threshold = Ok r /\ valid r /\ width r = width b /\ height r = height b /\
    dark_level brightness_bin (data b) (B2R threshold / 1000) ((IZR (zlen (data b)) + 300) / 2 ^ 23) lo /\
    bright_level brightness_bin (data b) (B2R threshold / 1000) ((IZR (zlen (data b)) + 300) / 2 ^ 23) hi /\ (lo <= hi)%Z /\
    forall m x y, inside b x y -> exists c o, get_pixel m b x y = Ok c /\ get_pixel m r x y = Ok o /\
      ((lo < hi)%Z -> channelwise (/ 2 ^ 15) (fun v => limited (stretched lo hi v)) c o) /\
      (lo = hi -> channelwise (/ 2 ^ 7) (fun v => limited (2 ^ 15 * (v - IZR lo / 255))) c o).
Proof.
  intros L b threshold AL V Hn G Ft Ht. rewrite (pow_IZR 2 20) in Ht. rewrite (pow_IZR 2 23), (pow_IZR 2 15), (pow_IZR 2 7).
  exact (stretch_real L b threshold AL V Hn G Ft Ht).
Qed.
Example stretch_formula_example :
  let c n := mkC (fdiv (ofZ n) (ofZ 256)) (fdiv (ofZ n) (ofZ 256)) (fdiv (ofZ n) (ofZ 256)) f1 in
  let l := [c 64; c 128; c 128; c 192]%Z in
  (exists L, accurate_powf L) /\ valid (mkPB 2 2 l) /\ (forall c, In c l -> in_gamut c) /\
  map brightness_bin l = [63; 127; 127; 191]%Z /\
  B2R f0 = 0 /\ / 2 ^ 20 <= B2R (ofZ 300) <= 400 /\
  dark_level brightness_bin l 0 0 63 /\ bright_level brightness_bin l 0 0 191 /\
  dark_level brightness_bin l (300 / 1000) 0 127 /\ bright_level brightness_bin l (300 / 1000) 0 127 /\
  stretched 63 191 (63 / 255) = 0 /\ stretched 63 191 (191 / 255) = 1 /\ stretched 63 191 (127 / 255) = / 2.
Proof.
  cbv zeta. split; [exists (ideal_libm (mkLibm (fun x _ => x) (fun x => x) (fun x => x) (fun x => x) (fun x => x) (fun x _ => x) (fun x => x))); apply ideal_accurate|].
  split; [vm_compute; intuition congruence|]. split.
  { intros c [<- | [<- | [<- | [<- | []]]]]; vm_compute; intuition. }
  split; [vm_compute; reflexivity|]. split; [reflexivity|]. split.
  { rewrite (pow_IZR 2 20). rewrite ofZ_R by lia. change (IZR (2 ^ Z.of_nat 20)) with 1048576. lra. }
  assert (H : forall P Q R S T U : Prop, (P /\ Q /\ R /\ S) -> T -> U -> P /\ Q /\ R /\ S /\ T /\ U) by tauto.
  apply H; [apply four_levels; vm_compute; reflexivity| |]; unfold stretched; [field|split; field].
Qed.

(** C109: an image of one colour has no contrast to stretch, yet every
    mid-grey image becomes white. *)
Lemma stretch_plain_refuted : forall L (b : PixelBuffer Rgb) threshold, accurate_powf L -> valid b -> (1 <= zlen (data b) <= 2 ^ 20)%Z ->
  (forall c, In c (data b) -> c = mkC (dec 1 2) (dec 1 2) (dec 1 2) f1) ->
  is_finite threshold = true -> B2R threshold = 0 \/ / 2 ^ 20 <= B2R threshold <= 400 ->
  exists r, stretch_contrast L b threshold = Ok r /\ forall m x y, inside b x y ->
    exists o, get_pixel m r x y = Ok o /\ channelwise (/ 2 ^ 7) (fun _ => 1) (mkC (dec 1 2) (dec 1 2) (dec 1 2) f1) o.
Proof.
  intros L b threshold AL V Hn G Ft Ht. rewrite (pow_IZR 2 20) in Ht. rewrite (pow_IZR 2 7).
  exact (grey_to_white L b threshold AL V Hn G Ft Ht).
Qed.
Example stretch_plain_example :
  let g := mkC (dec 1 2) (dec 1 2) (dec 1 2) f1 in valid (mkPB 2 1 [g; g]) /\ (forall c, In c [g; g] -> c = g) /\
  inside (mkPB 2 1 [g; g]) 1 0 /\ is_finite (dec 1 2) = true /\ / 2 ^ 20 <= B2R (dec 1 2) <= 400 /\ exists L, accurate_powf L.
Proof.
  cbv zeta. split; [vm_compute; intuition congruence|]. split; [intros c [<- | [<- | []]]; reflexivity|].
  split; [unfold inside; cbn [width height]; lia|]. split; [reflexivity|].
  split; [rewrite (pow_IZR 2 20); fval (dec 1 2) H; rewrite H; change (IZR (2 ^ Z.of_nat 20)) with 1048576; lra|].
  exists (ideal_libm (mkLibm (fun x _ => x) (fun x => x) (fun x => x) (fun x => x) (fun x => x) (fun x _ => x) (fun x => x))). apply ideal_accurate.
Qed.
