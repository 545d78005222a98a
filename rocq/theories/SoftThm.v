(** What balancing the channels computes (C110). *)
From Coq Require Import Reals ZArith List.
From Flocq Require Import IEEE754.BinarySingleNaN.
From Verif Require Import Base PixelBuffer BufferSpec F32 Color ColorSpec MeaningSpec Ops OpsSpec StretchSpec SoftProofs.
Import ListNotations.
Open Scope R_scope.

(* PROPERTIES *)
From Coq Require Import Lra Lia.
From Flocq Require Import Core.Core.
From Verif Require Import PixelBufferProofs F32Lemmas ColorProofs Approx OpsProofs StretchProofs SoftProofs.
Open Scope R_scope.

(** C110: balancing in RGB finds for each channel the lowest level that more
    than threshold/1000 of the pixels do not exceed and the highest that more
    than as many reach, and stretches the channel between them by the formula
    of [soft_stretched]; a channel with a single level is left alone. *)
Lemma balance_formula : forall L (b : PixelBuffer Rgb) threshold, accurate_tanh_16 L -> valid b -> (1 <= zlen (data b) <= 2 ^ 20)%Z ->
  (forall c, In c (data b) -> in_gamut c) -> is_finite threshold = true -> B2R threshold = 0 \/ / 2 ^ 20 <= B2R threshold <= 400 ->
  exists r, balance L b BRgb threshold = Ok r /\ valid r /\ width r = width b /\ height r = height b /\
    (forall m x y, inside b x y -> exists c o, get_pixel m b x y = Ok c /\ get_pixel m r x y = Ok o /\ d3 o = d3 c) /\
    forall pick, pick = d0 \/ pick = d1 \/ pick = d2 -> exists lo hi,
      dark_level (fun c => channel_bin (pick c)) (data b) (B2R threshold / 1000) ((IZR (zlen (data b)) + 300) / 2 ^ 23) lo /\
      bright_level (fun c => channel_bin (pick c)) (data b) (B2R threshold / 1000) ((IZR (zlen (data b)) + 300) / 2 ^ 23) hi /\ (lo <= hi)%Z /\
      forall m x y c o, inside b x y -> get_pixel m b x y = Ok c -> get_pixel m r x y = Ok o ->
        ((lo < hi)%Z -> close (/ 2 ^ 10) (soft_stretched lo hi (B2R (pick c))) (pick o)) /\ (lo = hi -> pick o = pick c).
Proof.
  intros L b threshold AT V Hn G Ft Ht. rewrite (pow_IZR 2 20) in Ht. rewrite (pow_IZR 2 23), (pow_IZR 2 10).
  exact (balance_real L b threshold AT V Hn G Ft Ht).
Qed.
Example balance_formula_example :
  (forall L, accurate_tanh_16 (balance_libm L)) /\ valid (mkPB 2 1 [grey 103; grey 154]) /\ (forall c, In c [grey 103; grey 154] -> in_gamut c) /\
  map (fun c => channel_bin (d1 c)) [grey 103; grey 154] = [102; 153]%Z /\ / 2 ^ 20 <= B2R (ofZ 2) <= 400 /\
  soft_stretched 0 255 0 = 0 /\ soft_stretched 0 255 1 = tanh 10.
Proof.
  split; [exact balance_accurate|]. split; [vm_compute; intuition congruence|]. split; [intros c [<- | [<- | []]]; vm_compute; intuition|].
  split; [vm_compute; reflexivity|]. split; [rewrite (pow_IZR 2 20), ofZ_R by lia; change (IZR (2 ^ Z.of_nat 20)) with 1048576; lra|].
  unfold soft_stretched. split; [field|]. replace (10 * (255 / 255 - 0 / 255)) with 10 by field. field.
Qed.

(** C110: the result need not stay in [0,1]: of an image of two greys, 103/256
    and 154/256, balanced with threshold 0, the brighter one exceeds 1.01. *)
Lemma balance_range_refuted : forall L, accurate_tanh_16 L ->
  exists r, balance L (mkPB 2 1 [grey 103; grey 154]) BRgb f0 = Ok r /\
  exists o, get_pixel Checked r 1 0 = Ok o /\ 101 / 100 < B2R (d0 o) /\ 101 / 100 < B2R (d1 o) /\ 101 / 100 < B2R (d2 o).
Proof. exact balance_overflow. Qed.
Example balance_range_example : in_gamut (grey 103) /\ in_gamut (grey 154) /\ forall L, accurate_tanh_16 (balance_libm L).
Proof. split; [vm_compute; intuition|]. split; [vm_compute; intuition|exact balance_accurate]. Qed.
