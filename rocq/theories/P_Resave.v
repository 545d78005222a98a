(** Property theorems, generated from ResaveThm.v by tools/mkp.py. *)

From Coq Require Import Reals ZArith List.
From Flocq Require Import IEEE754.BinarySingleNaN.
From Verif Require Import Base PixelBuffer BufferSpec F32 Color ColorSpec Codec CodecSpec Image MeaningSpec IdealPowf ReopenSpec ResaveSpec.
Import ListNotations.
Open Scope Z_scope.

From Verif Require Import ResaveThm.


(** C117: when a PNG file is opened and saved with its own colour type [n]
    times, every time works, every sample is lowered by at most [n], and alpha
    samples keep their values. *)

Theorem C117_generations : forall m E D L ct comp filter n w h bytes raw, ct <> PL16 -> lossless_png E D -> accurate_powf L ->
  0 < w -> 0 < h -> valid_size w h ->
  let color := fst (fst (png_promise L ct)) in let d := snd (fst (png_promise L ct)) in
  holds_png D color d w h bytes raw ->
  exists bytes' raw', resaved m E D L (EPng ct comp filter) n bytes = Some bytes' /\ holds_png D color d w h bytes' raw' /\
    forall i k, 0 <= i < w * h -> 0 <= k < channels color ->
      exists v v', sample d raw (i * channels color + k) = Ok v /\ sample d raw' (i * channels color + k) = Ok v' /\
        v - Z.of_nat n <= v' <= v /\ (alpha_channel color k = true -> v' = v).
Proof. exact generations. Qed.
Print Assumptions C117_generations.


(** C117: a user expects that samples stay as they are.  They do not: for every
    powf with an error up to 7/8 units in the last place, each time lowers the
    8 bit colour samples from 39 to 63 by one; so 25 times turn 63 into 38. *)

Theorem C117_generation_loss_refuted : forall m E D L ct comp filter n w h bytes raw, (ct = PRgb8 \/ ct = PRgba8) -> lossless_png E D -> powf_within 112 L ->
  0 < w -> 0 < h -> valid_size w h ->
  let color := fst (fst (png_promise L ct)) in
  holds_png D color Eight w h bytes raw ->
  exists bytes' raw', resaved m E D L (EPng ct comp filter) n bytes = Some bytes' /\ holds_png D color Eight w h bytes' raw' /\
    forall i k v, 0 <= i < w * h -> 0 <= k < 3 -> idx raw (i * channels color + k) = Ok v -> 38 + Z.of_nat n <= v <= 63 ->
      idx raw' (i * channels color + k) = Ok (v - Z.of_nat n).
Proof. exact generation_loss_refuted. Qed.
Print Assumptions C117_generation_loss_refuted.


(** C117: and with a powf whose error is below 0.515 units in the last place,
    like a correctly rounded one, exactly 62 of the 255 samples below 255 are
    lowered, by one, when a file is opened and saved (255 becomes 254, see
    C81). *)

Theorem C117_lowered_samples : forall m E D L ct comp filter w h bytes raw, (ct = PRgb8 \/ ct = PRgba8) -> lossless_png E D -> powf_within 66 L ->
  0 < w -> 0 < h -> valid_size w h ->
  let color := fst (fst (png_promise L ct)) in
  holds_png D color Eight w h bytes raw ->
  exists bytes' raw', resaved m E D L (EPng ct comp filter) 1 bytes = Some bytes' /\ holds_png D color Eight w h bytes' raw' /\
    forall i k v, 0 <= i < w * h -> 0 <= k < 3 -> idx raw (i * channels color + k) = Ok v -> v <> 255 ->
      (In v lowered8 -> idx raw' (i * channels color + k) = Ok (v - 1)) /\ (~ In v lowered8 -> idx raw' (i * channels color + k) = Ok v).
Proof. exact lowered_samples. Qed.
Print Assumptions C117_lowered_samples.

Example C117_resaved_example : (forall T L, 64 <= T -> powf_within T (ideal_libm L)) /\ (forall L, accurate_powf (ideal_libm L)) /\
  lossless_png plain_encoders plain_decoders /\
  holds_png plain_decoders ColRgb Eight 2 1 [137; 80; 78; 71; 13; 10; 26; 10; 3; 1; 2; 1; 63; 64; 255; 0; 11; 200] [63; 64; 255; 0; 11; 200] /\
  zlen lowered8 = 62.
Proof. exact resaved_example. Qed.
