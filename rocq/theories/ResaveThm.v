(** Opening and saving a picture again and again (C117). *)
From Coq Require Import Reals ZArith List.
From Flocq Require Import IEEE754.BinarySingleNaN.
From Verif Require Import Base PixelBuffer BufferSpec F32 Color ColorSpec Codec CodecSpec Image MeaningSpec IdealPowf ReopenSpec ResaveSpec.
Import ListNotations.
Open Scope Z_scope.

(* PROPERTIES *)
From Coq Require Import Lra Lia Bool.
From Flocq Require Import Core.Core.
From Verif Require Import F32Lemmas ColorProofs Approx OpMeaningProofs RoundTripProofs SrgbSamples ReopenProofs ResaveProofs.
Open Scope Z_scope.

(** C117: when a PNG file is opened and saved with its own colour type [n]
    times, every time works, every sample is lowered by at most [n], and alpha
    samples keep their values. *)
Lemma generations : forall m E D L ct comp filter n w h bytes raw, ct <> PL16 -> lossless_png E D -> accurate_powf L ->
  0 < w -> 0 < h -> valid_size w h ->
  let color := fst (fst (png_promise L ct)) in let d := snd (fst (png_promise L ct)) in
  holds_png D color d w h bytes raw ->
  exists bytes' raw', resaved m E D L (EPng ct comp filter) n bytes = Some bytes' /\ holds_png D color d w h bytes' raw' /\
    forall i k, 0 <= i < w * h -> 0 <= k < channels color ->
      exists v v', sample d raw (i * channels color + k) = Ok v /\ sample d raw' (i * channels color + k) = Ok v' /\
        v - Z.of_nat n <= v' <= v /\ (alpha_channel color k = true -> v' = v).
Proof.
  intros m E D L ct comp filter n w h bytes raw N LP AL W H VS color d. revert bytes raw. induction n as [|n IH]; intros bytes raw HO.
  - exists bytes, raw. split; [reflexivity|]. split; [exact HO|]. intros i k I K.
    destruct (one_generation m E D L ct comp filter w h bytes raw N LP W H VS HO) as (? & ? & _ & _ & S).
    destruct (S i k I K) as (v & A & _ & _). exists v, v. split; [exact A|]. split; [exact A|]. split; [lia|reflexivity].
  - destruct (one_generation m E D L ct comp filter w h bytes raw N LP W H VS HO) as (b1 & r1 & R & H1 & S).
    destruct (IH b1 r1 H1) as (b2 & r2 & R2 & H2 & S2). exists b2, r2. split; [rewrite R; exact R2|]. split; [exact H2|].
    intros i k I K. destruct (S i k I K) as (v & A & B & C). destruct (S2 i k I K) as (v1 & v2 & A1 & A2 & L2 & L3).
    fold color d in A, B, C. fold color d in A1. rewrite A1 in C. exists v, v2. split; [exact A|]. split; [exact A2|].
    assert (EV : v1 = if alpha_channel color k then v else if is_gray color then requant_gray L d v else requant L d v) by (injection C; auto).
    destruct (alpha_channel color k); [specialize (L3 eq_refl); split; [lia|]; intros _; congruence|].
    assert (Q : v - 1 <= v1 <= v) by (rewrite EV; destruct (is_gray color); [now apply requant_gray_near|now apply requant_near]).
    split; [lia|discriminate].
Qed.

(** C117: a user expects that samples stay as they are.  They do not: for every
    powf with an error up to 7/8 units in the last place, each time lowers the
    8 bit colour samples from 39 to 63 by one; so 25 times turn 63 into 38. *)
Lemma generation_loss_refuted : forall m E D L ct comp filter n w h bytes raw, (ct = PRgb8 \/ ct = PRgba8) -> lossless_png E D -> powf_within 112 L ->
  0 < w -> 0 < h -> valid_size w h ->
  let color := fst (fst (png_promise L ct)) in
  holds_png D color Eight w h bytes raw ->
  exists bytes' raw', resaved m E D L (EPng ct comp filter) n bytes = Some bytes' /\ holds_png D color Eight w h bytes' raw' /\
    forall i k v, 0 <= i < w * h -> 0 <= k < 3 -> idx raw (i * channels color + k) = Ok v -> 38 + Z.of_nat n <= v <= 63 ->
      idx raw' (i * channels color + k) = Ok (v - Z.of_nat n).
Proof.
  intros m E D L ct comp filter n w h bytes raw CT LP PW W H VS color. assert (N : ct <> PL16) by (destruct CT as [-> | ->]; discriminate).
  assert (DE : snd (fst (png_promise L ct)) = Eight) by (destruct CT as [-> | ->]; reflexivity).
  assert (CH : is_gray color = false /\ forall k, 0 <= k < 3 -> k < channels color /\ alpha_channel color k = false).
  { destruct CT as [-> | ->]; (split; [reflexivity|]); intros k K; unfold color; cbn [png_promise fst channels alpha_channel]; (split; [lia|]); try reflexivity. apply Z.eqb_neq. lia. }
  destruct CH as [GR CH]. revert bytes raw. induction n as [|n IH]; intros bytes raw HO.
  - exists bytes, raw. split; [reflexivity|]. split; [exact HO|]. intros i k v I K A _. replace (v - Z.of_nat 0) with v by lia. exact A.
  - pose proof HO as HO'. rewrite <- DE in HO'.
    destruct (one_generation m E D L ct comp filter w h bytes raw N LP W H VS HO') as (b1 & r1 & R & H1 & S). rewrite DE in H1.
    destruct (IH b1 r1 H1) as (b2 & r2 & R2 & H2 & S2). exists b2, r2. split; [rewrite R; exact R2|]. split; [exact H2|].
    intros i k v I K A LV. destruct (CH k K) as [K2 AC]. destruct (S i k I ltac:(fold color; lia)) as (v0 & A0 & _ & C).
    rewrite DE in A0, C. fold color in A0, C. cbn [sample] in A0, C. rewrite A in A0. assert (v0 = v) by (injection A0; auto). subst v0.
    rewrite AC, GR, (requant_lost L v PW) in C by lia. rewrite (S2 i k (v - 1) I K C ltac:(lia)). f_equal. lia.
Qed.

(** C117: and with a powf whose error is below 0.515 units in the last place,
    like a correctly rounded one, exactly 62 of the 255 samples below 255 are
    lowered, by one, when a file is opened and saved (255 becomes 254, see
    C81). *)
Lemma lowered_samples : forall m E D L ct comp filter w h bytes raw, (ct = PRgb8 \/ ct = PRgba8) -> lossless_png E D -> powf_within 66 L ->
  0 < w -> 0 < h -> valid_size w h ->
  let color := fst (fst (png_promise L ct)) in
  holds_png D color Eight w h bytes raw ->
  exists bytes' raw', resaved m E D L (EPng ct comp filter) 1 bytes = Some bytes' /\ holds_png D color Eight w h bytes' raw' /\
    forall i k v, 0 <= i < w * h -> 0 <= k < 3 -> idx raw (i * channels color + k) = Ok v -> v <> 255 ->
      (In v lowered8 -> idx raw' (i * channels color + k) = Ok (v - 1)) /\ (~ In v lowered8 -> idx raw' (i * channels color + k) = Ok v).
Proof.
  intros m E D L ct comp filter w h bytes raw CT LP PW W H VS color. assert (N : ct <> PL16) by (destruct CT as [-> | ->]; discriminate).
  assert (DE : snd (fst (png_promise L ct)) = Eight) by (destruct CT as [-> | ->]; reflexivity).
  assert (CH : is_gray color = false /\ forall k, 0 <= k < 3 -> k < channels color /\ alpha_channel color k = false).
  { destruct CT as [-> | ->]; (split; [reflexivity|]); intros k K; unfold color; cbn [png_promise fst channels alpha_channel]; (split; [lia|]); try reflexivity. apply Z.eqb_neq. lia. }
  destruct CH as [GR CH]. intros HO. pose proof HO as HO'. rewrite <- DE in HO'.
  destruct (one_generation m E D L ct comp filter w h bytes raw N LP W H VS HO') as (b1 & r1 & R & H1 & S). rewrite DE in H1.
  exists b1, r1. split; [rewrite R; reflexivity|]. split; [exact H1|].
  intros i k v I K A N255. destruct (CH k K) as [K2 AC]. destruct (S i k I ltac:(fold color; lia)) as (v0 & A0 & V0 & C).
  rewrite DE in A0, C, V0. fold color in A0, C. cbn [sample max_sample] in A0, C, V0. rewrite A in A0. assert (v0 = v) by (injection A0; auto). subst v0.
  rewrite AC, GR, (requant_all L v PW) in C by lia. rewrite C. split; intros I2.
  - replace (existsb (Z.eqb v) lowered8) with true; [reflexivity|]. symmetry. apply existsb_exists. exists v. split; [exact I2|apply Z.eqb_refl].
  - replace (existsb (Z.eqb v) lowered8) with false; [reflexivity|]. symmetry. apply not_true_is_false. intros X. apply existsb_exists in X as (x & X1 & X2).
    apply Z.eqb_eq in X2. subst x. contradiction.
Qed.

Example resaved_example : (forall T L, 64 <= T -> powf_within T (ideal_libm L)) /\ (forall L, accurate_powf (ideal_libm L)) /\
  lossless_png plain_encoders plain_decoders /\
  holds_png plain_decoders ColRgb Eight 2 1 [137; 80; 78; 71; 13; 10; 26; 10; 3; 1; 2; 1; 63; 64; 255; 0; 11; 200] [63; 64; 255; 0; 11; 200] /\
  zlen lowered8 = 62.
Proof.
  split; [|split; [exact ideal_accurate|]; split; [exact plain_lossless|]; split; [|reflexivity]].
  - intros T L HT x y e Fx Fy X Y HE P. cbn [powf ideal_libm]. replace (feq x f0) with false.
    2:{ symmetry. apply not_true_is_false. intros A. apply feq_R in A; auto with fin. rewrite f0_R in A. lra. }
    pose proof (Rpower_01 (B2R x) (B2R y) X ltac:(lra)) as P1.
    destruct (rounded_ok (Rpower (B2R x) (B2R y))) as [A B]. { rewrite Rabs_right; lra. }
    split; [exact A|]. rewrite B. set (p := Rpower (B2R x) (B2R y)) in *.
    assert (M : (0 < p)%R) by (eapply Rlt_le_trans; [apply bpow_gt_0|apply P]).
    pose proof (error_le_half_ulp radix2 fx (fun z => negb (Z.even z)) p) as HU.
    rewrite (ulp_neq_0 radix2 fx p) in HU by lra. unfold cexp in HU. rewrite (mag_unique_pos radix2 p e) in HU by lra.
    replace (fx e) with (e - 24) in HU by (unfold fx, SpecFloat.fexp, FLT_exp, SpecFloat.emin; lia).
    change (Rabs (rnd p - p) <= / 2 * bpow radix2 (e - 24))%R in HU.
    eapply Rle_trans; [exact HU|]. apply Rmult_le_compat_r; [apply bpow_ge_0|]. apply IZR_le in HT. lra.
  - eexists. split; [|split; [reflexivity|]].
    { exists [Some 137; Some 80; Some 78; Some 71; Some 13; Some 10; Some 26; Some 10], [137; 80; 78; 71; 13; 10; 26; 10], [3; 1; 2; 1; 63; 64; 255; 0; 11; 200].
      split; [right; left; reflexivity|]. split; [reflexivity|]. repeat (constructor; [right; reflexivity|]). constructor. }
    do 5 (split; [reflexivity|]). repeat constructor; unfold is_byte; lia.
Qed.
