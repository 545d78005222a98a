(** The compression mode of WebP files (C115). *)
From Coq Require Import ZArith List Bool.
From Verif Require Import Base PixelBuffer BufferSpec F32 Color Codec CodecSpec WebPConfig.
Import ListNotations.
Open Scope Z_scope.

(* PROPERTIES *)
From Coq Require Import Lia ZifyBool.

(** C115: a user expects the lossless preset to keep the pixels.  The code violates
    that: every image and every quality gives a lossy configuration with quality
    75, because the level 100 is none that the library accepts. *)
Lemma webp_lossless_refuted : forall L b quality,
  exists j, make_job L b (EWebP quality WLossless) = ROk j /\ job_config j = Some (mkConfig false 75).
Proof. intros L b quality. eexists. split; reflexivity. Qed.

(** C115: the levels 0 to 9, and no others, give the lossless mode. *)
Lemma webp_lossless_levels : forall config level,
  (0 <= level <= 9 -> lossless (fst (lossless_preset config level)) = true /\ snd (lossless_preset config level) = true) /\
  (~ 0 <= level <= 9 -> lossless_preset config level = (config, false)).
Proof.
  intros config level. unfold lossless_preset. destruct ((level <? 0) || (9 <? level)) eqn:E; split; intros H; try reflexivity; try lia. split; reflexivity.
Qed.

(** C115: with every other preset the image is encoded lossy with the given quality,
    at most 100. *)
Lemma webp_quality : forall L b quality preset, 0 <= quality <= 255 -> preset <> WLossless ->
  exists j, make_job L b (EWebP quality preset) = ROk j /\ job_config j = Some (mkConfig false (Z.min quality 100)).
Proof.
  intros L b quality preset H N. eexists. split; [reflexivity|]. unfold job_webp.
  replace (Z.max 0 (Z.min quality 100)) with (Z.min quality 100) by lia. destruct preset; try reflexivity. contradiction.
Qed.
Example webp_config_example : forall L b,
  (exists j, make_job L b (EWebP 100 WLossless) = ROk j /\ job_config j = Some (mkConfig false 75)) /\
  (exists j, make_job L b (EWebP 101 WPhoto) = ROk j /\ job_config j = Some (mkConfig false 100)) /\
  lossless (fst (lossless_preset config_init 9)) = true.
Proof. intros L b. split; [eexists; split; reflexivity|]. split; [eexists; split; reflexivity|reflexivity]. Qed.
