(** Property theorems, generated from WebPConfigThm.v by tools/mkp.py. *)

From Coq Require Import ZArith List Bool.
From Verif Require Import Base PixelBuffer BufferSpec F32 Color Codec CodecSpec WebPConfig.
Import ListNotations.
Open Scope Z_scope.

From Verif Require Import WebPConfigThm.


(** C115: a user expects the lossless preset to keep the pixels.  The code violates
    that: every image and every quality gives a lossy configuration with quality
    75, because the level 100 is none that the library accepts. *)

Theorem C115_webp_lossless_refuted : forall L b quality,
  exists j, make_job L b (EWebP quality WLossless) = ROk j /\ job_config j = Some (mkConfig false 75).
Proof. exact webp_lossless_refuted. Qed.
Print Assumptions C115_webp_lossless_refuted.


(** C115: the levels 0 to 9, and no others, give the lossless mode. *)

Theorem C115_webp_lossless_levels : forall config level,
  (0 <= level <= 9 -> lossless (fst (lossless_preset config level)) = true /\ snd (lossless_preset config level) = true) /\
  (~ 0 <= level <= 9 -> lossless_preset config level = (config, false)).
Proof. exact webp_lossless_levels. Qed.
Print Assumptions C115_webp_lossless_levels.


(** C115: with every other preset the image is encoded lossy with the given quality,
    at most 100. *)

Theorem C115_webp_quality : forall L b quality preset, 0 <= quality <= 255 -> preset <> WLossless ->
  exists j, make_job L b (EWebP quality preset) = ROk j /\ job_config j = Some (mkConfig false (Z.min quality 100)).
Proof. exact webp_quality. Qed.
Print Assumptions C115_webp_quality.

Example C115_webp_config_example : forall L b,
  (exists j, make_job L b (EWebP 100 WLossless) = ROk j /\ job_config j = Some (mkConfig false 75)) /\
  (exists j, make_job L b (EWebP 101 WPhoto) = ROk j /\ job_config j = Some (mkConfig false 100)) /\
  lossless (fst (lossless_preset config_init 9)) = true.
Proof. exact webp_config_example. Qed.
