(** Model of the configuration functions of libwebp that d10-codecs/src/webp.rs
    calls, as its header encode.h documents them; the library itself is not
    part of the repository.  Of a configuration only the compression mode and
    the quality are modelled. *)
From Coq Require Import ZArith List Bool.
From Verif Require Import Base PixelBuffer F32 Color Codec.
Import ListNotations.
Open Scope Z_scope.

Record webp_config := mkConfig { lossless : bool; config_quality : Z }.

(** [WebPConfig::new] (webp.rs:150), i.e. WebPConfigInit: the default preset
    with quality 75. *)
Definition config_init : webp_config := mkConfig false 75.
(** [WebPConfig::new_with_preset] (webp.rs:143-148), i.e. WebPConfigPreset. *)
Definition config_preset (quality : Z) : webp_config := mkConfig false quality.
(** WebPConfigLosslessPreset (webp.rs:152): the level is between 0 (fastest) and
    9 (smallest); for other levels the function returns false and changes
    nothing.  The result is the quality that controls the effort. *)
Definition lossless_preset (config : webp_config) (level : Z) : webp_config * bool :=
  if (level <? 0) || (9 <? level) then (config, false)
  else (mkConfig true (nth (Z.to_nat level) [0; 20; 25; 30; 50; 50; 75; 90; 90; 100] 0), true).

(** webp.rs:142-157: the configuration an image is encoded with.  For the
    lossless preset the number in the job is the level (see [job_webp]); the
    result of the function is ignored. *)
Definition job_config (j : job) : option webp_config :=
  match j with
  | JobWebP WLossless level _ _ _ _ => Some (fst (lossless_preset config_init level))
  | JobWebP _ quality _ _ _ _ => Some (config_preset quality)
  | _ => None
  end.
