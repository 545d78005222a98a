(** Command lines and Python programs for the same edits (the vocabulary of
    C128). *)
From Coq Require Import ZArith List String.
From Verif Require Import Base PixelBuffer F32 Color Resample Ops Codec Image Commands CliSpec PySpec PyImage PyColor.
Import ListNotations.
Local Open Scope string_scope.

(** The Python method for a command that changes the colours. *)
Inductive colour_method : Cmd -> py_method -> Prop :=
| cm_gray n i : called intensity_names n "rec709luma" i -> colour_method (CmdToGray i) (ToGray n)
| cm_invert : colour_method CmdInvert Invert
| cm_gamma g : colour_method (CmdGamma g) (WithGamma g)
| cm_level b w g : colour_method (CmdLevel b w g) (WithLevel b w g)
| cm_brightness v : colour_method (CmdBrightness v) (WithBrightness v)
| cm_contrast v : colour_method (CmdContrast v) (WithContrast v)
| cm_brightness_contrast b c : colour_method (CmdBrightnessContrast b c) (WithBrightnessContrast b c)
| cm_saturation v : colour_method (CmdSaturation v) (WithSaturation v)
| cm_stretch_saturation v : colour_method (CmdStretchSaturation v) (StretchSaturation v)
| cm_lightness v : colour_method (CmdLightness v) (WithLightness v)
| cm_hue_rotate v : colour_method (CmdHueRotate v) (WithHueRotate v).

(** The Python lines for a command: in place or as a new image, with a name
    spelled out or left to the default. *)
Inductive same_line : Cmd -> py_line -> Prop :=
| sl_open path : same_line (CmdOpen path) (LineOpen path)
| sl_save path : same_line (CmdSave path) (LineSave path)
| sl_mod c f : colour_method c f -> same_line c (LineModColors f)
| sl_map c f : colour_method c f -> same_line c (LineMapColors f)
| sl_rotate a n f : called filter_mode_names n "bilinear" f -> same_line (CmdRotate a f) (LineCall (CallRotate a n))
| sl_random v : same_line (CmdRandomNoise v) (LineRandomNoise v)
| sl_add_random v : same_line (CmdRandomNoise v) (LineAddRandomNoise v)
| sl_salt v : same_line (CmdSaltNPepperNoise v) (LineSaltNPepperNoise v)
| sl_add_salt v : same_line (CmdSaltNPepperNoise v) (LineAddSaltNPepperNoise v)
| sl_rgb v : same_line (CmdRgbNoise v) (LineRgbNoise v)
| sl_add_rgb v : same_line (CmdRgbNoise v) (LineAddRgbNoise v).
(** Line by line; turning off the messages has no counterpart. *)
Inductive same_lines : list Cmd -> list py_line -> Prop :=
| ss_end : same_lines [] []
| ss_silent cs ls : same_lines cs ls -> same_lines (CmdSilent :: cs) ls
| ss_line c cs l ls : same_line c l -> same_lines cs ls -> same_lines (c :: cs) (l :: ls).

(** The error of a command and the exception of a line. *)
Inductive same_end : Result unit CommandError -> Result unit py_exn -> Prop :=
| se_done : same_end (ROk tt) (ROk tt)
| se_decoding e : same_end (RErr (Decoding e)) (RErr (OSErrorDecoding e))
| se_encoding e : same_end (RErr (Encoding e)) (RErr (OSErrorEncoding e)).
(** The same files, the same random numbers left, the same end. *)
Definition same_run {R} (q : res (world R * Result unit CommandError)) (p : res (fs * R * Result unit py_exn)) : Prop :=
  match q, p with
  | Ok (w, a), Ok (s, r, b) => w_fs w = s /\ w_rng w = r /\ same_end a b
  | Panic, Panic => True
  | _, _ => False
  end.
