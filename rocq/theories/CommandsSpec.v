(** Specification vocabulary for command queues (C61-C63). *)
From Coq Require Import ZArith List Bool String.
From Verif Require Import Base PixelBuffer BufferSpec F32 Color Resample Kernel Ops Codec Commands.
Import ListNotations.
Open Scope Z_scope.

(** What a queue works on: the image in hand, the files, the random numbers
    to come. *)
Record state (R : Type) := mkState { held : option (PixelBuffer Rgb); on_disk : fs; random : R }.
Arguments mkState {R}.
Arguments held {R}.
Arguments on_disk {R}.
Arguments random {R}.
Definition before_all {R} (w : world R) : state R := mkState None (w_fs w) (w_rng w).

(** The commands that recolour each pixel by itself. *)
Definition pixel_function (L : libm) (c : Cmd) : option (Rgb -> Rgb) :=
  match c with
  | CmdToGray i => Some (to_gray_with_intensity i)
  | CmdInvert => Some invert
  | CmdGamma g => Some (with_gamma L g)
  | CmdLevel b w g => Some (with_level L b w g)
  | CmdBrightness v => Some (with_brightness v)
  | CmdContrast v => Some (with_contrast v)
  | CmdBrightnessContrast b c => Some (with_brightness_contrast b c)
  | CmdSaturation v => Some (with_saturation v)
  | CmdStretchSaturation v => Some (stretch_saturation v)
  | CmdLightness v => Some (with_lightness v)
  | CmdHueRotate v => Some (with_hue_rotate v)
  | _ => None
  end.
(** The commands that use random numbers. *)
Definition noise_function {R} (g : rng R) (c : Cmd) : option (R -> PixelBuffer Rgb -> res (R * PixelBuffer Rgb)) :=
  match c with
  | CmdRandomNoise v => Some (fun r b => random_noise g KRgb r b v)
  | CmdSaltNPepperNoise v => Some (fun r b => salt_n_pepper_noise g r b v)
  | CmdRgbNoise v => Some (fun r b => rgb_noise g r b v)
  | _ => None
  end.
(** [b'] is [b] with [f] applied to each pixel. *)
Definition recolored (f : Rgb -> Rgb) (b b' : PixelBuffer Rgb) : Prop :=
  valid b' /\ width b' = width b /\ height b' = height b /\
  forall m x y c, inside b x y -> get_pixel m b x y = Ok c -> get_pixel m b' x y = Ok (f c).
Definition silent (c : Cmd) : bool := match c with CmdSilent => true | _ => false end.
Definition opens (c : Cmd) : bool := match c with CmdOpen _ => true | _ => false end.

(** What a command does and returns. *)
Inductive does {R} (e : env R) : Cmd -> state R -> Result unit CommandError -> state R -> Prop :=
| does_silent st : does e CmdSilent st (ROk tt) st
| does_open path b b' s r : decode_file (e_build e) (e_dec e) (e_libm e) s path = Ok (ROk b') ->
    does e (CmdOpen path) (mkState b s r) (ROk tt) (mkState (Some b') s r)
| does_open_fail path b s r err : decode_file (e_build e) (e_dec e) (e_libm e) s path = Ok (RErr err) ->
    does e (CmdOpen path) (mkState b s r) (RErr (Decoding err)) (mkState b s r)
| does_missing c s r : silent c = false -> opens c = false ->
    does e c (mkState None s r) (RErr MissingImage) (mkState None s r)
| does_save path b s r s' : encode_to_file (e_enc e) (e_libm e) s path b None = (s', ROk tt) ->
    does e (CmdSave path) (mkState (Some b) s r) (ROk tt) (mkState (Some b) s' r)
| does_save_fail path b s r s' err : encode_to_file (e_enc e) (e_libm e) s path b None = (s', RErr err) ->
    does e (CmdSave path) (mkState (Some b) s r) (RErr (Encoding err)) (mkState (Some b) s' r)
| does_pixels c f b b' s r : pixel_function (e_libm e) c = Some f -> recolored f b b' ->
    does e c (mkState (Some b) s r) (ROk tt) (mkState (Some b') s r)
| does_rotate radians f b b' s r : rotate (e_libm e) (e_build e) b radians (mkC f0 f0 f0 f0) f = Ok b' ->
    does e (CmdRotate radians f) (mkState (Some b) s r) (ROk tt) (mkState (Some b') s r)
| does_noise c n b b' s r r' : noise_function (e_rng e) c = Some n -> n r b = Ok (r', b') ->
    does e c (mkState (Some b) s r) (ROk tt) (mkState (Some b') s r').

(** [recolours L step f]: the builder method [step], with its parameters as the
    documentation orders them, stands for applying [f] to each pixel. *)
Inductive recolours (L : libm) : (list Cmd -> list Cmd) -> (Rgb -> Rgb) -> Prop :=
| rc_to_gray i : recolours L (fun q => queue_to_gray q i) (to_gray_with_intensity i)
| rc_invert : recolours L queue_invert invert
| rc_gamma g : recolours L (fun q => queue_gamma q g) (with_gamma L g)
| rc_level black white g : recolours L (fun q => queue_level q black white g) (with_level L black white g)
| rc_brightness v : recolours L (fun q => queue_brightness q v) (with_brightness v)
| rc_contrast v : recolours L (fun q => queue_contrast q v) (with_contrast v)
| rc_brightness_contrast b c : recolours L (fun q => queue_brightness_contrast q b c) (with_brightness_contrast b c)
| rc_saturation v : recolours L (fun q => queue_saturation q v) (with_saturation v)
| rc_stretch_saturation v : recolours L (fun q => queue_stretch_saturation q v) (stretch_saturation v)
| rc_lightness v : recolours L (fun q => queue_lightness q v) (with_lightness v)
| rc_hue_rotate v : recolours L (fun q => queue_hue_rotate q v) (with_hue_rotate v).
(** The result of saving [b] as the last command of a queue. *)
Definition ends_saving {R} (e : env R) (q : list Cmd) (w : world R) (output : string) (b : PixelBuffer Rgb) : Prop :=
  exists w' r, encode_to_file (e_enc e) (e_libm e) (w_fs w) output b None = (w_fs w', r) /\ w_rng w' = w_rng w /\
    queue_run e q w = Ok (w', match r with ROk _ => ROk tt | RErr err => RErr (Encoding err) end).

(** [do_all e l st st']: the commands [l] succeed one after the other. *)
Inductive do_all {R} (e : env R) : list Cmd -> state R -> state R -> Prop :=
| do_none st : do_all e [] st st
| do_next c l st st1 st2 : does e c st (ROk tt) st1 -> do_all e l st1 st2 -> do_all e (c :: l) st st2.
(** [do_until_error e q st st' started r]: all of [q] succeeds, or all up to
    the last one of [started], which fails; the others are not started. *)
Definition do_until_error {R} (e : env R) (q : list Cmd) (st st' : state R) (started : list Cmd)
  (r : Result unit CommandError) : Prop :=
  (r = ROk tt /\ started = q /\ do_all e q st st') \/
  (exists done c later st1 err, q = done ++ c :: later /\ started = done ++ [c] /\ r = RErr err /\
    do_all e done st st1 /\ does e c st1 (RErr err) st').

(** The lines for the commands [started] of the queue [q]: those before the
    first Silent, numbered from 1, each with the number of commands of the
    queue that are not Silent. *)
Definition log_lines (q started : list Cmd) (lines : list line) : Prop :=
  exists shown hidden, started = shown ++ hidden /\ ~ In CmdSilent shown /\
    (hidden = [] \/ exists l, hidden = CmdSilent :: l) /\ zlen lines = zlen shown /\
    forall j c, idx shown j = Ok c ->
      idx lines j = Ok (mkLine (j + 1) (zlen (filter (fun c => negb (silent c)) q)) c).
