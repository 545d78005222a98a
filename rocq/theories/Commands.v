(** Model of d10-commands/src (commands.rs, queue.rs, log.rs, errors.rs).
    Standard output is the list of lines printed; the text of a line is its
    two numbers and the command, not the characters of [{:?}]. *)
From Coq Require Import ZArith List Bool String.
From Verif Require Import Base PixelBuffer F32 Color Resample Kernel Ops Codec Image.
Import ListNotations.
Open Scope Z_scope.

(** commands.rs:7-37 *)
Inductive Cmd :=
| CmdSilent
| CmdOpen (path : string)
| CmdSave (path : string)
| CmdToGray (i : intensity)
| CmdInvert
| CmdGamma (gamma : f32)
| CmdLevel (black_point white_point gamma : f32)
| CmdBrightness (brightness : f32)
| CmdContrast (contrast : f32)
| CmdBrightnessContrast (brightness contrast : f32)
| CmdSaturation (saturation : f32)
| CmdStretchSaturation (saturation : f32)
| CmdLightness (lightness : f32)
| CmdHueRotate (rotation : f32)
| CmdRotate (radians : f32) (filter : filter_mode)
| CmdRandomNoise (strength : f32)
| CmdSaltNPepperNoise (threshold : f32)
| CmdRgbNoise (threshold : f32).

(** commands.rs:39-43 *)
Definition ignore_in_log (c : Cmd) : bool := match c with CmdSilent => true | _ => false end.

(** errors.rs:8-12 *)
Inductive CommandError := MissingImage | Decoding (e : DecodingError) | Encoding (e : EncodingError).

(** What a program can reach: the libraries, and the state of the file system,
    of the random number generator and of standard output. *)
Record env (R : Type) := mkEnv {
  e_libm : libm; e_build : build; e_rng : rng R; e_enc : encoders; e_dec : decoders
}.
Arguments e_libm {R}.
Arguments e_build {R}.
Arguments e_rng {R}.
Arguments e_enc {R}.
Arguments e_dec {R}.
Record line := mkLine { l_current : Z; l_total : Z; l_cmd : Cmd }.
Record world (R : Type) := mkWorld { w_fs : fs; w_rng : R; w_out : list line }.
Arguments mkWorld {R}.
Arguments w_fs {R}.
Arguments w_rng {R}.
Arguments w_out {R}.
Definition set_fs {R} (w : world R) (s : fs) : world R := mkWorld s (w_rng w) (w_out w).
Definition set_rng {R} (w : world R) (s : R) : world R := mkWorld (w_fs w) s (w_out w).
Definition println {R} (w : world R) (l : line) : world R := mkWorld (w_fs w) (w_rng w) (w_out w ++ [l]).

(** log.rs:3-28 *)
Record Log := mkLog { disabled : bool; total : Z; current : Z }.
Definition log_new (total : Z) : Log := mkLog false total 0.
Definition log_disable (l : Log) : Log := mkLog true (total l) (current l).
Definition log_command_step {R} (l : Log) (w : world R) (c : Cmd) : Log * world R :=
  let l := mkLog (disabled l) (total l) (current l + 1) in
  (l, if negb (disabled l) then println w (mkLine (current l) (total l) c) else w).

(** commands.rs:45-53: [Context] is the optional image; what a command leaves
    behind is the context and the world. *)
Definition outcome R := (option Image * world R * Result unit CommandError)%type.
(** [ctx.image()?] *)
Definition with_image {R} (ctx : option Image) (w : world R) (f : Image -> res (outcome R)) : res (outcome R) :=
  match ctx with Some i => f i | None => Ok (ctx, w, RErr MissingImage) end.
(** [ctx.image()?.mod_colors(f); Ok(())] *)
Definition execute_mod {R} (f : Rgb -> Rgb) (ctx : option Image) (w : world R) : res (outcome R) :=
  with_image ctx w (fun i => i' <- image_mod_colors (fun c => Ok (f c)) i; Ok (Some i', w, ROk tt)).
(** [ctx.image = Some(ctx.image()?.noise(..)); Ok(())] *)
Definition execute_noise {R} (f : R -> Image -> res (R * Image)) (ctx : option Image) (w : world R) : res (outcome R) :=
  with_image ctx w (fun i => '(s, i') <- f (w_rng w) i; Ok (Some i', set_rng w s, ROk tt)).

(** commands.rs:94-97 *)
Definition execute_open {R} (e : env R) (path : string) (ctx : option Image) (w : world R) : res (outcome R) :=
  r <- image_open (e_build e) (e_dec e) (e_libm e) (w_fs w) path;
  Ok (match r with ROk i => (Some i, w, ROk tt) | RErr err => (ctx, w, RErr (Decoding err)) end).
(** commands.rs:99-101 *)
Definition execute_save {R} (e : env R) (path : string) (ctx : option Image) (w : world R) : res (outcome R) :=
  with_image ctx w (fun i =>
    let '(s, r) := image_save (e_enc e) (e_libm e) (w_fs w) i path in
    Ok (ctx, set_fs w s, match r with ROk _ => ROk tt | RErr err => RErr (Encoding err) end)).
(** commands.rs:103-159, 161-174, 176-189 with the [match] of 61-88; [Silent]
    only concerns the log *)
Definition execute_cmd {R} (e : env R) (c : Cmd) (ctx : option Image) (w : world R) : res (outcome R) :=
  let L := e_libm e in
  match c with
  | CmdSilent => Ok (ctx, w, ROk tt)
  | CmdOpen path => execute_open e path ctx w
  | CmdSave path => execute_save e path ctx w
  | CmdToGray i => execute_mod (to_gray_with_intensity i) ctx w
  | CmdInvert => execute_mod invert ctx w
  | CmdGamma gamma => execute_mod (with_gamma L gamma) ctx w
  | CmdLevel black_point white_point gamma => execute_mod (with_level L black_point white_point gamma) ctx w
  | CmdBrightness brightness => execute_mod (with_brightness brightness) ctx w
  | CmdContrast contrast => execute_mod (with_contrast contrast) ctx w
  | CmdBrightnessContrast brightness contrast => execute_mod (with_brightness_contrast brightness contrast) ctx w
  | CmdSaturation saturation => execute_mod (with_saturation saturation) ctx w
  | CmdStretchSaturation saturation => execute_mod (stretch_saturation saturation) ctx w
  | CmdLightness lightness => execute_mod (with_lightness lightness) ctx w
  | CmdHueRotate rotation => execute_mod (with_hue_rotate rotation) ctx w
  | CmdRotate radians filter =>
      with_image ctx w (fun i => i' <- image_rotate L (e_build e) radians filter i; Ok (Some i', w, ROk tt))
  | CmdRandomNoise strength => execute_noise (image_random_noise (e_rng e) strength) ctx w
  | CmdSaltNPepperNoise threshold => execute_noise (image_salt_n_pepper_noise (e_rng e) threshold) ctx w
  | CmdRgbNoise threshold => execute_noise (image_rgb_noise (e_rng e) threshold) ctx w
  end.

(** commands.rs:55-92 *)
Fixpoint execute {R} (e : env R) (commands : list Cmd) (ctx : option Image) (log : Log) (w : world R)
  : res (world R * Result unit CommandError) :=
  match commands with
  | [] => Ok (w, ROk tt)
  | c :: commands =>
      let '(log, w) := if negb (ignore_in_log c) then log_command_step log w c else (log, w) in
      let log := match c with CmdSilent => log_disable log | _ => log end in
      '(ctx, w, r) <- execute_cmd e c ctx w;
      match r with
      | ROk _ => execute e commands ctx log w
      | RErr err => Ok (w, RErr err)
      end
  end.

(** queue.rs:6-8, 15-29: a queue is its list of commands *)
Definition queue_run {R} (e : env R) (commands : list Cmd) (w : world R) : res (world R * Result unit CommandError) :=
  let total := zlen (filter (fun c => negb (ignore_in_log c)) commands) in
  execute e commands None (log_new total) w.

(** queue.rs:10-13, 31-46 *)
Definition queue_new : list Cmd := [].
Definition queue_is_empty (q : list Cmd) : bool := match q with [] => true | _ => false end.
Definition queue_len (q : list Cmd) : Z := zlen q.
Definition queue_push (q : list Cmd) (c : Cmd) : list Cmd := q ++ [c].
(** queue.rs:43-46 and 48-113: [with] and the builder methods *)
Definition queue_with (q : list Cmd) (c : Cmd) : list Cmd := queue_push q c.
Definition queue_silent q := queue_with q CmdSilent.
Definition queue_open q path := queue_with q (CmdOpen path).
Definition queue_save q path := queue_with q (CmdSave path).
Definition queue_to_gray q i := queue_with q (CmdToGray i).
Definition queue_invert q := queue_with q CmdInvert.
Definition queue_gamma q v := queue_with q (CmdGamma v).
Definition queue_level q b w g := queue_with q (CmdLevel b w g).
Definition queue_brightness q v := queue_with q (CmdBrightness v).
Definition queue_contrast q v := queue_with q (CmdContrast v).
Definition queue_brightness_contrast q b c := queue_with q (CmdBrightnessContrast b c).
Definition queue_saturation q v := queue_with q (CmdSaturation v).
Definition queue_stretch_saturation q v := queue_with q (CmdStretchSaturation v).
Definition queue_lightness q v := queue_with q (CmdLightness v).
Definition queue_hue_rotate q v := queue_with q (CmdHueRotate v).
Definition queue_rotate q r f := queue_with q (CmdRotate r f).
