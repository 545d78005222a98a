(** Model of d10-cli/src/main.rs.  Arguments are byte strings; [lossy] is
    [OsStr::to_string_lossy], [parse_f32] is [str::parse::<f32>], both of the
    standard library.  Error messages are data. *)
From Coq Require Import ZArith List Bool String Ascii.
From Verif Require Import Base F32 Color Resample Codec Names Commands.
Import ListNotations.
Open Scope Z_scope.

(** main.rs:69-76; the function type is [Result<Cmd, String>] except for [None] *)
Inductive arg_error :=
| UnknownArgument (arg : string)
| MissingParameter (name : string)
| BadArgument (name text : string)
| BadEnum (e : ParseEnumError).
Inductive ArgHandler :=
| HNone (h : Cmd)
| HString (h : string -> Result Cmd arg_error)
| HOsString (h : string -> Result Cmd arg_error)
| HNumber (h : f32 -> Result Cmd arg_error)
| HNumber2 (h : f32 -> f32 -> Result Cmd arg_error)
| HNumber3 (h : f32 -> f32 -> f32 -> Result Cmd arg_error).
(** main.rs:78-85 *)
Definition Args := list (string * ArgHandler).

(** main.rs:65-67 *)
Definition parse_intensity_arg (arg : string) : Result intensity arg_error :=
  match parse_intensity arg with ROk i => ROk i | RErr e => RErr (BadEnum e) end.

(** main.rs:29-63 *)
Definition create_args : Args :=
  [("silent", HNone CmdSilent);
   ("open", HOsString (fun v => ROk (CmdOpen v)));
   ("save", HOsString (fun v => ROk (CmdSave v)));
   ("grayscale", HString (fun v => match parse_intensity_arg v with ROk i => ROk (CmdToGray i) | RErr e => RErr e end));
   ("invert", HNone CmdInvert);
   ("gamma", HNumber (fun v => ROk (CmdGamma v)));
   ("level", HNumber3 (fun v1 v2 v3 => ROk (CmdLevel v1 v2 v3)));
   ("brightness", HNumber (fun v => ROk (CmdBrightness v)));
   ("contrast", HNumber (fun v => ROk (CmdContrast v)));
   ("brightness-contrast", HNumber2 (fun v1 v2 => ROk (CmdBrightnessContrast v1 v2)));
   ("saturation", HNumber (fun v => ROk (CmdSaturation v)));
   ("stretch-saturation", HNumber (fun v => ROk (CmdStretchSaturation v)));
   ("lightness", HNumber (fun v => ROk (CmdLightness v)));
   ("hue-rotate", HNumber (fun v => ROk (CmdHueRotate v)));
   ("rotate", HNumber (fun v => ROk (CmdRotate v Bilinear)));
   ("random-noise", HNumber (fun v => ROk (CmdRandomNoise v)));
   ("salt-n-pepper-noise", HNumber (fun v => ROk (CmdSaltNPepperNoise v)));
   ("rgb-noise", HNumber (fun v => ROk (CmdRgbNoise v)))]%string.

(** main.rs:189-266; the iterator is the list of arguments still to come *)
Definition parse_arg (lossy : string -> string) (parse_f32 : string -> option f32) (arg : string * ArgHandler)
  (iter : list string) : Result (Cmd * list string) arg_error :=
  let '(name, handler) := arg in
  let next (f : string -> Result Cmd arg_error) :=
    match iter with
    | [] => RErr (MissingParameter name)
    | s :: iter => match f s with ROk c => ROk (c, iter) | RErr e => RErr e end
    end in
  match handler with
  | HNone h => ROk (h, iter)
  | HString h => next (fun s => h (lossy s))
  | HOsString h => next h
  | HNumber h => next (fun s =>
      let v := lossy s in
      match parse_f32 v with Some v => h v | None => RErr (BadArgument name v) end)
  | HNumber2 h => next (fun s =>
      let v := split "," (lossy s) in
      match v with
      | [a; b] =>
          match parse_f32 a, parse_f32 b with
          | Some v1, Some v2 => h v1 v2
          | _, _ => RErr (BadArgument name (String.concat "," v))
          end
      | _ => RErr (BadArgument name (String.concat "," v))
      end)
  | HNumber3 h => next (fun s =>
      let v := split "," (lossy s) in
      match v with
      | [a; b; c] =>
          match parse_f32 a, parse_f32 b, parse_f32 c with
          | Some v1, Some v2, Some v3 => h v1 v2 v3
          | _, _, _ => RErr (BadArgument name (String.concat "," v))
          end
      | _ => RErr (BadArgument name (String.concat "," v))
      end)
  end.

(** main.rs:161-187; every round consumes an argument, [fuel] is their number *)
Fixpoint parse_loop (fuel : nat) (lossy : string -> string) (parse_f32 : string -> option f32) (args : Args)
  (queue : list Cmd) (iter : list string) : Result (list Cmd) arg_error :=
  match fuel, iter with
  | _, [] => ROk queue
  | O, _ => ROk queue
  | S fuel, arg :: iter =>
      match lossy arg with
      | String "-" name =>
          match find (fun arg_info => String.eqb (fst arg_info) name) args with
          | Some a =>
              match parse_arg lossy parse_f32 a iter with
              | ROk (c, iter) => parse_loop fuel lossy parse_f32 args (queue_push queue c) iter
              | RErr e => RErr e
              end
          | None => RErr (UnknownArgument (lossy arg))
          end
      | _ =>
          if queue_is_empty queue then parse_loop fuel lossy parse_f32 args (queue_push queue (CmdOpen arg)) iter
          else parse_loop fuel lossy parse_f32 args (queue_push queue (CmdSave arg)) iter
      end
  end.
(** main.rs:158-187; the first argument, the program's name, is skipped *)
Definition parse (lossy : string -> string) (parse_f32 : string -> option f32) (args : list string)
  : Result (list Cmd) arg_error :=
  let iter := tl args in
  parse_loop (List.length iter) lossy parse_f32 create_args queue_new iter.

(** What the program writes to standard error before it exits with status 1 *)
Inductive failure := MissingArguments | BadCommandLine (e : arg_error) | Failed (e : CommandError).

(** main.rs:7-27 *)
Definition main {R} (e : env R) (lossy : string -> string) (parse_f32 : string -> option f32)
  (args : list string) (w : world R) : res (world R * Result unit failure) :=
  if zlen args =? 1 then Ok (w, RErr MissingArguments)
  else match parse lossy parse_f32 args with
  | RErr err => Ok (w, RErr (BadCommandLine err))
  | ROk q =>
      '(w, r) <- queue_run e q w;
      Ok (w, match r with ROk _ => ROk tt | RErr err => RErr (Failed err) end)
  end.
