(** Model of the methods of the Python class Rgb that return a colour
    (d10-python/src/color.rs) and of Python programs that edit an image line
    by line.  Float arguments are modelled after their conversion to f32. *)
From Coq Require Import ZArith List Bool String.
From Verif Require Import Base PixelBuffer F32 Color Resample Kernel Ops Codec Names Image Commands PyImage.
From Verif Require Text.
Import ListNotations.
Open Scope Z_scope.

(** color.rs:218-300, a method and its arguments *)
Inductive py_method :=
| ToGray (intensity : option string)
| Invert
| Difference (color : Rgb)
| WithGamma (gamma : f32)
| WithGammaOpt (gamma : f32)
| WithLevel (black_point white_point gamma : f32)
| WithBrightness (factor : f32)
| WithSaturation (factor : f32)
| StretchSaturation (factor : f32)
| WithGammaSaturation (gamma : f32)
| WithLightness (factor : f32)
| WithHueRotate (radians : f32)
| WithContrast (factor : f32)
| WithBrightnessContrast (brightness contrast : f32)
| AlphaBlend (color : Rgb)
| WithVibrance (factor : f32)
| WithSepia
| Modulate (hue saturation lightness : f32).

(** color.rs:218-300, in the same order *)
Definition py_method_call (L : libm) (f : py_method) (c : Rgb) : Result Rgb py_exn :=
  match f with
  | ToGray name => match Text.py_to_gray c name with ROk c => ROk c | RErr e => RErr (OSErrorName e) end
  | Invert => ROk (invert c)
  | Difference d => ROk (difference c d)
  | WithGamma g => ROk (with_gamma L g c)
  | WithGammaOpt g => ROk (with_gamma_opt L g c)
  | WithLevel b w g => ROk (with_level L b w g c)
  | WithBrightness v => ROk (with_brightness v c)
  | WithSaturation v => ROk (with_saturation v c)
  | StretchSaturation v => ROk (stretch_saturation v c)
  | WithGammaSaturation g => ROk (with_gamma_saturation L g c)
  | WithLightness v => ROk (with_lightness v c)
  | WithHueRotate v => ROk (with_hue_rotate v c)
  | WithContrast v => ROk (with_contrast v c)
  | WithBrightnessContrast b v => ROk (with_brightness_contrast b v c)
  | AlphaBlend d => ROk (alpha_blend c d)
  | WithVibrance v => ROk (with_vibrance L v c)
  | WithSepia => ROk (with_sepia c)
  | Modulate h s l => ROk (modulate h s l c)
  end.

(** color.rs:164-170: the colour classes' [map_color_channels], with the state
    and the exceptions of the Python function *)
Definition py_map_color_channels {S X} (func : S -> f32 -> res (S * Result f32 X)) (s : S) (self : Text.pycolor)
  : res (S * Result Text.pycolor X) :=
  '(s, r) <- try_map_color_channels (fst self) func s (snd self);
  Ok (s, match r with ROk c => ROk (fst self, c) | RErr e => RErr e end).

(** A line of a Python program that works on one image, [img]. *)
Inductive py_line :=
| LineOpen (path : string)              (* img = Image.open(path) *)
| LineSave (path : string)              (* img.save(path) *)
| LineModColors (f : py_method)         (* img.mod_colors(lambda c: c.f(..)) *)
| LineMapColors (f : py_method)         (* img = img.map_colors(lambda c: c.f(..)) *)
| LineCall (c : py_call)                (* img = img.c(..) *)
| LineRandomNoise (v : f32)             (* img = img.random_noise(v) *)
| LineAddRandomNoise (v : f32)          (* img.add_random_noise(v) *)
| LineSaltNPepperNoise (v : f32)
| LineAddSaltNPepperNoise (v : f32)
| LineRgbNoise (v : f32)
| LineAddRgbNoise (v : f32).

(** One line: the files, the random numbers to come, and [img] or the
    exception. *)
Definition run_line {R} (e : env R) (l : py_line) (s : fs) (r : R) (i : Image) : res (fs * R * Result Image py_exn) :=
  let L := e_libm e in let m := e_build e in let g := e_rng e in
  let drawn p := '(r, i) <- p; Ok (s, r, ROk i) in
  match l with
  | LineOpen path => q <- py_open m (e_dec e) L s path; Ok (s, r, q)
  | LineSave path =>
      let '(s, q) := py_save (e_enc e) L s i path None in
      Ok (s, r, match q with ROk _ => ROk i | RErr x => RErr x end)
  | LineModColors f =>
      '(_, i, q) <- py_mod_colors (fun (_ : unit) c => Ok (tt, py_method_call L f c)) tt i;
      Ok (s, r, match q with ROk _ => ROk i | RErr x => RErr x end)
  | LineMapColors f => '(_, q) <- py_map_colors (fun (_ : unit) c => Ok (tt, py_method_call L f c)) tt i; Ok (s, r, q)
  | LineCall c => q <- py_run m (e_enc e) (e_dec e) L i c; Ok (s, r, q)
  | LineRandomNoise v => drawn (py_random_noise g r i v)
  | LineAddRandomNoise v => drawn (py_add_random_noise g r i v)
  | LineSaltNPepperNoise v => drawn (py_salt_n_pepper_noise g r i v)
  | LineAddSaltNPepperNoise v => drawn (py_add_salt_n_pepper_noise g r i v)
  | LineRgbNoise v => drawn (py_rgb_noise g r i v)
  | LineAddRgbNoise v => drawn (py_add_rgb_noise g r i v)
  end.
Fixpoint run_lines {R} (e : env R) (ls : list py_line) (s : fs) (r : R) (i : Image) : res (fs * R * Result unit py_exn) :=
  match ls with
  | [] => Ok (s, r, ROk tt)
  | l :: ls =>
      '(s, r, q) <- run_line e l s r i;
      match q with ROk i => run_lines e ls s r i | RErr x => Ok (s, r, RErr x) end
  end.
(** A program: [img = Image.open(path)], then the lines up to the first
    exception. *)
Definition run_script {R} (e : env R) (path : string) (ls : list py_line) (s : fs) (r : R) : res (fs * R * Result unit py_exn) :=
  q <- py_open (e_build e) (e_dec e) (e_libm e) s path;
  match q with ROk i => run_lines e ls s r i | RErr x => Ok (s, r, RErr x) end.
