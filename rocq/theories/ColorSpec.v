(** Specification vocabulary for colours, independent of the code's helpers. *)
From Coq Require Import ZArith Bool.
From Flocq Require Import IEEE754.BinarySingleNaN.
From Verif Require Import F32 Color.
Open Scope Z_scope.

(** A number between 0 and 1 (NaN is not one). *)
Definition in01 (x : f32) : Prop := fle f0 x = true /\ fle x f1 = true.

(** In gamut: every channel and alpha is a number between 0 and 1. *)
Definition in_gamut (c : col) : Prop := in01 (d0 c) /\ in01 (d1 c) /\ in01 (d2 c) /\ in01 (d3 c).

(** The same number ([0.0] and [-0.0] are the same number). *)
Definition same (x y : f32) : Prop := feq x y = true.
Definition same_color (a b : col) : Prop :=
  same (d0 a) (d0 b) /\ same (d1 a) (d1 b) /\ same (d2 a) (d2 b) /\ same (d3 a) (d3 b).

(** [clamped v x]: [x] is [v] brought into [0,1], or NaN for NaN. *)
Definition clamped (v x : f32) : Prop :=
  if is_nan v then is_nan x = true
  else in01 x /\ (in01 v -> x = v).

(** [x] is NaN or in range. *)
Definition in01_or_nan (x : f32) : Prop := is_nan x = true \/ in01 x.

(** The colour operations that map an Rgb colour to an Rgb colour and are
    meant to change only the colour, not its transparency. *)
Inductive rgb_operation (L : libm) : (Rgb -> Rgb) -> Prop :=
| op_invert : rgb_operation L invert
| op_gray : rgb_operation L to_gray
| op_gray_with i : rgb_operation L (to_gray_with_intensity i)
| op_gamma g : rgb_operation L (with_gamma L g)
| op_gamma_opt g : rgb_operation L (with_gamma_opt L g)
| op_level b w g : rgb_operation L (with_level L b w g)
| op_brightness f : rgb_operation L (with_brightness f)
| op_contrast f : rgb_operation L (with_contrast f)
| op_brightness_contrast b c : rgb_operation L (with_brightness_contrast b c)
| op_saturation f : rgb_operation L (with_saturation f)
| op_stretch_saturation f : rgb_operation L (stretch_saturation f)
| op_gamma_saturation g : rgb_operation L (with_gamma_saturation L g)
| op_lightness f : rgb_operation L (with_lightness f)
| op_hue_rotate r : rgb_operation L (with_hue_rotate r)
| op_sepia : rgb_operation L with_sepia
| op_modulate h s l : rgb_operation L (modulate h s l)
| op_map f : rgb_operation L (map_channels f)
| op_map_unclamped f : rgb_operation L (map_channels_unclamped f)
| op_mod f : rgb_operation L (mod_color_channels f).

(** The operations that bring their result into range. *)
Inductive clamping_operation (L : libm) : (Rgb -> Rgb) -> Prop :=
| cl_gamma g : clamping_operation L (with_gamma L g)
| cl_gamma_opt g : clamping_operation L (with_gamma_opt L g)
| cl_level b w g : clamping_operation L (with_level L b w g)
| cl_brightness f : clamping_operation L (with_brightness f)
| cl_contrast f : clamping_operation L (with_contrast f)
| cl_brightness_contrast b c : clamping_operation L (with_brightness_contrast b c)
| cl_saturation f : clamping_operation L (with_saturation f)
| cl_stretch_saturation f : clamping_operation L (stretch_saturation f)
| cl_gamma_saturation g : clamping_operation L (with_gamma_saturation L g)
| cl_lightness f : clamping_operation L (with_lightness f)
| cl_hue_rotate r : clamping_operation L (with_hue_rotate r)
| cl_vibrance f : clamping_operation L (with_vibrance L f)
| cl_sepia : clamping_operation L with_sepia
| cl_modulate h s l : clamping_operation L (modulate h s l)
| cl_difference o : clamping_operation L (fun c => difference c o)
| cl_map f : clamping_operation L (map_channels f).

(** The intensities that return a channel, or a mean of equal channels, as is. *)
Definition picks_channel (i : intensity) : Prop :=
  match i with IRed | IGreen | IBlue | Brightness | Lightness => True | _ => False end.

(** A hue in turns, up to 2^23 turns in either direction. *)
Definition hue_number (h : f32) : Prop := fle (ofZ (-8388608)) h = true /\ fle h (ofZ 8388608) = true.

(** Some mathematical library, to run examples with. *)
Definition example_libm : libm :=
  mkLibm (fun x _ => x) (fun x => x) (fun x => x) (fun x => x) (fun x => x) (fun x _ => x) (fun x => x).
