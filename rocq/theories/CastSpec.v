(** Red, green and blue are treated alike (the vocabulary of C126). *)
From Coq Require Import ZArith List.
From Verif Require Import Base PixelBuffer F32 Color Resample Kernel Blend Image StepsSpec.
Import ListNotations.

(** The six orders of red, green and blue, and a colour with its channels in
    that order; the alpha value stays. *)
Inductive order3 := InOrder | RedBlueGreen | GreenRedBlue | GreenBlueRed | BlueRedGreen | BlueGreenRed.
Definition reordered (o : order3) (c : Rgb) : Rgb :=
  match o with
  | InOrder => c
  | RedBlueGreen => mkC (d0 c) (d2 c) (d1 c) (d3 c)
  | GreenRedBlue => mkC (d1 c) (d0 c) (d2 c) (d3 c)
  | GreenBlueRed => mkC (d1 c) (d2 c) (d0 c) (d3 c)
  | BlueRedGreen => mkC (d2 c) (d0 c) (d1 c) (d3 c)
  | BlueGreenRed => mkC (d2 c) (d1 c) (d0 c) (d3 c)
  end.
Definition reordered_image (o : order3) (i : Image) : Image :=
  mkImage (mkPB (width (buffer i)) (height (buffer i)) (map (reordered o) (data (buffer i))))
          (option_map (reordered o) (bg_color i)).

(** The blends that work on red, green and blue. *)
Inductive rgb_blend := BNormal | BAddition | BSubtract | BDarken | BLighten.
Definition as_op (b : rgb_blend) : blend_op :=
  match b with BNormal => Normal | BAddition => Addition | BSubtract => Subtract | BDarken => Darken | BLighten => Lighten end.

(** The steps that treat red, green and blue alike. *)
Inductive step :=
| Brightness (factor : f32)
| Contrasted (factor : f32)
| BrightnessContrast (brightness contrast : f32)
| Gamma (gamma : f32)
| GammaOpt (gamma : f32)
| Level (black white gamma : f32)
| Inverted
| Curve (f : f32 -> f32)
| Turned (t : turning)
| Cropped (ox oy w h : Z)
| Interlaced (offset : Z)
| Resized (w h : Z) (filter : filter_mode)
| Rotated (degrees : f32) (filter : filter_mode)
| Convolved (N : Z) (k : list (list f32))
| ConvolvedDyn (k : KernelDyn)
| Blurred (radius : Z) (sigma : option f32)
| Sharpened (radius : Z) (factor : f32) (sigma : option f32)
| EdgesShown (mode : edge_mode)
| BlendedWith (other : Image) (op : rgb_blend) (strength : f32).

Definition performed (L : libm) (m : build) (s : step) (i : Image) : res Image :=
  let each f := '(_, r) <- image_map_colors (fun (_ : unit) c => Ok (tt, f c)) tt i; Ok r in
  match s with
  | Brightness a => each (with_brightness a)
  | Contrasted a => each (with_contrast a)
  | BrightnessContrast a b => each (with_brightness_contrast a b)
  | Gamma g => each (with_gamma L g)
  | GammaOpt g => each (with_gamma_opt L g)
  | Level b w g => each (with_level L b w g)
  | Inverted => each invert
  | Curve f => each (map_channels f)
  | Turned t => turned m t i
  | Cropped ox oy w h => image_crop m ox oy w h i
  | Interlaced o => image_interlace m o i
  | Resized w h f => image_resize L m w h f i
  | Rotated a f => image_rotate L m a f i
  | Convolved N k => with_meta i (apply_kernel m N k (buffer i))
  | ConvolvedDyn k => with_meta i (apply_kernel_dyn m k (buffer i))
  | Blurred r s => image_gaussian_blur L m r s i
  | Sharpened r a s => image_unsharp L m r a s i
  | EdgesShown mode => image_edge_detection m mode i
  | BlendedWith other op s => image_blend L m other (as_op op) s i
  end.

Fixpoint performed_all (L : libm) (m : build) (ss : list step) (i : Image) : res Image :=
  match ss with
  | [] => Ok i
  | s :: ss => j <- performed L m s i; performed_all L m ss j
  end.

(** The same step with the channels of the second image in another order. *)
Definition reordered_step (o : order3) (s : step) : step :=
  match s with BlendedWith other op a => BlendedWith (reordered_image o other) op a | _ => s end.

(** An image of greys on a grey ground, and steps with such images. *)
Definition grey (c : Rgb) : Prop := d0 c = d1 c /\ d1 c = d2 c.
Definition grey_image (i : Image) : Prop :=
  (forall c, In c (data (buffer i)) -> grey c) /\ (forall c, bg_color i = Some c -> grey c).
Definition grey_step (s : step) : Prop := match s with BlendedWith other _ _ => grey_image other | _ => True end.
