(** The order of steps (the vocabulary of C122). *)
From Coq Require Import ZArith List.
From Verif Require Import Base PixelBuffer F32 Color Resample Ops Blend Image.

(** The five ways to turn or mirror an image. *)
Inductive turning := Quarter | Half | ThreeQuarters | LeftRight | UpsideDown.
Definition turned (m : build) (t : turning) : Image -> res Image :=
  match t with
  | Quarter => image_rotate90 m
  | Half => image_rotate180 m
  | ThreeQuarters => image_rotate270 m
  | LeftRight => image_flip_horizontal m
  | UpsideDown => image_flip_vertical m
  end.

(** One step and then the other. *)
Definition then_ (f g : Image -> res Image) (i : Image) : res Image := j <- f i; g j.

(** The operations that look at all the pixels to decide what to do. *)
Inductive statistic :=
| Contrast (threshold : f32)
| Balance (mode : balance_mode) (threshold : f32)
| WhiteBalance (threshold : f32)
| Equalize (mode : equalize_mode).
Definition applied (L : libm) (m : build) (s : statistic) : Image -> res Image :=
  match s with
  | Contrast t => image_stretch_contrast L t
  | Balance mode t => image_balance L mode t
  | WhiteBalance t => image_white_balance L t
  | Equalize mode => image_equalize L m mode
  end.

(** An image of two pixels, and a function that swaps its colours. *)
Definition black_and_white : Image := mkImage (mkPB 2 1 (cons RGB_BLACK (cons RGB_WHITE nil))) None.
Definition swap_white (c : Rgb) : Rgb := if flt (d0 c) f1 then RGB_WHITE else RGB_BLACK.
