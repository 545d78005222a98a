(** Colours and transparency are treated apart (the vocabulary of C127). *)
From Coq Require Import ZArith List.
From Verif Require Import Base PixelBuffer F32 Color Resample Image StepsSpec CastSpec.
Import ListNotations.

(** The four numbers of a colour, and a colour made of four of them, picked in
    any way: one of them may be picked again and again. *)
Inductive component := Red | Green | Blue | Alpha.
Definition value (k : component) (c : Rgb) : f32 := match k with Red => d0 c | Green => d1 c | Blue => d2 c | Alpha => d3 c end.
Definition choice := (component * component * component * component)%type.
Definition picked (s : choice) (c : Rgb) : Rgb :=
  let '(p, q, r, t) := s in mkC (value p c) (value q c) (value r c) (value t c).
Definition every_pixel (f : Rgb -> Rgb) (i : Image) : Image :=
  mkImage (mkPB (width (buffer i)) (height (buffer i)) (map f (data (buffer i)))) (option_map f (bg_color i)).

(** The steps that move pixels or add them up with weights. *)
Definition linear (s : step) : Prop :=
  match s with
  | Turned _ | Cropped _ _ _ _ | Interlaced _ | Resized _ _ _ | Rotated _ _
  | Convolved _ _ | ConvolvedDyn _ | Blurred _ _ | Sharpened _ _ _ => True
  | _ => False
  end.
(** All steps but blending with a second image. *)
Definition one_image (s : step) : Prop := match s with BlendedWith _ _ _ => False | _ => True end.
(** The steps that mix no pixels. *)
Definition mixes_nothing (s : step) : Prop :=
  match s with
  | Resized _ _ Nearest | Rotated _ Nearest => True
  | Resized _ _ _ | Rotated _ _ | Convolved _ _ | ConvolvedDyn _ | Blurred _ _ | Sharpened _ _ _
  | EdgesShown _ | BlendedWith _ _ _ => False
  | _ => True
  end.

(** Images of the same size that agree, pixel by pixel, in [f] of the colours. *)
Definition agree {A} (f : Rgb -> A) (i i' : Image) : Prop :=
  width (buffer i) = width (buffer i') /\ height (buffer i) = height (buffer i') /\
  map f (data (buffer i)) = map f (data (buffer i')) /\ option_map f (bg_color i) = option_map f (bg_color i').
(** Two runs that both panic, or both end with results so related. *)
Definition both {A} (R : A -> A -> Prop) (p q : res A) : Prop :=
  match p, q with Ok a, Ok b => R a b | Panic, Panic => True | _, _ => False end.

Definition colours (c : Rgb) : f32 * f32 * f32 := (d0 c, d1 c, d2 c).
(** What one sees of a colour: of a fully transparent one, nothing. *)
Definition seen (c : Rgb) : option Rgb := if feq (d3 c) f0 then None else Some c.
