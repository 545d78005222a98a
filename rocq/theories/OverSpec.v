(** Translucent layers one over the other (the vocabulary of C137). *)
From Coq Require Import Reals ZArith List.
From Flocq Require Import IEEE754.BinarySingleNaN.
From Verif Require Import Base PixelBuffer BufferSpec F32 Color ColorSpec Blend LayerSpec.
Import ListNotations.
Open Scope R_scope.

(** A channel value with the opacity of its colour. *)
Definition point (pick : Rgb -> f32) (c : Rgb) : R * R := (B2R (pick c), B2R (alpha c)).
(** The same, seen through a layer that is laid on with some intensity. *)
Definition faded (pick : Rgb -> f32) (c : Rgb) (i : f32) : R * R := (B2R (pick c), B2R (alpha c) * B2R i).
(** How translucent colours lie over each other (the "over" of Porter and
    Duff): what the upper one lets through is seen of the lower one, and the
    value is that of the visible parts by their share. *)
Definition over_opacity (lower upper : R) : R := upper + (1 - upper) * lower.
Definition over (lower upper : R * R) : R * R :=
  ((fst upper * snd upper + (1 - snd upper) * snd lower * fst lower) / over_opacity (snd lower) (snd upper), over_opacity (snd lower) (snd upper)).
(** A pile of layers, the lowest first. *)
Definition pile (base : R * R) (layers : list (R * R)) : R * R := fold_left over layers base.

Definition rgb_channel (pick : Rgb -> f32) : Prop := pick = d0 \/ pick = d1 \/ pick = d2.
(** An image that is laid on with an intensity: of the size of [base], with colours in range. *)
Definition sheet (base : PixelBuffer Rgb) (s : PixelBuffer Rgb * f32) : Prop :=
  valid (fst s) /\ Forall in_gamut (data (fst s)) /\ width (fst s) = width base /\ height (fst s) = height base /\ in01 (snd s).
Definition lay_on (L : libm) (m : build) (base : res (PixelBuffer Rgb)) (s : PixelBuffer Rgb * f32) : res (PixelBuffer Rgb) :=
  b <- base; blend_image L m b (fst s) Normal (snd s).
