(** Property theorems, generated from RecipeThm.v by tools/mkp.py. *)

From Coq Require Import ZArith List Bool.
From Verif Require Import Base PixelBuffer BufferSpec F32 Color Kernel RecipeSpec.
Import ListNotations.
Open Scope Z_scope.

From Verif Require Import RecipeThm.


(** C76: a drawing is made by the steps of the specification: the lines by a
    quotient of a sharpened and a blurred image; in coloured mode their lightness
    limits that of the image; in reduced colours mode they get the colours of
    blurred images. *)

Theorem C76_drawing_steps : forall L m (b : PixelBuffer Rgb) radius mode, valid b -> 0 <= radius <= 32767 ->
  exists d out, drawing L m b radius mode = Ok out /\ valid out /\ width out = width b /\ height out = height b /\
    pencil_drawing L m b radius d /\
    match mode with DGray => out = d | DColored => both m d b colored_line out | DReducedColors => washed_drawing L m d b out end.
Proof. exact drawing_steps. Qed.
Print Assumptions C76_drawing_steps.

Example C76_drawing_steps_example :
  let b := mkPB 2 1 [RGB_RED; RGB_WHITE] in valid b /\
  feq (d0 (line RGB_WHITE RGB_BLACK)) f1 = true /\ feq (d0 (line RGB_BLACK RGB_BLACK)) f0 = true /\
  feq (d0 (colored_line RGB_BLACK RGB_RED)) f0 = true /\ feq (d0 (colored_line RGB_WHITE RGB_RED)) f1 = true /\
  feq (d1 (paler RGB_RED)) (dec 5 10) = true.
Proof. exact drawing_steps_example. Qed.
