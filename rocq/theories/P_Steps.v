(** Property theorems, generated from StepsThm.v by tools/mkp.py. *)

From Coq Require Import ZArith List.
From Verif Require Import Base PixelBuffer BufferSpec F32 Color Resample Ops Blend Image StepsSpec.
Import ListNotations.

From Verif Require Import StepsThm.


(** C122: changing the colours with any function and turning or mirroring the
    image: the order makes no difference, not even if the function panics. *)

Theorem C122_colours_and_turns : forall m f t i, valid (buffer i) -> then_ (image_mod_colors f) (turned m t) i = then_ (turned m t) (image_mod_colors f) i.
Proof. exact colours_and_turns. Qed.
Print Assumptions C122_colours_and_turns.


(** C122: cropping, interlacing and nearest resizing and changing the colours. *)

Theorem C122_colours_and_crop : forall m f ox oy w h i, then_ (image_mod_colors (fun c => Ok (f c))) (image_crop m ox oy w h) i = then_ (image_crop m ox oy w h) (image_mod_colors (fun c => Ok (f c))) i.
Proof. exact colours_and_crop. Qed.
Print Assumptions C122_colours_and_crop.

Theorem C122_colours_and_interlace : forall m f o i, then_ (image_mod_colors (fun c => Ok (f c))) (image_interlace m o) i = then_ (image_interlace m o) (image_mod_colors (fun c => Ok (f c))) i.
Proof. exact colours_and_interlace. Qed.
Print Assumptions C122_colours_and_interlace.

Theorem C122_colours_and_resize : forall L m f w h i, then_ (image_mod_colors (fun c => Ok (f c))) (image_resize L m w h Nearest) i = then_ (image_resize L m w h Nearest) (image_mod_colors (fun c => Ok (f c))) i.
Proof. exact colours_and_resize. Qed.
Print Assumptions C122_colours_and_resize.


(** C122: stretching the contrast, balancing and equalising give the same
    picture before and after turning it, to the last bit. *)

Theorem C122_statistics_and_turns : forall L m s t i, valid (buffer i) -> then_ (applied L m s) (turned m t) i = then_ (turned m t) (applied L m s) i.
Proof. exact statistics_and_turns. Qed.
Print Assumptions C122_statistics_and_turns.


(** C122: two images of the same size may be turned before or after blending. *)

Theorem C122_blend_and_turns : forall L m op s t i j i1 j1, valid (buffer i) -> valid (buffer j) -> width (buffer i) = width (buffer j) -> height (buffer i) = height (buffer j) ->
  turned m t i = Ok i1 -> turned m t j = Ok j1 -> then_ (image_blend L m j op s) (turned m t) i = image_blend L m j1 op s i1.
Proof. exact blend_and_turns. Qed.
Print Assumptions C122_blend_and_turns.


(** C122: an image of a black and a white pixel, with the colours swapped and
    turned. *)

Example C122_turned_example : forall m, valid (buffer black_and_white) /\
  then_ (image_mod_colors (fun c => Ok (swap_white c))) (turned m Quarter) black_and_white = Ok (mkImage (mkPB 1 2 [RGB_WHITE; RGB_BLACK]) None) /\
  turned m Quarter black_and_white = Ok (mkImage (mkPB 1 2 [RGB_BLACK; RGB_WHITE]) None).
Proof. exact turned_example. Qed.
