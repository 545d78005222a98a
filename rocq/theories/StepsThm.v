(** The order of steps (C122). *)
From Coq Require Import ZArith List.
From Verif Require Import Base PixelBuffer BufferSpec F32 Color Resample Ops Blend Image StepsSpec.
Import ListNotations.

(* PROPERTIES *)
From Verif Require Import StepsProofs.

(** C122: changing the colours with any function and turning or mirroring the
    image: the order makes no difference, not even if the function panics. *)
Lemma colours_and_turns : forall m f t i, valid (buffer i) -> then_ (image_mod_colors f) (turned m t) i = then_ (turned m t) (image_mod_colors f) i.
Proof. exact colours_turn. Qed.

(** C122: cropping, interlacing and nearest resizing and changing the colours. *)
Lemma colours_and_crop : forall m f ox oy w h i, then_ (image_mod_colors (fun c => Ok (f c))) (image_crop m ox oy w h) i = then_ (image_crop m ox oy w h) (image_mod_colors (fun c => Ok (f c))) i.
Proof. intros m f ox oy w h i. apply (part_conv f (fun b => Geometry.crop m RGB_NONE b ox oy w h)). intros b. apply (crop_conv f m RGB_NONE RGB_NONE). Qed.
Lemma colours_and_interlace : forall m f o i, then_ (image_mod_colors (fun c => Ok (f c))) (image_interlace m o) i = then_ (image_interlace m o) (image_mod_colors (fun c => Ok (f c))) i.
Proof. intros m f o i. apply (part_conv f (fun b => Geometry.interlace m b o)). intros b. apply interlace_conv. Qed.
Lemma colours_and_resize : forall L m f w h i, then_ (image_mod_colors (fun c => Ok (f c))) (image_resize L m w h Nearest) i = then_ (image_resize L m w h Nearest) (image_mod_colors (fun c => Ok (f c))) i.
Proof. intros L m f w h i. apply (part_conv f (fun b => resize L m b w h Nearest)). intros b. apply nearest_conv. Qed.

(** C122: stretching the contrast, balancing and equalising give the same
    picture before and after turning it, to the last bit. *)
Lemma statistics_and_turns : forall L m s t i, valid (buffer i) -> then_ (applied L m s) (turned m t) i = then_ (turned m t) (applied L m s) i.
Proof. exact statistic_turn. Qed.

(** C122: two images of the same size may be turned before or after blending. *)
Lemma blend_and_turns : forall L m op s t i j i1 j1, valid (buffer i) -> valid (buffer j) -> width (buffer i) = width (buffer j) -> height (buffer i) = height (buffer j) ->
  turned m t i = Ok i1 -> turned m t j = Ok j1 -> then_ (image_blend L m j op s) (turned m t) i = image_blend L m j1 op s i1.
Proof. exact blend_turn. Qed.

(** C122: an image of a black and a white pixel, with the colours swapped and
    turned. *)
Example turned_example : forall m, valid (buffer black_and_white) /\
  then_ (image_mod_colors (fun c => Ok (swap_white c))) (turned m Quarter) black_and_white = Ok (mkImage (mkPB 1 2 [RGB_WHITE; RGB_BLACK]) None) /\
  turned m Quarter black_and_white = Ok (mkImage (mkPB 1 2 [RGB_BLACK; RGB_WHITE]) None).
Proof.
  intros m. split; [split; [right; unfold black_and_white; cbn [buffer width height]; unfold MAX_BUFFER_SIZE; Lia.lia|reflexivity]|].
  destruct m; split; reflexivity.
Qed.
