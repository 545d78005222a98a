(** Property theorems, generated from LayerThm.v by tools/mkp.py. *)

From Coq Require Import Reals ZArith List.
From Flocq Require Import IEEE754.BinarySingleNaN.
From Verif Require Import Base PixelBuffer BufferSpec F32 Color ColorSpec Blend LayerSpec.
Import ListNotations.
Open Scope R_scope.

From Verif Require Import LayerThm.


(** C135: the order of two opaque images, of whatever sizes, makes no difference for addition, darken and lighten. *)

Theorem C135_order_of_layers : forall L m op a b, In op [Addition; Darken; Lighten] -> layer a -> layer b ->
  valid_size (Z.max (width a) (width b)) (Z.max (height a) (height b)) ->
  exists r r', blend_image L m a b op f1 = Ok r /\ blend_image L m b a op f1 = Ok r' /\ alike r r'.
Proof. exact order_of_layers. Qed.
Print Assumptions C135_order_of_layers.


(** C135: a stack of opaque images of one size can be darkened or lightened from either end. *)

Theorem C135_stack_of_layers : forall L m op a b c, In op [Darken; Lighten] -> layer a -> layer b -> layer c ->
  width b = width a -> height b = height a -> width c = width a -> height c = height a ->
  exists ab bc r r', blend_image L m a b op f1 = Ok ab /\ blend_image L m ab c op f1 = Ok r /\ blend_image L m b c op f1 = Ok bc /\ blend_image L m a bc op f1 = Ok r' /\ alike r r'.
Proof. exact stack_of_layers. Qed.
Print Assumptions C135_stack_of_layers.


(** C135: a layer that is there already changes nothing; an image minus itself is black. *)

Theorem C135_same_layer_twice : forall L m op a, In op [Darken; Lighten] -> layer a -> exists r, blend_image L m a a op f1 = Ok r /\ alike r a.
Proof. exact same_layer_twice. Qed.
Print Assumptions C135_same_layer_twice.

Theorem C135_layer_minus_itself : forall L m a, layer a ->
  exists r, blend_image L m a a Subtract f1 = Ok r /\ width r = width a /\ height r = height a /\ Forall (fun c => same_color c RGB_BLACK) (data r).
Proof. exact layer_minus_itself. Qed.
Print Assumptions C135_layer_minus_itself.


(** C135: two opaque images of one size give an opaque image of that size with the channels in range. *)

Theorem C135_layers_give_layers : forall L m op a b, In op [Addition; Subtract; Darken; Lighten] -> layer a -> layer b -> width b = width a -> height b = height a ->
  exists r, blend_image L m a b op f1 = Ok r /\ layer r /\ width r = width a /\ height r = height a.
Proof. exact layers_give_layers. Qed.
Print Assumptions C135_layers_give_layers.


(** C135: darken and lighten absorb each other. *)

Theorem C135_layers_absorb : forall L a b, opaque a -> opaque b ->
  same_color (blend_func L Lighten a (blend_func L Darken a b f1) f1) a /\ same_color (blend_func L Darken a (blend_func L Lighten a b f1) f1) a.
Proof. exact layers_absorb. Qed.
Print Assumptions C135_layers_absorb.


(** C135: black and white as layers. *)

Theorem C135_black_and_white_layers : forall L a, opaque a ->
  same_color (blend_func L Addition a RGB_BLACK f1) a /\ same_color (blend_func L Subtract a RGB_BLACK f1) a /\ same_color (blend_func L Lighten a RGB_BLACK f1) a /\
  same_color (blend_func L Darken a RGB_WHITE f1) a /\ same_color (blend_func L Subtract a a f1) RGB_BLACK /\ same_color (blend_func L Darken a RGB_BLACK f1) RGB_BLACK /\
  same_color (blend_func L Addition a RGB_WHITE f1) RGB_WHITE /\ same_color (blend_func L Lighten a RGB_WHITE f1) RGB_WHITE.
Proof. exact black_and_white_layers. Qed.
Print Assumptions C135_black_and_white_layers.


(** C135: three layers can be added from either end, up to rounding. *)

Theorem C135_three_layers_added : forall L a b c, opaque a -> opaque b -> opaque c ->
  nearly (/ 2 ^ 22) (blend_func L Addition (blend_func L Addition a b f1) c f1) (blend_func L Addition a (blend_func L Addition b c f1) f1).
Proof. exact three_layers_added. Qed.
Print Assumptions C135_three_layers_added.


(** C135: a layer that was added is taken away again by subtract, up to rounding, when nothing was cut off. *)

Theorem C135_layer_taken_away : forall L a b, opaque a -> opaque b -> room a b -> nearly (/ 2 ^ 23) (blend_func L Subtract (blend_func L Addition a b f1) b f1) a.
Proof. exact layer_taken_away. Qed.
Print Assumptions C135_layer_taken_away.


(** C135: both for whole images. *)

Theorem C135_three_images_added : forall L m a b c, layer a -> layer b -> layer c -> width b = width a -> height b = height a -> width c = width a -> height c = height a ->
  exists ab bc r r', blend_image L m a b Addition f1 = Ok ab /\ blend_image L m ab c Addition f1 = Ok r /\ blend_image L m b c Addition f1 = Ok bc /\ blend_image L m a bc Addition f1 = Ok r' /\
    width r = width r' /\ height r = height r' /\ Forall2 (nearly (/ 2 ^ 22)) (data r) (data r').
Proof. exact three_images_added. Qed.
Print Assumptions C135_three_images_added.

Theorem C135_image_taken_away : forall L m a b, layer a -> layer b -> width b = width a -> height b = height a -> Forall2 room (data a) (data b) ->
  exists ab r, blend_image L m a b Addition f1 = Ok ab /\ blend_image L m ab b Subtract f1 = Ok r /\ width r = width a /\ height r = height a /\ Forall2 (nearly (/ 2 ^ 23)) (data r) (data a).
Proof. exact image_taken_away. Qed.
Print Assumptions C135_image_taken_away.


(** C135: not so when something was cut off: white plus white minus white is black. *)

Theorem C135_layer_taken_away_refuted : forall L, exists a b, opaque a /\ opaque b /\ ~ nearly (/ 2) (blend_func L Subtract (blend_func L Addition a b f1) b f1) a.
Proof. exact layer_taken_away_refuted. Qed.
Print Assumptions C135_layer_taken_away_refuted.


(** C135: with transparency the order matters: the result has the transparency of the second image. *)

Theorem C135_order_of_transparent_layers_refuted : forall L op, In op [Addition; Darken; Lighten] ->
  exists a b, in_gamut a /\ in_gamut b /\ same (alpha (blend_func L op a b f1)) (alpha b) /\ same (alpha (blend_func L op b a f1)) (alpha a) /\ ~ same (alpha a) (alpha b).
Proof. exact order_of_transparent_layers_refuted. Qed.
Print Assumptions C135_order_of_transparent_layers_refuted.


(** C135: with images of different sizes the grouping matters: the corner that belongs to no image, transparent black, takes part in the next step as black. *)

Theorem C135_stack_of_sizes_refuted : forall L m, exists a b c ab bc r r', layer a /\ layer b /\ layer c /\
  blend_image L m a b Darken f1 = Ok ab /\ blend_image L m ab c Darken f1 = Ok r /\ blend_image L m b c Darken f1 = Ok bc /\ blend_image L m a bc Darken f1 = Ok r' /\
  width r = width r' /\ height r = height r' /\
  exists p q, get_pixel m r 1 1 = Ok p /\ get_pixel m r' 1 1 = Ok q /\ same_color p RGB_BLACK /\ same_color q RGB_WHITE.
Proof. exact stack_of_sizes_refuted. Qed.
Print Assumptions C135_stack_of_sizes_refuted.

Example C135_layers_example :
  let a := mkPB 2 1 [RGB_RED; RGB_BLUE] in let b := mkPB 1 2 [RGB_BLUE; RGB_WHITE] in
  layer a /\ layer b /\ valid_size (Z.max (width a) (width b)) (Z.max (height a) (height b)) /\ room RGB_RED RGB_BLUE.
Proof. exact layers_example. Qed.
