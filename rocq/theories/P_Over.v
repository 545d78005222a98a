(** Property theorems, generated from OverThm.v by tools/mkp.py. *)

From Coq Require Import Reals ZArith List.
From Flocq Require Import IEEE754.BinarySingleNaN.
From Verif Require Import Base PixelBuffer BufferSpec F32 Color ColorSpec MeaningSpec Blend LayerSpec OverSpec.
Import ListNotations.
Open Scope R_scope.

From Verif Require Import OverThm.


(** C137: any number of translucent colours, one after the other over an opaque one, give the colour of the pile. *)

Theorem C137_pile_on_opaque_colour : forall base layers pick, opaque base -> Forall in_gamut layers -> rgb_channel pick ->
  let r := fold_left alpha_blend layers base in
  opaque r /\ snd (pile (point pick base) (map (point pick) layers)) = 1 /\
  Rabs (B2R (pick r) - fst (pile (point pick base) (map (point pick) layers))) <= INR (length layers) * / 2 ^ 22.
Proof. exact pile_on_opaque_colour. Qed.
Print Assumptions C137_pile_on_opaque_colour.


(** C137: the same for images of one size that are laid on an opaque image by Normal, each with its intensity. *)

Theorem C137_pile_on_opaque_image : forall L m base sheets, layer base -> Forall (sheet base) sheets ->
  exists r, fold_left (lay_on L m) sheets (Ok base) = Ok r /\ layer r /\ width r = width base /\ height r = height base /\
  forall pick x y c, rgb_channel pick -> inside base x y -> get_pixel m base x y = Ok c ->
    exists o seen, get_pixel m r x y = Ok o /\ Forall2 (fun s q => exists p, get_pixel m (fst s) x y = Ok p /\ q = faded pick p (snd s)) sheets seen /\
      Rabs (B2R (pick o) - fst (pile (point pick c) seen)) <= INR (length sheets) * / 2 ^ 21.
Proof. exact pile_on_opaque_image. Qed.
Print Assumptions C137_pile_on_opaque_image.


(** C137: for translucent layers as such, which may be put together first in any grouping, the pile is the same. *)

Theorem C137_layers_in_groups : forall a b c, 0 <= snd a <= 1 -> 0 < snd b <= 1 -> 0 <= snd c <= 1 -> over (over a b) c = over a (over b c).
Proof. exact layers_in_groups. Qed.
Print Assumptions C137_layers_in_groups.


(** C137: alpha_blend adds opacities: one translucent colour over another gets less transparent than a pile, by the smaller of the products of what both cover and of what both let through. *)

Theorem C137_opacity_of_two : forall lower upper, in_gamut lower -> in_gamut upper ->
  let a := B2R (alpha lower) in let b := B2R (alpha upper) in
  close (/ 2 ^ 22) (over_opacity a b + Rmin (a * b) ((1 - a) * (1 - b))) (alpha (alpha_blend lower upper)).
Proof. exact opacity_of_two. Qed.
Print Assumptions C137_opacity_of_two.


(** C137: a translucent colour over nothing is darkened to black by what it lets through, where a pile would show it as it is. *)

Theorem C137_layer_on_nothing : forall c pick, in_gamut c -> rgb_channel pick -> 0 < B2R (alpha c) ->
  over (point pick (mkC f0 f0 f0 f0)) (point pick c) = point pick c /\
  close (/ 2 ^ 22) (B2R (pick c) * B2R (alpha c)) (pick (alpha_blend (mkC f0 f0 f0 f0) c)).
Proof. exact layer_on_nothing. Qed.
Print Assumptions C137_layer_on_nothing.


(** C137: so translucent layers are not a pile: red on nothing becomes dark red, ... *)

Theorem C137_layer_on_nothing_refuted : exists c, in_gamut c /\ same (d0 c) f1 /\ same (alpha c) (dec 1 2) /\ same (d0 (alpha_blend (mkC f0 f0 f0 f0) c)) (dec 1 2).
Proof. exact layer_on_nothing_refuted. Qed.
Print Assumptions C137_layer_on_nothing_refuted.


(** C137: ... and two half transparent layers that are put together first hide what is below, of which a quarter is seen if they are laid on one by one. *)

Theorem C137_layers_in_groups_refuted : exists base l1 l2, opaque base /\ in_gamut l1 /\ in_gamut l2 /\
  same (d0 (alpha_blend (alpha_blend base l1) l2)) (dec 1 4) /\ same (d0 (alpha_blend base (alpha_blend l1 l2))) f0 /\ same (alpha (alpha_blend l1 l2)) f1.
Proof. exact layers_in_groups_refuted. Qed.
Print Assumptions C137_layers_in_groups_refuted.

Example C137_pile_example : let c := mkC f1 f0 f0 (dec 1 2) in
  opaque RGB_WHITE /\ Forall in_gamut [c; c] /\ rgb_channel d1 /\
  layer (mkPB 1 1 [RGB_WHITE]) /\ Forall (sheet (mkPB 1 1 [RGB_WHITE])) [(mkPB 1 1 [c], f1); (mkPB 1 1 [c], dec 1 2)] /\
  same (d1 (fold_left alpha_blend [c; c] RGB_WHITE)) (dec 1 4) /\ 0 < B2R (alpha c).
Proof. exact pile_example. Qed.
