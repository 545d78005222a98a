(** Property theorems, generated from TileThm.v by tools/mkp.py. *)

From Coq Require Import ZArith List.
From Verif Require Import Base PixelBuffer BufferSpec F32 Color Kernel KernelSpec Image TileSpec.
Import ListNotations.
Open Scope Z_scope.

From Verif Require Import TileThm.


(** C125: a pixel of the result of some filters, one after the other, depends
    only on the pixels at most the sum of their reaches away: two pixels, of
    the same or of different images, with the same surroundings get the same
    colour, bit for bit. *)

Theorem C125_same_surroundings_same_result : forall L m fs i i' x y x' y', Forall usable fs -> valid (buffer i) -> valid (buffer i') ->
  inside (buffer i) x y -> inside (buffer i') x' y' ->
  same_around m (reach_all fs) (buffer i) x y (buffer i') x' y' ->
  exists o o' c, filtered_all L m fs i = Ok o /\ filtered_all L m fs i' = Ok o' /\
    get_pixel m (buffer o) x y = Ok c /\ get_pixel m (buffer o') x' y' = Ok c.
Proof. exact same_surroundings_same_result. Qed.
Print Assumptions C125_same_surroundings_same_result.


(** C125: an image may be filtered in tiles: filtering the part of the image
    that extends beyond a rectangle by the reach on each side, as far as the
    image goes, and cutting out the rectangle gives the same as filtering the
    whole image and cutting out the rectangle. *)

Theorem C125_filter_in_tiles : forall L m fs i k ox oy w h, Forall usable fs -> valid (buffer i) -> k = reach_all fs ->
  0 <= ox -> 0 <= oy -> 0 < w -> 0 < h -> ox + w <= width (buffer i) -> oy + h <= height (buffer i) ->
  let x0 := Z.max 0 (ox - k) in
  let y0 := Z.max 0 (oy - k) in
  let x1 := Z.min (width (buffer i)) (ox + w + k) in
  let y1 := Z.min (height (buffer i)) (oy + h + k) in
  exists tile,
    (o <- filtered_all L m fs i; image_crop m ox oy w h o) = Ok tile /\
    (t <- image_crop m x0 y0 (x1 - x0) (y1 - y0) i; o <- filtered_all L m fs t; image_crop m (ox - x0) (oy - y0) w h o) = Ok tile.
Proof. exact filter_in_tiles. Qed.
Print Assumptions C125_filter_in_tiles.


(** C125: setting a pixel farther away than the reach changes nothing here. *)

Theorem C125_far_edits_do_not_matter : forall L m fs i x0 y0 c x y, Forall usable fs -> valid (buffer i) -> inside (buffer i) x0 y0 -> inside (buffer i) x y ->
  reach_all fs < Z.abs (x - x0) \/ reach_all fs < Z.abs (y - y0) ->
  exists i' o o' q, image_put_pixel m x0 y0 c i = Ok i' /\
    filtered_all L m fs i = Ok o /\ filtered_all L m fs i' = Ok o' /\
    get_pixel m (buffer o) x y = Ok q /\ get_pixel m (buffer o') x y = Ok q.
Proof. exact far_edits_do_not_matter. Qed.
Print Assumptions C125_far_edits_do_not_matter.


(** A blur and an edge detection see a red dot two pixels away, not three. *)

Example C125_reach_example :
  let fs := [Blur 1 None; Edges Laplace] in
  let reds i := match filtered_all step_libm Checked fs i with Ok o => map (fun c => feq (d0 c) f0) (data (buffer o)) | Panic => [] end in
  Forall usable fs /\ reach_all fs = 2 /\ valid (buffer (red_dot 6 3)) /\ inside (buffer (red_dot 6 3)) 0 0 /\
  reds (red_dot 6 3) = [true; false; false; false; false; false] /\
  reds (red_dot 6 4) = [true; true; false; false; false; false] /\
  reds (red_dot 6 9) = [true; true; true; true; true; true].
Proof. exact reach_example. Qed.
