(** Property theorems, generated from DirectionThm.v by tools/mkp.py. *)

From Coq Require Import Reals ZArith List.
From Flocq Require Import IEEE754.BinarySingleNaN.
From Verif Require Import Base PixelBuffer BufferSpec Geometry F32 Color ColorSpec MeaningSpec ResampleSpec Resample Kernel KernelSpec GaussSpec Ops Image StepsSpec DirectionSpec GaussMeaning2.
Import ListNotations.
Open Scope R_scope.

From Verif Require Import DirectionThm.


(** C130: blurring before or after turning or mirroring an image by steps of 90
    degrees gives the same up to (2r+1)^2/2^16 in every channel. *)

Theorem C130_blur_and_turns : forall L m r sigma t i, exp_ok L -> accurate_exp L -> (0 <= r <= 500)%Z -> sigma_ok r sigma -> valid (buffer i) -> in_range (buffer i) ->
  exists a b, then_ (image_gaussian_blur L m r sigma) (turned m t) i = Ok a /\ then_ (turned m t) (image_gaussian_blur L m r sigma) i = Ok b /\
    bg_color a = bg_color b /\ alike (IZR ((2 * r + 1) * (2 * r + 1)) / 2 ^ 16) (buffer a) (buffer b).
Proof. exact blur_and_turns. Qed.
Print Assumptions C130_blur_and_turns.


(** C130: so does sharpening, up to (|factor|+2)(2r+1)^2/2^15. *)

Theorem C130_unsharp_and_turns : forall L m r factor sigma t i, exp_ok L -> accurate_exp L -> (0 <= r <= 500)%Z -> sigma_ok r sigma ->
  is_finite factor = true -> Rabs (B2R factor) <= 32 -> valid (buffer i) -> in_range (buffer i) ->
  exists a b, then_ (image_unsharp L m r factor sigma) (turned m t) i = Ok a /\ then_ (turned m t) (image_unsharp L m r factor sigma) i = Ok b /\
    bg_color a = bg_color b /\ alike ((Rabs (B2R factor) + 2) * IZR ((2 * r + 1) * (2 * r + 1)) / 2 ^ 15) (buffer a) (buffer b).
Proof. exact unsharp_and_turns. Qed.
Print Assumptions C130_unsharp_and_turns.


(** C130: and Sobel edge detection, up to 2^-11. *)

Theorem C130_sobel_and_turns : forall m t i, valid (buffer i) -> in_range (buffer i) ->
  exists a b, then_ (image_edge_detection m Sobel) (turned m t) i = Ok a /\ then_ (turned m t) (image_edge_detection m Sobel) i = Ok b /\
    bg_color a = bg_color b /\ alike (/ 2 ^ 11) (buffer a) (buffer b).
Proof. exact sobel_and_turns. Qed.
Print Assumptions C130_sobel_and_turns.


(** C130: blurring does not make small differences larger: images that differ
    by at most [e] differ by at most [e] afterwards, up to rounding. *)

Theorem C130_blur_keeps_alike : forall L m r sigma e a b, exp_ok L -> accurate_exp L -> (0 <= r <= 500)%Z -> sigma_ok r sigma ->
  valid a -> valid b -> in_range a -> in_range b -> alike e a b ->
  exists a' b', gaussian_blur L m a r sigma = Ok a' /\ gaussian_blur L m b r sigma = Ok b' /\ alike (e + IZR ((2 * r + 1) * (2 * r + 1)) / 2 ^ 16) a' b'.
Proof. exact blur_keeps_alike. Qed.
Print Assumptions C130_blur_keeps_alike.


(** C130: the blur of a mixture of two images is the mixture of their blurs. *)

Theorem C130_blur_of_mixture : forall L m r sigma e t a b c, exp_ok L -> accurate_exp L -> (0 <= r <= 500)%Z -> sigma_ok r sigma ->
  valid a -> valid b -> valid c -> in_range a -> in_range b -> in_range c -> 0 <= t <= 1 -> mixture e t a b c ->
  exists a' b' c', gaussian_blur L m a r sigma = Ok a' /\ gaussian_blur L m b r sigma = Ok b' /\ gaussian_blur L m c r sigma = Ok c' /\
    mixture (e + IZR ((2 * r + 1) * (2 * r + 1)) / 2 ^ 16) t a' b' c'.
Proof. exact blur_of_mixture. Qed.
Print Assumptions C130_blur_of_mixture.


(** C130: a blurred pixel lies between the lowest and the highest one up to
    [r] columns and rows away. *)

Theorem C130_blur_stays_between : forall L m r sigma (b : PixelBuffer Rgb) out x y lo hi pick, exp_ok L -> accurate_exp L -> (0 <= r <= 500)%Z -> sigma_ok r sigma ->
  valid b -> in_range b -> channel pick -> inside b x y ->
  (forall i j, (- r <= i <= r)%Z -> (- r <= j <= r)%Z -> lo <= B2R (pick (edge_pixel b (x + i) (y + j))) <= hi) ->
  gaussian_blur L m b r sigma = Ok out -> exists o, get_pixel m out x y = Ok o /\
    lo - IZR ((2 * r + 1) * (2 * r + 1)) / 2 ^ 17 <= B2R (pick o) <= hi + IZR ((2 * r + 1) * (2 * r + 1)) / 2 ^ 17.
Proof. exact blur_stays_between. Qed.
Print Assumptions C130_blur_stays_between.


(** C130: edges do not depend on how bright an image is: making all channels
    higher by [k], up to [d], changes them by no more than 12 d + 2^-11. *)

Theorem C130_sobel_ignores_brightness : forall m d k a b, valid a -> valid b -> in_range a -> in_range b -> 0 <= d ->
  channel_pairs (fun u v => Rabs (v - (u + k)) <= d) a b ->
  exists a' b', edge_detection m a Sobel = Ok a' /\ edge_detection m b Sobel = Ok b' /\ alike (12 * d + / 2 ^ 11) a' b'.
Proof. exact sobel_ignores_brightness. Qed.
Print Assumptions C130_sobel_ignores_brightness.


(** C130: resizing to the nearest pixel and interlacing are different: a
    mirrored image may give another one. *)

Theorem C130_resize_and_mirror_refuted : exists i, valid (buffer i) /\ in_range (buffer i) /\ forall L m,
  then_ (image_resize L m 1 1 Nearest) (turned m LeftRight) i <> then_ (turned m LeftRight) (image_resize L m 1 1 Nearest) i.
Proof. exact resize_and_mirror_refuted. Qed.
Print Assumptions C130_resize_and_mirror_refuted.

Theorem C130_interlace_and_mirror_refuted : exists i, valid (buffer i) /\ in_range (buffer i) /\ forall m,
  then_ (image_interlace m 1) (turned m LeftRight) i <> then_ (turned m LeftRight) (image_interlace m 1) i.
Proof. exact interlace_and_mirror_refuted. Qed.
Print Assumptions C130_interlace_and_mirror_refuted.


(** A dark and a bright pixel and two in between, which are mixtures of them. *)

Example C130_directions_example :
  let g v := mkC v v v f1 in
  let a := mkPB 2 1 [g f0; g f1] in let b := mkPB 2 1 [g f1; g f0] in let c := mkPB 2 1 [g (dec 1 4); g (dec 3 4)] in
  (forall L, exp_ok (exp_libm L) /\ accurate_exp (exp_libm L)) /\ sigma_ok 2 None /\ valid a /\ valid b /\ valid c /\ in_range a /\ in_range b /\ in_range c /\
  mixture 0 (3 / 4) a b c /\ alike (/ 4) a c /\
  channel_pairs (fun u v => Rabs (v - (u + / 4)) <= / 2) a c.
Proof. exact directions_example. Qed.
