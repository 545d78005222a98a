(** Property theorems, generated from PickThm.v by tools/mkp.py. *)

From Coq Require Import ZArith List.
From Verif Require Import Base PixelBuffer F32 Color Resample Kernel KernelSpec Blend Image StepsSpec CastSpec PickSpec.
Import ListNotations.

From Verif Require Import PickThm.


(** C127: turning, cropping, interlacing, resizing, rotating, convolving,
    blurring and sharpening treat red, green, blue and alpha alike, each on its
    own: picking any four of the numbers of each pixel before the steps gives
    the same, bit for bit, as picking them afterwards. *)

Theorem C127_components_apart : forall s L m ss i, Forall linear ss ->
  performed_all L m ss (every_pixel (picked s) i) =
  (r <- performed_all L m ss i; Ok (every_pixel (picked s) r)).
Proof. exact components_apart. Qed.
Print Assumptions C127_components_apart.


(** C127: the colours of the result do not depend on the transparency. *)

Theorem C127_colours_ignore_alpha : forall L m ss i i', Forall one_image ss ->
  agree colours i i' -> both (agree colours) (performed_all L m ss i) (performed_all L m ss i').
Proof. exact colours_ignore_alpha. Qed.
Print Assumptions C127_colours_ignore_alpha.


(** C127: the transparency of the result does not depend on the colours. *)

Theorem C127_alpha_ignores_colours : forall L m ss i i', Forall one_image ss ->
  agree d3 i i' -> both (agree d3) (performed_all L m ss i) (performed_all L m ss i').
Proof. exact alpha_ignores_colours. Qed.
Print Assumptions C127_alpha_ignores_colours.


(** C127: as long as no pixels are mixed, the colours of invisible pixels stay
    invisible. *)

Theorem C127_hidden_stays_hidden : forall L m ss i i', Forall mixes_nothing ss ->
  agree seen i i' -> both (agree seen) (performed_all L m ss i) (performed_all L m ss i').
Proof. exact hidden_stays_hidden. Qed.
Print Assumptions C127_hidden_stays_hidden.


(** C127: where pixels are mixed they come to light, whatever the mathematical
    library: two images that look the same, an invisible pixel beside a white
    one, look different when enlarged. *)

Theorem C127_hidden_colours_show_refuted : forall L m,
  ~ (forall s i i', one_image s -> agree seen i i' -> both (agree seen) (performed L m s i) (performed L m s i')).
Proof. exact hidden_colours_show_refuted. Qed.
Print Assumptions C127_hidden_colours_show_refuted.


(** The images of the refutation look the same. Enlarged with the nearest
    pixels they still do. With the bilinear filter the pixel in the middle,
    half transparent, has a red above 0.9 in one and not in the other. *)

Example C127_apart_example :
  let i c := mkImage (mkPB 2 1 [with_alpha c f0; RGB_WHITE]) None in
  let shown r := match r with Ok i => map (fun c => (feq (d3 c) f0, flt (d3 c) f1, flt (dec 9 10) (d0 c))) (data (buffer i)) | Panic => [] end in
  agree seen (i RGB_RED) (i RGB_BLUE) /\ agree d3 (i RGB_RED) (i RGB_BLUE) /\
  agree colours (i RGB_RED) (mkImage (mkPB 2 1 [RGB_RED; RGB_WHITE]) None) /\
  Forall mixes_nothing [Resized 3 1 Nearest; Inverted] /\ Forall one_image [Resized 3 1 Bilinear; Blurred 1 None; Inverted] /\
  Forall linear [Resized 3 1 Bilinear; Blurred 1 None] /\
  shown (performed step_libm Checked (Resized 3 1 Bilinear) (i RGB_RED)) = [(true, true, true); (false, true, true); (false, false, true)] /\
  shown (performed step_libm Checked (Resized 3 1 Bilinear) (i RGB_BLUE)) = [(true, true, false); (false, true, false); (false, false, true)] /\
  shown (performed step_libm Checked (Resized 3 1 Nearest) (i RGB_RED)) = [(true, true, true); (false, false, true); (false, false, true)].
Proof. exact apart_example. Qed.
