(** Property theorems, generated from CastThm.v by tools/mkp.py. *)

From Coq Require Import ZArith List.
From Verif Require Import Base PixelBuffer F32 Color Resample Kernel KernelSpec Blend Image StepsSpec CastSpec.
Import ListNotations.

From Verif Require Import CastThm.


(** C126: putting red, green and blue into another order before the steps gives
    the same as doing so afterwards, bit for bit; if the steps panic, they
    panic either way. *)

Theorem C126_channels_treated_alike : forall o L m ss i,
  performed_all L m (map (reordered_step o) ss) (reordered_image o i) =
  (r <- performed_all L m ss i; Ok (reordered_image o r)).
Proof. exact channels_treated_alike. Qed.
Print Assumptions C126_channels_treated_alike.


(** C126: no step gives a grey image a colour cast. *)

Theorem C126_grey_images_stay_grey : forall L m ss i r, Forall grey_step ss -> grey_image i ->
  performed_all L m ss i = Ok r -> grey_image r.
Proof. exact grey_images_stay_grey. Qed.
Print Assumptions C126_grey_images_stay_grey.


(** A red and a white pixel enlarged and blurred: with red and blue exchanged
    the result has red and blue exchanged; black and white stay grey. *)

Example C126_alike_example :
  let steps := [Resized 3 1 Bilinear; Blurred 1 None; Inverted] in
  let shown r := match r with Ok i => map (fun c => (feq (d0 c) (d1 c), feq (d1 c) (d2 c), flt (d0 c) (dec 1 100))) (data (buffer i)) | Panic => [] end in
  let i c := mkImage (mkPB 2 1 [c; RGB_WHITE]) None in
  grey_image (i RGB_BLACK) /\ Forall grey_step steps /\
  shown (performed_all step_libm Checked steps (i RGB_RED)) = [(false, true, true); (false, true, true); (false, true, true)] /\
  shown (performed_all step_libm Checked steps (reordered_image BlueGreenRed (i RGB_RED))) = [(true, false, false); (true, false, false); (true, false, false)] /\
  shown (performed_all step_libm Checked steps (i RGB_BLACK)) = [(true, true, false); (true, true, false); (true, true, false)].
Proof. exact alike_example. Qed.
