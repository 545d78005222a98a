(** Blurs with a given sigma and the order of images (C124). *)
From Coq Require Import Reals ZArith List Bool.
From Flocq Require Import IEEE754.BinarySingleNaN.
From Verif Require Import Base PixelBuffer BufferSpec F32 Color ColorSpec Commands CommandsSpec Kernel KernelSpec MeaningSpec OrderSpec.
Import ListNotations.
Open Scope R_scope.

(* PROPERTIES *)
From Verif Require Import CommandsProofs OrderProofs OrderThm BlurOrderProofs.
Open Scope R_scope.

(** C124: if an image is nowhere brighter than another, nor is it after a blur
    with any sigma from 10^-6 to 10^6. *)
Lemma blur_keeps_order_any_sigma : forall L m (b b' : PixelBuffer Rgb) r sigma, exp_ok L -> valid b -> valid b' -> (0 <= r <= 32767)%Z -> sigma_ok r sigma ->
  (forall c, In c (data b) -> in_gamut c) -> (forall c, In c (data b') -> in_gamut c) -> image_not_brighter m b b' ->
  exists o o', gaussian_blur L m b r sigma = Ok o /\ gaussian_blur L m b' r sigma = Ok o' /\ image_not_brighter m o o'.
Proof. exact blur_order_any. Qed.
Example blur_any_sigma_example : (exists L, exp_ok L) /\ sigma_ok 0 (Some (dec 3 10)) /\ sigma_ok 3 None /\ image_not_brighter Checked (mkPB 2 1 [RGB_RED; RGB_BLACK]) (mkPB 2 1 [RGB_RED; RGB_WHITE]).
Proof.
  destruct blur_keeps_example as [A B]. split; [exact A|]. split; [split; vm_compute; reflexivity|]. split; [cbn; discriminate|exact B].
Qed.

(** C124: a change of tone, or several in a row, applied to two images of which
    one is nowhere brighter than the other, keeps that so, or exchanges the
    two; and so does a blur afterwards. *)
Lemma tone_keeps_images : forall (up : bool) f m b b' r r', tone_curve up f -> valid b -> valid b' -> (forall c, In c (data b) -> in_gamut c) -> (forall c, In c (data b') -> in_gamut c) ->
  recolored f b r -> recolored f b' r' -> image_not_brighter m b b' ->
  (if up then image_not_brighter m r r' else image_not_brighter m r' r) /\
  forall L k sigma, exp_ok L -> (0 <= k <= 32767)%Z -> sigma_ok k sigma ->
    exists o o', gaussian_blur L m r k sigma = Ok o /\ gaussian_blur L m r' k sigma = Ok o' /\ if up then image_not_brighter m o o' else image_not_brighter m o' o.
Proof.
  intros up f m b b' r r' T V V' G G' R R' N. split; [exact (tone_images up f m b b' r r' T V V' G G' R R' N)|].
  intros L k sigma X K S. exact (tone_then_blur L up f m b b' r r' k sigma X T V V' G G' R R' K S N).
Qed.
Example tone_keeps_images_example : let b := mkPB 2 1 [RGB_RED; RGB_BLACK] in let b' := mkPB 2 1 [RGB_RED; RGB_WHITE] in
  tone_curve false invert /\ valid b /\ valid b' /\ recolored invert b (mkPB 2 1 (map invert (data b))) /\ recolored invert b' (mkPB 2 1 (map invert (data b'))) /\ image_not_brighter Checked b b'.
Proof.
  cbv zeta. assert (V : valid (mkPB 2 1 [RGB_RED; RGB_BLACK])) by (vm_compute; intuition congruence). assert (V' : valid (mkPB 2 1 [RGB_RED; RGB_WHITE])) by (vm_compute; intuition congruence).
  split; [exact invert_curve|]. split; [exact V|]. split; [exact V'|]. split; [exact (recolored_map invert _ V)|]. split; [exact (recolored_map invert _ V')|exact (proj2 blur_keeps_example)].
Qed.
