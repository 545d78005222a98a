(** Filters and directions (C130). *)
From Coq Require Import Reals ZArith List.
From Flocq Require Import IEEE754.BinarySingleNaN.
From Verif Require Import Base PixelBuffer BufferSpec Geometry F32 Color ColorSpec MeaningSpec ResampleSpec Resample Kernel KernelSpec GaussSpec Ops Image StepsSpec DirectionSpec GaussMeaning2.
Import ListNotations.
Open Scope R_scope.

(* PROPERTIES *)
From Coq Require Import Lia Lra.
From Verif Require Import F32Lemmas GaussMeanThm DirectionProofs.

(** C130: blurring before or after turning or mirroring an image by steps of 90
    degrees gives the same up to (2r+1)^2/2^16 in every channel. *)
Lemma blur_and_turns : forall L m r sigma t i, exp_ok L -> accurate_exp L -> (0 <= r <= 500)%Z -> sigma_ok r sigma -> valid (buffer i) -> in_range (buffer i) ->
  exists a b, then_ (image_gaussian_blur L m r sigma) (turned m t) i = Ok a /\ then_ (turned m t) (image_gaussian_blur L m r sigma) i = Ok b /\
    bg_color a = bg_color b /\ alike (IZR ((2 * r + 1) * (2 * r + 1)) / 2 ^ 16) (buffer a) (buffer b).
Proof.
  intros L m r sigma t i X A Hr S V G. replace (IZR ((2 * r + 1) * (2 * r + 1)) / 2 ^ 16) with (2 * (IZR ((2 * r + 1) * (2 * r + 1)) / 2 ^ 17)) by (simpl; lra).
  exact (formula_turns m _ _ _ t i (blur_by L m r sigma X A Hr S) (blur_free _ r ltac:(lia)) V G).
Qed.

(** C130: so does sharpening, up to (|factor|+2)(2r+1)^2/2^15. *)
Lemma unsharp_and_turns : forall L m r factor sigma t i, exp_ok L -> accurate_exp L -> (0 <= r <= 500)%Z -> sigma_ok r sigma ->
  is_finite factor = true -> Rabs (B2R factor) <= 32 -> valid (buffer i) -> in_range (buffer i) ->
  exists a b, then_ (image_unsharp L m r factor sigma) (turned m t) i = Ok a /\ then_ (turned m t) (image_unsharp L m r factor sigma) i = Ok b /\
    bg_color a = bg_color b /\ alike ((Rabs (B2R factor) + 2) * IZR ((2 * r + 1) * (2 * r + 1)) / 2 ^ 15) (buffer a) (buffer b).
Proof.
  intros L m r factor sigma t i X A Hr S Ff Rf V G.
  replace ((Rabs (B2R factor) + 2) * IZR ((2 * r + 1) * (2 * r + 1)) / 2 ^ 15) with (2 * ((Rabs (B2R factor) + 2) * IZR ((2 * r + 1) * (2 * r + 1)) / 2 ^ 16)) by (simpl; lra).
  exact (formula_turns m _ _ _ t i (unsharp_by L m r factor sigma X A Hr S Ff Rf) (unsharp_free _ r _ ltac:(lia)) V G).
Qed.

(** C130: and Sobel edge detection, up to 2^-11. *)
Lemma sobel_and_turns : forall m t i, valid (buffer i) -> in_range (buffer i) ->
  exists a b, then_ (image_edge_detection m Sobel) (turned m t) i = Ok a /\ then_ (turned m t) (image_edge_detection m Sobel) i = Ok b /\
    bg_color a = bg_color b /\ alike (/ 2 ^ 11) (buffer a) (buffer b).
Proof.
  intros m t i V G. replace (/ 2 ^ 11) with (2 * / 2 ^ 12) by (simpl; lra). exact (formula_turns m _ _ _ t i (sobel_by m) sobel_free V G).
Qed.

(** C130: blurring does not make small differences larger: images that differ
    by at most [e] differ by at most [e] afterwards, up to rounding. *)
Lemma blur_keeps_alike : forall L m r sigma e a b, exp_ok L -> accurate_exp L -> (0 <= r <= 500)%Z -> sigma_ok r sigma ->
  valid a -> valid b -> in_range a -> in_range b -> alike e a b ->
  exists a' b', gaussian_blur L m a r sigma = Ok a' /\ gaussian_blur L m b r sigma = Ok b' /\ alike (e + IZR ((2 * r + 1) * (2 * r + 1)) / 2 ^ 16) a' b'.
Proof. intros L m r sigma e a b X A Hr S. exact (blur_alike L m r sigma X A Hr S e a b). Qed.

(** C130: the blur of a mixture of two images is the mixture of their blurs. *)
Lemma blur_of_mixture : forall L m r sigma e t a b c, exp_ok L -> accurate_exp L -> (0 <= r <= 500)%Z -> sigma_ok r sigma ->
  valid a -> valid b -> valid c -> in_range a -> in_range b -> in_range c -> 0 <= t <= 1 -> mixture e t a b c ->
  exists a' b' c', gaussian_blur L m a r sigma = Ok a' /\ gaussian_blur L m b r sigma = Ok b' /\ gaussian_blur L m c r sigma = Ok c' /\
    mixture (e + IZR ((2 * r + 1) * (2 * r + 1)) / 2 ^ 16) t a' b' c'.
Proof. intros L m r sigma e t a b c X A Hr S. exact (blur_mixture L m r sigma X A Hr S e t a b c). Qed.

(** C130: a blurred pixel lies between the lowest and the highest one up to
    [r] columns and rows away. *)
Lemma blur_stays_between : forall L m r sigma (b : PixelBuffer Rgb) out x y lo hi pick, exp_ok L -> accurate_exp L -> (0 <= r <= 500)%Z -> sigma_ok r sigma ->
  valid b -> in_range b -> channel pick -> inside b x y ->
  (forall i j, (- r <= i <= r)%Z -> (- r <= j <= r)%Z -> lo <= B2R (pick (edge_pixel b (x + i) (y + j))) <= hi) ->
  gaussian_blur L m b r sigma = Ok out -> exists o, get_pixel m out x y = Ok o /\
    lo - IZR ((2 * r + 1) * (2 * r + 1)) / 2 ^ 17 <= B2R (pick o) <= hi + IZR ((2 * r + 1) * (2 * r + 1)) / 2 ^ 17.
Proof. intros L m r sigma b out x y lo hi pick X A Hr S. exact (blur_between L m r sigma X A Hr S b out x y lo hi pick). Qed.

(** C130: edges do not depend on how bright an image is: making all channels
    higher by [k], up to [d], changes them by no more than 12 d + 2^-11. *)
Lemma sobel_ignores_brightness : forall m d k a b, valid a -> valid b -> in_range a -> in_range b -> 0 <= d ->
  channel_pairs (fun u v => Rabs (v - (u + k)) <= d) a b ->
  exists a' b', edge_detection m a Sobel = Ok a' /\ edge_detection m b Sobel = Ok b' /\ alike (12 * d + / 2 ^ 11) a' b'.
Proof. exact sobel_pairs. Qed.

(** C130: resizing to the nearest pixel and interlacing are different: a
    mirrored image may give another one. *)
Lemma resize_and_mirror_refuted : exists i, valid (buffer i) /\ in_range (buffer i) /\ forall L m,
  then_ (image_resize L m 1 1 Nearest) (turned m LeftRight) i <> then_ (turned m LeftRight) (image_resize L m 1 1 Nearest) i.
Proof.
  exists (mkImage (mkPB 2 1 [RGB_BLACK; RGB_WHITE]) None). split; [split; [right; cbn; lia|reflexivity]|]. split.
  { intros c [<-|[<-|[]]]; vm_compute; intuition congruence. }
  intros L m H. assert (K : match then_ (image_resize L m 1 1 Nearest) (turned m LeftRight) (mkImage (mkPB 2 1 [RGB_BLACK; RGB_WHITE]) None) with
    | Ok i => map (fun c => feq (d0 c) f1) (data (buffer i)) | Panic => [] end = [true]).
  { rewrite H. destruct m; vm_compute; reflexivity. }
  destruct m; vm_compute in K; discriminate K.
Qed.
Lemma interlace_and_mirror_refuted : exists i, valid (buffer i) /\ in_range (buffer i) /\ forall m,
  then_ (image_interlace m 1) (turned m LeftRight) i <> then_ (turned m LeftRight) (image_interlace m 1) i.
Proof.
  exists (mkImage (mkPB 2 1 [RGB_BLACK; RGB_WHITE]) None). split; [split; [right; cbn; lia|reflexivity]|]. split.
  { intros c [<-|[<-|[]]]; vm_compute; intuition congruence. }
  intros m H. assert (K : match then_ (image_interlace m 1) (turned m LeftRight) (mkImage (mkPB 2 1 [RGB_BLACK; RGB_WHITE]) None) with
    | Ok i => map (fun c => feq (d0 c) f1) (data (buffer i)) | Panic => [] end = [true; true]).
  { rewrite H. destruct m; vm_compute; reflexivity. }
  destruct m; vm_compute in K; discriminate K.
Qed.

(** A dark and a bright pixel and two in between, which are mixtures of them. *)
Example directions_example :
  let g v := mkC v v v f1 in
  let a := mkPB 2 1 [g f0; g f1] in let b := mkPB 2 1 [g f1; g f0] in let c := mkPB 2 1 [g (dec 1 4); g (dec 3 4)] in
  (forall L, exp_ok (exp_libm L) /\ accurate_exp (exp_libm L)) /\ sigma_ok 2 None /\ valid a /\ valid b /\ valid c /\ in_range a /\ in_range b /\ in_range c /\
  mixture 0 (3 / 4) a b c /\ alike (/ 4) a c /\
  channel_pairs (fun u v => Rabs (v - (u + / 4)) <= / 2) a c.
Proof.
  intros g a b c. assert (Q1 : B2R (dec 1 4) = / 4). { fval (dec 1 4) H. rewrite H. lra. } assert (Q3 : B2R (dec 3 4) = 3 / 4). { fval (dec 3 4) H. rewrite H. lra. }
  split; [exact (proj1 blur_formula_example)|]. split; [cbn; lia|].
  split; [split; [right; cbn; lia|reflexivity]|]. split; [split; [right; cbn; lia|reflexivity]|]. split; [split; [right; cbn; lia|reflexivity]|].
  assert (F : is_finite (dec 1 4) = true /\ is_finite (dec 3 4) = true) by (split; vm_compute; reflexivity). destruct F as [F1 F3].
  split; [|split; [|split]]; try (intros p [<-|[<-|[]]]; vm_compute; intuition congruence).
  assert (I : forall (b : PixelBuffer Rgb) x y, width b = 2%Z -> height b = 1%Z -> inside b x y -> y = 0%Z /\ (x = 0 \/ x = 1)%Z) by (intros b0 x y W H [? ?]; lia).
  split; [|split].
  - do 4 (split; [reflexivity|]). intros m x y J. destruct (I c x y eq_refl eq_refl J) as [-> [->| ->]].
    + exists (g f0), (g f1), (g (dec 1 4)). split; [destruct m; reflexivity|]. split; [destruct m; reflexivity|]. split; [destruct m; reflexivity|].
      intros pick [->|[->|[->| ->]]]; unfold g; cbn [d0 d1 d2 d3]; rewrite ?Q1, ?f0_R, ?f1_R; (split; [first [exact F1|reflexivity]|apply Rabs_le; lra]).
    + exists (g f1), (g f0), (g (dec 3 4)). split; [destruct m; reflexivity|]. split; [destruct m; reflexivity|]. split; [destruct m; reflexivity|].
      intros pick [->|[->|[->| ->]]]; unfold g; cbn [d0 d1 d2 d3]; rewrite ?Q3, ?f0_R, ?f1_R; (split; [first [exact F3|reflexivity]|apply Rabs_le; lra]).
  - do 2 (split; [reflexivity|]). intros m x y J. destruct (I a x y eq_refl eq_refl J) as [-> [->| ->]].
    + exists (g f0), (g (dec 1 4)). split; [destruct m; reflexivity|]. split; [destruct m; reflexivity|].
      intros pick [->|[->|[->| ->]]]; unfold g; cbn [d0 d1 d2 d3]; rewrite ?Q1, ?f0_R, ?f1_R; (split; [reflexivity|split; [first [exact F1|reflexivity]|apply Rabs_le; lra]]).
    + exists (g f1), (g (dec 3 4)). split; [destruct m; reflexivity|]. split; [destruct m; reflexivity|].
      intros pick [->|[->|[->| ->]]]; unfold g; cbn [d0 d1 d2 d3]; rewrite ?Q3, ?f0_R, ?f1_R; (split; [reflexivity|split; [first [exact F3|reflexivity]|apply Rabs_le; lra]]).
  - do 2 (split; [reflexivity|]). intros m x y J. destruct (I a x y eq_refl eq_refl J) as [-> [->| ->]].
    + exists (g f0), (g (dec 1 4)). split; [destruct m; reflexivity|]. split; [destruct m; reflexivity|].
      intros pick [->|[->|[->| ->]]]; unfold g; cbn [d0 d1 d2 d3]; rewrite ?Q1, ?f0_R, ?f1_R; (split; [reflexivity|split; [first [exact F1|reflexivity]|apply Rabs_le; lra]]).
    + exists (g f1), (g (dec 3 4)). split; [destruct m; reflexivity|]. split; [destruct m; reflexivity|].
      intros pick [->|[->|[->| ->]]]; unfold g; cbn [d0 d1 d2 d3]; rewrite ?Q3, ?f0_R, ?f1_R; (split; [reflexivity|split; [first [exact F3|reflexivity]|apply Rabs_le; lra]]).
Qed.
