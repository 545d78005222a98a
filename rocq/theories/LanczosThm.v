(** What the Lanczos filter computes (C106). *)
From Coq Require Import Reals ZArith List.
From Flocq Require Import IEEE754.BinarySingleNaN.
From Verif Require Import Base PixelBuffer BufferSpec F32 Color ColorSpec MeaningSpec Resample ResampleSpec LanczosSpec IdealLibm.
Import ListNotations.
Open Scope R_scope.

(* PROPERTIES *)
From Coq Require Import Lra Lia.
From Flocq Require Import Core.Core.
From Verif Require Import PixelBufferProofs F32Lemmas ColorProofs Approx OpMeaningProofs ResampleProofs InterpProofs ResampleMeaning RotateMeaning LanczosMeaning LanczosAuto.
Open Scope R_scope.

(** C106: resizing with Lanczos3 weights the seven by seven pixels around the
    scaled position of each new pixel's centre with the Lanczos window of three
    lobes; the weights are used as they are and the result is not limited. *)
Lemma lanczos3_resize : forall L m (b : PixelBuffer Rgb) w h, accurate_sine L -> valid b -> nonempty b -> Forall in_gamut (data b) -> valid_size w h ->
  exists r, resize L m b w h Lanczos3 = Ok r /\ width r = w /\ height r = h /\
  forall x y, inside r x y -> exists o, get_pixel m r x y = Ok o /\
    exists p q, Rabs (p - scaled_pos x w (width b)) <= IZR (width b) / 2 ^ 21 /\ Rabs (q - scaled_pos y h (height b)) <= IZR (height b) / 2 ^ 21 /\
    forall d, In d [d0; d1; d2; d3] -> close (68 / 2 ^ 16) (surface (lanczos_curve 3 3) (fun i j => B2R (d (edge_pixel b i j))) p q) (d o).
Proof.
  intros L m b w h A V N G S. rewrite (pow_IZR 2 21), (pow_IZR 2 16). destruct (resize_lanczos3_meaning L m b w h A V N G S) as (r & E & W & H & O).
  exists r. split; [exact E|]. split; [exact W|]. split; [exact H|]. intros x y I. exact (O m x y I).
Qed.
(** C106: with Auto, when both sides shrink, the window grows with the reduction. *)
Lemma auto_resize : forall L m (b : PixelBuffer Rgb) w h, accurate_sine L -> valid b -> Forall in_gamut (data b) ->
  (0 < w < width b)%Z -> (0 < h < height b)%Z -> (width b <= 10000 * w)%Z -> (height b <= 10000 * h)%Z ->
  exists r size s, resize L m b w h Auto = Ok r /\ width r = w /\ height r = h /\ auto_window (width b) (height b) w h size s /\
  forall x y, inside r x y -> exists o, get_pixel m r x y = Ok o /\
    exists p q, Rabs (p - scaled_pos x w (width b)) <= IZR (width b) / 2 ^ 21 /\ Rabs (q - scaled_pos y h (height b)) <= IZR (height b) / 2 ^ 21 /\
    forall d, In d [d0; d1; d2; d3] -> close ((65 + IZR size) / 2 ^ 16) (surface (lanczos_curve s size) (fun i j => B2R (d (edge_pixel b i j))) p q) (d o).
Proof.
  intros L m b w h A V G Hw Hh Rw Rh. rewrite (pow_IZR 2 21), (pow_IZR 2 16).
  assert (N : nonempty b) by (split; lia).
  assert (S : valid_size w h) by (destruct V as [[[? ?]|?] _]; right; nia).
  destruct (resize_auto_meaning L m b w h A V N G S Hw Hh Rw Rh) as (r & size & s & E & W & H & AW & O).
  exists r, size, s. split; [exact E|]. split; [exact W|]. split; [exact H|]. split; [exact AW|]. intros x y I. exact (O m x y I).
Qed.
(** C106: rotating with Lanczos3 does the same at the turned-back position. *)
Lemma lanczos3_rotate : forall L m (b : PixelBuffer Rgb) a bg r x y, accurate_sine L -> accurate_turn L -> valid b -> Forall in_gamut (data b) ->
  is_finite a = true -> Rabs (B2R a) <= 360 -> rotate L m b a bg Lanczos3 = Ok r -> inside r x y ->
  let '(p, q) := turned_back (width b) (height b) (B2R a) x y in let e := IZR (width b + height b) / 2 ^ 19 in
  - / 2 + e < p < IZR (width b) - / 2 - e -> - / 2 + e < q < IZR (height b) - / 2 - e ->
  exists o, get_pixel m r x y = Ok o /\ exists p' q', Rabs (p' - p) <= e /\ Rabs (q' - q) <= e /\
    forall d, In d [d0; d1; d2; d3] -> close (68 / 2 ^ 16) (surface (lanczos_curve 3 3) (fun i j => B2R (d (edge_pixel b i j))) p' q') (d o).
Proof.
  intros L m b a bg r x y AS AL V G F D H I. rewrite (pow_IZR 2 19), (pow_IZR 2 16). change (IZR (2 ^ Z.of_nat 19)) with 524288. change (IZR (2 ^ Z.of_nat 16)) with 65536.
  pose proof (rotate_lanczos3_at L m b a bg r x y AS AL V G F D H I) as K. cbv zeta in K. destruct (turned_back _ _ _ x y) as [p q]. exact K.
Qed.
(** C106: a user expects that shrinking keeps a plain colour. The weights of
    the window for the reductions between 3/2 and 3 do not add up to 1, and the
    result is not limited: a plain white image of 8 by 8 pixels shrunk to 4 by
    4 with Auto becomes brighter than white. *)
Lemma plain_white_refuted : forall L m, accurate_sine L ->
  let b := mkPB 8 8 (repeat (mkC f1 f1 f1 f1) 64) in
  exists r, resize L m b 4 4 Auto = Ok r /\ width r = 4%Z /\ height r = 4%Z /\
  forall x y, inside r x y -> exists o, get_pixel m r x y = Ok o /\ forall d, In d [d0; d1; d2; d3] -> 103 / 100 < B2R (d o).
Proof.
  intros L m A b. destruct (white_resized L m A) as (r & E & W & H & O). exists r. split; [exact E|]. split; [exact W|]. split; [exact H|]. intros x y I. exact (O m x y I).
Qed.
Example lanczos_example : forall L, accurate_sine (full_libm L) /\
  let b := mkPB 8 8 (repeat (mkC f1 f1 f1 f1) 64) in
  valid b /\ nonempty b /\ Forall in_gamut (data b) /\ valid_size 4 4 /\ (0 < 4 < width b)%Z /\ (width b <= 10000 * 4)%Z /\ auto_window 8 8 4 4 4 9 /\
  window 0 = 1 /\ window 1 = 0 /\ forall v x, lanczos_curve 3 3 v (IZR x) = v x.
Proof.
  intros L. split; [apply full_sine|]. cbv zeta. destruct white_8_ok as (V & N & G). split; [exact V|]. split; [exact N|]. split; [exact G|]. split; [right; lia|].
  cbn [width]. split; [lia|]. split; [lia|]. split.
  { unfold auto_window. cbv zeta. cbn [Z.eqb Z.leb Z.compare Pos.eqb Pos.compare Pos.compare_cont Z.mul Pos.mul Z.add Pos.add]. split; [|reflexivity].
    replace (8 / 4) with 2 by lra. rewrite (Rmax_left 2 2), Rmax_right by lra. lra. }
  split; [|split; [exact window_1|exact (fun v x => curve_int v x)]].
  unfold window. rewrite Rabs_R0. destruct Rlt_dec; [|lra]. replace (0 / 3) with 0 by field. rewrite cs_0. ring.
Qed.
