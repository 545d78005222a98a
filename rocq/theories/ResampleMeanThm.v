(** What resizing computes (C104). *)
From Coq Require Import Reals ZArith List.
From Flocq Require Import IEEE754.BinarySingleNaN.
From Verif Require Import Base PixelBuffer BufferSpec F32 Color ColorSpec MeaningSpec Resample ResampleSpec.
Import ListNotations.
Open Scope R_scope.

(* PROPERTIES *)
From Coq Require Import Lra Lia.
From Flocq Require Import Core.Core.
From Verif Require Import PixelBufferProofs F32Lemmas ColorProofs Approx OpMeaningProofs ResampleProofs InterpProofs ResampleMeaning.
Open Scope R_scope.

(** C104: bilinear resizing gives the values of the piecewise linear surface
    through the pixels at the scaled positions of the new pixel centres. *)
Lemma bilinear_resize : forall L m b w h, valid b -> nonempty b -> Forall in_gamut (data b) -> valid_size w h ->
  exists r, resize L m b w h Bilinear = Ok r /\ width r = w /\ height r = h /\
  forall x y, inside r x y -> exists o, get_pixel m r x y = Ok o /\ forall d, In d [d0; d1; d2; d3] ->
    close (IZR (width b + height b) / 2 ^ 21 + / 2 ^ 20)
      (surface linear (fun i j => B2R (d (edge_pixel b i j))) (scaled_pos x w (width b)) (scaled_pos y h (height b))) (d o).
Proof.
  intros L m b w h V N G S. rewrite (pow_IZR 2 21), (pow_IZR 2 20). destruct (resize_bilinear_meaning L m b w h V N G S) as (r & E & W & H & A).
  exists r. split; [exact E|]. split; [exact W|]. split; [exact H|]. intros x y I. exact (A m x y I).
Qed.
(** C104: bicubic resizing, and resizing with Auto unless both sides shrink,
    gives those of the Catmull-Rom spline surface, limited to 0..1. *)
Lemma bicubic_resize : forall L m b w h f, f = Bicubic \/ f = Auto /\ (width b <= w \/ height b <= h)%Z ->
  valid b -> nonempty b -> Forall in_gamut (data b) -> valid_size w h ->
  exists r, resize L m b w h f = Ok r /\ width r = w /\ height r = h /\
  forall x y, inside r x y -> exists o, get_pixel m r x y = Ok o /\ forall d, In d [d0; d1; d2; d3] ->
    close (IZR (width b + height b) / 2 ^ 20 + / 2 ^ 16)
      (limited (surface spline (fun i j => B2R (d (edge_pixel b i j))) (scaled_pos x w (width b)) (scaled_pos y h (height b)))) (d o).
Proof.
  intros L m b w h f Hf V N G S. rewrite (pow_IZR 2 20), (pow_IZR 2 16). destruct (resize_bicubic_meaning L m b w h f Hf V N G S) as (r & E & W & H & A).
  exists r. split; [exact E|]. split; [exact W|]. split; [exact H|]. intros x y I. exact (A m x y I).
Qed.
(** C104: nearest resizing takes the pixel nearest to the scaled position of
    the new pixel's corner, not of its centre. *)
Lemma nearest_resize : forall L m b w h, valid b -> nonempty b -> valid_size w h ->
  exists r, resize L m b w h Nearest = Ok r /\ width r = w /\ height r = h /\
  forall x y, inside r x y -> forall i j,
    Rabs (IZR x * (IZR (width b) / IZR w) - IZR i) < / 2 - IZR (width b) / 2 ^ 21 ->
    Rabs (IZR y * (IZR (height b) / IZR h) - IZR j) < / 2 - IZR (height b) / 2 ^ 21 ->
    get_pixel m r x y = Ok (edge_pixel b i j).
Proof.
  intros L m b w h V N S. rewrite (pow_IZR 2 21). destruct (resize_nearest_meaning L m b w h V N S) as (r & E & W & H & A).
  exists r. split; [exact E|]. split; [exact W|]. split; [exact H|]. intros x y I. exact (A m x y I).
Qed.
Example resize_formula_example :
  let b := mkPB 2 1 [mkC f0 f0 f0 f1; mkC f1 f1 f1 f1] in
  valid b /\ nonempty b /\ Forall in_gamut (data b) /\ valid_size 4 1 /\
  surface linear (fun i j => B2R (d0 (edge_pixel b i j))) (scaled_pos 1 4 2) (scaled_pos 0 1 1) = / 4 /\
  limited (surface spline (fun i j => B2R (d0 (edge_pixel b i j))) (scaled_pos 1 4 2) (scaled_pos 0 1 1)) = 13 / 64.
Proof.
  split; [split; [right; cbn; lia|reflexivity]|]. split; [split; cbn; lia|].
  split; [apply Forall_cons; [repeat split; vm_compute; reflexivity|apply Forall_cons; [repeat split; vm_compute; reflexivity|apply Forall_nil]]|].
  split; [right; lia|]. rewrite (scaled_same 0 1) by lia. replace (scaled_pos 1 4 2) with (/ 4) by (unfold scaled_pos; lra).
  unfold surface. rewrite linear_int, spline_int. unfold linear, spline. cbv zeta. rewrite (Zfloor_imp 0) by (cbn [Z.add]; lra). cbn [Z.add Z.sub Z.opp Z.pos_sub].
  set (b := mkPB 2 1 _). change (edge_pixel b 0 0) with (mkC f0 f0 f0 f1). change (edge_pixel b (-1) 0) with (mkC f0 f0 f0 f1).
  change (edge_pixel b 1 0) with (mkC f1 f1 f1 f1). change (edge_pixel b (Z.pos (1 + 1)) 0) with (mkC f1 f1 f1 f1). change (edge_pixel b (1 - 1) 0) with (mkC f0 f0 f0 f1). cbn [d0]. rewrite f0_R, f1_R.
  split; [lra|]. rewrite limited_id; lra.
Qed.
