(** What resizing and free rotation compute, as formulas on real numbers: the
    vocabulary of C104, C105 and C106. *)
From Coq Require Import Reals ZArith List.
From Flocq Require Import Core.Core IEEE754.BinarySingleNaN.
From Verif Require Import PixelBuffer F32 Color MeaningSpec.
Open Scope R_scope.

(** The pixel at (i,j), or the one at the nearest place inside the image. *)
Definition edge_pixel (b : PixelBuffer Rgb) (i j : Z) : Rgb :=
  let limit v n := Z.max 0 (Z.min v (n - 1)) in
  nth (Z.to_nat (limit j (height b) * width b + limit i (width b))) (data b) (mkC f0 f0 f0 f0).

(** Straight lines through the values of [f] at the integers. *)
Definition linear (f : Z -> R) (p : R) : R :=
  let k := Zfloor p in let t := p - IZR k in f k * (1 - t) + f (k + 1)%Z * t.
(** The Catmull-Rom spline through them: on each piece the cubic polynomial
    with these values at the ends and the slopes [(f (k+1) - f (k-1)) / 2]. *)
Definition spline (f : Z -> R) (p : R) : R :=
  let k := Zfloor p in let t := p - IZR k in
  let slope k := (f (k + 1)%Z - f (k - 1)%Z) / 2 in
  (1 + 2 * t) * (1 - t) ^ 2 * f k + t * (1 - t) ^ 2 * slope k + t ^ 2 * (3 - 2 * t) * f (k + 1)%Z - t ^ 2 * (1 - t) * slope (k + 1)%Z.
(** A surface over the grid: along the rows first, then down the column. *)
Definition surface (curve : (Z -> R) -> R -> R) (v : Z -> Z -> R) (p q : R) : R :=
  curve (fun j => curve (fun i => v i j) p) q.

(** The centre of pixel [x] of [new] pixels, on the scale of [old] pixels over
    the same length, in a coordinate that is 0 at the centre of the first one. *)
Definition scaled_pos (x new old : Z) : R := (IZR x + / 2) * (IZR old / IZR new) - / 2.

(** Where the point shown at pixel (x,y) comes from, if a picture of [w] times
    [h] pixels is turned clockwise by [deg] degrees about its middle. *)
Definition turned_back (w h : Z) (deg : R) (x y : Z) : R * R :=
  let cx := (IZR w - 1) / 2 in let cy := (IZR h - 1) / 2 in
  let a := IZR x - cx in let c := IZR y - cy in let t := deg * PI / 180 in
  (cx + (a * cos t + c * sin t), cy + (c * cos t - a * sin t)).
(** A math library whose sine and cosine are accurate for up to one turn. *)
Definition accurate_turn (L : libm) : Prop :=
  forall h, is_finite h = true -> Rabs (B2R h) <= 7 ->
    close (/ 2 ^ 20) (sin (B2R h)) (fsin L h) /\ close (/ 2 ^ 20) (cos (B2R h)) (fcos L h).
