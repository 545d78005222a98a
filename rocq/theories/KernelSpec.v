(** Specification vocabulary for convolutions, independent of the code's
    loops. *)
From Coq Require Import ZArith Reals List Bool.
From Flocq Require Import IEEE754.BinarySingleNaN.
From Verif Require Import Base PixelBuffer BufferSpec F32 Color ColorSpec.
Import ListNotations.
Open Scope Z_scope.

(** The weighted sum of some colours, channel by channel, in list order,
    every product and every sum rounded to f32. *)
Definition weighted_channel (pick : Rgb -> f32) (l : list (f32 * Rgb)) : f32 :=
  fold_left (fun acc '(k, c) => fadd acc (fmul k (pick c))) l f0.
Definition weighted_sum (l : list (f32 * Rgb)) : Rgb :=
  mkC (weighted_channel d0 l) (weighted_channel d1 l) (weighted_channel d2 l) (weighted_channel d3 l).

(** The w x h neighbourhood of (x,y), row by row; [w/2] columns lie to the left
    and [h/2] rows above, and coordinates outside the image are replaced by
    the nearest ones inside. *)
Definition neighbourhood {T} (m : build) (b : PixelBuffer T) (w h x y : Z) : res (list T) :=
  map_res (fun '(tx, ty) =>
             get_pixel m b (Z.max 0 (Z.min (x - w / 2 + tx) (width b - 1)))
                           (Z.max 0 (Z.min (y - h / 2 + ty) (height b - 1))))
          (row_major w h).

(** [is_convolution m b w h k r]: [r] is the image [b] convolved with the
    w x h coefficients [k], listed row by row. *)
Definition is_convolution (m : build) (b : PixelBuffer Rgb) (w h : Z) (k : list f32)
  (r : PixelBuffer Rgb) : Prop :=
  valid r /\ width r = width b /\ height r = height b /\
  forall x y, inside b x y -> exists ps,
    neighbourhood m b w h x y = Ok ps /\
    get_pixel m r x y = Ok (weighted_sum (combine k ps)).

(** An N x N array of coefficients. *)
Definition square {A} (N : Z) (k : list (list A)) : Prop :=
  zlen k = N /\ Forall (fun row => zlen row = N) k.

(** 1 in the middle, 0 elsewhere. *)
Definition identity_kernel (N : Z) : list (list f32) :=
  map (fun ty => map (fun tx => if (tx =? N / 2) && (ty =? N / 2) then f1 else f0) (zrange 0 N))
      (zrange 0 N).

(** Every channel is a number (not NaN and not infinite). *)
Definition is_number (v : f32) : Prop := fle (fneg f32_MAX) v = true /\ fle v f32_MAX = true.
Definition numeric (c : col) : Prop :=
  is_number (d0 c) /\ is_number (d1 c) /\ is_number (d2 c) /\ is_number (d3 c).

(** One of red, green, blue and alpha. *)
Definition channel (pick : Rgb -> f32) : Prop := pick = d0 \/ pick = d1 \/ pick = d2 \/ pick = d3.

(** The weighted sum of one channel in real numbers, without rounding. *)
Definition exact_sum (pick : Rgb -> f32) (l : list (f32 * Rgb)) : R :=
  fold_right (fun p acc => (B2R (fst p) * B2R (pick (snd p)) + acc)%R) 0%R l.

(** The f32 distance of two colours: the root of the sum of the squared
    differences of red, green and blue. *)
Definition distance (a b : Rgb) : f32 :=
  let sq x y := fmul (fsub x y) (fsub x y) in
  fsqrt (fadd (fadd (sq (d0 a) (d0 b)) (sq (d1 a) (d1 b))) (sq (d2 a) (d2 b))).

(** The pixel at (x,y), or the nearest one inside the image. *)
Definition nearest_pixel {T} (m : build) (b : PixelBuffer T) (x y : Z) : res T :=
  get_pixel m b (Z.max 0 (Z.min x (width b - 1))) (Z.max 0 (Z.min y (height b - 1))).

(** The offsets of one pixel of each pair of opposite neighbours in the eight
    directions, for the distances 1 to r. *)
Definition half_star (r : Z) : list (Z * Z) :=
  flat_map (fun d => [(- d, - d); (0, - d); (d, - d); (- d, 0)]) (zrange 1 (r + 1)).

(** [c] is the pixel of the pair (x+dx, y+dy), (x-dx, y-dy) whose colour is
    nearer to [center], the second one if they are equally near. *)
Definition nearer_of_pair (m : build) (b : PixelBuffer Rgb) (x y : Z) (center : Rgb) (o : Z * Z) (c : Rgb) : Prop :=
  exists c1 c2, nearest_pixel m b (x + fst o) (y + snd o) = Ok c1 /\
                nearest_pixel m b (x - fst o) (y - snd o) = Ok c2 /\
                c = (if flt (distance c1 center) (distance c2 center) then c1 else c2).

(** The mean of some colours, channel by channel, limited to [0,1]. *)
Definition mean_color (l : list Rgb) : Rgb :=
  let mean pick := clamp (fdiv (fold_left fadd (map pick l) f0) (ofZ (zlen l))) in
  mkC (mean d0) (mean d1) (mean d2) (mean d3).

(** What is assumed of the exponential function: values in [0, 1] for
    arguments up to zero, and exp(0) = 1. *)
Definition exp_ok (L : libm) : Prop :=
  (forall x, fle x f0 = true -> in01 (fexp_ L x)) /\ (forall x, feq x f0 = true -> same (fexp_ L x) f1).

(** A sigma between 10^-6 and 10^6, or the default one of a positive radius. *)
Definition sigma_ok (r : Z) (sigma : option f32) : Prop :=
  match sigma with
  | Some s => fle (dec 1 1000000) s = true /\ fle s (ofZ 1000000) = true
  | None => 1 <= r
  end.


(** exp(-(dx^2+dy^2) / (2 sigma^2)) / (pi 2 sigma^2), in f32. *)
Definition bell (L : libm) (sigma : f32) (dx dy : Z) : f32 :=
  let s := fmul (fmul f2 sigma) sigma in
  let r := fsqrt (fadd (fmul (ofZ dx) (ofZ dx)) (fmul (ofZ dy) (ofZ dy))) in
  fdiv (fexp_ L (fdiv (fneg (fmul r r)) s)) (fmul fPI s).
(** The N x N values around the centre, row by row. *)
Definition gauss_vals (L : libm) (N : Z) (sigma : f32) : list f32 :=
  map (fun '(tx, ty) => bell L sigma (tx - N / 2) (ty - N / 2)) (row_major N N).
(** ... divided by their sum. *)
Definition gauss_weights (L : libm) (N : Z) (sigma : f32) : list f32 :=
  map (fun v => fdiv v (fold_left fadd (gauss_vals L N sigma) f0)) (gauss_vals L N sigma).
(** The given sigma, or half the radius: (N - 1) / 4 for N = 2 r + 1. *)
Definition chosen_sigma (sigma : option f32) (r : Z) : f32 :=
  match sigma with Some s => s | None => fdiv (fsub (ofZ (2 * r + 1)) f1) (ofZ 4) end.

(** A libm whose exp is 1 at zero and above and 1/2 below, for examples. *)
Definition step_libm : libm :=
  mkLibm (fun x _ => x) (fun x => x) (fun x => x)
    (fun x => if is_nan x then x else if flt x f0 then dec 5 10 else f1) (fun x => x) (fun x _ => x) (fun x => x).

(** Pixels below a brightness threshold. *)
Definition darker (threshold : f32) (c : Rgb) : bool := flt (gray_value Average c) threshold.
Definition not_darker (threshold : f32) (c : Rgb) : bool := fle threshold (gray_value Average c).
