(** The Lanczos filter as a formula on real numbers: the vocabulary of C106. *)
From Coq Require Import Reals ZArith.
From Flocq Require Import Core.Core IEEE754.BinarySingleNaN.
From Verif Require Import F32 Color MeaningSpec.
Open Scope R_scope.

(** The normalised cardinal sine and the Lanczos window with three lobes. *)
Definition cardinal_sine (x : R) : R := if Req_EM_T x 0 then 1 else sin (PI * x) / (PI * x).
Definition window (v : R) : R := if Rlt_dec (Rabs v) 3 then cardinal_sine v * cardinal_sine (v / 3) else 0.
(** The [2 * r + 1] values of [f] around [p], weighted with the window
    stretched from the half-width 3 to the half-width [s] and flattened by the
    same factor. *)
Definition lanczos_curve (s : R) (r : Z) (f : Z -> R) (p : R) : R :=
  let k := Zfloor p in let t := p - IZR k in
  sum_f_R0 (fun i => let d := (Z.of_nat i - r)%Z in 3 / s * window (3 * (IZR d - t) / s) * f (k + d)%Z) (Z.to_nat (2 * r)).

(** A math library whose sine is accurate, relative to its argument, up to
    one and a half turns. *)
Definition accurate_sine (L : libm) : Prop :=
  forall h, is_finite h = true -> Rabs (B2R h) <= 10 -> close (Rabs (B2R h) / 2 ^ 19) (sin (B2R h)) (fsin L h).

(** [size] is the number of pixels to each side that Auto reads when [w] by
    [h] pixels are shrunk to [w'] by [h']: twice the reduction, at least 3,
    rounded up, or the next number if rounding errors lead there; and the
    half-width of the window it uses with it. *)
Definition auto_window (w h w' h' size : Z) (s : R) : Prop :=
  let wanted := Rmax 3 (2 * Rmax (IZR w / IZR w') (IZR h / IZR h')) in
  wanted * (1 - / 2 ^ 20) <= IZR size < wanted * (1 + / 2 ^ 20) + 1 /\
  s = IZR (if (size =? 3)%Z then 3 else if (size <=? 6)%Z then 2 * size + 1 else size).
