(** XYZ, YUV, Lab and LCh as formulas on real numbers. *)
From Coq Require Import Reals ZArith.
From Flocq Require Import IEEE754.BinarySingleNaN.
From Verif Require Import F32 Color MeaningSpec.
Open Scope R_scope.

(** Three numbers up to [M]. *)
Definition channels_to (M : R) (c : col) : Prop :=
  (is_finite (d0 c) = true /\ is_finite (d1 c) = true /\ is_finite (d2 c) = true) /\
  (Rabs (B2R (d0 c)) <= M /\ Rabs (B2R (d1 c)) <= M /\ Rabs (B2R (d2 c)) <= M).

(** ** XYZ: the matrices of Rec. 709 primaries and D65, to six digits *)
Definition x_of (r g b : R) : R := 412453 / 1000000 * r + 357580 / 1000000 * g + 180423 / 1000000 * b.
Definition y_of (r g b : R) : R := 212671 / 1000000 * r + 715160 / 1000000 * g + 72169 / 1000000 * b.
Definition z_of (r g b : R) : R := 19334 / 1000000 * r + 119193 / 1000000 * g + 950227 / 1000000 * b.
Definition xyz_red (x y z : R) : R := 3240479 / 1000000 * x - 1537150 / 1000000 * y - 498535 / 1000000 * z.
Definition xyz_green (x y z : R) : R := - 969256 / 1000000 * x + 1875991 / 1000000 * y + 41556 / 1000000 * z.
Definition xyz_blue (x y z : R) : R := 55648 / 1000000 * x - 204043 / 1000000 * y + 1057311 / 1000000 * z.

(** ** YUV of the sRGB channels: the luma of Rec. 601 and the differences of
    blue and red from it, scaled *)
Definition luma (r g b : R) : R := 299 / 1000 * r + 587 / 1000 * g + 114 / 1000 * b.
Definition u_of (r g b : R) : R := 492111 / 1000000 * (b - luma r g b).
Definition v_of (r g b : R) : R := 877283 / 1000000 * (r - luma r g b).
Definition yuv_red (y v : R) : R := y + 1139883 / 1000000 * v.
Definition yuv_green (y u v : R) : R := y - 39464232 / 100000000 * u - 58062184 / 100000000 * v.
Definition yuv_blue (y u : R) : R := y + 20320618 / 10000000 * u.

(** ** CIE Lab, scaled by 1/100 and 1/128 *)
Definition cube_root (v : R) : R := Rpower v (/ 3).
Definition lab_curve (v : R) : R :=
  if Rlt_dec v (8856 / 1000000) then (9033 / 10 * v + 16) / 116 else cube_root v.
Definition lab_uncurve (t : R) : R :=
  if Rle_dec t (20689303 / 100000000) then (t - 16 / 116) / (7787 / 1000) else t ^ 3.
Definition white (i : illuminant) (o : observer) : R * R * R :=
  match i, o with
  | D50, O2 => (964212 / 1000000, 1, 8251883 / 10000000)
  | D50, O10 => (9672063 / 10000000, 1, 81428015 / 100000000)
  | D65, O2 => (95047 / 100000, 1, 108883 / 100000)
  | D65, O10 => (9480967 / 10000000, 1, 10730513 / 10000000)
  | IllE, _ => (1, 1, 1)
  end.
Definition lab_l (y : R) : R := (116 * lab_curve y - 16) / 100.
Definition lab_a (x y : R) : R := 500 * (lab_curve x - lab_curve y) / 128.
Definition lab_b (y z : R) : R := 200 * (lab_curve y - lab_curve z) / 128.

(** XYZ channels from -0.005 to 2. *)
Definition xyz_range (c : col) : Prop :=
  (is_finite (d0 c) = true /\ is_finite (d1 c) = true /\ is_finite (d2 c) = true) /\
  (- / 200 <= B2R (d0 c) <= 2 /\ - / 200 <= B2R (d1 c) <= 2 /\ - / 200 <= B2R (d2 c) <= 2).
(** Lightness from -0.5 to 1.5, a from -5 to 5, b from -2 to 2. *)
Definition lab_range (c : col) : Prop :=
  (is_finite (d0 c) = true /\ is_finite (d1 c) = true /\ is_finite (d2 c) = true) /\
  (- / 2 <= B2R (d0 c) <= 3 / 2 /\ - 5 <= B2R (d1 c) <= 5 /\ - 2 <= B2R (d2 c) <= 2).

(** ** What is asked of the mathematical library *)

(** A [powf] that is also within 1/2^20 of the exact power of numbers from 1
    to 4, for exponents up to 3. *)
Definition accurate_powf_above (L : libm) : Prop :=
  forall x y, is_finite x = true -> is_finite y = true -> 1 <= B2R x <= 4 -> 0 < B2R y <= 3 ->
  close (/ 1048576 * Rpower (B2R x) (B2R y)) (Rpower (B2R x) (B2R y)) (powf L x y).
(** Sine and cosine within 1/2^20, and an [atan2] that is within 1/2^20 of an
    angle of the point. *)
Definition accurate_angles (L : libm) : Prop :=
  (forall h, is_finite h = true -> Rabs (B2R h) <= 4 ->
     close (/ 1048576) (sin (B2R h)) (fsin L h) /\ close (/ 1048576) (cos (B2R h)) (fcos L h)) /\
  (forall b a, is_finite a = true -> is_finite b = true ->
     exists t r, Rabs t <= PI /\ 0 <= r /\ B2R a = r * cos t /\ B2R b = r * sin t /\ close (/ 1048576) t (fatan2 L b a)).
