(** What colour operations and conversions compute, as formulas on real
    numbers: the vocabulary of C84-C89. *)
From Coq Require Import Reals ZArith.
From Flocq Require Import IEEE754.BinarySingleNaN.
From Verif Require Import F32 Color.
Open Scope R_scope.

(** [x] is a number that differs from [r] by at most [e]. *)
Definition close (e r : R) (x : f32) : Prop := is_finite x = true /\ Rabs (B2R x - r) <= e.

(** [r] brought into [0,1]. *)
Definition limited (r : R) : R := Rmax 0 (Rmin r 1).

(** Each colour channel of [o] is within [e] of the formula [f] applied to
    that channel of [c], and alpha is unchanged. *)
Definition channelwise (e : R) (f : R -> R) (c o : col) : Prop :=
  close e (f (B2R (d0 c))) (d0 o) /\ close e (f (B2R (d1 c))) (d1 o) /\ close e (f (B2R (d2 c))) (d2 o) /\
  d3 o = d3 c.
(** The colour channels of [o] are within [e] of the three numbers. *)
Definition colour_close (e : R) (r g b : R) (o : col) : Prop :=
  close e r (d0 o) /\ close e g (d1 o) /\ close e b (d2 o).

(** ** The hue circle: the fully saturated colour of hue [h], in turns *)
Definition hue_red (h : R) : R := limited (Rabs (6 * h - 3) - 1).
Definition hue_green (h : R) : R := limited (2 - Rabs (6 * h - 2)).
Definition hue_blue (h : R) : R := limited (2 - Rabs (6 * h - 4)).

(** The colour channel that belongs to hue [k], saturation [s] and lightness
    [l] or value [v]. *)
Definition hsl_channel (k s l : R) : R := l + s * (1 - Rabs (2 * l - 1)) * (k - / 2).
Definition hsv_channel (k s v : R) : R := v * (1 - s * (1 - k)).

(** [o] is, within [e], the colour with that hue, saturation and lightness
    (or value). *)
Definition is_hsl (e h s l : R) (o : col) : Prop :=
  colour_close e (hsl_channel (hue_red h) s l) (hsl_channel (hue_green h) s l) (hsl_channel (hue_blue h) s l) o.
Definition is_hsv (e h s v : R) (o : col) : Prop :=
  colour_close e (hsv_channel (hue_red h) s v) (hsv_channel (hue_green h) s v) (hsv_channel (hue_blue h) s v) o.

(** A [powf] whose results are within 1/2^20 of the exact power of a number in
    (0,1] with a positive exponent up to 1000 (results below 2^-100 may be off
    by 2^-100), and 0 for 0. *)
Definition accurate_powf (L : libm) : Prop :=
  forall x y, is_finite x = true -> is_finite y = true -> 0 < B2R y <= 1000 ->
  (0 < B2R x <= 1 ->
   close (/ 1048576 * Rpower (B2R x) (B2R y) + / 2 ^ 100) (Rpower (B2R x) (B2R y)) (powf L x y)) /\
  (B2R x = 0 -> close 0 0 (powf L x y)).

(** A [powf] that stays in [0,1] there. *)
Definition bounded_powf (L : libm) : Prop :=
  forall x y, fle f0 x = true /\ fle x f1 = true -> is_finite y = true -> 0 < B2R y ->
  fle f0 (powf L x y) = true /\ fle (powf L x y) f1 = true.

(** A number up to 2^60. *)
Definition moderate (x : f32) : Prop := is_finite x = true /\ Rabs (B2R x) <= 2 ^ 60.

(** The grey value of a colour; [None] for the saturation, see C85. *)
Definition gray_formula (i : intensity) (r g b : R) : option R :=
  match i with
  | Average => Some ((r + g + b) / 3)
  | Rec601Luma => Some (298839 / 1000000 * r + 586811 / 1000000 * g + 114350 / 1000000 * b)
  | Rec709Luma => Some (212656 / 1000000 * r + 715158 / 1000000 * g + 72186 / 1000000 * b)
  | Brightness => Some (Rmax r (Rmax g b))
  | Lightness => Some ((Rmin r (Rmin g b) + Rmax r (Rmax g b)) / 2)
  | Saturation => None
  | IRed => Some r
  | IGreen => Some g
  | IBlue => Some b
  end.
(** [v] to the power [1/gamma]. *)
Definition gamma_formula (gamma v : R) : R := if Req_EM_T v 0 then 0 else Rpower v (/ gamma).
(** [gamma_opt]: the power [1/gamma] on the brighter and the power [gamma] on
    the darker half of the range. *)
Definition gamma_opt_formula (gamma v : R) : R :=
  if Rlt_dec (/ 2) v then gamma_formula gamma (2 * v - 1) / 2 + / 2 else gamma_formula (/ gamma) (2 * v) / 2.
(** A gamma from 1/1000 to 1000. *)
Definition usual_gamma (g : f32) : Prop := is_finite g = true /\ / 1000 <= B2R g <= 1000.

(** ** The sRGB transfer function of IEC 61966-2-1 *)
Definition srgb_decode (v : R) : R :=
  if Rle_dec v (4045 / 100000) then v / (1292 / 100) else Rpower ((v + 55 / 1000) / (1055 / 1000)) (24 / 10).
(** The standard's limit 0.0031308 has one more digit here, as in the code. *)
Definition srgb_encode (v : R) : R :=
  if Rle_dec v (3130805 / 1000000000) then 1292 / 100 * v else 1055 / 1000 * Rpower v (10 / 24) - 55 / 1000.
