(** White light of a colour temperature: the vocabulary of C100 and C101. *)
From Coq Require Import Reals ZArith List.
From Flocq Require Import IEEE754.BinarySingleNaN.
From Verif Require Import F32 Color ColorSpec MeaningSpec ConvSpec.
Import ListNotations.
Open Scope R_scope.

(** CIE chromaticities of black bodies of 1000, 2000, ..., 12000 K. *)
Definition cie_table : list (R * R) :=
  let e15 := 1000000000000000 in
  [(652750055750174 / e15, 344462227197370 / e15); (526676280311873 / e15, 413297274507630 / e15);
   (436929833678155 / e15, 404073616886221 / e15); (380438429420364 / e15, 376746069841299 / e15);
   (345100160725069 / e15, 351607005318840 / e15); (322082269887888 / e15, 331752126277376 / e15);
   (306372718718652 / e15, 316511125739794 / e15); (295186142428596 / e15, 304763622626521 / e15);
   (286924765725065 / e15, 295581717193809 / e15); (280632719756407 / e15, 288286029784579 / e15);
   (275714062105148 / e15, 282393589935205 / e15); (271782994107569 / e15, 277561259748537 / e15)].
Definition cie_entry (i : Z) : R * R := nth (Z.to_nat i) cie_table (0, 0).

(** The chromaticity at [T] K, from the entries below and above. One kelvin
    above an entry the entry itself is taken. *)
Definition cie_xy (T : Z) : R * R :=
  let (x, y) := cie_entry (T / 1000 - 1) in
  if (T mod 1000 <=? 1)%Z then (x, y)
  else let (x', y') := cie_entry (T / 1000) in let f := IZR (T mod 1000) / 1000 in
       (x * (1 - f) + x' * f, y * (1 - f) + y' * f).

(** Its colour with luminance 1, limited to what RGB can hold. *)
Definition white_red (T : Z) : R := let (x, y) := cie_xy T in limited (xyz_red (x / y) 1 ((1 - x - y) / y)).
Definition white_green (T : Z) : R := let (x, y) := cie_xy T in limited (xyz_green (x / y) 1 ((1 - x - y) / y)).
Definition white_blue (T : Z) : R := let (x, y) := cie_xy T in limited (xyz_blue (x / y) 1 ((1 - x - y) / y)).

(** A hyperbolic tangent of f64 that is off by at most 2^-40 up to 2. *)
Definition accurate_tanh (L : libm) : Prop :=
  forall x, is_finite x = true -> Rabs (B2R x) <= 2 ->
  is_finite (dtanh L x) = true /\ Rabs (B2R (dtanh L x) - tanh (B2R x)) <= / 2 ^ 40.
