(** What the text form of a colour and the accessors should be: a small
    vocabulary, independent of the model's functions. *)
From Coq Require Import Reals ZArith List Bool String Ascii.
From Flocq Require Import Core.Core IEEE754.BinarySingleNaN.
From Verif Require Import Base F32 Color.
Import ListNotations.
Local Open Scope string_scope.
Local Open Scope R_scope.

(** ** Decimal numbers *)

Definition digit (c : ascii) : option Z :=
  let n := Z.of_N (N_of_ascii c) in
  if (48 <=? n)%Z && (n <=? 57)%Z then Some (n - 48)%Z else None.
(** The number written by the digits of [s], behind the digits of [acc]. *)
Fixpoint digits_val (acc : Z) (s : string) : option Z :=
  match s with
  | EmptyString => Some acc
  | String c s => match digit c with Some d => digits_val (10 * acc + d)%Z s | None => None end
  end.
Definition natural (s : string) (n : Z) : Prop := s <> "" /\ digits_val 0 s = Some n.
(** [s] is a number such as [12] or [0.5] with the value [r] and [d] digits
    after the point. *)
Inductive unsigned : string -> R -> nat -> Prop :=
| whole s n : natural s n -> unsigned s (IZR n) 0
| fraction s t n m : natural s n -> natural t m ->
    unsigned (s ++ "." ++ t) (IZR n + IZR m / 10 ^ String.length t) (String.length t).
Inductive decimal : string -> R -> nat -> Prop :=
| positive s r d : unsigned s r d -> decimal s r d
| negative s r d : unsigned s r d -> decimal ("-" ++ s) (- r) d.

(** ** [f32::to_string] *)

(** The real rounded to 24 bits: what reading a decimal number gives. *)
Definition nearest (r : R) : R := round radix2 (SpecFloat.fexp 24 128) (round_mode mode_NE) r.
(** What the standard library promises: the text of a finite number is a
    decimal number that reads back as the same value, and no shorter fraction
    would do. *)
Record prints (show : f32 -> string) : Prop := {
  shows_finite : forall v, is_finite v = true ->
    exists r d, decimal (show v) r d /\ nearest r = B2R v /\
      forall s r' d', decimal s r' d' -> nearest r' = B2R v -> (d <= d')%nat;
  shows_nan : show B754_nan = "NaN";
  shows_inf : show (B754_infinity false) = "inf";
  shows_neg_inf : show (B754_infinity true) = "-inf" }.

(** [t] is a decimal number with one to four digits after the point, and is
    [v] to four places, up to the rounding of a few operations. *)
Definition four_places (t : string) (v : f32) : Prop :=
  exists r d, decimal t r d /\ (1 <= d <= 4)%nat /\ Rabs (r - B2R v) <= / 19999 + Rabs (B2R v) / 2 ^ 22.

(** The numbers of the colour are finite, and small enough for ten thousand
    times them to be finite. *)
Definition printable (c : col) : Prop :=
  forall v, In v [d0 c; d1 c; d2 c; d3 c] -> is_finite v = true /\ Rabs (B2R v) <= 2 ^ 100.

(** ** Names *)

Definition names (k : kind) : string * (string * string * string) :=
  match k with
  | KRgb => ("rgb", ("red", "green", "blue"))
  | KSrgb => ("srgb", ("red", "green", "blue"))
  | KHsl => ("hsl", ("hue", "saturation", "lightness"))
  | KHsv => ("hsv", ("hue", "saturation", "value"))
  | KYuv => ("yuv", ("y", "u", "v"))
  | KXyz => ("xyz", ("x", "y", "z"))
  | KLab D50 O2 => ("lab<D50,O2>", ("l", "a", "b"))
  | KLab D50 O10 => ("lab<D50,O10>", ("l", "a", "b"))
  | KLab D65 O2 => ("lab<D65,O2>", ("l", "a", "b"))
  | KLab D65 O10 => ("lab<D65,O10>", ("l", "a", "b"))
  | KLab IllE O2 => ("lab<E,O2>", ("l", "a", "b"))
  | KLab IllE O10 => ("lab<E,O10>", ("l", "a", "b"))
  | KLch D50 O2 => ("lch<D50,O2>", ("l", "c", "h"))
  | KLch D50 O10 => ("lch<D50,O10>", ("l", "c", "h"))
  | KLch D65 O2 => ("lch<D65,O2>", ("l", "c", "h"))
  | KLch D65 O10 => ("lch<D65,O10>", ("l", "c", "h"))
  | KLch IllE O2 => ("lch<E,O2>", ("l", "c", "h"))
  | KLch IllE O10 => ("lch<E,O10>", ("l", "c", "h"))
  end.

(** ** Iterators *)

(** What [n] calls give, one after the other, and the state they leave. *)
Fixpoint calls {S A} (next : S -> option A * S) (n : nat) (s : S) : list (option A) * S :=
  match n with
  | O => ([], s)
  | S n => let '(v, s) := next s in let '(vs, s) := calls next n s in (v :: vs, s)
  end.
(** An iterator over a list. *)
Definition list_next {A} (l : list A) : option A * list A := match l with [] => (None, []) | x :: l => (Some x, l) end.

(** ** The arguments of the Python functions *)

Inductive chosen_illuminant : option string -> illuminant -> Prop :=
| ill_default : chosen_illuminant None D65
| ill_D65 : chosen_illuminant (Some "D65") D65
| ill_D50 : chosen_illuminant (Some "D50") D50
| ill_E : chosen_illuminant (Some "E") IllE.
Inductive chosen_observer : option string -> observer -> Prop :=
| obs_default : chosen_observer None O2
| obs_2 : chosen_observer (Some "2") O2
| obs_10 : chosen_observer (Some "10") O10.
Definition or_nothing (s : option string) (d : string) : string := match s with Some s => s | None => d end.
