(** Averages and the exponents of the automatic corrections: the vocabulary
    of C98-C100. *)
From Coq Require Import Reals ZArith List.
From Verif Require Import F32 Color.
Import ListNotations.
Open Scope R_scope.

(** The sum and the mean of a quantity over the pixels. *)
Definition sum_of {A} (f : A -> R) (l : list A) : R := fold_right (fun a s => f a + s) 0 l.
Definition mean {A} (f : A -> R) (l : list A) : R := sum_of f l / INR (length l).

(** The gamma for a pixel of lightness [l]: full effect at 1/2, none at 0 and 1. *)
Definition gamma_at (g l : R) : R := 1 + (g - 1) * (1 - Rabs (2 * l - 1)).

(** The gamma that [optimize_saturation] is meant to use: [offset], and more
    the duller the image is. *)
Definition wanted_gamma (offset : R) (saturation : col -> R) (pixels : list col) : R :=
  offset + (1 - mean saturation pixels) * (2 / 3).
