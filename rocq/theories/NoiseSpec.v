(** Specification for C47 and C48: which random numbers each pixel gets. *)
From Coq Require Import ZArith List.
From Verif Require Import Base PixelBuffer BufferSpec F32 Color ColorSpec Ops OpsSpec.
Import ListNotations.
Open Scope Z_scope.

(** Salt and pepper: one number is drawn for the pixel; below the threshold it
    becomes black, above 1 minus the threshold white. *)
Definition salted {S} (g : rng S) (threshold : f32) (s : S) (c : Rgb) (s' : S) (c' : Rgb) : Prop :=
  exists u, gen_unit g s = (s', u) /\
    c' = if flt u threshold then RGB_BLACK else if flt (fsub f1 threshold) u then RGB_WHITE else c.

(** Rgb noise: one number is drawn for the pixel; only if it is below the
    threshold another one chooses the channel that becomes 1. *)
Definition speckled {S} (g : rng S) (threshold : f32) (s : S) (c : Rgb) (s' : S) (c' : Rgb) : Prop :=
  exists s1 u, gen_unit g s = (s1, u) /\
    if flt u threshold
    then exists i, gen_three g s1 = (s', i) /\
      (i = 0 -> c' = mkC f1 (d1 c) (d2 c) (d3 c)) /\ (i = 1 -> c' = mkC (d0 c) f1 (d2 c) (d3 c)) /\
      (i = 2 -> c' = mkC (d0 c) (d1 c) f1 (d3 c))
    else s' = s1 /\ c' = c.

(** Random and gaussian noise: three numbers are drawn, one after the other, for
    the three colour channels. *)
Definition mixed {S} (gen : S -> S * f32) (k : kind) (strength : f32) (s : S) (c : col) (s' : S) (c' : col) : Prop :=
  let mix n v := fadd (fmul n strength) (fmul (fsub f1 strength) v) in
  exists s1 s2 n0 n1 n2, gen s = (s1, n0) /\ gen s1 = (s2, n1) /\ gen s2 = (s', n2) /\
    c' = mkC (stored k (mix n0 (d0 c))) (stored k (mix n1 (d1 c))) (stored k (mix n2 (d2 c))) (stored k (d3 c)).
