(** Property theorems, generated from LevelOrderThm.v by tools/mkp.py. *)

From Coq Require Import Reals ZArith List Bool.
From Flocq Require Import IEEE754.BinarySingleNaN.
From Verif Require Import Base F32 Color ColorSpec MeaningSpec IdealPowf OrderSpec.
Open Scope R_scope.

From Verif Require Import LevelOrderThm.


(** C124: a level change with any two points in [0,1] is a curve that never
    falls or one that never rises: it never rises if the black point is above
    the white point by 2^-23 or more, and never falls if it is above by 2^-24
    at most. *)

Theorem C124_levels_with_any_points : forall L, bounded_powf L -> monotone_powf L -> forall b w g, in01 b -> in01 w -> usual_gamma g ->
  (exists up, tone_curve up (with_level L b w g)) /\
  (/ 8388608 <= B2R b - B2R w -> tone_curve false (with_level L b w g)) /\
  (B2R b - B2R w <= / 16777216 -> tone_curve true (with_level L b w g)).
Proof. exact levels_with_any_points. Qed.
Print Assumptions C124_levels_with_any_points.

Example C124_levels_with_any_points_example : (exists L, bounded_powf L /\ monotone_powf L) /\ in01 (dec 9 10) /\ in01 (dec 1 10) /\ usual_gamma f2 /\ / 8388608 <= B2R (dec 9 10) - B2R (dec 1 10).
Proof. exact levels_with_any_points_example. Qed.


(** C124: a user may expect that exchanged points always reverse the order, as
    with a black point above the white point the image is inverted.  It is not
    if they are too close. *)

Theorem C124_exchanged_levels_refuted : forall L, accurate_powf L -> bounded_powf L ->
  exists b w, in01 b /\ in01 w /\ flt w b = true /\ ~ tone_curve false (with_level L b w f1).
Proof. exact exchanged_levels_refuted. Qed.
Print Assumptions C124_exchanged_levels_refuted.

Example C124_exchanged_levels_example : exists L, accurate_powf L /\ bounded_powf L.
Proof. exact exchanged_levels_example. Qed.
