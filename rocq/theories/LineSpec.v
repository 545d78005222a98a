(** Several changes of tone in a row, as one formula (the vocabulary of C134). *)
From Coq Require Import Reals ZArith List.
From Flocq Require Import IEEE754.BinarySingleNaN.
From Verif Require Import F32 Color MeaningSpec Commands.
Import ListNotations.
Open Scope R_scope.

(** [tones cmds F K E]: the commands, the first one first, make [F v] of a
    channel [v]; a change of [v] becomes at most [K] times as large, and the
    rounding errors of all steps add up to at most [E]. *)
Inductive tones : list Cmd -> (R -> R) -> R -> R -> Prop :=
| tn_nothing : tones [] (fun v => v) 1 0
| tn_invert cmds F K E : tones cmds F K E -> tones (CmdInvert :: cmds) (fun v => F (1 - v)) K (K * / 2 ^ 25 + E)
| tn_brightness k cmds F K E : moderate k -> tones cmds F K E ->
    tones (CmdBrightness k :: cmds) (fun v => F (limited (v + B2R k))) K (K * / 2 ^ 24 + E)
| tn_contrast k cmds F K E : moderate k -> tones cmds F K E ->
    tones (CmdContrast k :: cmds) (fun v => F (limited ((v - / 2) * B2R k + / 2))) (K * Rabs (B2R k)) (K * ((4 + 4 * Rabs (B2R k)) / 2 ^ 24) + E)
| tn_brightness_contrast b k cmds F K E : moderate b -> moderate k -> tones cmds F K E ->
    tones (CmdBrightnessContrast b k :: cmds) (fun v => F (limited ((v + B2R b - / 2) * B2R k + / 2))) (K * Rabs (B2R k))
      (K * ((1 + Rabs (B2R k)) * (8 + 5 * Rabs (B2R b)) / 2 ^ 24) + E)
| tn_gamma g cmds F K E : usual_gamma g -> B2R g <= 1 -> tones cmds F K E ->
    tones (CmdGamma g :: cmds) (fun v => F (gamma_formula (B2R g) v)) (K / B2R g) (K * / 2 ^ 19 + E).

(** How far a stored byte may be off: 1/64 if errors before storing are small. *)
Definition line_error (K E : R) : R := Rmax 1 ((K * (23 / 10000000) + E) * 250000) / 64.
