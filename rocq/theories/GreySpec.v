(** Greys (the vocabulary of C133). *)
From Coq Require Import Reals ZArith List.
From Flocq Require Import IEEE754.BinarySingleNaN.
From Verif Require Import F32 Color ColorSpec MeaningSpec LanczosSpec Commands PyColor ScriptSpec MethodSpec.
Import ListNotations.
Open Scope R_scope.

(** All three channels are the same, to the last bit. *)
Definition grey (c : col) : Prop := d1 c = d0 c /\ d2 c = d0 c.

(** Methods that turn hues or make colours stronger or weaker. *)
Inductive colour_strength (L : libm) : py_method -> Prop :=
| cs_saturation k : is_finite k = true -> colour_strength L (WithSaturation k)
| cs_stretch k : is_finite k = true -> 1 <= B2R k <= 2 ^ 60 -> colour_strength L (StretchSaturation k)
| cs_gamma g : accurate_powf L -> usual_gamma g -> colour_strength L (WithGammaSaturation g)
| cs_hue d : colour_strength L (WithHueRotate d)
| cs_vibrance k : accurate_sine L -> is_finite k = true -> colour_strength L (WithVibrance k).

(** A command line's changes of colour, in order: commands and the methods
    they stand for, with usual arguments, and no weakened stretched saturation. *)
Definition no_weak_stretch (f : py_method) : Prop := match f with StretchSaturation k => 1 <= B2R k | _ => True end.
Definition colour_changes (L : libm) (cmds : list Cmd) : Prop :=
  Forall (fun c => exists f, colour_method c f /\ reasonable L f /\ no_weak_stretch f) cmds.
