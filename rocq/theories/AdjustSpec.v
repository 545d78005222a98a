(** Neutral settings and repeated adjustments (the vocabulary of C132). *)
From Coq Require Import Reals ZArith.
From Flocq Require Import IEEE754.BinarySingleNaN.
From Verif Require Import F32 Color MeaningSpec PyColor.
Open Scope R_scope.

(** The settings that are meant to change nothing. *)
Inductive neutral : py_method -> Prop :=
| nt_brightness : neutral (WithBrightness f0)
| nt_contrast : neutral (WithContrast f1)
| nt_brightness_contrast : neutral (WithBrightnessContrast f0 f1)
| nt_gamma : neutral (WithGamma f1)
| nt_gamma_opt : neutral (WithGammaOpt f1)
| nt_level : neutral (WithLevel f0 f1 f1)
| nt_saturation : neutral (WithSaturation f1)
| nt_stretch : neutral (StretchSaturation f1)
| nt_gamma_saturation : neutral (WithGammaSaturation f1)
| nt_lightness : neutral (WithLightness f1)
| nt_hue d : is_finite d = true -> B2R d = 0 \/ B2R d = 360 \/ B2R d = -360 -> neutral (WithHueRotate d)
| nt_modulate : neutral (Modulate f1 f1 f1).

(** The formula [f] gives numbers in [0,1] for the three channels: nothing is cut off. *)
Definition not_cut (f : R -> R) (c : col) : Prop :=
  0 <= f (B2R (d0 c)) <= 1 /\ 0 <= f (B2R (d1 c)) <= 1 /\ 0 <= f (B2R (d2 c)) <= 1.

(** How far an error of [e] in a number of [0,1] can grow in the power [1/gamma]. *)
Definition power_error (e gamma : R) : R := if Rle_dec 1 gamma then Rpower e (/ gamma) else e / gamma.
