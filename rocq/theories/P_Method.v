(** Property theorems, generated from MethodThm.v by tools/mkp.py. *)

From Coq Require Import Reals ZArith List String.
From Flocq Require Import IEEE754.BinarySingleNaN.
From Verif Require Import Base PixelBuffer F32 Color ColorSpec MeaningSpec DrawSpec LanczosSpec Image Commands CliSpec PySpec PyImage PyColor Names ScriptSpec MethodSpec IdealPowf IdealLibm.
Import ListNotations.
Open Scope R_scope.

From Verif Require Import MethodThm.


(** C131: each method of a Python colour computes its formula from its arguments in their order. *)

Theorem C131_python_methods : forall L f c, in_gamut c -> reasonable L f -> exists o, py_method_call L f c = ROk o /\ method_formula L f c o.
Proof. exact python_methods. Qed.
Print Assumptions C131_python_methods.


(** C131: a grey formula that is not on the list is an OSError with the name in it. *)

Theorem C131_python_unknown_gray : forall L s c, (forall i, ~ called intensity_names (Some s) "rec709luma" i) ->
  py_method_call L (ToGray (Some s)) c = RErr (OSErrorName (mkPEE s "Intensity")).
Proof. exact python_unknown_gray. Qed.
Print Assumptions C131_python_unknown_gray.


(** C131: both loops over the colours of an image apply the method to every pixel, in place and as a new image. *)

Theorem C131_python_methods_on_images : forall L f i, (forall c, In c (data (buffer i)) -> in_gamut c) -> reasonable L f -> exists d,
  py_mod_colors (fun (_ : unit) c => Ok (tt, py_method_call L f c)) tt i = Ok (tt, same_with i d, ROk tt) /\
  py_map_colors (fun (_ : unit) c => Ok (tt, py_method_call L f c)) tt i = Ok (tt, ROk (same_with i d)) /\
  Forall2 (method_formula L f) (data (buffer i)) d.
Proof. exact python_methods_on_images. Qed.
Print Assumptions C131_python_methods_on_images.


(** C131: the command of the same name applies the same formula to every pixel. *)

Theorem C131_commands_compute_methods : forall R (e : env R) cmd f i w, colour_method cmd f ->
  (forall c, In c (data (buffer i)) -> in_gamut c) -> reasonable (e_libm e) f ->
  exists d, execute_cmd e cmd (Some i) w = Ok (Some (same_with i d), w, ROk tt) /\ Forall2 (method_formula (e_libm e) f) (data (buffer i)) d.
Proof. exact commands_compute_methods. Qed.
Print Assumptions C131_commands_compute_methods.

Example C131_methods_example : forall L,
  Forall (reasonable (ideal_libm L)) [ToGray None; ToGray (Some "average"%string); Invert; Difference RGB_RED; WithGamma f2; WithGammaOpt f2;
    WithLevel (dec 1 4) (dec 3 4) f2; WithBrightness (dec 1 2); WithSaturation f2; StretchSaturation f2; WithGammaSaturation f2; WithLightness f2;
    WithHueRotate (ofZ (-90)); WithContrast f2; WithBrightnessContrast f1 f2; AlphaBlend RGB_RED; WithSepia; Modulate f1 f2 f1] /\
  reasonable (full_libm L) (WithVibrance (dec 1 2)) /\
  in_gamut (mkC (dec 1 2) (dec 3 4) (dec 1 4) (dec 1 2)) /\
  (forall i, ~ called intensity_names (Some "gray"%string) "rec709luma" i).
Proof. exact methods_example. Qed.
