(** C131: the methods of Python colours and their formulas. *)
From Coq Require Import Reals ZArith List String.
From Flocq Require Import IEEE754.BinarySingleNaN.
From Verif Require Import Base PixelBuffer F32 Color ColorSpec MeaningSpec DrawSpec LanczosSpec Image Commands CliSpec PySpec PyImage PyColor Names ScriptSpec MethodSpec IdealPowf IdealLibm.
Import ListNotations.
Open Scope R_scope.

(* PROPERTIES *)
From Coq Require Import Lia Lra.
From Verif Require Import F32Lemmas MethodProofs DrawMeanThm HueThm CliProofs.
From Verif Require Text.

(** C131: each method of a Python colour computes its formula from its arguments in their order. *)
Lemma python_methods : forall L f c, in_gamut c -> reasonable L f -> exists o, py_method_call L f c = ROk o /\ method_formula L f c o.
Proof. exact method_computes. Qed.

(** C131: a grey formula that is not on the list is an OSError with the name in it. *)
Lemma python_unknown_gray : forall L s c, (forall i, ~ called intensity_names (Some s) "rec709luma" i) ->
  py_method_call L (ToGray (Some s)) c = RErr (OSErrorName (mkPEE s "Intensity")).
Proof. exact unknown_gray. Qed.

(** C131: both loops over the colours of an image apply the method to every pixel, in place and as a new image. *)
Lemma python_methods_on_images : forall L f i, (forall c, In c (data (buffer i)) -> in_gamut c) -> reasonable L f -> exists d,
  py_mod_colors (fun (_ : unit) c => Ok (tt, py_method_call L f c)) tt i = Ok (tt, same_with i d, ROk tt) /\
  py_map_colors (fun (_ : unit) c => Ok (tt, py_method_call L f c)) tt i = Ok (tt, ROk (same_with i d)) /\
  Forall2 (method_formula L f) (data (buffer i)) d.
Proof. exact methods_images. Qed.

(** C131: the command of the same name applies the same formula to every pixel. *)
Lemma commands_compute_methods : forall R (e : env R) cmd f i w, colour_method cmd f ->
  (forall c, In c (data (buffer i)) -> in_gamut c) -> reasonable (e_libm e) f ->
  exists d, execute_cmd e cmd (Some i) w = Ok (Some (same_with i d), w, ROk tt) /\ Forall2 (method_formula (e_libm e) f) (data (buffer i)) d.
Proof. intros R e cmd f i w. exact (command_computes e cmd f i w). Qed.

Example methods_example : forall L,
  Forall (reasonable (ideal_libm L)) [ToGray None; ToGray (Some "average"%string); Invert; Difference RGB_RED; WithGamma f2; WithGammaOpt f2;
    WithLevel (dec 1 4) (dec 3 4) f2; WithBrightness (dec 1 2); WithSaturation f2; StretchSaturation f2; WithGammaSaturation f2; WithLightness f2;
    WithHueRotate (ofZ (-90)); WithContrast f2; WithBrightnessContrast f1 f2; AlphaBlend RGB_RED; WithSepia; Modulate f1 f2 f1] /\
  reasonable (full_libm L) (WithVibrance (dec 1 2)) /\
  in_gamut (mkC (dec 1 2) (dec 3 4) (dec 1 4) (dec 1 2)) /\
  (forall i, ~ called intensity_names (Some "gray"%string) "rec709luma" i).
Proof.
  intros L. assert (M2 : moderate f2) by apply (hue_operations_example L). assert (U : usual_gamma f2) by apply (hue_operations_example L).
  assert (A : accurate_powf (ideal_libm L)) by apply (hue_operations_example L). assert (B : bounded_powf (ideal_libm L)) by apply (hue_operations_example L).
  assert (D : (Rabs (B2R (ofZ (-90))) <= 360)%R) by apply (hue_operations_example L).
  assert (M1 : moderate f1). { split; [reflexivity|]. rewrite f1_R, Rabs_R1. apply pow_R1_Rle. lra. }
  assert (MH : moderate (dec 1 2)). { split; [reflexivity|]. fval (dec 1 2) E. rewrite E. rewrite Rabs_right by lra. apply Rle_trans with 1%R; [lra|]. apply pow_R1_Rle. lra. }
  assert (C : exists i, called intensity_names None "rec709luma" i). { exists Rec709Luma. cbv. tauto. }
  assert (C2 : exists i, called intensity_names (Some "average"%string) "rec709luma" i). { exists Average. cbv. tauto. }
  assert (V : (/ 2 ^ 20 <= B2R (dec 3 4) - B2R (dec 1 4))%R). { fval (dec 3 4) E. fval (dec 1 4) E'. rewrite E, E'. lra. }
  assert (G : in_gamut RGB_RED) by (repeat split; reflexivity).
  split. { repeat (apply Forall_cons; [cbn [reasonable]; repeat match goal with |- _ /\ _ => split end; try assumption; try reflexivity; try (split; reflexivity)|]). apply Forall_nil. }
  split. { pose proof (vibrance_example L) as (X & _ & Y & Z & _). cbn [reasonable]. split; [exact X|]. split; [exact Y|exact Z]. }
  split; [repeat split; reflexivity|].
  intros i H. apply (proj1 intensity_named) in H. vm_compute in H. discriminate H.
Qed.
