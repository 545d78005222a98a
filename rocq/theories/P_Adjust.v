(** Property theorems, generated from AdjustThm.v by tools/mkp.py. *)

From Coq Require Import Reals ZArith List String.
From Flocq Require Import IEEE754.BinarySingleNaN.
From Verif Require Import Base PixelBuffer F32 Color ColorSpec MeaningSpec DrawSpec LanczosSpec Image Commands PySpec PyColor ScriptSpec Codec CodecSpec Cli CliSpec EndSpec ReopenSpec MethodSpec AdjustSpec IdealPowf IdealLibm.
Import ListNotations.
Open Scope R_scope.

From Verif Require Import AdjustThm.


(** C132: a method with neutral settings changes no channel by more than 2^-14, and not the transparency. *)

Theorem C132_neutral_settings : forall L f c, accurate_powf L -> bounded_powf L -> neutral f -> in_gamut c ->
  exists o, py_method_call L f c = ROk o /\ channelwise (/ 2 ^ 14) (fun v => v) c o.
Proof. exact neutral_settings. Qed.
Print Assumptions C132_neutral_settings.


(** C132: brightness 0 changes no channel at all. *)

Theorem C132_neutral_brightness : forall c, in_gamut c -> channelwise 0 (fun v => v) c (with_brightness f0 c).
Proof. exact neutral_brightness. Qed.
Print Assumptions C132_neutral_brightness.


(** C132: vibrance 0 changes no channel of an opaque colour by more than 2^-13. *)

Theorem C132_neutral_vibrance : forall L c, accurate_sine L -> in_gamut c -> d3 c = f1 -> channelwise (/ 2 ^ 13) (fun v => v) c (with_vibrance L f0 c).
Proof. exact neutral_vibrance. Qed.
Print Assumptions C132_neutral_vibrance.


(** C132: a command with neutral settings keeps size and background colour and changes no channel of no pixel by more than 2^-14. *)

Theorem C132_neutral_commands : forall R (e : env R) cmd f i w, accurate_powf (e_libm e) -> bounded_powf (e_libm e) -> colour_method cmd f -> neutral f ->
  (forall c, In c (data (buffer i)) -> in_gamut c) ->
  exists d, execute_cmd e cmd (Some i) w = Ok (Some (same_with i d), w, ROk tt) /\ Forall2 (channelwise (/ 2 ^ 14) (fun v => v)) (data (buffer i)) d.
Proof. exact neutral_commands. Qed.
Print Assumptions C132_neutral_commands.


(** C132: the program with one such command makes no sample of an 8 bit picture brighter and none darker by more than one step, and keeps its transparency. *)

Theorem C132_neutral_program : forall S (e : env S) text number args wo input output w h raw cmd f,
  ready e wo input output w h raw -> bounded_powf (e_libm e) ->
  command_line text number true (tl args) [CmdOpen input; cmd; CmdSave output] -> colour_method cmd f -> neutral f ->
  program_recolours e text number args wo w h raw output (fun r g b r' g' b' => (r - 1 <= r' <= r)%Z /\ (g - 1 <= g' <= g)%Z /\ (b - 1 <= b' <= b)%Z).
Proof. exact neutral_program. Qed.
Print Assumptions C132_neutral_program.


(** C132: two changes of brightness add up if the first cuts nothing off. *)

Theorem C132_brightness_adds_up : forall a b c, in_gamut c -> moderate a -> moderate b -> not_cut (fun v => v + B2R a) c ->
  channelwise (/ 2 ^ 24 + / 2 ^ 24) (fun v => limited (v + (B2R a + B2R b))) c (with_brightness b (with_brightness a c)).
Proof. exact brightness_adds_up. Qed.
Print Assumptions C132_brightness_adds_up.


(** C132: two changes of contrast multiply if the first cuts nothing off. *)

Theorem C132_contrast_multiplies : forall a b c, in_gamut c -> moderate a -> moderate b -> not_cut (fun v => (v - / 2) * B2R a + / 2) c ->
  channelwise ((4 + 4 * Rabs (B2R b)) / 2 ^ 24 + Rabs (B2R b) * ((4 + 4 * Rabs (B2R a)) / 2 ^ 24))
    (fun v => limited ((v - / 2) * (B2R a * B2R b) + / 2)) c (with_contrast b (with_contrast a c)).
Proof. exact contrast_multiplies. Qed.
Print Assumptions C132_contrast_multiplies.


(** C132: two gamma corrections multiply; the rounding error of the first grows with the second. *)

Theorem C132_gamma_multiplies : forall L a b c, accurate_powf L -> in_gamut c -> usual_gamma a -> usual_gamma b ->
  channelwise (/ 2 ^ 19 + power_error (/ 2 ^ 19) (B2R b)) (gamma_formula (B2R a * B2R b)) c (with_gamma L b (with_gamma L a c)).
Proof. exact gamma_multiplies. Qed.
Print Assumptions C132_gamma_multiplies.


(** C132: a change of brightness that cuts nothing off is undone by the opposite change. *)

Theorem C132_brightness_undone : forall a b c, in_gamut c -> moderate a -> moderate b -> B2R b = - B2R a -> not_cut (fun v => v + B2R a) c ->
  channelwise (/ 2 ^ 23) (fun v => v) c (with_brightness b (with_brightness a c)).
Proof. exact brightness_undone. Qed.
Print Assumptions C132_brightness_undone.


(** C132: a change of contrast that cuts nothing off is undone by the inverse factor. *)

Theorem C132_contrast_undone : forall a b c, in_gamut c -> moderate a -> moderate b -> B2R a * B2R b = 1 -> not_cut (fun v => (v - / 2) * B2R a + / 2) c ->
  channelwise ((8 + 8 * Rabs (B2R b)) / 2 ^ 24) (fun v => v) c (with_contrast b (with_contrast a c)).
Proof. exact contrast_undone. Qed.
Print Assumptions C132_contrast_undone.


(** C132: a gamma correction is undone by the inverse one. *)

Theorem C132_gamma_undone : forall L a b c, accurate_powf L -> in_gamut c -> usual_gamma a -> usual_gamma b -> B2R a * B2R b = 1 ->
  channelwise (/ 2 ^ 19 + power_error (/ 2 ^ 19) (B2R b)) (fun v => v) c (with_gamma L b (with_gamma L a c)).
Proof. exact gamma_undone. Qed.
Print Assumptions C132_gamma_undone.


(** C132: what was cut off is lost: raising and lowering the brightness by one half, or doubling and halving the contrast, changes colours by up to one quarter. *)

Theorem C132_cut_off_is_lost_refuted :
  ~ (forall c, in_gamut c -> channelwise (/ 5) (fun v => v) c (with_brightness (dec (-1) 2) (with_brightness (dec 1 2) c))) /\
  ~ (forall c, in_gamut c -> channelwise (/ 5) (fun v => v) c (with_contrast (dec 1 2) (with_contrast f2 c))).
Proof. exact cut_off_is_lost_refuted. Qed.
Print Assumptions C132_cut_off_is_lost_refuted.

Example C132_adjust_example : forall L, let c := mkC (dec 1 4) (dec 1 2) (dec 3 8) (dec 1 2) in
  accurate_powf (ideal_libm L) /\ bounded_powf (ideal_libm L) /\ accurate_sine (full_libm L) /\ in_gamut c /\ neutral (WithHueRotate (ofZ 360)) /\
  colour_method (CmdLevel f0 f1 f1) (WithLevel f0 f1 f1) /\
  not_cut (fun v => v + B2R (dec 1 2)) c /\ B2R (dec (-1) 2) = - B2R (dec 1 2) /\
  not_cut (fun v => (v - / 2) * B2R f2 + / 2) c /\ B2R f2 * B2R (dec 1 2) = 1 /\ usual_gamma f2 /\ usual_gamma (dec 1 2) /\
  power_error (/ 2 ^ 19) (B2R (dec 1 2)) = / 2 ^ 18.
Proof. exact adjust_example. Qed.

Example C132_neutral_program_example : forall S (g : Ops.rng S) s L, let e := mkEnv S (ideal_libm L) Checked g plain_encoders plain_decoders in
  ready e (mkWorld end_fs s []) "in.png" "out.png" 2 1 example_raw /\ bounded_powf (e_libm e) /\
  command_line (fun t => t) (fun t => if String.eqb t "1.0" then Some f1 else None) true (tl ["d10"; "in.png"; "-contrast"; "1.0"; "out.png"]%string)
    [CmdOpen "in.png"; CmdContrast f1; CmdSave "out.png"] /\
  colour_method (CmdContrast f1) (WithContrast f1) /\ neutral (WithContrast f1).
Proof. exact neutral_program_example. Qed.
