(** Property theorems, generated from OrderThm.v by tools/mkp.py. *)

From Coq Require Import Reals ZArith List Bool String.
From Flocq Require Import IEEE754.BinarySingleNaN.
From Verif Require Import Base PixelBuffer BufferSpec F32 Color ColorSpec Codec CodecSpec Image Commands CommandsSpec Cli CliSpec Ops OpsSpec Kernel KernelSpec
  MeaningSpec IdealPowf ReopenSpec ResaveSpec EndSpec OrderSpec.
Import ListNotations.
Open Scope R_scope.

From Verif Require Import OrderThm.


(** C124: the brightness, contrast, gamma and level changes treat red, green
    and blue alike and never swap darker and brighter; a negative contrast and
    inversion reverse the order. *)

Theorem C124_tone_changes : forall L, bounded_powf L -> monotone_powf L ->
  (forall v, is_finite v = true -> tone_curve true (with_brightness v)) /\
  (forall v, is_finite v = true -> 0 <= B2R v -> tone_curve true (with_contrast v)) /\
  (forall v, is_finite v = true -> B2R v <= 0 -> tone_curve false (with_contrast v)) /\
  (forall b v, is_finite b = true -> is_finite v = true -> 0 <= B2R v -> tone_curve true (with_brightness_contrast b v)) /\
  (forall b v, is_finite b = true -> is_finite v = true -> B2R v <= 0 -> tone_curve false (with_brightness_contrast b v)) /\
  (forall g, usual_gamma g -> tone_curve true (with_gamma L g)) /\
  (forall g, usual_gamma g -> tone_curve true (with_gamma_opt L g)) /\
  (forall b w g, in01 b -> in01 w -> fle b w = true -> usual_gamma g -> tone_curve true (with_level L b w g)) /\
  tone_curve false invert.
Proof. exact tone_changes. Qed.
Print Assumptions C124_tone_changes.

Example C124_tone_changes_example :
  (exists L, accurate_powf L /\ bounded_powf L /\ monotone_powf L) /\ usual_gamma f2 /\ in01 (dec 1 10) /\ fle (dec 1 10) (dec 9 10) = true /\
  let c := mkC (dec 1 10) (dec 2 10) (dec 9 10) f1 in in_gamut c /\
  map (fun v => fcast 0 1000 (fmul v (ofZ 1000))) [d0 (with_contrast (ofZ 2) c); d1 (with_contrast (ofZ 2) c); d2 (with_contrast (ofZ 2) c)] = [0; 0; 1000]%Z /\
  map (fun v => fcast 0 1000 (fmul v (ofZ 1000))) [d0 (with_contrast (dec 1 2) c); d1 (with_contrast (dec 1 2) c); d2 (with_contrast (dec 1 2) c)] = [300; 350; 700]%Z /\
  map (fun v => fcast 0 1000 (fmul v (ofZ 1000))) [d0 (invert c); d1 (invert c); d2 (invert c)] = [900; 800; 100]%Z.
Proof. exact tone_changes_example. Qed.


(** C124: one change after the other. *)

Theorem C124_tone_changes_in_a_row : tone_curve true (fun c => c) /\ forall u u' f g, tone_curve u f -> tone_curve u' g -> tone_curve (Bool.eqb u u') (fun c => g (f c)).
Proof. exact tone_changes_in_a_row. Qed.
Print Assumptions C124_tone_changes_in_a_row.

Example C124_tone_row_example : tone_curve false (fun c => invert (with_brightness (dec 1 10) c)) /\ tone_curve true (fun c => invert (invert c)).
Proof. exact tone_row_example. Qed.


(** C124: the whole program with such changes: the bytes of the file all go
    through one table, which never falls, or never rises. *)

Theorem C124_program_tone : forall S (e : env S) (up : bool) cmds f, accurate_powf (e_libm e) -> bounded_powf (e_libm e) -> monotone_powf (e_libm e) ->
  recolouring (e_libm e) cmds f -> tone_curve up f ->
  exists T, byte_curve up T /\ forall text number args wo input output w h raw, ready e wo input output w h raw ->
    command_line text number true (tl args) (CmdOpen input :: cmds ++ [CmdSave output]) ->
    program_recolours e text number args wo w h raw output (fun r g b r' g' b' => is_byte r /\ is_byte g /\ is_byte b /\ r' = T r /\ g' = T g /\ b' = T b).
Proof. exact program_tone. Qed.
Print Assumptions C124_program_tone.

Example C124_program_tone_example : forall S (g : Ops.rng S) s L, let e := mkEnv S (ideal_libm L) Checked g plain_encoders plain_decoders in
  accurate_powf (e_libm e) /\ bounded_powf (e_libm e) /\ monotone_powf (e_libm e) /\
  recolouring (e_libm e) [CmdInvert; CmdGamma f2] (fun c => with_gamma (e_libm e) f2 (invert c)) /\
  tone_curve false (fun c => with_gamma (e_libm e) f2 (invert c)) /\
  ready e (mkWorld end_fs s []) "in.png" "out.png" 2 1 example_raw /\
  command_line (fun t => t) (fun _ => Some f2) true (tl ["d10"; "in.png"; "-invert"; "-gamma"; "2"; "out.png"]%string) (CmdOpen "in.png" :: [CmdInvert; CmdGamma f2] ++ [CmdSave "out.png"]).
Proof. exact program_tone_example. Qed.


(** C124: grey (but by saturation), sepia and an overlay of one colour: what is
    in no channel brighter stays so. *)

Theorem C124_not_brighter_kept : forall c c', in_gamut c -> in_gamut c' -> not_brighter c c' ->
  (forall i, i <> Saturation -> not_brighter (to_gray_with_intensity i c) (to_gray_with_intensity i c')) /\
  not_brighter (with_sepia c) (with_sepia c') /\
  (forall o, in_gamut o -> not_brighter (alpha_blend c o) (alpha_blend c' o)).
Proof. exact not_brighter_kept. Qed.
Print Assumptions C124_not_brighter_kept.

Example C124_not_brighter_example : let c := mkC (dec 1 10) (dec 2 10) (dec 3 10) f1 in let c' := mkC (dec 1 10) (dec 5 10) (dec 4 10) f1 in
  in_gamut c /\ in_gamut c' /\ not_brighter c c' /\ flt (d0 (to_gray c)) (d0 (to_gray c')) = true /\ flt (d2 (with_sepia c)) (d2 (with_sepia c')) = true.
Proof. exact not_brighter_example. Qed.


(** C124: the grey of the saturation is not ordered that way: red is brighter
    than black and white brighter than red, but both become black and red
    white. *)

Theorem C124_saturation_grey_refuted : let g := to_gray_with_intensity Saturation in
  not_brighter RGB_BLACK RGB_RED /\ not_brighter RGB_RED RGB_WHITE /\ ~ not_brighter (g RGB_RED) (g RGB_WHITE) /\
  map (fun c => fcast 0 255 (fmul (d0 c) (ofZ 255))) [g RGB_BLACK; g RGB_RED; g RGB_WHITE] = [0; 255; 0]%Z.
Proof. exact saturation_grey_refuted. Qed.
Print Assumptions C124_saturation_grey_refuted.


(** C124: bytes are read and written in order. *)

Theorem C124_samples_in_order : forall L, accurate_powf L -> bounded_powf L -> monotone_powf L ->
  (forall u v, is_byte u -> is_byte v -> (u <= v)%Z -> fle (clamp (gamma_to_linear L (from_u8 u))) (clamp (gamma_to_linear L (from_u8 v))) = true) /\
  (forall v w, in01 v -> in01 w -> fle v w = true -> (quant8 (clamp (linear_to_gamma L v)) <= quant8 (clamp (linear_to_gamma L w)))%Z).
Proof. exact samples_in_order. Qed.
Print Assumptions C124_samples_in_order.

Example C124_samples_example : is_byte 10 /\ is_byte 11 /\ in01 (dec 3130805 1000000000) /\ in01 (dec 3130806 1000000000).
Proof. exact samples_example. Qed.


(** C124: contrast stretching is such a change, one for the whole image. *)

Theorem C124_stretch_tone : forall L (b : PixelBuffer Rgb) threshold, accurate_powf L -> bounded_powf L -> monotone_powf L -> valid b -> (1 <= zlen (data b) <= 2 ^ 20)%Z ->
  is_finite threshold = true -> B2R threshold = 0 \/ / 2 ^ 20 <= B2R threshold <= 400 ->
  exists f b', stretch_contrast L b threshold = Ok b' /\ recolored f b b' /\ tone_curve true f.
Proof. exact stretch_tone. Qed.
Print Assumptions C124_stretch_tone.

Example C124_stretch_tone_example : valid (mkPB 2 1 [RGB_RED; RGB_BLUE]) /\ is_finite f1 = true /\ / 2 ^ 20 <= B2R f1 <= 400.
Proof. exact stretch_tone_example. Qed.


(** C124: if an image is nowhere brighter than another, nor is it after a blur. *)

Theorem C124_blur_keeps_order : forall L m (b b' : PixelBuffer Rgb) r, exp_ok L -> valid b -> valid b' -> (1 <= r <= 32767)%Z ->
  (forall c, In c (data b) -> in_gamut c) -> (forall c, In c (data b') -> in_gamut c) -> image_not_brighter m b b' ->
  exists o o', gaussian_blur L m b r None = Ok o /\ gaussian_blur L m b' r None = Ok o' /\ image_not_brighter m o o'.
Proof. exact blur_keeps_order. Qed.
Print Assumptions C124_blur_keeps_order.

Example C124_blur_keeps_example : (exists L, exp_ok L) /\ image_not_brighter Checked (mkPB 2 1 [RGB_RED; RGB_BLACK]) (mkPB 2 1 [RGB_RED; RGB_WHITE]).
Proof. exact blur_keeps_example. Qed.
