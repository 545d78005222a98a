(** Property theorems, generated from EndThm.v by tools/mkp.py. *)

From Coq Require Import Reals ZArith List String Ascii.
From Flocq Require Import IEEE754.BinarySingleNaN.
From Verif Require Import Base PixelBuffer BufferSpec F32 Color ColorSpec Codec CodecSpec Image Commands CommandsSpec Cli CliSpec MeaningSpec IdealPowf ReopenSpec ResaveSpec EndSpec.
Import ListNotations.
Open Scope R_scope.

From Verif Require Import EndThm.


(** C119: a command line that opens a file, recolours the pixels in any number
    of steps and saves the result to a PNG file succeeds, touches no other
    file, and each pixel of the new file holds the new colour of the pixel that
    was read: in sRGB with 8 bits, with alpha. *)

Theorem C119_program_output : forall S (e : env S) text number args wo input output cmds f b,
  good_decoders (e_dec e) -> lossless_png (e_enc e) (e_dec e) -> accurate_powf (e_libm e) ->
  command_line text number true (tl args) (CmdOpen input :: cmds ++ [CmdSave output]) -> recolouring (e_libm e) cmds f ->
  decode_file (e_build e) (e_dec e) (e_libm e) (w_fs wo) input = Ok (ROk b) -> nonempty b ->
  can_store (e_enc e) (e_libm e) (w_fs wo) output (width b) (height b) ->
  exists wo' bytes raw, main e text number args wo = Ok (wo', ROk tt) /\
    (forall p, p <> output -> files (w_fs wo') p = files (w_fs wo) p) /\
    files (w_fs wo') output = Some bytes /\ holds_png (e_dec e) ColRgba Eight (width b) (height b) bytes raw /\
    forall m x y c, inside b x y -> get_pixel m b x y = Ok c -> in_gamut (f c) ->
      exists r g bl a, pixel_at raw (width b) x y r g bl a /\
        byte_below (/ 1024) (srgb_encode (B2R (d0 (f c)))) r /\ byte_below (/ 1024) (srgb_encode (B2R (d1 (f c)))) g /\
        byte_below (/ 1024) (srgb_encode (B2R (d2 (f c)))) bl /\ byte_below (/ 1024) (B2R (alpha (f c))) a.
Proof. exact program_output. Qed.
Print Assumptions C119_program_output.


(** C119: d10 input -invert output inverts the light of each sample of the
    file: the new byte is just below the sRGB value of 1 minus the light. *)

Theorem C119_invert_program : forall S (e : env S) text number program input a output wo w h raw,
  ready e wo input output w h raw -> file_name text input -> text a = "-invert"%string -> file_name text output ->
  program_recolours e text number [program; input; a; output] wo w h raw output (each_channel (/ 64) (fun v => 1 - v)).
Proof. exact invert_program. Qed.
Print Assumptions C119_invert_program.


(** C119: d10 input -brightness p output adds the number p to the light. *)

Theorem C119_brightness_program : forall S (e : env S) text number program input a p v output wo w h raw,
  ready e wo input output w h raw -> file_name text input -> text a = "-brightness"%string -> number (text p) = Some v -> moderate v -> file_name text output ->
  program_recolours e text number [program; input; a; p; output] wo w h raw output (each_channel (/ 64) (fun l => limited (l + B2R v))).
Proof. exact brightness_program. Qed.
Print Assumptions C119_brightness_program.


(** C119: d10 input -contrast p output stretches the light by the factor p
    around 1/2; errors are stretched as well. *)

Theorem C119_contrast_program : forall S (e : env S) text number program input a p v output wo w h raw,
  ready e wo input output w h raw -> file_name text input -> text a = "-contrast"%string -> number (text p) = Some v -> moderate v -> file_name text output ->
  program_recolours e text number [program; input; a; p; output] wo w h raw output
    (each_channel ((1 + Rabs (B2R v)) / 64) (fun l => limited ((l - / 2) * B2R v + / 2))).
Proof. exact contrast_program. Qed.
Print Assumptions C119_contrast_program.


(** C119: d10 input -grayscale rec709luma output (or default) makes all three
    samples of a pixel the same, those of its luminance. *)

Theorem C119_grayscale_program : forall S (e : env S) text number program input a p output wo w h raw,
  ready e wo input output w h raw -> file_name text input -> text a = "-grayscale"%string -> text p = "rec709luma"%string \/ text p = "default"%string ->
  file_name text output ->
  program_recolours e text number [program; input; a; p; output] wo w h raw output (fun r g b r' g' b' => g' = r' /\ b' = r' /\
    byte_below (/ 64) (srgb_encode (212656 / 1000000 * light r + 715158 / 1000000 * light g + 72186 / 1000000 * light b)) r').
Proof. exact grayscale_program. Qed.
Print Assumptions C119_grayscale_program.

Example C119_ready_example : forall S (g : Ops.rng S) s L, let e := mkEnv S (ideal_libm L) Checked g plain_encoders plain_decoders in
  let wo := mkWorld end_fs s [] in
  ready e wo "in.png" "out.png" 2 1 example_raw /\ file_name (fun t => t) "in.png" /\ file_name (fun t => t) "out.png" /\ moderate (dec 1 10).
Proof. exact ready_example. Qed.
