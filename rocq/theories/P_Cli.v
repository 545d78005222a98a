(** Property theorems, generated from CliThm.v by tools/mkp.py. *)

From Coq Require Import ZArith Reals List Bool String Ascii.
From Verif Require Import Base PixelBuffer BufferSpec F32 Color ColorSpec Blend Resample Kernel Ops Codec CodecSpec Names Image Commands CommandsSpec Cli CliSpec.
Import ListNotations.
Open Scope Z_scope.

From Verif Require Import CliThm.


(** C64: parsing gives the commands [q] exactly when the arguments after the
    program's name are a command line for [q]: one command per option or file
    name, in order. *)

Theorem C64_arguments_to_commands : forall text number args q, parse text number args = ROk q <-> command_line text number true (tl args) q.
Proof. exact arguments_to_commands. Qed.
Print Assumptions C64_arguments_to_commands.


(** C64: it fails exactly when a well-formed part is followed by a bad
    argument, and the error tells about this one. *)

Theorem C64_bad_arguments : forall text number args err, parse text number args = RErr err <->
  exists good bad q, tl args = good ++ bad /\ command_line text number true good q /\ bad_argument text number bad err.
Proof. exact bad_arguments. Qed.
Print Assumptions C64_bad_arguments.


(** C64: with a bad command line or without arguments the program fails
    and leaves files, random numbers and output as they were. *)

Theorem C64_bad_command_line_inert : forall R (e : env R) text number args w,
  (zlen args = 1 -> main e text number args w = Ok (w, RErr MissingArguments)) /\
  (forall err, zlen args <> 1 -> parse text number args = RErr err -> main e text number args w = Ok (w, RErr (BadCommandLine err))).
Proof. exact bad_command_line_inert. Qed.
Print Assumptions C64_bad_command_line_inert.


(** C64: otherwise it runs the commands and succeeds exactly when they do. *)

Theorem C64_good_command_line_runs : forall R (e : env R) text number args w q w', zlen args <> 1 -> command_line text number true (tl args) q ->
  (main e text number args w = Ok (w', ROk tt) <-> queue_run e q w = Ok (w', ROk tt)) /\
  (forall err, main e text number args w = Ok (w', RErr (Failed err)) <-> queue_run e q w = Ok (w', RErr err)) /\
  (main e text number args w = Panic <-> queue_run e q w = Panic).
Proof. exact good_command_line_runs. Qed.
Print Assumptions C64_good_command_line_runs.

Example C64_command_line_example : forall number a b, number "2.2"%string = Some a -> number "0.5"%string = Some b ->
  number "x"%string = None ->
  let p := parse (fun s => s) number in
  p ["d10"; "in.png"; "-gamma"; "2.2"; "-brightness-contrast"; "0.5,2.2"; "-silent"; "-open"; "-x"; "out.png"; "out.gif"]%string =
    ROk [CmdOpen "in.png"; CmdGamma a; CmdBrightnessContrast b a; CmdSilent; CmdOpen "-x"; CmdSave "out.png"; CmdSave "out.gif"] /\
  p ["d10"; "in.png"; "-grayscale"; "red"; "-gamma"]%string = RErr (MissingParameter "gamma") /\
  p ["d10"; "in.png"; "-level"; "0.5,x,2.2"; "out.png"]%string = RErr (BadArgument "level" "0.5,x,2.2") /\
  p ["d10"; "--invert"]%string = RErr (UnknownArgument "--invert") /\
  p ["d10"; "-grayscale"; "RED"]%string = RErr (BadEnum (mkPEE "RED" "Intensity")).
Proof. exact command_line_example. Qed.


(** C65: a file name that is the first argument is opened. *)

Theorem C65_first_file_opens : forall text number program a args q, file_name text a -> parse text number (program :: a :: args) = ROk q ->
  exists later, q = CmdOpen a :: later.
Proof. exact first_file_opens. Qed.
Print Assumptions C65_first_file_opens.


(** C65: one that comes after other arguments is saved to, whatever these are. *)

Theorem C65_later_files_save : forall text number program before a after q, before <> [] -> file_name text a ->
  (exists q0, command_line text number true before q0) ->
  parse text number (program :: before ++ a :: after) = ROk q ->
  exists q0 later, command_line text number true before q0 /\ q = q0 ++ CmdSave a :: later.
Proof. exact later_files_save. Qed.
Print Assumptions C65_later_files_save.


(** C65: so the first file name is not opened if an option precedes it, even
    one that needs no image: d10 -silent in.png out.png saves to its input
    file, and fails for want of an image. *)

Theorem C65_silent_first_refuted : forall R (e : env R) number w,
  let text := fun s : string => s in let args := ["d10"; "-silent"; "in.png"; "out.png"]%string in
  parse text number args = ROk [CmdSilent; CmdSave "in.png"; CmdSave "out.png"] /\
  main e text number args w = Ok (w, RErr (Failed MissingImage)).
Proof. exact silent_first_refuted. Qed.
Print Assumptions C65_silent_first_refuted.

Example C65_file_names_example : file_name (fun s => s) "in.png" /\ file_name (fun s => s) "" /\ ~ file_name (fun s => s) "-" /\
  command_line (fun s => s) (fun _ => None) true ["-save"; "-invert"; "a"]%string [CmdSave "-invert"; CmdSave "a"].
Proof. exact file_names_example. Qed.


(** C66: the names of each enum: every documented name parses to its variant,
    every variant has a name, and any other text is an error that holds the
    text and the type. *)

Theorem C66_names_exact :
  named_by parse_intensity "Intensity" intensity_names /\
  named_by parse_filter_mode "FilterMode" filter_mode_names /\
  named_by parse_blend_op "BlendOp" blend_op_names /\
  named_by parse_edge_mode "EdgeDetection" edge_mode_names /\
  named_by parse_drawing_mode "DrawingMode" drawing_mode_names /\
  named_by parse_saturation_mode "SaturationMode" saturation_mode_names /\
  named_by parse_equalize_mode "EqualizeMode" equalize_mode_names /\
  named_by parse_balance_mode "BalanceMode" balance_mode_names.
Proof. exact names_exact. Qed.
Print Assumptions C66_names_exact.


(** C66: the same for the enums of the codecs. *)

Theorem C66_codec_names_exact :
  named_by parse_png_color_type "PngColorType" png_color_type_names /\
  named_by parse_png_filter_type "PngFilterType" png_filter_type_names /\
  named_by parse_png_compression "PngCompression" png_compression_names /\
  named_by parse_jpeg_sampling_factor "JpegSamplingFactor" jpeg_sampling_factor_names /\
  named_by parse_webp_preset "WebPPreset" webp_preset_names /\
  named_by parse_bmp_color_type "BmpColorType" bmp_color_type_names /\
  named_by parse_ico_color_type "IcoColorType" bmp_color_type_names.
Proof. exact codec_names_exact. Qed.
Print Assumptions C66_codec_names_exact.

Example C66_names_example : parse_filter_mode "lanczos" = RErr (mkPEE "lanczos" "FilterMode") /\ parse_filter_mode "Lanczos" = ROk Lanczos3 /\
  parse_jpeg_sampling_factor "4:2:0" = ROk R_4_2_0 /\ parse_intensity "" = RErr (mkPEE "" "Intensity").
Proof. exact names_example. Qed.
