(** Specification vocabulary for the command line (C64, C65) and for names of
    enum variants (C66). *)
From Coq Require Import ZArith List Bool String Ascii.
From Verif Require Import Base F32 Color Blend Resample Kernel Ops Codec CodecSpec Names Commands CommandsSpec Cli.
Import ListNotations.
Open Scope Z_scope.
Local Open Scope string_scope.

(** ** Names *)

(** A type with its documented names; several names can stand for the same
    variant. *)
Definition named_by {A} (parse : string -> Result A ParseEnumError) (type : string) (names : list (string * A)) : Prop :=
  (forall s v, In (s, v) names -> parse s = ROk v) /\
  (forall s v, parse s = ROk v -> In (s, v) names) /\
  (forall s, (forall v, ~ In (s, v) names) -> parse s = RErr (mkPEE s type)) /\
  (forall v : A, exists s, In (s, v) names).

Definition intensity_names : list (string * intensity) :=
  [("average", Average); ("rec601luma", Rec601Luma); ("rec709luma", Rec709Luma); ("default", Rec709Luma);
   ("brightness", Brightness); ("lightness", Lightness); ("saturation", Saturation);
   ("red", IRed); ("green", IGreen); ("blue", IBlue)].
Definition filter_mode_names : list (string * filter_mode) :=
  [("nearest", Nearest); ("bilinear", Bilinear); ("bicubic", Bicubic); ("lanczos3", Lanczos3); ("Lanczos", Lanczos3);
   ("default", Auto); ("auto", Auto)].
Definition blend_op_names : list (string * blend_op) :=
  [("normal", Normal); ("addition", Addition); ("subtract", Subtract); ("darken", Darken); ("lighten", Lighten);
   ("hsl_darken", HslDarken); ("hsl_lighten", HslLighten); ("lch_darken", LchDarken); ("lch_lighten", LchLighten);
   ("lch_hue", LchHue); ("lch_saturation", LchSaturation); ("lch_color", LchColor)].
Definition edge_mode_names : list (string * edge_mode) := [("sobel", Sobel); ("default", Sobel); ("laplace", Laplace)].
Definition drawing_mode_names : list (string * drawing_mode) :=
  [("gray", DGray); ("colored", DColored); ("default", DColored); ("reduced_colors", DReducedColors)].
Definition saturation_mode_names : list (string * saturation_mode) :=
  [("hsl", SHsl); ("default", SHsl); ("hsv", SHsv); ("lch", SLch)].
Definition equalize_mode_names : list (string * equalize_mode) :=
  [("rgb", ERgb); ("srgb", ESrgb); ("saturation", ESaturation); ("lightness", ELightness); ("saturation_lightness", ESaturationLightness)].
Definition balance_mode_names : list (string * balance_mode) :=
  [("rgb", BRgb); ("srgb", BSrgb); ("hsv", BHsv); ("hsl", BHsl); ("lch", BLch)].
Definition png_color_type_names : list (string * PngColorType) :=
  [("l8", PL8); ("la8", PLa8); ("l16", PL16); ("la16", PLa16); ("rgb8", PRgb8); ("rgba8", PRgba8); ("rgb16", PRgb16); ("rgba16", PRgba16)].
Definition png_filter_type_names : list (string * PngFilterType) :=
  [("no_filter", FNoFilter); ("sub", FSub); ("up", FUp); ("avg", FAvg); ("paeth", FPaeth)].
Definition png_compression_names : list (string * PngCompression) := [("default", CDefault); ("fast", CFast); ("best", CBest)].
Definition jpeg_sampling_factor_names : list (string * JpegSamplingFactor) :=
  [("1x1", F_1_1); ("1x2", F_1_2); ("2x1", F_2_1); ("2x2", F_2_2); ("4x1", F_4_1); ("4x2", F_4_2); ("1x4", F_1_4); ("2x4", F_2_4);
   ("4:4:4", R_4_4_4); ("4:4:0", R_4_4_0); ("4:4:1", R_4_4_1); ("4:2:2", R_4_2_2); ("4:2:0", R_4_2_0); ("4:2:1", R_4_2_1);
   ("4:1:1", R_4_1_1); ("4:1:0", R_4_1_0)].
Definition webp_preset_names : list (string * WebPPreset) :=
  [("default", WDefault); ("picture", WPicture); ("photo", WPhoto); ("drawing", WDrawing); ("icon", WIcon); ("text", WText); ("lossless", WLossless)].
Definition bmp_color_type_names : list (string * BmpColorType) := [("l8", BL8); ("la8", BLa8); ("rgb8", BRgb8); ("rgba8", BRgba8)].

(** ** The command line *)

Section CommandLine.
(** The text of an argument, and the numbers texts stand for. *)
Context (text : string -> string) (number : string -> option f32).

(** [v] is the list of numbers written in [t], separated by commas. *)
Definition numbers (t : string) (v : list f32) : Prop :=
  exists parts, parts <> [] /\ t = String.concat "," parts /\ Forall (lacks "," ) parts /\ map number parts = map Some v.

(** Options without a parameter. *)
Definition plain_option (name : string) (c : Cmd) : Prop :=
  (name = "silent" /\ c = CmdSilent) \/ (name = "invert" /\ c = CmdInvert).
(** Options with one: [c] is the command of option [name] with parameter [p]. *)
Inductive option_with : string -> string -> Cmd -> Prop :=
| opt_open p : option_with "open" p (CmdOpen p)
| opt_save p : option_with "save" p (CmdSave p)
| opt_grayscale p i : In (text p, i) intensity_names -> option_with "grayscale" p (CmdToGray i)
| opt_gamma p v : number (text p) = Some v -> option_with "gamma" p (CmdGamma v)
| opt_level p a b c : numbers (text p) [a; b; c] -> option_with "level" p (CmdLevel a b c)
| opt_brightness p v : number (text p) = Some v -> option_with "brightness" p (CmdBrightness v)
| opt_contrast p v : number (text p) = Some v -> option_with "contrast" p (CmdContrast v)
| opt_brightness_contrast p a b : numbers (text p) [a; b] -> option_with "brightness-contrast" p (CmdBrightnessContrast a b)
| opt_saturation p v : number (text p) = Some v -> option_with "saturation" p (CmdSaturation v)
| opt_stretch p v : number (text p) = Some v -> option_with "stretch-saturation" p (CmdStretchSaturation v)
| opt_lightness p v : number (text p) = Some v -> option_with "lightness" p (CmdLightness v)
| opt_hue p v : number (text p) = Some v -> option_with "hue-rotate" p (CmdHueRotate v)
| opt_rotate p v : number (text p) = Some v -> option_with "rotate" p (CmdRotate v Bilinear)
| opt_random p v : number (text p) = Some v -> option_with "random-noise" p (CmdRandomNoise v)
| opt_salt p v : number (text p) = Some v -> option_with "salt-n-pepper-noise" p (CmdSaltNPepperNoise v)
| opt_rgb p v : number (text p) = Some v -> option_with "rgb-noise" p (CmdRgbNoise v).
Definition names_with : list string :=
  ["open"; "save"; "grayscale"; "gamma"; "level"; "brightness"; "contrast"; "brightness-contrast"; "saturation"; "stretch-saturation";
   "lightness"; "hue-rotate"; "rotate"; "random-noise"; "salt-n-pepper-noise"; "rgb-noise"].

(** A file name does not start with a dash. *)
Definition file_name (a : string) : Prop := forall rest, text a <> "-" ++ rest.

(** [line first args q]: the arguments [args] are a command line for the
    commands [q]; [first] says whether nothing precedes them. *)
Inductive command_line : bool -> list string -> list Cmd -> Prop :=
| cl_end first : command_line first [] []
| cl_plain first a name c args q : text a = "-" ++ name -> plain_option name c ->
    command_line false args q -> command_line first (a :: args) (c :: q)
| cl_with first a name p c args q : text a = "-" ++ name -> option_with name p c ->
    command_line false args q -> command_line first (a :: p :: args) (c :: q)
| cl_first a args q : file_name a -> command_line false args q -> command_line true (a :: args) (CmdOpen a :: q)
| cl_later a args q : file_name a -> command_line false args q -> command_line false (a :: args) (CmdSave a :: q).

(** [bad_argument args err]: what is wrong with the first argument. *)
Inductive bad_argument : list string -> arg_error -> Prop :=
| bad_unknown a name args : text a = "-" ++ name -> ~ In name ("silent" :: "invert" :: names_with)%list ->
    bad_argument (a :: args) (UnknownArgument (text a))
| bad_missing a name : text a = "-" ++ name -> In name names_with -> bad_argument [a] (MissingParameter name)
| bad_intensity a p args : text a = "-grayscale" -> (forall i, ~ In (text p, i) intensity_names) ->
    bad_argument (a :: p :: args) (BadEnum (mkPEE (text p) "Intensity"))
| bad_parameter a name p args : text a = "-" ++ name -> In name names_with -> name <> "grayscale" ->
    (forall c, ~ option_with name p c) -> bad_argument (a :: p :: args) (BadArgument name (text p)).
End CommandLine.
