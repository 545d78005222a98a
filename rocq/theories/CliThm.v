(** Properties of the command line and of names (C64-C66). *)
From Coq Require Import ZArith Reals List Bool String Ascii.
From Verif Require Import Base PixelBuffer BufferSpec F32 Color ColorSpec Blend Resample Kernel Ops Codec CodecSpec Names Image Commands CommandsSpec Cli CliSpec.
Import ListNotations.
Open Scope Z_scope.

(* PROPERTIES *)
From Coq Require Import Lia.
From Verif Require Import BaseLemmas PixelBufferProofs CommandsProofs CliProofs.
Open Scope Z_scope.

(** C64: parsing gives the commands [q] exactly when the arguments after the
    program's name are a command line for [q]: one command per option or file
    name, in order. *)
Lemma arguments_to_commands : forall text number args q, parse text number args = ROk q <-> command_line text number true (tl args) q.
Proof. exact parse_iff. Qed.

(** C64: it fails exactly when a well-formed part is followed by a bad
    argument, and the error tells about this one. *)
Lemma bad_arguments : forall text number args err, parse text number args = RErr err <->
  exists good bad q, tl args = good ++ bad /\ command_line text number true good q /\ bad_argument text number bad err.
Proof. exact parse_err_iff. Qed.

(** C64: with a bad command line or without arguments the program fails
    and leaves files, random numbers and output as they were. *)
Lemma bad_command_line_inert : forall R (e : env R) text number args w,
  (zlen args = 1 -> main e text number args w = Ok (w, RErr MissingArguments)) /\
  (forall err, zlen args <> 1 -> parse text number args = RErr err -> main e text number args w = Ok (w, RErr (BadCommandLine err))).
Proof.
  intros R e text number args w. unfold main. split; [intros ->; reflexivity|]. intros err N H. apply Z.eqb_neq in N. rewrite N, H. reflexivity.
Qed.

(** C64: otherwise it runs the commands and succeeds exactly when they do. *)
Lemma good_command_line_runs : forall R (e : env R) text number args w q w', zlen args <> 1 -> command_line text number true (tl args) q ->
  (main e text number args w = Ok (w', ROk tt) <-> queue_run e q w = Ok (w', ROk tt)) /\
  (forall err, main e text number args w = Ok (w', RErr (Failed err)) <-> queue_run e q w = Ok (w', RErr err)) /\
  (main e text number args w = Panic <-> queue_run e q w = Panic).
Proof.
  intros R e text number args w q w' N C. unfold main. apply Z.eqb_neq in N. rewrite N. apply parse_iff in C. rewrite C.
  destruct (queue_run e q w) as [(w1 & [[]|err1])|]; simpl.
  all: split; [split; intros H; inversion H; auto|split; [intros err|]; split; intros H; inversion H; auto].
Qed.

Example command_line_example : forall number a b, number "2.2"%string = Some a -> number "0.5"%string = Some b ->
  number "x"%string = None ->
  let p := parse (fun s => s) number in
  p ["d10"; "in.png"; "-gamma"; "2.2"; "-brightness-contrast"; "0.5,2.2"; "-silent"; "-open"; "-x"; "out.png"; "out.gif"]%string =
    ROk [CmdOpen "in.png"; CmdGamma a; CmdBrightnessContrast b a; CmdSilent; CmdOpen "-x"; CmdSave "out.png"; CmdSave "out.gif"] /\
  p ["d10"; "in.png"; "-grayscale"; "red"; "-gamma"]%string = RErr (MissingParameter "gamma") /\
  p ["d10"; "in.png"; "-level"; "0.5,x,2.2"; "out.png"]%string = RErr (BadArgument "level" "0.5,x,2.2") /\
  p ["d10"; "--invert"]%string = RErr (UnknownArgument "--invert") /\
  p ["d10"; "-grayscale"; "RED"]%string = RErr (BadEnum (mkPEE "RED" "Intensity")).
Proof.
  intros number a b H1 H2 H3 p. unfold p.
  assert (NF : forall c rest, c <> "-"%char -> file_name (fun s => s) (String c rest)) by (intros c rest N r E; inversion E; auto).
  split.
  { apply parse_iff. apply cl_first; [apply NF; discriminate|].
    eapply cl_with with (name := "gamma"%string); [reflexivity|constructor; exact H1|].
    eapply cl_with with (name := "brightness-contrast"%string); [reflexivity|constructor; apply numbers_split; cbn; rewrite H1, H2; reflexivity|].
    eapply cl_plain with (name := "silent"%string); [reflexivity|left; auto|].
    eapply cl_with with (name := "open"%string); [reflexivity|constructor|].
    apply cl_later; [apply NF; discriminate|]. apply cl_later; [apply NF; discriminate|]. constructor. }
  split.
  { apply parse_err_iff. exists ["in.png"; "-grayscale"; "red"]%string, ["-gamma"]%string, [CmdOpen "in.png"; CmdToGray IRed]. split; auto. split.
    - apply cl_first; [apply NF; discriminate|]. eapply cl_with with (name := "grayscale"%string); [reflexivity|constructor; cbv; tauto|]. constructor.
    - apply (bad_missing (fun s => s) number "-gamma" "gamma"); auto. cbv. tauto. }
  split.
  { apply parse_err_iff. exists ["in.png"]%string, ["-level"; "0.5,x,2.2"; "out.png"]%string, [CmdOpen "in.png"]. split; auto. split.
    - apply cl_first; [apply NF; discriminate|]. constructor.
    - apply (bad_parameter (fun s => s) number "-level" "level" "0.5,x,2.2" ["out.png"%string]); auto; [cbv; tauto|discriminate|]. intros c X. inversion X. subst.
      match goal with X : numbers _ _ _ |- _ => apply numbers_split in X; cbn in X; rewrite H3 in X; discriminate X end. }
  split.
  { apply parse_err_iff. exists [], ["--invert"]%string, []. split; auto. split; [constructor|].
    apply (bad_unknown (fun s => s) number "--invert" "-invert"); auto. cbv. intros I. repeat destruct I as [I|I]; try discriminate I; destruct I. }
  { apply parse_err_iff. exists [], ["-grayscale"; "RED"]%string, []. split; auto. split; [constructor|].
    apply (bad_intensity (fun s => s) number "-grayscale" "RED"); auto. intros i. cbv. intros I. repeat destruct I as [I|I]; try discriminate I; destruct I. }
Qed.

(** C65: a file name that is the first argument is opened. *)
Lemma first_file_opens : forall text number program a args q, file_name text a -> parse text number (program :: a :: args) = ROk q ->
  exists later, q = CmdOpen a :: later.
Proof.
  intros text number program a args q F H. apply parse_iff in H. cbn [tl] in H.
  inversion H as [|f a' name c l q' Ha|f a' name p c l q' Ha|a' l q' F' C|]; subst; eauto; exfalso; eapply F; eauto.
Qed.

(** C65: one that comes after other arguments is saved to, whatever these are. *)
Lemma later_files_save : forall text number program before a after q, before <> [] -> file_name text a ->
  (exists q0, command_line text number true before q0) ->
  parse text number (program :: before ++ a :: after) = ROk q ->
  exists q0 later, command_line text number true before q0 /\ q = q0 ++ CmdSave a :: later.
Proof.
  intros text number program before a after q N F (q0 & C) H. apply parse_iff in H. cbn [tl] in H.
  assert (Det : forall first l q0, command_line text number first l q0 -> forall rest q, command_line text number first (l ++ rest) q ->
    exists q1, q = q0 ++ q1 /\ command_line text number (match l with [] => first | _ => false end) rest q1).
  { clear. induction 1 as [first|first a name c args q0 Ha P C IH|first a name p c args q0 Ha P C IH|a args q0 F C IH|a args q0 F C IH]; intros rest q X.
    - exists q. auto.
    - cbn [app] in X. inversion X as [|f a' name' c' l q' Ha' P' C'|f a' name' p' c' l q' Ha' P' C'|a' l q' F' C'|a' l q' F' C']; subst;
        try (exfalso; eapply F'; eauto; fail); rewrite Ha in Ha'; inversion Ha'; subst name'.
      + assert (c' = c) as -> by (destruct P as [(-> & ->)|(-> & ->)], P' as [(E & ->)|(E & ->)]; auto; discriminate E).
        destruct (IH _ _ C') as (q1 & -> & C1). exists q1. split; auto. destruct args; auto.
      + exfalso. destruct P as [(-> & _)|(-> & _)]; inversion P'.
    - cbn [app] in X. inversion X as [|f a' name' c' l q' Ha' P' C'|f a' name' p' c' l q' Ha' P' C'|a' l q' F' C'|a' l q' F' C']; subst;
        try (exfalso; eapply F'; eauto; fail); rewrite Ha in Ha'; inversion Ha'; subst name'.
      + exfalso. destruct P' as [(-> & _)|(-> & _)]; inversion P.
      + assert (c' = c) as ->.
        { destruct (with_parsed text number _ _ _ P) as (h & E1 & E2), (with_parsed text number _ _ _ P') as (h' & E1' & E2').
          rewrite E1 in E1'. inversion E1'. subst h'. specialize (E2 []). rewrite E2' in E2. inversion E2. auto. }
        destruct (IH _ _ C') as (q1 & -> & C1). exists q1. split; auto. destruct args; auto.
    - cbn [app] in X. inversion X as [|f a' name' c' l q' Ha' P' C'|f a' name' p' c' l q' Ha' P' C'|a' l q' F' C'|a' l q' F' C']; subst;
        try (exfalso; eapply F; eauto; fail). destruct (IH _ _ C') as (q1 & -> & C1). exists q1. split; auto. destruct args; auto.
    - cbn [app] in X. inversion X as [|f a' name' c' l q' Ha' P' C'|f a' name' p' c' l q' Ha' P' C'|a' l q' F' C'|a' l q' F' C']; subst;
        try (exfalso; eapply F; eauto; fail). destruct (IH _ _ C') as (q1 & -> & C1). exists q1. split; auto. destruct args; auto. }
  destruct (Det _ _ _ C _ _ H) as (q1 & -> & C1). destruct before; [congruence|].
  inversion C1 as [|f a' name c l q' Ha|f a' name p c l q' Ha| |a' l q' F' C']; subst; try (exfalso; eapply F; eauto; fail). eauto.
Qed.

(** C65: so the first file name is not opened if an option precedes it, even
    one that needs no image: d10 -silent in.png out.png saves to its input
    file, and fails for want of an image. *)
Lemma silent_first_refuted : forall R (e : env R) number w,
  let text := fun s : string => s in let args := ["d10"; "-silent"; "in.png"; "out.png"]%string in
  parse text number args = ROk [CmdSilent; CmdSave "in.png"; CmdSave "out.png"] /\
  main e text number args w = Ok (w, RErr (Failed MissingImage)).
Proof.
  intros R e number w text args. split; [reflexivity|]. unfold main.
  change (parse text number args) with (@ROk (list Cmd) arg_error [CmdSilent; CmdSave "in.png"; CmdSave "out.png"]). cbn. destruct w; reflexivity.
Qed.

Example file_names_example : file_name (fun s => s) "in.png" /\ file_name (fun s => s) "" /\ ~ file_name (fun s => s) "-" /\
  command_line (fun s => s) (fun _ => None) true ["-save"; "-invert"; "a"]%string [CmdSave "-invert"; CmdSave "a"].
Proof.
  split; [intros r; discriminate|]. split; [intros r; discriminate|]. split; [intros H; apply (H ""%string); reflexivity|].
  eapply cl_with with (name := "save"%string); [reflexivity|constructor|]. apply cl_later; [intros r; discriminate|constructor].
Qed.

(** C66: the names of each enum: every documented name parses to its variant,
    every variant has a name, and any other text is an error that holds the
    text and the type. *)
Lemma names_exact :
  named_by parse_intensity "Intensity" intensity_names /\
  named_by parse_filter_mode "FilterMode" filter_mode_names /\
  named_by parse_blend_op "BlendOp" blend_op_names /\
  named_by parse_edge_mode "EdgeDetection" edge_mode_names /\
  named_by parse_drawing_mode "DrawingMode" drawing_mode_names /\
  named_by parse_saturation_mode "SaturationMode" saturation_mode_names /\
  named_by parse_equalize_mode "EqualizeMode" equalize_mode_names /\
  named_by parse_balance_mode "BalanceMode" balance_mode_names.
Proof. repeat match goal with |- _ /\ _ => split end; by_table. Qed.

(** C66: the same for the enums of the codecs. *)
Lemma codec_names_exact :
  named_by parse_png_color_type "PngColorType" png_color_type_names /\
  named_by parse_png_filter_type "PngFilterType" png_filter_type_names /\
  named_by parse_png_compression "PngCompression" png_compression_names /\
  named_by parse_jpeg_sampling_factor "JpegSamplingFactor" jpeg_sampling_factor_names /\
  named_by parse_webp_preset "WebPPreset" webp_preset_names /\
  named_by parse_bmp_color_type "BmpColorType" bmp_color_type_names /\
  named_by parse_ico_color_type "IcoColorType" bmp_color_type_names.
Proof. repeat match goal with |- _ /\ _ => split end; by_table. Qed.

Example names_example : parse_filter_mode "lanczos" = RErr (mkPEE "lanczos" "FilterMode") /\ parse_filter_mode "Lanczos" = ROk Lanczos3 /\
  parse_jpeg_sampling_factor "4:2:0" = ROk R_4_2_0 /\ parse_intensity "" = RErr (mkPEE "" "Intensity").
Proof. repeat split. Qed.
