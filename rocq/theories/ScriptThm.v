(** Command lines and Python programs for the same edits (C128). *)
From Coq Require Import ZArith List String Ascii.
From Verif Require Import Base PixelBuffer BufferSpec F32 Color Resample Ops Codec Image Commands Cli CliSpec PySpec PyImage PyColor KernelSpec ReopenSpec EndSpec StepsSpec ScriptSpec.
From Verif Require Text.
Import ListNotations.
Open Scope string_scope.

(* PROPERTIES *)
From Verif Require Import CliThm EndThm ScriptProofs.

(** C128: a Python program that makes the edits of a command queue, in place or
    with new images, leaves the same files and the same random numbers and ends
    the same way: with success, with an OSError made from the same error, or
    with a panic. *)
Lemma python_like_queue : forall R (e : env R) path cmds lines w, same_lines cmds lines ->
  same_run (queue_run e (CmdOpen path :: cmds) w) (run_script e path lines (w_fs w) (w_rng w)).
Proof. exact @script_run. Qed.

(** C128: and so does the command line tool. *)
Lemma python_like_command_line : forall R (e : env R) text number args w path cmds lines,
  command_line text number true (tl args) (CmdOpen path :: cmds) -> same_lines cmds lines ->
  match main e text number args w, run_script e path lines (w_fs w) (w_rng w) with
  | Ok (w', r), Ok (s, rng, p) => w_fs w' = s /\ w_rng w' = rng /\
      match r with ROk _ => p = ROk tt | RErr f => exists err, f = Failed err /\ same_end (RErr err) p end
  | Panic, Panic => True
  | _, _ => False
  end.
Proof. exact @command_line_run. Qed.

(** C128: [map_color_channels] of a Python colour calls the function for the
    three channels in order.  If all return, the new colour has their results
    (brought into range for Rgb and Srgb) and the old alpha value; otherwise the
    first exception is passed on and no further call is made. *)
Lemma python_channels : forall S X (f : S -> f32 -> res (S * Result f32 X)) s k c s' r,
  py_map_color_channels f s (k, c) = Ok (s', r) <->
  match r with
  | ROk p => exists a b v, runs (call_ok f) s [d0 c; d1 c; d2 c] s' [a; b; v] /\ p = (k, Text.py_new k a b v (Some (d3 c)))
  | RErr x => exists pre new p post, first_error f s [d0 c; d1 c; d2 c] s' x pre new p post
  end.
Proof. exact @channels_run. Qed.

(** A file inverted and made grey by the command line tool and by two Python
    programs; and a function that fails for the third channel. *)
Example script_example :
  let e := mkEnv unit step_libm Checked (mkRng unit (fun s => (s, f0)) (fun s => (s, f0)) (fun s => (s, 0%Z)) (fun s => (s, f0))) plain_encoders plain_decoders in
  let wo := mkWorld end_fs tt [] in
  let cmds := [CmdSilent; CmdInvert; CmdToGray Rec709Luma; CmdSave "out.png"] in
  let args := ["d10"; "in.png"; "-silent"; "-invert"; "-grayscale"; "default"; "out.png"] in
  let script := [LineModColors Invert; LineMapColors (ToGray None); LineSave "out.png"] in
  let script' := [LineMapColors Invert; LineModColors (ToGray (Some "rec709luma")); LineSave "out.png"] in
  let file s := match files s "out.png" with Some l => l | None => [] end in
  command_line (fun t => t) (fun _ => None) true (tl args) (CmdOpen "in.png" :: cmds) /\
  same_lines cmds script /\ same_lines cmds script' /\
  match main e (fun t => t) (fun _ => None) args wo with Ok (w', ROk _) => file (w_fs w') | _ => [] end =
    [137; 80; 78; 71; 13; 10; 26; 10; 4; 1; 2; 1; 96; 96; 96; 255; 95; 95; 95; 3]%Z /\
  match run_script e "in.png" script end_fs tt with Ok (s, _, ROk _) => file s | _ => [] end =
    [137; 80; 78; 71; 13; 10; 26; 10; 4; 1; 2; 1; 96; 96; 96; 255; 95; 95; 95; 3]%Z /\
  match py_map_color_channels (X := unit) (fun n v => Ok ((n + 1)%Z, if (n =? 2)%Z then RErr tt else ROk v)) 0%Z (KRgb, RGB_RED) with Ok (n, RErr _) => n | _ => 0%Z end = 3%Z.
Proof.
  intros e wo cmds args script script' file.
  assert (FN : forall c t, c <> "-"%char -> file_name (fun t => t) (String c t)) by (intros c t N rest H; injection H; auto).
  split.
  { cbn [tl args]. apply cl_first; [apply FN; discriminate|]. apply (cl_plain _ _ _ _ "silent"); [reflexivity|left; split; reflexivity|].
    apply (cl_plain _ _ _ _ "invert"); [reflexivity|right; split; reflexivity|].
    apply (cl_with _ _ _ _ "grayscale"); [reflexivity| |apply cl_later; [apply FN; discriminate|constructor]]. apply opt_grayscale. vm_compute. tauto. }
  split. { constructor. constructor; [apply sl_mod; constructor|]. constructor; [apply sl_map; constructor; vm_compute; tauto|]. constructor; constructor. }
  split. { constructor. constructor; [apply sl_map; constructor|]. constructor; [apply sl_mod; constructor; vm_compute; tauto|constructor; constructor]. }
  split; [vm_compute; reflexivity|]. split; vm_compute; reflexivity.
Qed.
