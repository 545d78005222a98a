(** Property theorems, generated from CommandsThm.v by tools/mkp.py. *)

From Coq Require Import ZArith Reals List Bool String.
From Verif Require Import Base PixelBuffer BufferSpec F32 Color ColorSpec Resample Kernel Ops Codec CodecSpec Image Commands CommandsSpec.
Import ListNotations.
Open Scope Z_scope.

From Verif Require Import CommandsThm.


(** C61: whenever a queue returns, its commands were done in order up to the
    first one that failed, whose error is returned, or all of them, and then
    it returns Ok; files and random numbers are left as the commands did. *)

Theorem C61_queue_in_order : forall R (e : env R) q w w' r, good_decoders (e_dec e) -> queue_run e q w = Ok (w', r) ->
  exists image started, do_until_error e q (before_all w) (mkState image (w_fs w') (w_rng w')) started r.
Proof. exact queue_in_order. Qed.
Print Assumptions C61_queue_in_order.


(** C61: whatever commands can do the queue does. *)

Theorem C61_queue_does_all : forall R (e : env R) q w st started r, good_decoders (e_dec e) ->
  do_until_error e q (before_all w) st started r ->
  exists w', queue_run e q w = Ok (w', r) /\ w_fs w' = on_disk st /\ w_rng w' = random st.
Proof. exact queue_does_all. Qed.
Print Assumptions C61_queue_does_all.


(** C61: a queue panics exactly when, after commands that succeeded, it opens
    a file whose decoding panics; this is a JPEG file of more than 2^30-1
    pixels (see C59). *)

Theorem C61_queue_panics_exactly : forall R (e : env R) q w, good_decoders (e_dec e) ->
  (queue_run e q w = Panic <-> exists done path later st, q = done ++ CmdOpen path :: later /\ do_all e done (before_all w) st /\
     decode_file (e_build e) (e_dec e) (e_libm e) (on_disk st) path = Panic) /\
  (forall s path, decode_file (e_build e) (e_dec e) (e_libm e) s path = Panic ->
     exists contents raw w h f, files s path = Some contents /\ dec_jpeg (e_dec e) contents = ROk (raw, Some (w, h, f)) /\ 1073741823 < w * h).
Proof. exact queue_panics_exactly. Qed.
Print Assumptions C61_queue_panics_exactly.


(** C61: a command can have only one outcome. *)

Theorem C61_one_outcome : forall R (e : env R) c st r1 st1 r2 st2, (forall b, held st = Some b -> valid b) ->
  does e c st r1 st1 -> does e c st r2 st2 -> r1 = r2 /\ st1 = st2.
Proof. exact one_outcome. Qed.
Print Assumptions C61_one_outcome.


(** C61: queues written with the builder methods: open a file, apply any number
    of recolourings in the order given and save the result. *)

Theorem C61_builder_recolours : forall R (e : env R) steps w input output b, good_decoders (e_dec e) ->
  decode_file (e_build e) (e_dec e) (e_libm e) (w_fs w) input = Ok (ROk b) ->
  Forall (fun '(step, f) => recolours (e_libm e) step f) steps ->
  exists b', recolored (fun c => fold_left (fun c '(step, f) => f c) steps c) b b' /\
    ends_saving e (queue_save (fold_left (fun q '(step, f) => step q) steps (queue_open queue_new input)) output) w output b'.
Proof. exact builder_recolours. Qed.
Print Assumptions C61_builder_recolours.


(** C61: opening, rotating and saving; what the rotation leaves free is
    transparent black. *)

Theorem C61_builder_rotates : forall R (e : env R) w input output b radians f b', good_decoders (e_dec e) ->
  decode_file (e_build e) (e_dec e) (e_libm e) (w_fs w) input = Ok (ROk b) ->
  rotate (e_libm e) (e_build e) b radians (mkC f0 f0 f0 f0) f = Ok b' ->
  ends_saving e (queue_save (queue_rotate (queue_open queue_new input) radians f) output) w output b'.
Proof. exact builder_rotates. Qed.
Print Assumptions C61_builder_rotates.

Example C61_queue_example :
  let g := mkRng Z (fun s => (s + 1, f0)) (fun s => (s + 1, f1)) (fun s => (s + 1, s mod 3)) (fun s => (s + 1, f1)) in
  let e := mkEnv Z example_libm Checked g example_encoders example_decoders in
  let w := mkWorld (example_fs 1000) 5 [] in
  let show q := match queue_run e q w with
    | Ok (w', r) => (files (w_fs w') "x.gif"%string, w_rng w', r, map (fun l => (l_current l, l_total l)) (w_out w'))
    | Panic => (None, 0, ROk tt, []) end in
  show [CmdOpen "photo.PNG"; CmdInvert; CmdSave "x.gif"] =
    (Some [71; 73; 70; 56; 55; 97; 1; 2; 254; 254; 254; 4; 254; 254; 254; 8], 5, ROk tt, [(1, 3); (2, 3); (3, 3)]) /\
  show [CmdOpen "photo.PNG"; CmdSilent; CmdRgbNoise f1; CmdSave "x.gif"; CmdOpen "none.gif"; CmdInvert; CmdSave "x.gif"] =
    (Some [71; 73; 70; 56; 55; 97; 1; 2; 254; 2; 3; 4; 5; 6; 254; 8], 9, RErr (Decoding DIoError), [(1, 6)]) /\
  show [CmdSilent; CmdSave "x.gif"; CmdOpen "photo.PNG"] = (None, 5, RErr MissingImage, []).
Proof. exact queue_example. Qed.

Example C61_builder_example :
  let e := mkEnv Z example_libm Checked (mkRng Z (fun s => (s + 1, f0)) (fun s => (s + 1, f1)) (fun s => (s + 1, s mod 3)) (fun s => (s + 1, f1))) example_encoders example_decoders in
  let w := mkWorld (example_fs 1000) 5 [] in
  match decode_file (e_build e) (e_dec e) (e_libm e) (w_fs w) "photo.PNG" with Ok (ROk b) => 1 <= zlen (data b) | _ => False end /\
  Forall (fun '(step, f) => recolours (e_libm e) step f)
    [(queue_invert, invert); (fun q => queue_level q f0 f1 f1, with_level (e_libm e) f0 f1 f1)].
Proof. exact builder_example. Qed.


(** C62: a queue fails with MissingImage exactly when it has a command other
    than Silent and the first such command is not Open. *)

Theorem C62_missing_image_exactly : forall R (e : env R) q w, good_decoders (e_dec e) ->
  ((exists w', queue_run e q w = Ok (w', RErr MissingImage)) <->
   exists before c after, q = before ++ c :: after /\ Forall (eq CmdSilent) before /\ silent c = false /\ opens c = false).
Proof. exact missing_image_exactly. Qed.
Print Assumptions C62_missing_image_exactly.


(** C62: then no file is changed and no random number is drawn. *)

Theorem C62_missing_image_inert : forall R (e : env R) q w w', good_decoders (e_dec e) ->
  queue_run e q w = Ok (w', RErr MissingImage) -> w_fs w' = w_fs w /\ w_rng w' = w_rng w.
Proof. exact missing_image_inert. Qed.
Print Assumptions C62_missing_image_inert.

Example C62_missing_image_example : [CmdSilent; CmdSilent; CmdInvert; CmdOpen "a"] = [CmdSilent; CmdSilent] ++ CmdInvert :: [CmdOpen "a"%string] /\
  Forall (eq CmdSilent) [CmdSilent; CmdSilent] /\ silent CmdInvert = false /\ opens CmdInvert = false.
Proof. exact missing_image_example. Qed.


(** C63: the lines printed are those of the commands that were started, up to
    the first Silent, numbered from 1, each with the number of all commands
    that are not Silent. *)

Theorem C63_log_numbers : forall R (e : env R) q w w' r, good_decoders (e_dec e) -> queue_run e q w = Ok (w', r) ->
  exists image started lines, do_until_error e q (before_all w) (mkState image (w_fs w') (w_rng w')) started r /\
    w_out w' = w_out w ++ lines /\ log_lines q started lines.
Proof. exact log_numbers. Qed.
Print Assumptions C63_log_numbers.

Example C63_log_numbers_example : log_lines [CmdInvert; CmdSilent; CmdInvert] [CmdInvert; CmdSilent; CmdInvert] [mkLine 1 2 CmdInvert].
Proof. exact log_numbers_example. Qed.
