(** Property theorems, generated from BuildThm.v by tools/mkp.py. *)

From Coq Require Import ZArith Reals List Bool String.
From Verif Require Import Base PixelBuffer BufferSpec Geometry F32 Color Resample Ops Codec CodecSpec KernelSpec Image Commands Cli PySpec PyImage PyColor PyObjects BuildSpec.
From Verif Require ScriptSpec.
Import ListNotations.
Open Scope Z_scope.

From Verif Require Import BuildThm.


(** C129: whatever a Python program with any objects and callbacks gives in the
    debug build without a panic, it gives in the release build: the same result
    and the same images, colours, files and variables. *)

Theorem C129_release_like_debug_programs : forall V E D L (a : act V) w, release_follows (fun m => run m E D L a w).
Proof. exact release_like_debug_programs. Qed.
Print Assumptions C129_release_like_debug_programs.


(** C129: the same holds for each call on its own. *)

Theorem C129_release_like_debug_calls : forall E D L i x y w h c k s path call,
  release_follows (fun m => py_new m w h c) /\ release_follows (fun m => py_open m D L s path) /\
  release_follows (fun m => py_get_pixel m i x y) /\ release_follows (fun m => py_get_pixel_clamped m i x y) /\
  release_follows (fun m => py_put_pixel m i x y k) /\ release_follows (fun m => py_getitem m i x y) /\
  release_follows (fun m => py_run m E D L i call).
Proof. exact release_like_debug_calls. Qed.
Print Assumptions C129_release_like_debug_calls.


(** C129: and for putting images together with a function that itself behaves
    like this. *)

Theorem C129_release_like_debug_compose : forall S T bs (d : T) (f : build -> S -> Z -> Z -> list T -> res (S * T)) s,
  (forall s x y l, release_follows (fun m => f m s x y l)) -> release_follows (fun m => compose m bs d (f m) s).
Proof. exact release_like_debug_compose. Qed.
Print Assumptions C129_release_like_debug_compose.


(** C129: the command line tool, and every queue of commands, do the same in
    both builds, panics included. *)

Theorem C129_tool_same_in_both_builds : forall R (e : env R) text number args w q, good_decoders (e_dec e) ->
  main (built Checked e) text number args w = main (built Wrapping e) text number args w /\
  queue_run (built Checked e) q w = queue_run (built Wrapping e) q w.
Proof. exact tool_same_in_both_builds. Qed.
Print Assumptions C129_tool_same_in_both_builds.


(** C129: usual calls on an ordinary image, one after the other, never panic:
    in both builds the result is the same exception or the same image, which is
    an ordinary one again. *)

Theorem C129_usual_calls_return : forall E D L i cs, jpeg_round_trip E D -> exp_ok L -> ordinary i -> usual_calls E D L i cs ->
  exists r, (forall m, all_calls E D L m i cs = Ok r) /\ forall i', r = ROk i' -> ordinary i'.
Proof. exact usual_calls_return. Qed.
Print Assumptions C129_usual_calls_return.


(** C129: with other calls the builds differ: a large shift makes the debug
    build panic where the release build returns an image. *)

Theorem C129_builds_differ_refuted : exists i c, ordinary i /\ forall E D L,
  py_run Checked E D L i c = Panic /\ exists i', py_run Wrapping E D L i c = Ok (ROk i') /\ ordinary i'.
Proof. exact builds_differ_refuted. Qed.
Print Assumptions C129_builds_differ_refuted.


(** Cutting, resizing, blurring and saving an image, with a misspelt name at
    the end. *)

Example C129_builds_example :
  let i := mkImage (mkPB 3 1 [RGB_RED; RGB_GREEN; RGB_RED]) None in
  let calls := [CallCrop 1 0 9 9; CallResize 4 2 None; CallGaussianBlur 1 None; CallInterlace 3; CallJpegQuality 80 (Some true)] in
  let run cs := match all_calls example_encoders example_decoders step_libm Checked i cs with
    | Ok (ROk j) => Some (width (buffer j), height (buffer j)) | Ok (RErr _) => None | Panic => Some (-1, -1) end in
  good_decoders example_decoders /\ jpeg_round_trip example_encoders example_decoders /\ exp_ok step_libm /\ ordinary i /\
  usual_calls example_encoders example_decoders step_libm i calls /\
  run calls = Some (4, 2) /\ run (calls ++ [CallResize 4 2 (Some "bilinaer"%string)]) = None.
Proof. exact builds_example. Qed.
