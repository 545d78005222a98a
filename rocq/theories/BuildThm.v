(** Debug and release builds (C129). *)
From Coq Require Import ZArith Reals List Bool String.
From Verif Require Import Base PixelBuffer BufferSpec Geometry F32 Color Resample Ops Codec CodecSpec KernelSpec Image Commands Cli PySpec PyImage PyColor PyObjects BuildSpec.
From Verif Require ScriptSpec.
Import ListNotations.
Open Scope Z_scope.

(* PROPERTIES *)
From Coq Require Import Lia Lra.
From Verif Require Import CodecThm DrawMeanThm BuildProofs OrdinaryProofs.

(** C129: whatever a Python program with any objects and callbacks gives in the
    debug build without a panic, it gives in the release build: the same result
    and the same images, colours, files and variables. *)
Lemma release_like_debug_programs : forall V E D L (a : act V) w, release_follows (fun m => run m E D L a w).
Proof. exact @le_objects. Qed.

(** C129: the same holds for each call on its own. *)
Lemma release_like_debug_calls : forall E D L i x y w h c k s path call,
  release_follows (fun m => py_new m w h c) /\ release_follows (fun m => py_open m D L s path) /\
  release_follows (fun m => py_get_pixel m i x y) /\ release_follows (fun m => py_get_pixel_clamped m i x y) /\
  release_follows (fun m => py_put_pixel m i x y k) /\ release_follows (fun m => py_getitem m i x y) /\
  release_follows (fun m => py_run m E D L i call).
Proof.
  intros. split; [exact (le_py_new w h c)|]. split; [exact (le_py_open D L s path)|]. split; [exact (le_py_get_pixel i x y)|].
  split; [exact (le_py_get_pixel_clamped i x y)|]. split; [exact (le_py_put_pixel i x y k)|]. split; [exact (le_py_getitem i x y)|exact (le_py_run E D L i call)].
Qed.

(** C129: and for putting images together with a function that itself behaves
    like this. *)
Lemma release_like_debug_compose : forall S T bs (d : T) (f : build -> S -> Z -> Z -> list T -> res (S * T)) s,
  (forall s x y l, release_follows (fun m => f m s x y l)) -> release_follows (fun m => compose m bs d (f m) s).
Proof. intros S T bs d f s F. exact (le_compose bs d (f Checked) (f Wrapping) s F). Qed.

(** C129: the command line tool, and every queue of commands, do the same in
    both builds, panics included. *)
Lemma tool_same_in_both_builds : forall R (e : env R) text number args w q, good_decoders (e_dec e) ->
  main (built Checked e) text number args w = main (built Wrapping e) text number args w /\
  queue_run (built Checked e) q w = queue_run (built Wrapping e) q w.
Proof. intros R e text number args w q G. split; [exact (main_builds e text number args w G)|exact (queue_builds e q w G)]. Qed.

(** C129: usual calls on an ordinary image, one after the other, never panic:
    in both builds the result is the same exception or the same image, which is
    an ordinary one again. *)
Lemma usual_calls_return : forall E D L i cs, jpeg_round_trip E D -> exp_ok L -> ordinary i -> usual_calls E D L i cs ->
  exists r, (forall m, all_calls E D L m i cs = Ok r) /\ forall i', r = ROk i' -> ordinary i'.
Proof. intros E D L i cs J X. exact (usual_all E D L J X cs i). Qed.

(** C129: with other calls the builds differ: a large shift makes the debug
    build panic where the release build returns an image. *)
Lemma builds_differ_refuted : exists i c, ordinary i /\ forall E D L,
  py_run Checked E D L i c = Panic /\ exists i', py_run Wrapping E D L i c = Ok (ROk i') /\ ordinary i'.
Proof.
  exists (mkImage (mkPB 2 2 [RGB_RED; RGB_GREEN; RGB_RED; RGB_GREEN]) None), (CallInterlace 2147483647).
  split; [split; [split; [right; cbn; lia|reflexivity]|cbn; lia]|]. intros E D L.
  split; [reflexivity|]. eexists. split; [reflexivity|]. split; [split; [right; cbn; lia|reflexivity]|cbn; lia].
Qed.

(** Cutting, resizing, blurring and saving an image, with a misspelt name at
    the end. *)
Example builds_example :
  let i := mkImage (mkPB 3 1 [RGB_RED; RGB_GREEN; RGB_RED]) None in
  let calls := [CallCrop 1 0 9 9; CallResize 4 2 None; CallGaussianBlur 1 None; CallInterlace 3; CallJpegQuality 80 (Some true)] in
  let run cs := match all_calls example_encoders example_decoders step_libm Checked i cs with
    | Ok (ROk j) => Some (width (buffer j), height (buffer j)) | Ok (RErr _) => None | Panic => Some (-1, -1) end in
  good_decoders example_decoders /\ jpeg_round_trip example_encoders example_decoders /\ exp_ok step_libm /\ ordinary i /\
  usual_calls example_encoders example_decoders step_libm i calls /\
  run calls = Some (4, 2) /\ run (calls ++ [CallResize 4 2 (Some "bilinaer"%string)]) = None.
Proof.
  intros i calls run0. split.
  { split; cbn [example_decoders dec_png dec_jpeg dec_gif dec_bmp dec_ico dec_webp].
    - intros c img H. injection H as <-. cbn [png_width png_height next_frame]. split; [unfold is_u32; lia|]. split; [unfold is_u32; lia|].
      intros n l. destruct (n <? 0) eqn:N; [discriminate|]. intros H. injection H as <-. unfold zlen. rewrite repeat_length. lia.
    - intros c raw w h f. destruct (skipn 3 c) as [|w0 [|h0 [|n0 l]]]; try discriminate. destruct (_ && _)%bool eqn:K; [|discriminate].
      intros H. injection H as <- <- <- <-. split; [lia|]. split; [lia|]. unfold zlen in *. rewrite map_length. destruct (n0 =? 1) eqn:N; cbn [jpeg_bytes]; lia.
    - intros c w h raw H. injection H as <- <- <-. cbn. lia.
    - intros c img H. injection H as <-. split; [unfold is_u32; cbn; lia|]. split; [unfold is_u32; cbn; lia|]. intros n Hn. injection Hn as <-. reflexivity.
    - intros c img H. injection H as <-. split; [unfold is_u32; cbn; lia|]. split; [unfold is_u32; cbn; lia|]. intros n Hn. injection Hn as <-. reflexivity.
    - intros c w h raw H. injection H as <- <- <-. cbn. lia. }
  split; [exact (proj1 jpeg_quality_example)|]. split; [exact (proj1 drawing_reduced_example)|].
  split; [split; [split; [right; cbn; lia|reflexivity]|cbn; lia]|]. split.
  { unfold calls. cbn [usual_calls usual_call i buffer width height]. split; [lia|]. intros i1 _. split; [lia|]. intros i2 _. split; [lia|].
    intros i3 _. split; [lia|]. intros i4 _. split; [exact I|]. intros i5 _. exact I. }
  split; vm_compute; reflexivity.
Qed.
