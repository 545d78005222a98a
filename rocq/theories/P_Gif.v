(** Property theorems, generated from GifThm.v by tools/mkp.py. *)

From Coq Require Import Reals ZArith List.
From Verif Require Import Base PixelBuffer BufferSpec F32 Color Codec CodecSpec Image GifSpec.
Import ListNotations.
Open Scope Z_scope.

From Verif Require Import GifThm.


(** C118: an opened GIF file is its first frame alone, in the size of that
    frame: each pixel is the one that a viewer shows at that place relative to
    the frame. *)

Theorem C118_gif_opened : forall m D L bytes g f rest, holds_gif D bytes g -> gif_frames g = f :: rest ->
  exists i, image_read_from_buffer m D L bytes = Ok (ROk i) /\ valid (buffer i) /\
    width (buffer i) = frame_width f /\ height (buffer i) = frame_height f /\
    forall x y, inside (buffer i) x y -> has_colour L (buffer i) x y (first_picture g (frame_left f + x) (frame_top f + y)).
Proof. exact gif_opened. Qed.
Print Assumptions C118_gif_opened.


(** C118: a user expects to see the first picture of the file.  That is what
    they get only if the first frame fills the screen; all other files are
    opened as a picture of another size. *)

Theorem C118_gif_screen_refuted : forall m D L bytes g f rest, holds_gif D bytes g -> gif_frames g = f :: rest ->
  exists i, image_read_from_buffer m D L bytes = Ok (ROk i) /\
    (shows_screen L g (buffer i) <-> frame_width f = screen_width g /\ frame_height f = screen_height g).
Proof. exact gif_screen_refuted. Qed.
Print Assumptions C118_gif_screen_refuted.


(** C118: neither the screen, nor the place of the frame, nor later frames make
    a difference. *)

Theorem C118_gif_only_first : forall m D L bytes bytes' g g' f f' rest rest', holds_gif D bytes g -> holds_gif D bytes' g' ->
  gif_frames g = f :: rest -> gif_frames g' = f' :: rest' ->
  frame_width f = frame_width f' -> frame_height f = frame_height f' -> frame_data f = frame_data f' ->
  image_read_from_buffer m D L bytes = image_read_from_buffer m D L bytes'.
Proof. exact gif_only_first. Qed.
Print Assumptions C118_gif_only_first.


(** C118: a file without frames is an error. *)

Theorem C118_gif_no_frame : forall m D L bytes g, holds_gif D bytes g -> gif_frames g = [] ->
  image_read_from_buffer m D L bytes = Ok (RErr DDecoding).
Proof. exact gif_no_frame. Qed.
Print Assumptions C118_gif_no_frame.


(** C118: a GIF file that is opened and saved as GIF becomes a file of the size
    of its first frame. *)

Theorem C118_gif_saved_again : forall m D L bytes g f rest, holds_gif D bytes g -> gif_frames g = f :: rest ->
  exists i raw, image_read_from_buffer m D L bytes = Ok (ROk i) /\
    make_job L (buffer i) gif_default = ROk (JobGif (frame_width f) (frame_height f) raw) /\
    zlen raw = frame_width f * frame_height f * 4.
Proof. exact gif_saved_again. Qed.
Print Assumptions C118_gif_saved_again.

Example C118_gif_example :
  holds_gif example_decoders gif_bytes example_gif /\ first_picture example_gif 1 2 = Some [5; 6; 7; 8] /\
  first_picture example_gif 0 1 = Some [0; 0; 0; 0].
Proof. exact gif_example. Qed.
