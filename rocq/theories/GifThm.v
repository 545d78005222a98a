(** GIF files with a screen and several frames (C118). *)
From Coq Require Import Reals ZArith List.
From Verif Require Import Base PixelBuffer BufferSpec F32 Color Codec CodecSpec Image GifSpec.
Import ListNotations.
Open Scope Z_scope.

(* PROPERTIES *)
From Coq Require Import Lia Bool.
From Verif Require Import BaseLemmas PixelBufferProofs PathProofs LayoutProofs DecodeProofs.
Open Scope Z_scope.

(** C118: an opened GIF file is its first frame alone, in the size of that
    frame: each pixel is the one that a viewer shows at that place relative to
    the frame. *)
Lemma gif_opened : forall m D L bytes g f rest, holds_gif D bytes g -> gif_frames g = f :: rest ->
  exists i, image_read_from_buffer m D L bytes = Ok (ROk i) /\ valid (buffer i) /\
    width (buffer i) = frame_width f /\ height (buffer i) = frame_height f /\
    forall x y, inside (buffer i) x y -> has_colour L (buffer i) x y (first_picture g (frame_left f + x) (frame_top f + y)).
Proof.
  intros m D L bytes g f rest (SG & FR & DE) GF. rewrite GF in DE. rewrite GF in FR. apply Forall_inv in FR.
  destruct FR as (L0 & T0 & W0 & H0 & LW & TH & VS & ZL & BY).
  destruct (decode_gif_ok m D L bytes _ _ _ DE VS ZL BY) as (b & DB & V & WB & HB & PX).
  exists (new_from_buffer b). split; [unfold image_read_from_buffer, decode_buffer; apply from_reader_iff in SG; rewrite SG, DB; reflexivity|].
  cbn [buffer new_from_buffer]. split; [exact V|]. split; [exact WB|]. split; [exact HB|].
  intros x y I. destruct (PX m x y I) as (px & c & S & C & _). exists px, c. split; [|split; [exact C|]].
  - unfold first_picture. rewrite GF. cbv zeta. replace (frame_left f + x - frame_left f) with x by lia.
    replace (frame_top f + y - frame_top f) with y by lia. destruct I as (Ix & Iy). rewrite WB in Ix. rewrite HB in Iy.
    replace (0 <=? x) with true by (symmetry; apply Z.leb_le; lia). replace (x <? frame_width f) with true by (symmetry; apply Z.ltb_lt; lia).
    replace (0 <=? y) with true by (symmetry; apply Z.leb_le; lia). replace (y <? frame_height f) with true by (symmetry; apply Z.ltb_lt; lia).
    cbn [andb]. rewrite S. reflexivity.
  - intros m'. destruct (PX m' x y I) as (px' & c' & S' & C' & G'). rewrite S in S'. injection S' as <-. rewrite C in C'. injection C' as <-. exact G'.
Qed.

(** C118: a user expects to see the first picture of the file.  That is what
    they get only if the first frame fills the screen; all other files are
    opened as a picture of another size. *)
Lemma gif_screen_refuted : forall m D L bytes g f rest, holds_gif D bytes g -> gif_frames g = f :: rest ->
  exists i, image_read_from_buffer m D L bytes = Ok (ROk i) /\
    (shows_screen L g (buffer i) <-> frame_width f = screen_width g /\ frame_height f = screen_height g).
Proof.
  intros m D L bytes g f rest HG GF. destruct (gif_opened m D L bytes g f rest HG GF) as (i & R & _ & W & H & P).
  exists i. split; [exact R|]. destruct HG as (_ & FR & _). rewrite GF in FR. apply Forall_inv in FR.
  destruct FR as (L0 & T0 & _ & _ & LW & TH & _). split.
  - intros (A & B & _). split; congruence.
  - intros (A & B). split; [congruence|]. split; [congruence|]. intros x y I. specialize (P x y I).
    replace (frame_left f + x) with x in P by lia. replace (frame_top f + y) with y in P by lia. exact P.
Qed.

(** C118: neither the screen, nor the place of the frame, nor later frames make
    a difference. *)
Lemma gif_only_first : forall m D L bytes bytes' g g' f f' rest rest', holds_gif D bytes g -> holds_gif D bytes' g' ->
  gif_frames g = f :: rest -> gif_frames g' = f' :: rest' ->
  frame_width f = frame_width f' -> frame_height f = frame_height f' -> frame_data f = frame_data f' ->
  image_read_from_buffer m D L bytes = image_read_from_buffer m D L bytes'.
Proof.
  intros m D L bytes bytes' g g' f f' rest rest' (S & _ & E) (S' & _ & E') G G' W H A.
  rewrite G in E. rewrite G' in E'. apply from_reader_iff in S. apply from_reader_iff in S'.
  unfold image_read_from_buffer, decode_buffer. rewrite S, S'. cbn [decode]. unfold decode_gif. rewrite E, E', W, H, A. reflexivity.
Qed.

(** C118: a file without frames is an error. *)
Lemma gif_no_frame : forall m D L bytes g, holds_gif D bytes g -> gif_frames g = [] ->
  image_read_from_buffer m D L bytes = Ok (RErr DDecoding).
Proof.
  intros m D L bytes g (S & _ & E) G. rewrite G in E. apply from_reader_iff in S.
  unfold image_read_from_buffer, decode_buffer. rewrite S. cbn [decode]. unfold decode_gif. rewrite E. reflexivity.
Qed.

(** C118: a GIF file that is opened and saved as GIF becomes a file of the size
    of its first frame. *)
Lemma gif_saved_again : forall m D L bytes g f rest, holds_gif D bytes g -> gif_frames g = f :: rest ->
  exists i raw, image_read_from_buffer m D L bytes = Ok (ROk i) /\
    make_job L (buffer i) gif_default = ROk (JobGif (frame_width f) (frame_height f) raw) /\
    zlen raw = frame_width f * frame_height f * 4.
Proof.
  intros m D L bytes g f rest HG GF. destruct (gif_opened m D L bytes g f rest HG GF) as (i & R & V & W & H & _).
  destruct HG as (_ & FR & _). rewrite GF in FR. apply Forall_inv in FR. destruct FR as (L0 & T0 & _ & _ & LW & TH & _).
  destruct (gif_layout_ok L (buffer i) V) as (raw & J & Z & _); [lia|lia|]. exists i, raw. split; [exact R|].
  split; [rewrite <- W, <- H; exact J|]. rewrite Z, W, H. reflexivity.
Qed.

Example gif_example :
  holds_gif example_decoders gif_bytes example_gif /\ first_picture example_gif 1 2 = Some [5; 6; 7; 8] /\
  first_picture example_gif 0 1 = Some [0; 0; 0; 0].
Proof.
  split; [|split; reflexivity]. split; [apply from_reader_iff; reflexivity|]. split; [|reflexivity].
  unfold example_gif, valid_size. cbn [gif_frames].
  repeat apply Forall_cons; try apply Forall_nil; unfold good_frame, valid_size, MAX_BUFFER_SIZE, is_byte; cbn [frame_left frame_top frame_width frame_height frame_data screen_width screen_height];
    do 8 (split; [try split; (lia || reflexivity)|]); repeat constructor; discriminate.
Qed.
