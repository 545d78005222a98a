(** GIF files with a screen and several frames: the vocabulary of C118. *)
From Coq Require Import ZArith List.
From Verif Require Import Base PixelBuffer BufferSpec F32 Color Codec CodecSpec.
Import ListNotations.
Open Scope Z_scope.

(** A frame covers a part of the screen; its data are the bytes red, green,
    blue, alpha of each of its pixels, row by row. *)
Record gif_frame := mkGifFrame { frame_left : Z; frame_top : Z; frame_width : Z; frame_height : Z; frame_data : list Z }.
Record gif_file := mkGifFile { screen_width : Z; screen_height : Z; gif_frames : list gif_frame }.

Definition good_frame (g : gif_file) (f : gif_frame) : Prop :=
  0 <= frame_left f /\ 0 <= frame_top f /\ 0 < frame_width f /\ 0 < frame_height f /\
  frame_left f + frame_width f <= screen_width g <= 65535 /\ frame_top f + frame_height f <= screen_height g <= 65535 /\
  valid_size (frame_width f) (frame_height f) /\
  zlen (frame_data f) = frame_width f * frame_height f * 4 /\ Forall is_byte (frame_data f).

(** [bytes] is the GIF file [g].  What the gif crate delivers when it is asked
    for the next frame is the first one, with the size of that frame. *)
Definition holds_gif (D : decoders) (bytes : list Z) (g : gif_file) : Prop :=
  has_signature bytes Gif /\ Forall (good_frame g) (gif_frames g) /\
  dec_gif D bytes = ROk (match gif_frames g with [] => None | f :: _ => Some (frame_width f, frame_height f, frame_data f) end).

(** What a viewer shows first: the pixels of the first frame at its place on
    the screen, which is transparent around it. *)
Definition first_picture (g : gif_file) (x y : Z) : option (list Z) :=
  match gif_frames g with
  | [] => None
  | f :: _ =>
      let i := x - frame_left f in let j := y - frame_top f in
      if ((0 <=? i) && (i <? frame_width f) && (0 <=? j) && (j <? frame_height f))%bool
      then match slice (frame_data f) ((j * frame_width f + i) * 4) ((j * frame_width f + i + 1) * 4) with Ok px => Some px | _ => None end
      else Some [0; 0; 0; 0]
  end.

(** The pixel of [b] at (x, y) has the colour of these bytes. *)
Definition has_colour (L : libm) (b : PixelBuffer Rgb) (x y : Z) (px : option (list Z)) : Prop :=
  exists bytes c, px = Some bytes /\ color_of L (samples8 bytes) = Some c /\ forall m, get_pixel m b x y = Ok c.

(** [b] is the first picture of [g]. *)
Definition shows_screen (L : libm) (g : gif_file) (b : PixelBuffer Rgb) : Prop :=
  width b = screen_width g /\ height b = screen_height g /\
  forall x y, inside b x y -> has_colour L b x y (first_picture g x y).

(** A screen of 3x3 pixels with a frame of 1x2 pixels at (1, 1). *)
Definition example_gif := mkGifFile 3 3 [mkGifFrame 1 1 1 2 [1; 2; 3; 4; 5; 6; 7; 8]; mkGifFrame 0 0 1 1 [9; 9; 9; 255]].
Definition gif_bytes := [71; 73; 70; 56; 57; 97; 3; 0; 3; 0].
