(** What the whole program does, from the arguments and the bytes of one file
    to the bytes of another: the vocabulary of C119. *)
From Coq Require Import Reals ZArith List String.
From Flocq Require Import IEEE754.BinarySingleNaN.
From Verif Require Import Base PixelBuffer BufferSpec F32 Color ColorSpec Codec CodecSpec Image Commands CommandsSpec Cli MeaningSpec ReopenSpec ResaveSpec.
Import ListNotations.
Open Scope R_scope.

(** The commands [cmds] recolour each pixel by itself, all together with [f]:
    the first command comes first. *)
Inductive recolouring (L : libm) : list Cmd -> (Rgb -> Rgb) -> Prop :=
| rec_nothing : recolouring L [] (fun c => c)
| rec_silent cmds f : recolouring L cmds f -> recolouring L (CmdSilent :: cmds) f
| rec_command c g cmds f : pixel_function L c = Some g -> recolouring L cmds f -> recolouring L (c :: cmds) (fun p => f (g p)).

(** [v] is the byte just below [r], a number of [0,1] stretched to [0,255], up
    to an error of [e]. *)
Definition byte_below (e : R) (r : R) (v : Z) : Prop := (0 <= v <= 255)%Z /\ IZR v - e <= r * 255 < IZR v + 1 + e.

(** The samples of pixel (x,y) of an RGBA picture of width [w]. *)
Definition pixel_at (raw : list Z) (w x y r g b a : Z) : Prop := slice raw ((y * w + x) * 4) ((y * w + x + 1) * 4) = Ok [r; g; b; a].

(** A PNG file with a picture of that size can be written to [path]. *)
Definition can_store (E : encoders) (L : libm) (s : fs) (path : string) (w h : Z) : Prop :=
  has_extension path Png /\ creatable s path = true /\
  forall i bytes, valid (buffer i) -> width (buffer i) = w -> height (buffer i) = h ->
    image_save_to_buffer E L i (EPng PRgba8 CDefault FSub) = ROk bytes -> (zlen bytes <= limits s path)%Z.

(** [args] make the program turn the RGBA picture [raw] into another one in the
    file [output] and touch no other file: what was red, green and blue [r, g,
    b] is now [r', g', b'] with [P r g b r' g' b'], and alpha is as it was. *)
Definition program_recolours {S} (e : env S) (text : string -> string) (number : string -> option f32) (args : list string) (wo : world S)
    (w h : Z) (raw : list Z) (output : string) (P : Z -> Z -> Z -> Z -> Z -> Z -> Prop) : Prop :=
  exists wo' bytes' raw', main e text number args wo = Ok (wo', ROk tt) /\
    (forall p, p <> output -> files (w_fs wo') p = files (w_fs wo) p) /\
    files (w_fs wo') output = Some bytes' /\ holds_png (e_dec e) ColRgba Eight w h bytes' raw' /\
    forall x y, (0 <= x < w)%Z -> (0 <= y < h)%Z -> exists r g b a r' g' b',
      pixel_at raw w x y r g b a /\ pixel_at raw' w x y r' g' b' a /\ P r g b r' g' b'.
(** The same for a recolouring of each channel by itself: the byte [v] stands
    for the light [srgb_decode (v / 255)], [F] is applied to it and the result
    is stored as the byte below it. *)
Definition light (v : Z) : R := srgb_decode (IZR v / 255).
Definition each_channel (e : R) (F : R -> R) (r g b r' g' b' : Z) : Prop :=
  byte_below e (srgb_encode (F (light r))) r' /\ byte_below e (srgb_encode (F (light g))) g' /\ byte_below e (srgb_encode (F (light b))) b'.

(** The file [input] is a PNG file with the RGBA picture [raw] and [output] can
    be written; the libraries do what they should. *)
Definition ready {S} (e : env S) (wo : world S) (input output : string) (w h : Z) (raw : list Z) : Prop :=
  good_decoders (e_dec e) /\ lossless_png (e_enc e) (e_dec e) /\ accurate_powf (e_libm e) /\ (0 < w)%Z /\ (0 < h)%Z /\ valid_size w h /\
  (exists bytes, files (w_fs wo) input = Some bytes /\ holds_png (e_dec e) ColRgba Eight w h bytes raw) /\
  can_store (e_enc e) (e_libm e) (w_fs wo) output w h.

(** Files, an input and libraries for an example: a picture of two pixels. *)
Definition example_raw : list Z := [255; 128; 0; 255; 10; 200; 77; 3]%Z.
Definition example_png : list Z := ([137; 80; 78; 71; 13; 10; 26; 10; 4; 1; 2; 1] ++ example_raw)%Z.
Definition end_fs : fs :=
  mkFs (fun p => if String.eqb p "in.png" then Some example_png else None) (fun _ => true) (fun _ => 1000%Z).
