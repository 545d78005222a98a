(** What happens to a picture that is opened and saved again and again: the
    vocabulary of C117. *)
From Coq Require Import Reals ZArith List.
From Flocq Require Import Core.Core IEEE754.BinarySingleNaN.
From Verif Require Import Base PixelBuffer BufferSpec F32 Color ColorSpec Codec CodecSpec Image MeaningSpec ReopenSpec.
Import ListNotations.
Open Scope R_scope.

(** A [powf] whose error is at most [T/128] units in the last place, for
    numbers in (0,1] and exponents in (0,1000] (if the power is not below
    2^-100).  Correct rounding is [T = 64]; [T = 112] allows for errors of
    up to 0.875 units. *)
Definition powf_within (T : Z) (L : libm) : Prop :=
  forall x y e, is_finite x = true -> is_finite y = true -> 0 < B2R x <= 1 -> 0 < B2R y <= 1000 -> (-99 <= e)%Z ->
    bpow radix2 (e - 1) <= Rpower (B2R x) (B2R y) < bpow radix2 e ->
    close (IZR T / 128 * bpow radix2 (e - 24)) (Rpower (B2R x) (B2R y)) (powf L x y).

(** [bytes] is a PNG file of that layout and size that holds the samples
    [raw]. *)
Definition holds_png (D : decoders) (color : png_color) (d : png_depth) (w h : Z) (bytes raw : list Z) : Prop :=
  exists img, has_signature bytes Png /\ dec_png D bytes = ROk img /\ png_width img = w /\ png_height img = h /\
    png_layout img = Some (color, d) /\ next_frame img (zlen raw) = ROk raw /\
    zlen raw = (w * h * (channels color * depth_bytes d))%Z /\ Forall is_byte raw.

(** A PNG file that is opened and saved with the same colour type [n] times. *)
Fixpoint resaved (m : build) (E : encoders) (D : decoders) (L : libm) (f : EncodingFormat) (n : nat) (bytes : list Z) : option (list Z) :=
  match n with
  | O => Some bytes
  | S n => match image_read_from_buffer m D L bytes with
           | Ok (ROk i) => match image_save_to_buffer E L i f with ROk bytes' => resaved m E D L f n bytes' | RErr _ => None end
           | _ => None
           end
  end.

(** The samples of 8 bits, but 255, that are lowered when a file is opened and
    saved. *)
Definition lowered8 : list Z :=
  ([11; 12; 13; 18; 24] ++ zrange 31 38 ++ zrange 39 64 ++ [97] ++ zrange 114 128 ++ [132; 187; 215; 241; 243; 245; 247; 249; 251; 253])%Z.
