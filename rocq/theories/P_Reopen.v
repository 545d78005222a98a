(** Property theorems, generated from ReopenThm.v by tools/mkp.py. *)

From Coq Require Import Reals ZArith List String.
From Flocq Require Import IEEE754.BinarySingleNaN.
From Verif Require Import Base PixelBuffer BufferSpec F32 Color ColorSpec Codec CodecSpec Image MeaningSpec IdealPowf ReopenSpec.
Import ListNotations.
Open Scope R_scope.

From Verif Require Import ReopenThm.


(** C116: a picture that is saved to memory as PNG, with any colour type but
    16 bit gray (see C54), and read again has its size and its colours up to
    the resolution of the colour type: no sample is lost or moved. *)

Theorem C116_png_memory_reopened : forall m E D L i ct comp filter, lossless_png E D -> accurate_powf L ->
  valid (buffer i) -> nonempty (buffer i) -> colours_in_range (buffer i) -> ct <> PL16 ->
  exists bytes i', image_save_to_buffer E L i (EPng ct comp filter) = ROk bytes /\
    image_read_from_buffer m D L bytes = Ok (ROk i') /\
    reopened_image (fst (fst (png_promise L ct))) (snd (fst (png_promise L ct))) (buffer i) (buffer i').
Proof. exact png_memory_reopened. Qed.
Print Assumptions C116_png_memory_reopened.


(** C116: the same for files, whatever their names are, if they can be
    created and there is room for the bytes. *)

Theorem C116_png_file_reopened : forall m E D L s i path ct comp filter, lossless_png E D -> accurate_powf L ->
  valid (buffer i) -> nonempty (buffer i) -> colours_in_range (buffer i) -> ct <> PL16 ->
  creatable s path = true -> (forall bytes, image_save_to_buffer E L i (EPng ct comp filter) = ROk bytes -> zlen bytes <= limits s path)%Z ->
  exists s' i', image_save_with_format E L s i path (EPng ct comp filter) = (s', ROk tt) /\
    image_open m D L s' path = Ok (ROk i') /\
    reopened_image (fst (fst (png_promise L ct))) (snd (fst (png_promise L ct))) (buffer i) (buffer i').
Proof. exact png_file_reopened. Qed.
Print Assumptions C116_png_file_reopened.


(** C116: and for a file whose name says that it is a PNG file, with the
    default colour type, RGBA with 8 bits. *)

Theorem C116_png_saved_reopened : forall m E D L s i path, lossless_png E D -> accurate_powf L ->
  valid (buffer i) -> nonempty (buffer i) -> colours_in_range (buffer i) ->
  has_extension path Png -> creatable s path = true -> (forall bytes f, image_save_to_buffer E L i f = ROk bytes -> zlen bytes <= limits s path)%Z ->
  exists s' i', image_save E L s i path = (s', ROk tt) /\ image_open m D L s' path = Ok (ROk i') /\
    reopened_image ColRgba Eight (buffer i) (buffer i').
Proof. exact png_saved_reopened. Qed.
Print Assumptions C116_png_saved_reopened.


(** C116: the same for BMP and ICO, up to the sizes the libraries support. *)

Theorem C116_image_memory_reopened : forall m E D L i ct limit f, accurate_powf L ->
  valid (buffer i) -> nonempty (buffer i) -> colours_in_range (buffer i) -> (width (buffer i) <= limit)%Z -> (height (buffer i) <= limit)%Z ->
  (f = EBmp ct /\ lossless_image E JobBmp (dec_bmp D) Bmp limit) \/ (f = EIco ct /\ lossless_image E JobIco (dec_ico D) Ico limit) ->
  exists bytes i', image_save_to_buffer E L i f = ROk bytes /\ image_read_from_buffer m D L bytes = Ok (ROk i') /\
    reopened_image (image_layout (fst (fst (image_promise L ct)))) Eight (buffer i) (buffer i').
Proof. exact image_memory_reopened. Qed.
Print Assumptions C116_image_memory_reopened.


(** C116: and a file of any format that is saved without an error and opened
    again shows what the bytes saved to memory show, if there is room for
    them. *)

Theorem C116_file_like_memory : forall m E D L s i path f bytes, image_save_to_buffer E L i f = ROk bytes ->
  (exists g, has_signature bytes g) -> creatable s path = true -> (zlen bytes <= limits s path)%Z ->
  exists s', image_save_with_format E L s i path f = (s', ROk tt) /\ files s' path = Some bytes /\
    image_open m D L s' path = image_read_from_buffer m D L bytes.
Proof. exact file_like_memory. Qed.
Print Assumptions C116_file_like_memory.


(** C116: what is stored as it is, like alpha, comes back lower by at most one
    step and the rounding errors. *)

Theorem C116_alpha_step : forall N a b, (0 < N)%Z -> stored N (fun v => v) (fun v => v) a b ->
  B2R a - / IZR N - / 2 ^ 17 <= B2R b <= B2R a + / 2 ^ 17.
Proof. exact alpha_step. Qed.
Print Assumptions C116_alpha_step.

Example C116_reopened_example : lossless_png plain_encoders plain_decoders /\
  lossless_image plain_encoders JobBmp (dec_bmp plain_decoders) Bmp 65535 /\ lossless_image plain_encoders JobIco (dec_ico plain_decoders) Ico 256 /\
  (forall L, accurate_powf (ideal_libm L)) /\
  let b := mkPB 2 1 [mkC (dec 1 10) (dec 1 2) f1 (dec 1 4); mkC f0 f0 f0 f0] in
  valid b /\ nonempty b /\ colours_in_range b.
Proof. exact reopened_example. Qed.
