(** Property theorems, generated from PyMoreThm.v by tools/mkp.py. *)

From Coq Require Import ZArith List Bool String.
From Verif Require Import Base PixelBuffer BufferSpec F32 Color ColorSpec Kernel KernelSpec Ops OpsSpec NoiseSpec Codec CodecSpec Names Image
  ImageSpec PyImage PySpec.
Import ListNotations.
Local Open Scope string_scope.
Open Scope Z_scope.
From Coq Require Import Lia ZifyBool.
From Verif Require Import BaseLemmas BufferThm CodecThm OpsThm PyProofs MeansProofs.

From Verif Require Import PyMoreThm.


(** C111: [Image.open]: the contents decide the format, else the file name does;
    the decoded image has no background colour; whatever goes wrong is an OSError
    with the reason. *)

Theorem C111_python_open : forall m D L s path,
  (files s path = None -> py_open m D L s path = Ok (RErr (OSErrorDecoding DIoError))) /\
  forall contents, files s path = Some contents ->
    (forall f, has_signature contents f \/ (forall g, ~ has_signature contents g) /\ has_extension path f ->
      (forall b, decode m D L contents f = Ok (ROk b) -> py_open m D L s path = Ok (ROk (mkImage b None))) /\
      (forall e, decode m D L contents f = Ok (RErr e) -> py_open m D L s path = Ok (RErr (OSErrorDecoding e))) /\
      (decode m D L contents f = Panic -> py_open m D L s path = Panic)) /\
    ((forall f, ~ has_signature contents f) -> (forall f, ~ has_extension path f) ->
      py_open m D L s path = Ok (RErr (OSErrorDecoding DUnknownFormat))).
Proof. exact python_open. Qed.
Print Assumptions C111_python_open.


(** C111: [get_pixel_clamped] for any two Python integers: a pixel nearest to that
    place; OverflowError if they do not fit; a panic on an image without pixels. *)

Theorem C111_python_get_pixel_clamped : forall m i x y, good_image i ->
  (nonempty (buffer i) -> is_i32 x -> is_i32 y -> exists cx cy c, inside (buffer i) cx cy /\ get_pixel m (buffer i) cx cy = Ok c /\
     py_get_pixel_clamped m i x y = Ok (ROk c) /\
     forall x' y', inside (buffer i) x' y' -> Z.abs (x - cx) <= Z.abs (x - x') /\ Z.abs (y - cy) <= Z.abs (y - y')) /\
  (width (buffer i) = 0 -> is_i32 x -> is_i32 y -> py_get_pixel_clamped m i x y = Panic) /\
  (~ (is_i32 x /\ is_i32 y) -> py_get_pixel_clamped m i x y = Ok (RErr OverflowError)).
Proof. exact python_get_pixel_clamped. Qed.
Print Assumptions C111_python_get_pixel_clamped.


(** C112: [apply_palette_in_place] leaves the image as [apply_palette] returns it:
    each pixel is replaced by the closest palette colour (C46). *)

Theorem C112_python_palette_in_place : forall m E D L i palette, good_image i ->
  exists i', py_apply_palette_in_place L i palette = Ok (ROk i') /\ py_run m E D L i (CallApplyPalette palette) = Ok (ROk i') /\
    good_image i' /\ width (buffer i') = width (buffer i) /\ height (buffer i') = height (buffer i) /\ bg_color i' = bg_color i /\
    forall x y, inside (buffer i) x y -> exists c p, get_pixel m (buffer i) x y = Ok c /\
      closest_entry (to_lab L D65 O2 KRgb c) (map (to_lab L D65 O2 KRgb) (py_to_list palette)) p /\
      get_pixel m (buffer i') x y = Ok (to_rgb L (KLab D65 O2) p).
Proof. exact python_palette_in_place. Qed.
Print Assumptions C112_python_palette_in_place.


(** C112: the noise methods keep size and background colour and change the pixels
    one after the other with fresh numbers (C47, C48); those that return nothing
    leave the image as the others return it. *)

Theorem C112_python_noise : forall S (g : rng S) s i v,
  (exists s' d, py_random_noise g s i v = Ok (s', same_with i d) /\ py_add_random_noise g s i v = Ok (s', same_with i d) /\
     runs (mixed (gen_signed g) KRgb v) s (py_to_list i) s' d) /\
  (exists s' d, py_gaussian_noise g s i v = Ok (s', same_with i d) /\ py_add_gaussian_noise g s i v = Ok (s', same_with i d) /\
     runs (mixed (gen_normal g) KRgb v) s (py_to_list i) s' d) /\
  (exists s' d, py_salt_n_pepper_noise g s i v = Ok (s', same_with i d) /\ py_add_salt_n_pepper_noise g s i v = Ok (s', same_with i d) /\
     runs (salted g v) s (py_to_list i) s' d) /\
  (exists s' d, py_rgb_noise g s i v = Ok (s', same_with i d) /\ py_add_rgb_noise g s i v = Ok (s', same_with i d) /\
     runs (speckled g v) s (py_to_list i) s' d).
Proof. exact python_noise. Qed.
Print Assumptions C112_python_noise.

Example C112_python_more_example :
  let i := mkImage (mkPB 2 1 [RGB_NONE; RGB_RED]) (Some RGB_BLUE) in
  let g := mkRng Z (fun s => (s + 1, f0)) (fun s => (s + 1, f0)) (fun s => (s + 1, 0)) (fun s => (s + 1, f0)) in
  good_image i /\ nonempty (buffer i) /\ py_get_pixel_clamped Checked i 7 (-3) = Ok (ROk RGB_RED) /\
  py_get_pixel_clamped Checked i 3000000000 0 = Ok (RErr OverflowError) /\
  py_salt_n_pepper_noise g 5 i f1 = Ok (7, same_with i [RGB_BLACK; RGB_BLACK]) /\
  has_signature [71; 73; 70; 56; 57; 97; 0] Gif.
Proof. exact python_more_example. Qed.
