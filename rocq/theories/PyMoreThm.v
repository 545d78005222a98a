(** More of the Python methods: opening, clamped reads, palettes in place, noise. *)
From Coq Require Import ZArith List Bool String.
From Verif Require Import Base PixelBuffer BufferSpec F32 Color ColorSpec Kernel KernelSpec Ops OpsSpec NoiseSpec Codec CodecSpec Names Image
  ImageSpec PyImage PySpec.
Import ListNotations.
Local Open Scope string_scope.
Open Scope Z_scope.
From Coq Require Import Lia ZifyBool.
From Verif Require Import BaseLemmas BufferThm CodecThm OpsThm PyProofs MeansProofs.

(* PROPERTIES *)

(** C111: [Image.open]: the contents decide the format, else the file name does;
    the decoded image has no background colour; whatever goes wrong is an OSError
    with the reason. *)
Lemma python_open : forall m D L s path,
  (files s path = None -> py_open m D L s path = Ok (RErr (OSErrorDecoding DIoError))) /\
  forall contents, files s path = Some contents ->
    (forall f, has_signature contents f \/ (forall g, ~ has_signature contents g) /\ has_extension path f ->
      (forall b, decode m D L contents f = Ok (ROk b) -> py_open m D L s path = Ok (ROk (mkImage b None))) /\
      (forall e, decode m D L contents f = Ok (RErr e) -> py_open m D L s path = Ok (RErr (OSErrorDecoding e))) /\
      (decode m D L contents f = Panic -> py_open m D L s path = Panic)) /\
    ((forall f, ~ has_signature contents f) -> (forall f, ~ has_extension path f) ->
      py_open m D L s path = Ok (RErr (OSErrorDecoding DUnknownFormat))).
Proof.
  intros m D L s path. unfold py_open, image_open. destruct (nothing_decides m D L s path) as [A B].
  split; [intros E; rewrite (A E); reflexivity|]. intros contents E. split.
  - intros f H. assert (K : decode_file m D L s path = decode m D L contents f).
    { destruct H as [H|[H1 H2]]; [eapply contents_decide; eauto|eapply extension_decides; eauto]. }
    rewrite K. split; [intros b Eb; rewrite Eb; reflexivity|]. split; [intros e Ee; rewrite Ee; reflexivity|intros Ep; rewrite Ep; reflexivity].
  - intros H1 H2. rewrite (B contents E H1 H2). reflexivity.
Qed.

(** C111: [get_pixel_clamped] for any two Python integers: a pixel nearest to that
    place; OverflowError if they do not fit; a panic on an image without pixels. *)
Lemma python_get_pixel_clamped : forall m i x y, good_image i ->
  (nonempty (buffer i) -> is_i32 x -> is_i32 y -> exists cx cy c, inside (buffer i) cx cy /\ get_pixel m (buffer i) cx cy = Ok c /\
     py_get_pixel_clamped m i x y = Ok (ROk c) /\
     forall x' y', inside (buffer i) x' y' -> Z.abs (x - cx) <= Z.abs (x - x') /\ Z.abs (y - cy) <= Z.abs (y - y')) /\
  (width (buffer i) = 0 -> is_i32 x -> is_i32 y -> py_get_pixel_clamped m i x y = Panic) /\
  (~ (is_i32 x /\ is_i32 y) -> py_get_pixel_clamped m i x y = Ok (RErr OverflowError)).
Proof.
  intros m i x y G. unfold py_get_pixel_clamped, py_i32, py_int.
  assert (F : forall z, is_i32 z -> (-2147483648 <=? z) && (z <=? 2147483647) = true) by (unfold is_i32; intros; lia).
  assert (F' : forall z, ~ is_i32 z -> (-2147483648 <=? z) && (z <=? 2147483647) = false) by (unfold is_i32; intros; lia).
  split; [|split].
  - intros N Hx Hy. destruct (clamped_nearest _ m (buffer i) x y G N Hx Hy) as (cx & cy & I & E & (c & Ec) & P).
    exists cx, cy, c. rewrite (F x Hx), (F y Hy). cbn [py_bind]. unfold py_ok. rewrite E, Ec. cbn [bind]. auto.
  - intros N Hx Hy. rewrite (F x Hx), (F y Hy). cbn [py_bind]. unfold py_ok.
    destruct (clamped_inside_and_empty _ m (buffer i) x y G) as [_ Q]. rewrite (Q N). reflexivity.
  - intros N. destruct ((-2147483648 <=? x) && (x <=? 2147483647)) eqn:Ex; [|reflexivity]. cbn [py_bind].
    rewrite F'; [reflexivity|]. intros Hy. apply N. split; [unfold is_i32; lia|exact Hy].
Qed.

(** C112: [apply_palette_in_place] leaves the image as [apply_palette] returns it:
    each pixel is replaced by the closest palette colour (C46). *)
Lemma python_palette_in_place : forall m E D L i palette, good_image i ->
  exists i', py_apply_palette_in_place L i palette = Ok (ROk i') /\ py_run m E D L i (CallApplyPalette palette) = Ok (ROk i') /\
    good_image i' /\ width (buffer i') = width (buffer i) /\ height (buffer i') = height (buffer i) /\ bg_color i' = bg_color i /\
    forall x y, inside (buffer i) x y -> exists c p, get_pixel m (buffer i) x y = Ok c /\
      closest_entry (to_lab L D65 O2 KRgb c) (map (to_lab L D65 O2 KRgb) (py_to_list palette)) p /\
      get_pixel m (buffer i') x y = Ok (to_rgb L (KLab D65 O2) p).
Proof.
  intros m E D L i palette G. destruct (palette_closest L KRgb (buffer i) (buffer palette) G) as (r & E1 & E2 & V & W & H & P).
  exists (mkImage r (bg_color i)). unfold py_apply_palette_in_place, py_run, py_ok, image_apply_palette, image_apply_palette_in_place, with_meta, in_place.
  rewrite E1, E2. cbn [bind]. split; [reflexivity|]. split; [reflexivity|]. split; [exact V|]. split; [exact W|]. split; [exact H|]. split; [reflexivity|].
  intros x y I. exact (P m x y I).
Qed.

(** C112: the noise methods keep size and background colour and change the pixels
    one after the other with fresh numbers (C47, C48); those that return nothing
    leave the image as the others return it. *)
Lemma python_noise : forall S (g : rng S) s i v,
  (exists s' d, py_random_noise g s i v = Ok (s', same_with i d) /\ py_add_random_noise g s i v = Ok (s', same_with i d) /\
     runs (mixed (gen_signed g) KRgb v) s (py_to_list i) s' d) /\
  (exists s' d, py_gaussian_noise g s i v = Ok (s', same_with i d) /\ py_add_gaussian_noise g s i v = Ok (s', same_with i d) /\
     runs (mixed (gen_normal g) KRgb v) s (py_to_list i) s' d) /\
  (exists s' d, py_salt_n_pepper_noise g s i v = Ok (s', same_with i d) /\ py_add_salt_n_pepper_noise g s i v = Ok (s', same_with i d) /\
     runs (salted g v) s (py_to_list i) s' d) /\
  (exists s' d, py_rgb_noise g s i v = Ok (s', same_with i d) /\ py_add_rgb_noise g s i v = Ok (s', same_with i d) /\
     runs (speckled g v) s (py_to_list i) s' d).
Proof.
  intros S g s i v. destruct (mixed_order g KRgb v s (buffer i)) as [(s1 & l1 & A1 & B1 & C1) (s2 & l2 & A2 & B2 & C2)].
  destruct (salt_order g v s (buffer i)) as (s3 & l3 & A3 & B3 & C3). destruct (rgb_order g v s (buffer i)) as (s4 & l4 & A4 & B4 & C4).
  split; [|split; [|split]].
  - exists s1, l1. unfold py_random_noise, py_add_random_noise, image_random_noise, image_add_random_noise, with_meta_st, in_place_st. rewrite A1, B1. repeat split; assumption.
  - exists s2, l2. unfold py_gaussian_noise, py_add_gaussian_noise, image_gaussian_noise, image_add_gaussian_noise, with_meta_st, in_place_st. rewrite A2, B2. repeat split; assumption.
  - exists s3, l3. unfold py_salt_n_pepper_noise, py_add_salt_n_pepper_noise, image_salt_n_pepper_noise, image_add_salt_n_pepper_noise, with_meta_st, in_place_st. rewrite A3, B3. repeat split; assumption.
  - exists s4, l4. unfold py_rgb_noise, py_add_rgb_noise, image_rgb_noise, image_add_rgb_noise, with_meta_st, in_place_st. rewrite A4, B4. repeat split; assumption.
Qed.
Example python_more_example :
  let i := mkImage (mkPB 2 1 [RGB_NONE; RGB_RED]) (Some RGB_BLUE) in
  let g := mkRng Z (fun s => (s + 1, f0)) (fun s => (s + 1, f0)) (fun s => (s + 1, 0)) (fun s => (s + 1, f0)) in
  good_image i /\ nonempty (buffer i) /\ py_get_pixel_clamped Checked i 7 (-3) = Ok (ROk RGB_RED) /\
  py_get_pixel_clamped Checked i 3000000000 0 = Ok (RErr OverflowError) /\
  py_salt_n_pepper_noise g 5 i f1 = Ok (7, same_with i [RGB_BLACK; RGB_BLACK]) /\
  has_signature [71; 73; 70; 56; 57; 97; 0] Gif.
Proof.
  cbv zeta. split; [split; [right; cbn; lia|reflexivity]|]. split; [split; cbn; lia|]. split; [reflexivity|]. split; [reflexivity|].
  split; [reflexivity|]. exact (proj1 signature_example).
Qed.
