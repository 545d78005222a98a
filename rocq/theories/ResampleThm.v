(** Properties of resizing and free rotation (C21-C24, C72, C73). *)
From Coq Require Import ZArith Reals List Bool.
From Flocq Require Import IEEE754.BinarySingleNaN.
From Verif Require Import Base PixelBuffer BufferSpec F32 Color ColorSpec Resample.
Import ListNotations.
Open Scope Z_scope.

(* PROPERTIES *)
From Coq Require Import Lra Lia.
From Verif Require Import PixelBufferProofs ComposeProofs F32Lemmas ColorProofs ResampleProofs Resample2Proofs.
Open Scope Z_scope.

(** C21: resizing a non-empty image to a valid size never panics and gives
    exactly that size.  For the filter Auto the sides of the source are at most
    2^28: above that the row length of its kernel can overflow. *)
Lemma resize_total : forall L m b w h f, valid b -> nonempty b -> valid_size w h ->
  (f = Auto -> width b <= 268435456 /\ height b <= 268435456) ->
  exists r, resize L m b w h f = Ok r /\ valid r /\ width r = w /\ height r = h.
Proof. exact resize_ok. Qed.

(** C21: an unchanged size gives the identical image. *)
Lemma resize_same_size : forall L m b f, resize L m b (width b) (height b) f = Ok b.
Proof. intros. unfold resize. now rewrite !Z.eqb_refl. Qed.

(** C21: a size that is not valid is refused by a panic. *)
Lemma resize_invalid_size : forall L m b w h f, valid b -> 0 <= w -> 0 <= h -> ~ valid_size w h ->
  resize L m b w h f = Panic.
Proof. intros. now apply resize_bad_size. Qed.

(** C21: there is nothing to enlarge an empty image from: it panics. *)
Lemma resize_empty_source : forall L m w h f, valid_size w h -> 0 < w ->
  resize L m (mkPB 0 0 []) w h f = Panic.
Proof. exact resize_empty_panics. Qed.

Example resize_total_example :
  let b := mkPB 2 1 [RGB_RED; RGB_BLUE] in
  valid b /\ nonempty b /\ valid_size 3 2 /\
  Forall (fun f => match resize example_libm Checked b 3 2 f with Panic => False | Ok r => length (data r) = 6%nat end)
    [Nearest; Bilinear; Bicubic; Lanczos3; Auto].
Proof.
  split; [split; [right; cbn; lia|reflexivity]|]. split; [split; cbn; lia|]. split; [right; lia|].
  do 5 (apply Forall_cons; [vm_compute; reflexivity|]). apply Forall_nil. Qed.

(** C22: nearest resizing only returns colours of the source. *)
Lemma nearest_resize_colors : forall L m b w h r c, valid b -> 0 <= w -> 0 <= h ->
  resize L m b w h Nearest = Ok r -> In c (data r) -> In c (data b).
Proof. exact nearest_In. Qed.

(** C22: nearest rotation only returns colours of the source and the
    background, whatever sine and cosine compute. *)
Lemma nearest_rotate_colors : forall L m b angle bg r c, valid b ->
  rotate L m b angle bg Nearest = Ok r -> In c (data r) -> In c (data b) \/ c = bg.
Proof. exact rotate_nearest_In. Qed.

Example nearest_colors_example :
  let b := mkPB 2 1 [RGB_RED; RGB_BLUE] in
  match resize example_libm Checked b 3 1 Nearest with Panic => False
  | Ok r => map (fun c => (feq (d0 c) f1, feq (d2 c) f1)) (data r) = [(true, false); (false, true); (false, true)] end /\
  match rotate example_libm Checked b (ofZ 45) RGB_WHITE Nearest with Ok r => length (data r) = 2%nat | Panic => False end.
Proof. vm_compute. split; reflexivity. Qed.

(** C23: enlarging by an integer factor k with Nearest takes pixel (x,y) from
    column floor(x/k + 1/2) and row floor(y/k + 1/2), limited to the image. *)
Lemma nearest_upscale_source : forall L m b k, valid b -> nonempty b -> 0 < k -> valid_size (k * width b) (k * height b) ->
  k * width b <= 1048576 -> k * height b <= 1048576 ->
  exists r, resize L m b (k * width b) (k * height b) Nearest = Ok r /\ valid r /\
  width r = k * width b /\ height r = k * height b /\
  forall x y, inside r x y ->
    get_pixel m r x y =
    get_pixel m b (Z.min ((2 * x + k) / (2 * k)) (width b - 1)) (Z.min ((2 * y + k) / (2 * k)) (height b - 1)).
Proof. exact nearest_upscale. Qed.

(** C23: this is not the repetition of every pixel a user expects: for every
    factor from 2 and every image at least two pixels wide, the last of the k
    columns that should repeat the first column shows the second one. *)
Lemma nearest_upscale_repeats_refuted : forall L m b k, valid b -> 2 <= width b -> 0 < height b -> 2 <= k ->
  valid_size (k * width b) (k * height b) -> k * width b <= 1048576 -> k * height b <= 1048576 ->
  get_pixel m b 0 0 <> get_pixel m b 1 0 ->
  exists r x, resize L m b (k * width b) (k * height b) Nearest = Ok r /\ inside r x 0 /\
  get_pixel m r x 0 <> get_pixel m b (x / k) (0 / k).
Proof.
  intros L m b k V W H K Vs B1 B2 D.
  destruct (nearest_upscale L m b k) as (r & E & Vr & Wr & Hr & G); auto; [split; lia|lia|].
  exists r, (k - 1). split; auto.
  assert (I : inside r (k - 1) 0) by (split; rewrite ?Wr, ?Hr; nia). split; auto.
  rewrite G by auto. rewrite (Z.div_small (k - 1) k) by lia. rewrite (Z.div_small 0 k) by lia.
  replace ((2 * (k - 1) + k) / (2 * k)) with 1 by (apply Z.div_unique with (k - 2); lia).
  replace ((2 * 0 + k) / (2 * k)) with 0 by (symmetry; apply Z.div_small; lia).
  rewrite !Z.min_l by lia. auto.
Qed.

Example nearest_upscale_example :
  let b := mkPB 2 1 [RGB_RED; RGB_BLUE] in
  valid b /\ nonempty b /\ valid_size 4 2 /\ get_pixel Checked b 0 0 <> get_pixel Checked b 1 0 /\
  match resize example_libm Checked b 4 2 Nearest with Panic => False
  | Ok r => map (fun c => (feq (d0 c) f1, feq (d2 c) f1)) (data r) = [(true, false); (false, true); (false, true); (false, true); (true, false); (false, true); (false, true); (false, true)] end.
Proof.
  split; [split; [right; cbn; lia|reflexivity]|]. split; [split; cbn; lia|]. split; [right; lia|].
  split; [|vm_compute; reflexivity].
  intros H. apply (f_equal (fun o => match o with Ok c => feq (d0 c) f1 | Panic => true end)) in H. vm_compute in H. discriminate. Qed.

(** C24: free rotation never panics on a valid image and keeps its size, for
    every angle (also NaN and infinities), background and filter. *)
Lemma rotate_total : forall L m b angle bg f, valid b ->
  exists r, rotate L m b angle bg f = Ok r /\ valid r /\ width r = width b /\ height r = height b.
Proof. exact rotate_ok. Qed.

(** C24: a full turn is the identity. *)
Lemma rotate_360 : forall L m b bg f, rotate L m b (ofZ 360) bg f = Ok b.
Proof.
  intros. unfold rotate. replace (flt (fabs (fsub (ofZ 360) (ofZ 360))) f32_EPSILON) with true by (vm_compute; reflexivity). reflexivity. Qed.

Example rotate_total_example :
  let b := mkPB 2 1 [RGB_RED; RGB_BLUE] in valid b /\
  match rotate example_libm Checked b B754_nan RGB_WHITE Lanczos3 with Ok r => width r = 2 /\ height r = 1 | Panic => False end.
Proof. split; [split; [right; cbn; lia|reflexivity]|]. vm_compute. split; reflexivity. Qed.

(** C72: resizing with Nearest, Bilinear or Bicubic keeps an image in gamut. *)
Lemma resize_in_gamut : forall L m b w h f r, valid b -> nonempty b -> valid_size w h -> In f [Nearest; Bilinear; Bicubic] ->
  Forall in_gamut (data b) -> resize L m b w h f = Ok r -> Forall in_gamut (data r).
Proof. exact resize_gamut. Qed.

(** C72: a single-coloured image keeps exactly its colour under Nearest and
    Bilinear. *)
Lemma resize_single_color : forall L m b w h f r k, valid b -> nonempty b -> valid_size w h -> In f [Nearest; Bilinear] ->
  in_gamut k -> (forall c, In c (data b) -> same_color c k) -> resize L m b w h f = Ok r ->
  forall c, In c (data r) -> same_color c k.
Proof. exact resize_uniform. Qed.

(** C72: under Bicubic every channel stays within 1/50000. *)
Lemma resize_single_color_bicubic : forall L m b w h r k, valid b -> nonempty b -> valid_size w h ->
  in_gamut k -> (forall c, In c (data b) -> same_color c k) -> resize L m b w h Bicubic = Ok r ->
  forall c, In c (data r) -> forall d, In d [d0; d1; d2; d3] -> (Rabs (B2R (d c) - B2R (d k)) <= / 50000)%R.
Proof. exact resize_uniform_bicubic. Qed.

Example resize_single_color_example :
  let k := mkC (dec 1 4) f0 f1 f1 in let b := mkPB 2 1 [k; k] in
  valid b /\ nonempty b /\ valid_size 5 3 /\ in_gamut k /\ (forall c, In c (data b) -> same_color c k) /\
  match resize example_libm Checked b 5 3 Bilinear with Ok r => length (data r) = 15%nat | Panic => False end.
Proof.
  split; [split; [right; cbn; lia|reflexivity]|]. split; [split; cbn; lia|]. split; [right; lia|].
  split; [repeat split; vm_compute; reflexivity|].
  split; [|vm_compute; reflexivity].
  intros c H. cbn [In data] in H. destruct H as [<-|[<-|[]]]; repeat split; vm_compute; reflexivity. Qed.

(** C73: rotating by 0 with any filter but Lanczos3 returns the same colours,
    for in-gamut images with sides up to 2^22, if the sine of 0 is 0 and its
    cosine 1. *)
Lemma rotate_by_0 : forall L m b bg f r, valid b -> Forall in_gamut (data b) -> width b <= 4194304 -> height b <= 4194304 ->
  f <> Lanczos3 -> (forall z, same z f0 -> same (fsin L z) f0 /\ same (fcos L z) f1) ->
  rotate L m b f0 bg f = Ok r ->
  forall x y c, inside b x y -> get_pixel m b x y = Ok c -> exists c', get_pixel m r x y = Ok c' /\ same_color c' c.
Proof. exact rotate_0. Qed.

Example rotate_by_0_example :
  let L := mkLibm (fun x _ => x) (fun x => x) (fun _ => f1) (fun x => x) (fun x => x) (fun x _ => x) (fun x => x) in
  let b := mkPB 2 1 [RGB_RED; RGB_BLUE] in
  (forall z, same z f0 -> same (fsin L z) f0 /\ same (fcos L z) f1) /\ valid b /\ Forall in_gamut (data b) /\
  match rotate L Checked b f0 RGB_WHITE Bicubic with Panic => False
  | Ok r => map (fun c => (feq (d0 c) f1, feq (d2 c) f1)) (data r) = [(true, false); (false, true)] end.
Proof.
  split; [intros z H; split; [exact H|vm_compute; reflexivity]|].
  split; [split; [right; cbn; lia|reflexivity]|].
  split; [apply Forall_cons; [repeat split; vm_compute; reflexivity|apply Forall_cons; [repeat split; vm_compute; reflexivity|apply Forall_nil]]|].
  vm_compute. reflexivity. Qed.
