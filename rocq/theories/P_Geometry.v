(** Property theorems, generated from GeometryThm.v by tools/mkp.py. *)

From Coq Require Import ZArith List Bool Lia.
From Verif Require Import Base PixelBuffer BufferSpec Geometry.
Import ListNotations.
Open Scope Z_scope.

From Verif Require Import GeometryThm.


(** C12: rotate90 moves (x,y) to (height-1-y, x). *)

Theorem C12_rotate90_placement : forall T m (d : T) b, valid b ->
  exists b', rotate90 m d b = Ok b' /\ valid b' /\ width b' = height b /\ height b' = width b /\
    forall x y, inside b x y ->
      inside b' (height b - 1 - y) x /\ get_pixel m b' (height b - 1 - y) x = get_pixel m b x y.
Proof. exact rotate90_placement. Qed.
Print Assumptions C12_rotate90_placement.


(** C12: rotate180 moves (x,y) to (width-1-x, height-1-y). *)

Theorem C12_rotate180_placement : forall T m (d : T) b, valid b ->
  exists b', rotate180 m d b = Ok b' /\ valid b' /\ width b' = width b /\ height b' = height b /\
    forall x y, inside b x y ->
      inside b' (width b - 1 - x) (height b - 1 - y) /\
      get_pixel m b' (width b - 1 - x) (height b - 1 - y) = get_pixel m b x y.
Proof. exact rotate180_placement. Qed.
Print Assumptions C12_rotate180_placement.


(** C12: rotate270 moves (x,y) to (y, width-1-x). *)

Theorem C12_rotate270_placement : forall T m (d : T) b, valid b ->
  exists b', rotate270 m d b = Ok b' /\ valid b' /\ width b' = height b /\ height b' = width b /\
    forall x y, inside b x y ->
      inside b' y (width b - 1 - x) /\ get_pixel m b' y (width b - 1 - x) = get_pixel m b x y.
Proof. exact rotate270_placement. Qed.
Print Assumptions C12_rotate270_placement.


(** C12: no pixel is lost or invented. *)

Theorem C12_turns_same_pixels : forall T m (d : T) b b', valid b ->
  rotate90 m d b = Ok b' \/ rotate180 m d b = Ok b' \/ rotate270 m d b = Ok b' \/
  flip_horizontal m d b = Ok b' \/ flip_vertical m d b = Ok b' ->
  zlen (data b') = zlen (data b) /\ forall c, In c (data b') <-> In c (data b).
Proof. exact turns_same_pixels. Qed.
Print Assumptions C12_turns_same_pixels.

Example C12_rotate_example :
  rotate90 Checked 0 (mkPB 3 2 [1; 2; 3; 4; 5; 6]) = Ok (mkPB 2 3 [4; 1; 5; 2; 6; 3]) /\
  rotate180 Checked 0 (mkPB 3 2 [1; 2; 3; 4; 5; 6]) = Ok (mkPB 3 2 [6; 5; 4; 3; 2; 1]) /\
  rotate270 Checked 0 (mkPB 3 2 [1; 2; 3; 4; 5; 6]) = Ok (mkPB 2 3 [3; 6; 2; 5; 1; 4]) /\
  valid (mkPB 3 2 [1; 2; 3; 4; 5; 6]).
Proof. exact rotate_example. Qed.


(** C13: the quarter turns form a cyclic group of order four. *)

Theorem C13_rotate90_twice : forall T m (d : T) b, valid b ->
  bind (rotate90 m d b) (rotate90 m d) = rotate180 m d b.
Proof. exact rotate90_twice. Qed.
Print Assumptions C13_rotate90_twice.

Theorem C13_rotate90_thrice : forall T m (d : T) b, valid b ->
  bind (bind (rotate90 m d b) (rotate90 m d)) (rotate90 m d) = rotate270 m d b.
Proof. exact rotate90_thrice. Qed.
Print Assumptions C13_rotate90_thrice.

Theorem C13_rotate90_four_times : forall T m (d : T) b, valid b ->
  bind (bind (bind (rotate90 m d b) (rotate90 m d)) (rotate90 m d)) (rotate90 m d) = Ok b.
Proof. exact rotate90_four_times. Qed.
Print Assumptions C13_rotate90_four_times.

Theorem C13_rotate90_270_inverse : forall T m (d : T) b, valid b ->
  bind (rotate90 m d b) (rotate270 m d) = Ok b /\ bind (rotate270 m d b) (rotate90 m d) = Ok b.
Proof. exact rotate90_270_inverse. Qed.
Print Assumptions C13_rotate90_270_inverse.

Theorem C13_rotate180_involution : forall T m (d : T) b, valid b ->
  bind (rotate180 m d b) (rotate180 m d) = Ok b.
Proof. exact rotate180_involution. Qed.
Print Assumptions C13_rotate180_involution.

Example C13_rotate_group_example :
  bind (rotate90 Wrapping 0 (mkPB 3 2 [1; 2; 3; 4; 5; 6])) (rotate270 Wrapping 0)
  = Ok (mkPB 3 2 [1; 2; 3; 4; 5; 6]).
Proof. exact rotate_group_example. Qed.


(** C14: the flips mirror columns and rows. *)

Theorem C14_flip_placement : forall T m (d : T) b, valid b ->
  (exists b', flip_horizontal m d b = Ok b' /\ valid b' /\ width b' = width b /\ height b' = height b /\
    forall x y, inside b x y ->
      inside b' (width b - 1 - x) y /\ get_pixel m b' (width b - 1 - x) y = get_pixel m b x y) /\
  (exists b', flip_vertical m d b = Ok b' /\ valid b' /\ width b' = width b /\ height b' = height b /\
    forall x y, inside b x y ->
      inside b' x (height b - 1 - y) /\ get_pixel m b' x (height b - 1 - y) = get_pixel m b x y).
Proof. exact flip_placement. Qed.
Print Assumptions C14_flip_placement.

Theorem C14_flip_involutions : forall T m (d : T) b, valid b ->
  bind (flip_horizontal m d b) (flip_horizontal m d) = Ok b /\
  bind (flip_vertical m d b) (flip_vertical m d) = Ok b.
Proof. exact flip_involutions. Qed.
Print Assumptions C14_flip_involutions.

Theorem C14_flips_make_rotate180 : forall T m (d : T) b, valid b ->
  bind (flip_horizontal m d b) (flip_vertical m d) = rotate180 m d b /\
  bind (flip_vertical m d b) (flip_horizontal m d) = rotate180 m d b.
Proof. exact flips_make_rotate180. Qed.
Print Assumptions C14_flips_make_rotate180.


(** C14: the dihedral relation: flip, turn right, flip is a turn left. *)

Theorem C14_flip_conjugates_rotation : forall T m (d : T) b, valid b ->
  bind (bind (flip_horizontal m d b) (rotate90 m d)) (flip_horizontal m d) = rotate270 m d b /\
  bind (bind (flip_vertical m d b) (rotate90 m d)) (flip_vertical m d) = rotate270 m d b.
Proof. exact flip_conjugates_rotation. Qed.
Print Assumptions C14_flip_conjugates_rotation.

Example C14_flip_example :
  flip_horizontal Checked 0 (mkPB 3 2 [1; 2; 3; 4; 5; 6]) = Ok (mkPB 3 2 [3; 2; 1; 6; 5; 4]) /\
  flip_vertical Checked 0 (mkPB 3 2 [1; 2; 3; 4; 5; 6]) = Ok (mkPB 3 2 [4; 5; 6; 1; 2; 3]).
Proof. exact flip_example. Qed.


(** C15: crop never panics; its pixels are exactly the requested rectangle
    intersected with the image. *)

Theorem C15_crop_intersection : forall T m (d : T) b ox oy w h, valid b ->
  is_u32 ox -> is_u32 oy -> is_u32 w -> is_u32 h ->
  exists b', crop m d b ox oy w h = Ok b' /\ valid b' /\
    (forall x y, inside b' x y <-> 0 <= x < w /\ 0 <= y < h /\ inside b (ox + x) (oy + y)) /\
    (forall x y, inside b' x y -> get_pixel m b' x y = get_pixel m b (ox + x) (oy + y)).
Proof. exact crop_intersection. Qed.
Print Assumptions C15_crop_intersection.


(** C15: and its size is that of the intersection, or 0x0 when empty. *)

Theorem C15_crop_size : forall T m (d : T) b ox oy w h b', valid b ->
  is_u32 ox -> is_u32 oy -> is_u32 w -> is_u32 h -> crop m d b ox oy w h = Ok b' ->
  let iw := Z.max 0 (Z.min w (width b - ox)) in
  let ih := Z.max 0 (Z.min h (height b - oy)) in
  (width b', height b') = if (iw =? 0) || (ih =? 0) then (0, 0) else (iw, ih).
Proof. exact crop_size. Qed.
Print Assumptions C15_crop_size.

Example C15_crop_example :
  crop Checked 0 (mkPB 3 2 [1; 2; 3; 4; 5; 6]) 1 1 4294967295 7 = Ok (mkPB 2 1 [5; 6]) /\
  crop Checked 0 (mkPB 3 2 [1; 2; 3; 4; 5; 6]) 3 0 1 1 = Ok (mkPB 0 0 []).
Proof. exact crop_example. Qed.


(** C16: cropping to the full size changes nothing. *)

Theorem C16_crop_full : forall T m (d : T) b w h, valid b -> width b <= w -> height b <= h ->
  is_u32 w -> is_u32 h -> crop m d b 0 0 w h = Ok b.
Proof. exact crop_full. Qed.
Print Assumptions C16_crop_full.


(** C16: two crops are one. *)

Theorem C16_crop_crop : forall T m (d : T) b ox oy w h ox2 oy2 w2 h2, valid b ->
  is_u32 ox -> is_u32 oy -> is_u32 w -> is_u32 h ->
  is_u32 ox2 -> is_u32 oy2 -> is_u32 w2 -> is_u32 h2 ->
  is_u32 (ox + ox2) -> is_u32 (oy + oy2) ->
  bind (crop m d b ox oy w h) (fun b' => crop m d b' ox2 oy2 w2 h2) =
  crop m d b (ox + ox2) (oy + oy2) (Z.max 0 (Z.min w2 (w - ox2))) (Z.max 0 (Z.min h2 (h - oy2))).
Proof. exact crop_crop. Qed.
Print Assumptions C16_crop_crop.


(** C16: cropping commutes with flipping when the rectangle is mirrored. *)

Theorem C16_crop_flip : forall T m (d : T) b ox oy w h, valid b ->
  is_u32 ox -> is_u32 oy -> is_u32 w -> is_u32 h ->
  ox + w <= width b -> oy + h <= height b ->
  bind (crop m d b ox oy w h) (flip_horizontal m d) =
  bind (flip_horizontal m d b) (fun b' => crop m d b' (width b - ox - w) oy w h) /\
  bind (crop m d b ox oy w h) (flip_vertical m d) =
  bind (flip_vertical m d b) (fun b' => crop m d b' ox (height b - oy - h) w h).
Proof. exact crop_flip. Qed.
Print Assumptions C16_crop_flip.

Example C16_crop_laws_example : valid (mkPB 3 2 [1; 2; 3; 4; 5; 6]) /\
  bind (crop Checked 0 (mkPB 3 2 [1; 2; 3; 4; 5; 6]) 1 0 2 2) (fun b' => crop Checked 0 b' 1 1 5 5)
  = Ok (mkPB 1 1 [6]) /\
  bind (crop Checked 0 (mkPB 3 2 [1; 2; 3; 4; 5; 6]) 0 0 2 2) (flip_horizontal Checked 0)
  = Ok (mkPB 2 2 [2; 1; 5; 4]).
Proof. exact crop_laws_example. Qed.


(** C17: interlace shifts even rows to the right and odd rows to the left,
    repeating the border pixel. *)

Theorem C17_interlace_spec : forall T m (b : PixelBuffer T) o, valid b -> 0 <= o < 1073741824 ->
  exists b', interlace m b o = Ok b' /\ valid b' /\ width b' = width b /\ height b' = height b /\
    forall x y, inside b x y ->
      get_pixel m b' x y =
      get_pixel m b (Z.max 0 (Z.min (if Z.even y then x - o else x + o) (width b - 1))) y.
Proof. exact interlace_spec. Qed.
Print Assumptions C17_interlace_spec.

Theorem C17_interlace_zero : forall T m (b : PixelBuffer T), valid b -> interlace m b 0 = Ok b.
Proof. exact interlace_zero. Qed.
Print Assumptions C17_interlace_zero.


(** C17: for offsets of 2^31 and more the conversion to i32 makes the offset
    negative, so the rows move the other way. *)

Theorem C17_interlace_large_offset_refuted : exists (b : PixelBuffer Z) o b', valid b /\ is_u32 o /\
  interlace Wrapping b o = Ok b' /\ interlace Checked b o = Ok b' /\
  exists x y, inside b x y /\
    get_pixel Checked b' x y <>
    get_pixel Checked b (Z.max 0 (Z.min (if Z.even y then x - o else x + o) (width b - 1))) y.
Proof. exact interlace_large_offset_refuted. Qed.
Print Assumptions C17_interlace_large_offset_refuted.

Example C17_interlace_example :
  interlace Checked (mkPB 3 2 [1; 2; 3; 4; 5; 6]) 1 = Ok (mkPB 3 2 [1; 1; 2; 5; 6; 6]).
Proof. exact interlace_example. Qed.


(** C18: compose has the bounding-box size and hands the closure, for every
    coordinate in row-major order, the pixel of each image or the default. *)

Theorem C18_compose_spec : forall S T m (bs : list (PixelBuffer T)) d
  (f : S -> Z -> Z -> list T -> res (S * T)) s s' b, Forall valid bs ->
  compose m bs d f s = Ok (s', b) ->
  valid b /\
  (forall a, In a bs -> width a <= width b /\ height a <= height b) /\
  (exists a, In a bs /\ width a = width b) /\ (exists a, In a bs /\ height a = height b) /\
  exists ps : Z -> Z -> list T,
    (forall x y, inside b x y ->
      Forall2 (fun a c => (inside a x y -> get_pixel m a x y = Ok c) /\ (~ inside a x y -> c = d)) bs (ps x y)) /\
    runs (call (fun s p => f s (fst p) (snd p) (ps (fst p) (snd p)))) s
         (row_major (width b) (height b)) s' (data b).
Proof. exact compose_spec. Qed.
Print Assumptions C18_compose_spec.


(** C18: the slice variants agree with the array variants. *)

Theorem C18_compose_slice_agrees : forall S T E m (bs : list (PixelBuffer T)) d
  (f : S -> Z -> Z -> list T -> res (S * T)) (g : S -> Z -> Z -> list T -> res (S * Result T E)) s,
  compose_slice m bs d f s = compose m bs d f s /\
  try_compose_slice m bs d g s = try_compose m bs d g s.
Proof. exact compose_slice_agrees. Qed.
Print Assumptions C18_compose_slice_agrees.


(** C18: try_compose returns the error of the first failing coordinate. *)

Theorem C18_try_compose_err : forall S T E m (bs : list (PixelBuffer T)) d
  (f : S -> Z -> Z -> list T -> res (S * Result T E)) s s' e, Forall valid bs ->
  try_compose m bs d f s = Ok (s', RErr e) ->
  exists w h (ps : Z -> Z -> list T) pre vs p post,
    (forall a, In a bs -> width a <= w /\ height a <= h) /\
    (exists a, In a bs /\ width a = w) /\ (exists a, In a bs /\ height a = h) /\
    (forall x y, 0 <= x < w -> 0 <= y < h ->
      Forall2 (fun a c => (inside a x y -> get_pixel m a x y = Ok c) /\ (~ inside a x y -> c = d)) bs (ps x y)) /\
    first_error (fun s p => f s (fst p) (snd p) (ps (fst p) (snd p))) s (row_major w h) s' e pre vs p post.
Proof. exact try_compose_err. Qed.
Print Assumptions C18_try_compose_err.

Example C18_compose_example :
  compose Checked [mkPB 2 1 [1; 2]; mkPB 1 2 [10; 20]] 100
    (fun (s : Z) x y l => Ok (s + 1, fold_right Z.add 0 l)) 0
  = Ok (4, mkPB 2 2 [11; 102; 120; 200]).
Proof. exact compose_example. Qed.


(** C19: with a closure that does not panic, compose of valid images returns
    exactly when there is an image and the bounding box is a valid size ... *)

Theorem C19_compose_panics_iff : forall S T m (bs : list (PixelBuffer T)) d
  (f : S -> Z -> Z -> list T -> res (S * T)) s, Forall valid bs ->
  (forall s x y l, exists r, f s x y l = Ok r) ->
  ((exists r, compose m bs d f s = Ok r) <->
   exists w h, valid_size w h /\
    (forall a, In a bs -> width a <= w /\ height a <= h) /\
    (exists a, In a bs /\ width a = w) /\ (exists a, In a bs /\ height a = h)).
Proof. exact compose_panics_iff. Qed.
Print Assumptions C19_compose_panics_iff.


(** C19: ... so two valid images can make it panic. *)

Theorem C19_compose_total_refuted : exists a b : PixelBuffer Z, valid a /\ valid b /\
  forall m d, compose m [a; b] d (fun (s : unit) x y l => Ok (s, d)) tt = Panic.
Proof. exact compose_total_refuted. Qed.
Print Assumptions C19_compose_total_refuted.

Example C19_compose_valid_example : valid_size 2 2 /\ Forall valid [mkPB 2 1 [1; 2]; mkPB 1 2 [10; 20]].
Proof. exact compose_valid_example. Qed.
