(** Properties of the geometric operations (C12-C19). *)
From Coq Require Import ZArith List Bool Lia.
From Verif Require Import Base PixelBuffer BufferSpec Geometry.
Import ListNotations.
Open Scope Z_scope.
(* PROPERTIES *)
From Coq Require Import ZifyBool ZifyNat.
From Verif Require Import BaseLemmas PixelBufferProofs GeometryProofs EnumProofs ComposeProofs.

(** C12: rotate90 moves (x,y) to (height-1-y, x). *)
Lemma rotate90_placement : forall T m (d : T) b, valid b ->
  exists b', rotate90 m d b = Ok b' /\ valid b' /\ width b' = height b /\ height b' = width b /\
    forall x y, inside b x y ->
      inside b' (height b - 1 - y) x /\ get_pixel m b' (height b - 1 - y) x = get_pixel m b x y.
Proof. intros T m d b V. destruct (rotate90_ok m d b V) as (b' & H & V' & W & Hh & G).
  exists b'. split; auto. Qed.

(** C12: rotate180 moves (x,y) to (width-1-x, height-1-y). *)
Lemma rotate180_placement : forall T m (d : T) b, valid b ->
  exists b', rotate180 m d b = Ok b' /\ valid b' /\ width b' = width b /\ height b' = height b /\
    forall x y, inside b x y ->
      inside b' (width b - 1 - x) (height b - 1 - y) /\
      get_pixel m b' (width b - 1 - x) (height b - 1 - y) = get_pixel m b x y.
Proof. intros T m d b V. destruct (rotate180_ok m d b V) as (b' & H & V' & W & Hh & G).
  exists b'. split; auto. Qed.

(** C12: rotate270 moves (x,y) to (y, width-1-x). *)
Lemma rotate270_placement : forall T m (d : T) b, valid b ->
  exists b', rotate270 m d b = Ok b' /\ valid b' /\ width b' = height b /\ height b' = width b /\
    forall x y, inside b x y ->
      inside b' y (width b - 1 - x) /\ get_pixel m b' y (width b - 1 - x) = get_pixel m b x y.
Proof. intros T m d b V. destruct (rotate270_ok m d b V) as (b' & H & V' & W & Hh & G).
  exists b'. split; auto. Qed.

(** C12: no pixel is lost or invented. *)
Lemma turns_same_pixels : forall T m (d : T) b b', valid b ->
  rotate90 m d b = Ok b' \/ rotate180 m d b = Ok b' \/ rotate270 m d b = Ok b' \/
  flip_horizontal m d b = Ok b' \/ flip_vertical m d b = Ok b' ->
  zlen (data b') = zlen (data b) /\ forall c, In c (data b') <-> In c (data b).
Proof. exact (fun T m d b b' => turns_pixels m d b b'). Qed.

Example rotate_example :
  rotate90 Checked 0 (mkPB 3 2 [1; 2; 3; 4; 5; 6]) = Ok (mkPB 2 3 [4; 1; 5; 2; 6; 3]) /\
  rotate180 Checked 0 (mkPB 3 2 [1; 2; 3; 4; 5; 6]) = Ok (mkPB 3 2 [6; 5; 4; 3; 2; 1]) /\
  rotate270 Checked 0 (mkPB 3 2 [1; 2; 3; 4; 5; 6]) = Ok (mkPB 2 3 [3; 6; 2; 5; 1; 4]) /\
  valid (mkPB 3 2 [1; 2; 3; 4; 5; 6]).
Proof. repeat split; try reflexivity. unfold valid_size. simpl. lia. Qed.

(** C13: the quarter turns form a cyclic group of order four. *)
Lemma rotate90_twice : forall T m (d : T) b, valid b ->
  bind (rotate90 m d b) (rotate90 m d) = rotate180 m d b.
Proof. intros T m d b V. apply (turn_eq (comp (T90 T) (T90 T)) (T180 T));
  auto using comp_spec, T90_spec, T180_spec; simpl; auto; intros; lia. Qed.

Lemma rotate90_thrice : forall T m (d : T) b, valid b ->
  bind (bind (rotate90 m d b) (rotate90 m d)) (rotate90 m d) = rotate270 m d b.
Proof. intros T m d b V. apply (turn_eq (comp (T90 T) (comp (T90 T) (T90 T))) (T270 T));
  auto using comp_spec, T90_spec, T270_spec; simpl; auto; intros; lia. Qed.

Lemma rotate90_four_times : forall T m (d : T) b, valid b ->
  bind (bind (bind (rotate90 m d b) (rotate90 m d)) (rotate90 m d)) (rotate90 m d) = Ok b.
Proof. intros T m d b V. apply (turn_eq (comp (T90 T) (comp (T90 T) (comp (T90 T) (T90 T)))) (TI T) m m d d);
  auto using comp_spec, T90_spec, TI_spec; simpl; auto; intros; lia. Qed.

Lemma rotate90_270_inverse : forall T m (d : T) b, valid b ->
  bind (rotate90 m d b) (rotate270 m d) = Ok b /\ bind (rotate270 m d b) (rotate90 m d) = Ok b.
Proof. intros T m d b V. split.
  - apply (turn_eq (comp (T270 T) (T90 T)) (TI T) m m d d);
    auto using comp_spec, T90_spec, T270_spec, TI_spec; simpl; auto; intros; lia.
  - apply (turn_eq (comp (T90 T) (T270 T)) (TI T) m m d d);
    auto using comp_spec, T90_spec, T270_spec, TI_spec; simpl; auto; intros; lia. Qed.

Lemma rotate180_involution : forall T m (d : T) b, valid b ->
  bind (rotate180 m d b) (rotate180 m d) = Ok b.
Proof. intros T m d b V. apply (turn_eq (comp (T180 T) (T180 T)) (TI T) m m d d);
  auto using comp_spec, T180_spec, TI_spec; simpl; auto; intros; lia. Qed.

Example rotate_group_example :
  bind (rotate90 Wrapping 0 (mkPB 3 2 [1; 2; 3; 4; 5; 6])) (rotate270 Wrapping 0)
  = Ok (mkPB 3 2 [1; 2; 3; 4; 5; 6]).
Proof. reflexivity. Qed.

(** C14: the flips mirror columns and rows. *)
Lemma flip_placement : forall T m (d : T) b, valid b ->
  (exists b', flip_horizontal m d b = Ok b' /\ valid b' /\ width b' = width b /\ height b' = height b /\
    forall x y, inside b x y ->
      inside b' (width b - 1 - x) y /\ get_pixel m b' (width b - 1 - x) y = get_pixel m b x y) /\
  (exists b', flip_vertical m d b = Ok b' /\ valid b' /\ width b' = width b /\ height b' = height b /\
    forall x y, inside b x y ->
      inside b' x (height b - 1 - y) /\ get_pixel m b' x (height b - 1 - y) = get_pixel m b x y).
Proof. intros T m d b V. split.
  - destruct (flip_horizontal_ok m d b V) as (b' & H & V' & W & Hh & G). exists b'. split; auto.
  - destruct (flip_vertical_ok m d b V) as (b' & H & V' & W & Hh & G). exists b'. split; auto. Qed.

Lemma flip_involutions : forall T m (d : T) b, valid b ->
  bind (flip_horizontal m d b) (flip_horizontal m d) = Ok b /\
  bind (flip_vertical m d b) (flip_vertical m d) = Ok b.
Proof. intros T m d b V. split.
  - apply (turn_eq (comp (TH T) (TH T)) (TI T) m m d d);
    auto using comp_spec, TH_spec, TI_spec; simpl; auto; intros; lia.
  - apply (turn_eq (comp (TV T) (TV T)) (TI T) m m d d);
    auto using comp_spec, TV_spec, TI_spec; simpl; auto; intros; lia. Qed.

Lemma flips_make_rotate180 : forall T m (d : T) b, valid b ->
  bind (flip_horizontal m d b) (flip_vertical m d) = rotate180 m d b /\
  bind (flip_vertical m d b) (flip_horizontal m d) = rotate180 m d b.
Proof. intros T m d b V. split.
  - apply (turn_eq (comp (TV T) (TH T)) (T180 T));
    auto using comp_spec, TH_spec, TV_spec, T180_spec; simpl; auto; intros; lia.
  - apply (turn_eq (comp (TH T) (TV T)) (T180 T));
    auto using comp_spec, TH_spec, TV_spec, T180_spec; simpl; auto; intros; lia. Qed.

(** C14: the dihedral relation: flip, turn right, flip is a turn left. *)
Lemma flip_conjugates_rotation : forall T m (d : T) b, valid b ->
  bind (bind (flip_horizontal m d b) (rotate90 m d)) (flip_horizontal m d) = rotate270 m d b /\
  bind (bind (flip_vertical m d b) (rotate90 m d)) (flip_vertical m d) = rotate270 m d b.
Proof. intros T m d b V. split.
  - apply (turn_eq (comp (TH T) (comp (T90 T) (TH T))) (T270 T));
    auto using comp_spec, TH_spec, T90_spec, T270_spec; simpl; auto; intros; lia.
  - apply (turn_eq (comp (TV T) (comp (T90 T) (TV T))) (T270 T));
    auto using comp_spec, TV_spec, T90_spec, T270_spec; simpl; auto; intros; lia. Qed.

Example flip_example :
  flip_horizontal Checked 0 (mkPB 3 2 [1; 2; 3; 4; 5; 6]) = Ok (mkPB 3 2 [3; 2; 1; 6; 5; 4]) /\
  flip_vertical Checked 0 (mkPB 3 2 [1; 2; 3; 4; 5; 6]) = Ok (mkPB 3 2 [4; 5; 6; 1; 2; 3]).
Proof. split; reflexivity. Qed.

(** C15: crop never panics; its pixels are exactly the requested rectangle
    intersected with the image. *)
Lemma crop_intersection : forall T m (d : T) b ox oy w h, valid b ->
  is_u32 ox -> is_u32 oy -> is_u32 w -> is_u32 h ->
  exists b', crop m d b ox oy w h = Ok b' /\ valid b' /\
    (forall x y, inside b' x y <-> 0 <= x < w /\ 0 <= y < h /\ inside b (ox + x) (oy + y)) /\
    (forall x y, inside b' x y -> get_pixel m b' x y = get_pixel m b (ox + x) (oy + y)).
Proof.
  intros T m d b ox oy w h V Hox Hoy Hw Hh. unfold is_u32 in *.
  destruct (crop_spec m d b ox oy w h V) as (b' & H & V' & D & G); try lia.
  exists b'. split; auto. split; auto. split.
  - intros x y. split.
    + intros I. destruct (G m x y I) as (I' & _). unfold inside, crop_w, crop_h in *. lia.
    + intros (Hx & Hy & I). unfold inside, crop_w, crop_h in *. lia.
  - intros x y I. apply G; auto.
Qed.

(** C15: and its size is that of the intersection, or 0x0 when empty. *)
Lemma crop_size : forall T m (d : T) b ox oy w h b', valid b ->
  is_u32 ox -> is_u32 oy -> is_u32 w -> is_u32 h -> crop m d b ox oy w h = Ok b' ->
  let iw := Z.max 0 (Z.min w (width b - ox)) in
  let ih := Z.max 0 (Z.min h (height b - oy)) in
  (width b', height b') = if (iw =? 0) || (ih =? 0) then (0, 0) else (iw, ih).
Proof.
  intros T m d b ox oy w h b' V Hox Hoy Hw Hh E. unfold is_u32 in *.
  destruct (crop_spec m d b ox oy w h V) as (b2 & H & V' & D & G); try lia.
  rewrite E in H. inversion H; subst b2. cbv zeta. fold (crop_w b ox w) (crop_h b oy h).
  destruct ((crop_w b ox w =? 0) || (crop_h b oy h =? 0)) eqn:E2; f_equal; lia.
Qed.

Example crop_example :
  crop Checked 0 (mkPB 3 2 [1; 2; 3; 4; 5; 6]) 1 1 4294967295 7 = Ok (mkPB 2 1 [5; 6]) /\
  crop Checked 0 (mkPB 3 2 [1; 2; 3; 4; 5; 6]) 3 0 1 1 = Ok (mkPB 0 0 []).
Proof. split; reflexivity. Qed.

(** C16: cropping to the full size changes nothing. *)
Lemma crop_full : forall T m (d : T) b w h, valid b -> width b <= w -> height b <= h ->
  is_u32 w -> is_u32 h -> crop m d b 0 0 w h = Ok b.
Proof.
  intros T m d b w h V Hw Hh Uw Uh. unfold is_u32 in *. pose proof (valid_bounds b V).
  destruct (crop_spec m d b 0 0 w h V) as (b' & -> & V' & D & G); try lia. f_equal.
  destruct V as (VS & L). unfold crop_w, crop_h in *.
  apply (buffer_ext m); auto; try (split; auto); unfold valid_size in *; try lia.
  intros x y I. rewrite (proj2 (G m x y I)). f_equal; lia.
Qed.

(** C16: two crops are one. *)
Lemma crop_crop : forall T m (d : T) b ox oy w h ox2 oy2 w2 h2, valid b ->
  is_u32 ox -> is_u32 oy -> is_u32 w -> is_u32 h ->
  is_u32 ox2 -> is_u32 oy2 -> is_u32 w2 -> is_u32 h2 ->
  is_u32 (ox + ox2) -> is_u32 (oy + oy2) ->
  bind (crop m d b ox oy w h) (fun b' => crop m d b' ox2 oy2 w2 h2) =
  crop m d b (ox + ox2) (oy + oy2) (Z.max 0 (Z.min w2 (w - ox2))) (Z.max 0 (Z.min h2 (h - oy2))).
Proof.
  intros T m d b ox oy w h ox2 oy2 w2 h2 V H1 H2 H3 H4 H5 H6 H7 H8 H9 H10. unfold is_u32 in *.
  pose proof (valid_bounds b V) as B.
  destruct (crop_spec m d b ox oy w h V) as (b1 & -> & V1 & D1 & G1); try lia. cbn [bind].
  pose proof (valid_bounds b1 V1) as B1.
  destruct (crop_spec m d b1 ox2 oy2 w2 h2 V1) as (b2 & -> & V2 & D2 & G2); try lia.
  destruct (crop_spec m d b (ox + ox2) (oy + oy2) (Z.max 0 (Z.min w2 (w - ox2)))
     (Z.max 0 (Z.min h2 (h - oy2))) V) as (b3 & -> & V3 & D3 & G3); try lia.
  f_equal.
  assert (width b2 = width b3 /\ height b2 = height b3) as (E1 & E2).
  { clear G1 G2 G3. eapply (crop_dims (width b) ox w ox2 w2 (height b) oy h oy2 h2);
      [..|exact D1|exact D2|exact D3]; lia. }
  clear D1 D2 D3.
  apply (buffer_ext m); auto. intros x y I.
  destruct (G2 m x y I) as (I2 & ->). destruct (G1 m _ _ I2) as (I1 & ->).
  assert (I3 : inside b3 x y) by (unfold inside in *; lia).
  destruct (G3 m x y I3) as (_ & ->). f_equal; lia.
Qed.

(** C16: cropping commutes with flipping when the rectangle is mirrored. *)
Lemma crop_flip : forall T m (d : T) b ox oy w h, valid b ->
  is_u32 ox -> is_u32 oy -> is_u32 w -> is_u32 h ->
  ox + w <= width b -> oy + h <= height b ->
  bind (crop m d b ox oy w h) (flip_horizontal m d) =
  bind (flip_horizontal m d b) (fun b' => crop m d b' (width b - ox - w) oy w h) /\
  bind (crop m d b ox oy w h) (flip_vertical m d) =
  bind (flip_vertical m d b) (fun b' => crop m d b' ox (height b - oy - h) w h).
Proof.
  intros T m d b ox oy w h V H1 H2 H3 H4 H5 H6. unfold is_u32 in *. pose proof (valid_bounds b V) as B.
  destruct (crop_spec m d b ox oy w h V) as (b1 & -> & V1 & D1 & G1); try lia. cbn [bind].
  assert (Cw : crop_w b ox w = w) by (unfold crop_w; lia).
  assert (Ch : crop_h b oy h = h) by (unfold crop_h; lia). rewrite Cw, Ch in D1.
  split.
  - destruct (flip_horizontal_ok m d b V) as (b2 & E2 & _).
    destruct (flip_horizontal_at m d b b2 V E2) as (V2 & W2 & Hh2 & G2). rewrite E2. cbn [bind].
    destruct (crop_spec m d b2 (width b - ox - w) oy w h V2) as (b3 & -> & V3 & D3 & G3); try lia.
    destruct (flip_horizontal_ok m d b1 V1) as (b4 & E4 & _).
    destruct (flip_horizontal_at m d b1 b4 V1 E4) as (V4 & W4 & Hh4 & G4). rewrite E4. f_equal.
    assert (Cw2 : crop_w b2 (width b - ox - w) w = w) by (unfold crop_w; rewrite W2; clear - H1 H3 H5 B; lia).
    assert (Ch2 : crop_h b2 oy h = h) by (unfold crop_h; rewrite Hh2; clear - H2 H4 H6 B; lia). rewrite Cw2, Ch2 in D3.
    assert (width b4 = width b3 /\ height b4 = height b3) as (Ew & Eh) by (clear - D1 D3 W4 Hh4; lia).
    assert (E1 : 0 < width b1 -> width b1 = w /\ height b1 = h) by (clear - D1; lia).
    clear D1 D3.
    apply (buffer_ext m); auto. intros x y I.
    assert (I3 : inside b3 x y) by (unfold inside in *; lia).
    destruct (G4 m x y I) as (I1 & ->). destruct (G1 m _ _ I1) as (I0 & ->).
    destruct (G3 m x y I3) as (I2 & ->). destruct (G2 m _ _ I2) as (_ & ->).
    unfold inside in *. f_equal; lia.
  - destruct (flip_vertical_ok m d b V) as (b2 & E2 & _).
    destruct (flip_vertical_at m d b b2 V E2) as (V2 & W2 & Hh2 & G2). rewrite E2. cbn [bind].
    destruct (crop_spec m d b2 ox (height b - oy - h) w h V2) as (b3 & -> & V3 & D3 & G3); try lia.
    destruct (flip_vertical_ok m d b1 V1) as (b4 & E4 & _).
    destruct (flip_vertical_at m d b1 b4 V1 E4) as (V4 & W4 & Hh4 & G4). rewrite E4. f_equal.
    assert (Cw2 : crop_w b2 ox w = w) by (unfold crop_w; rewrite W2; clear - H1 H3 H5 B; lia).
    assert (Ch2 : crop_h b2 (height b - oy - h) h = h) by (unfold crop_h; rewrite Hh2; clear - H2 H4 H6 B; lia). rewrite Cw2, Ch2 in D3.
    assert (width b4 = width b3 /\ height b4 = height b3) as (Ew & Eh) by (clear - D1 D3 W4 Hh4; lia).
    assert (E1 : 0 < width b1 -> width b1 = w /\ height b1 = h) by (clear - D1; lia).
    clear D1 D3.
    apply (buffer_ext m); auto. intros x y I.
    assert (I3 : inside b3 x y) by (unfold inside in *; lia).
    destruct (G4 m x y I) as (I1 & ->). destruct (G1 m _ _ I1) as (I0 & ->).
    destruct (G3 m x y I3) as (I2 & ->). destruct (G2 m _ _ I2) as (_ & ->).
    unfold inside in *. f_equal; lia.
Qed.

Example crop_laws_example : valid (mkPB 3 2 [1; 2; 3; 4; 5; 6]) /\
  bind (crop Checked 0 (mkPB 3 2 [1; 2; 3; 4; 5; 6]) 1 0 2 2) (fun b' => crop Checked 0 b' 1 1 5 5)
  = Ok (mkPB 1 1 [6]) /\
  bind (crop Checked 0 (mkPB 3 2 [1; 2; 3; 4; 5; 6]) 0 0 2 2) (flip_horizontal Checked 0)
  = Ok (mkPB 2 2 [2; 1; 5; 4]).
Proof. split; [|split; reflexivity]. unfold valid, valid_size, zlen; simpl. lia. Qed.

(** C17: interlace shifts even rows to the right and odd rows to the left,
    repeating the border pixel. *)
Lemma interlace_spec : forall T m (b : PixelBuffer T) o, valid b -> 0 <= o < 1073741824 ->
  exists b', interlace m b o = Ok b' /\ valid b' /\ width b' = width b /\ height b' = height b /\
    forall x y, inside b x y ->
      get_pixel m b' x y =
      get_pixel m b (Z.max 0 (Z.min (if Z.even y then x - o else x + o) (width b - 1))) y.
Proof. intros T m b o V Ho. destruct (interlace_ok m b o V Ho) as (b' & H & V' & W & Hh & G).
  exists b'. split; auto. split; auto. split; auto. split; auto. intros x y I. rewrite G by auto.
  reflexivity. Qed.

Lemma interlace_zero : forall T m (b : PixelBuffer T), valid b -> interlace m b 0 = Ok b.
Proof.
  intros T m b V. destruct (interlace_ok m b 0 V) as (b' & -> & V' & W & Hh & G); [lia|]. f_equal.
  apply (buffer_ext m); auto. intros x y I. rewrite G by (unfold inside in *; lia).
  f_equal. unfold clampZ, inside in *. destruct (Z.even y); lia.
Qed.

(** C17: for offsets of 2^31 and more the conversion to i32 makes the offset
    negative, so the rows move the other way. *)
Lemma interlace_large_offset_refuted : exists (b : PixelBuffer Z) o b', valid b /\ is_u32 o /\
  interlace Wrapping b o = Ok b' /\ interlace Checked b o = Ok b' /\
  exists x y, inside b x y /\
    get_pixel Checked b' x y <>
    get_pixel Checked b (Z.max 0 (Z.min (if Z.even y then x - o else x + o) (width b - 1))) y.
Proof.
  exists (mkPB 2 1 [1; 2]), 4294967295, (mkPB 2 1 [2; 2]).
  split; [unfold valid, valid_size, zlen; simpl; lia|]. split; [unfold is_u32; lia|].
  split; [reflexivity|]. split; [reflexivity|]. exists 0, 0. split; [unfold inside; simpl; lia|].
  vm_compute. discriminate.
Qed.

Example interlace_example :
  interlace Checked (mkPB 3 2 [1; 2; 3; 4; 5; 6]) 1 = Ok (mkPB 3 2 [1; 1; 2; 5; 6; 6]).
Proof. reflexivity. Qed.

(** C18: compose has the bounding-box size and hands the closure, for every
    coordinate in row-major order, the pixel of each image or the default. *)
Lemma compose_spec : forall S T m (bs : list (PixelBuffer T)) d
  (f : S -> Z -> Z -> list T -> res (S * T)) s s' b, Forall valid bs ->
  compose m bs d f s = Ok (s', b) ->
  valid b /\
  (forall a, In a bs -> width a <= width b /\ height a <= height b) /\
  (exists a, In a bs /\ width a = width b) /\ (exists a, In a bs /\ height a = height b) /\
  exists ps : Z -> Z -> list T,
    (forall x y, inside b x y ->
      Forall2 (fun a c => (inside a x y -> get_pixel m a x y = Ok c) /\ (~ inside a x y -> c = d)) bs (ps x y)) /\
    runs (call (fun s p => f s (fst p) (snd p) (ps (fst p) (snd p)))) s
         (row_major (width b) (height b)) s' (data b).
Proof. intros S T m bs d f s s' b. exact (compose_lemma m bs d f s s' b). Qed.

(** C18: the slice variants agree with the array variants. *)
Lemma compose_slice_agrees : forall S T E m (bs : list (PixelBuffer T)) d
  (f : S -> Z -> Z -> list T -> res (S * T)) (g : S -> Z -> Z -> list T -> res (S * Result T E)) s,
  compose_slice m bs d f s = compose m bs d f s /\
  try_compose_slice m bs d g s = try_compose m bs d g s.
Proof. intros S T E m bs d f g s. split; [apply compose_slice_same|apply try_compose_slice_same]. Qed.

(** C18: try_compose returns the error of the first failing coordinate. *)
Lemma try_compose_err : forall S T E m (bs : list (PixelBuffer T)) d
  (f : S -> Z -> Z -> list T -> res (S * Result T E)) s s' e, Forall valid bs ->
  try_compose m bs d f s = Ok (s', RErr e) ->
  exists w h (ps : Z -> Z -> list T) pre vs p post,
    (forall a, In a bs -> width a <= w /\ height a <= h) /\
    (exists a, In a bs /\ width a = w) /\ (exists a, In a bs /\ height a = h) /\
    (forall x y, 0 <= x < w -> 0 <= y < h ->
      Forall2 (fun a c => (inside a x y -> get_pixel m a x y = Ok c) /\ (~ inside a x y -> c = d)) bs (ps x y)) /\
    first_error (fun s p => f s (fst p) (snd p) (ps (fst p) (snd p))) s (row_major w h) s' e pre vs p post.
Proof. intros S T E m bs d f s s' e. exact (try_compose_err_lemma m bs d f s s' e). Qed.

Example compose_example :
  compose Checked [mkPB 2 1 [1; 2]; mkPB 1 2 [10; 20]] 100
    (fun (s : Z) x y l => Ok (s + 1, fold_right Z.add 0 l)) 0
  = Ok (4, mkPB 2 2 [11; 102; 120; 200]).
Proof. reflexivity. Qed.

(** C19: with a closure that does not panic, compose of valid images returns
    exactly when there is an image and the bounding box is a valid size ... *)
Lemma compose_panics_iff : forall S T m (bs : list (PixelBuffer T)) d
  (f : S -> Z -> Z -> list T -> res (S * T)) s, Forall valid bs ->
  (forall s x y l, exists r, f s x y l = Ok r) ->
  ((exists r, compose m bs d f s = Ok r) <->
   exists w h, valid_size w h /\
    (forall a, In a bs -> width a <= w /\ height a <= h) /\
    (exists a, In a bs /\ width a = w) /\ (exists a, In a bs /\ height a = h)).
Proof. intros S T m bs d f s. exact (compose_panics_lemma m bs d f s). Qed.

(** C19: ... so two valid images can make it panic. *)
Lemma compose_total_refuted : exists a b : PixelBuffer Z, valid a /\ valid b /\
  forall m d, compose m [a; b] d (fun (s : unit) x y l => Ok (s, d)) tt = Panic.
Proof. exact compose_total_refuted_lemma. Qed.

Example compose_valid_example : valid_size 2 2 /\ Forall valid [mkPB 2 1 [1; 2]; mkPB 1 2 [10; 20]].
Proof. split; [unfold valid_size; lia|]. repeat constructor; unfold valid_size; simpl; lia. Qed.
