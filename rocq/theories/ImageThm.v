(** Properties of images (C67, C68, C82). *)
From Coq Require Import Reals.
From Coq Require Import ZArith List Bool String.
From Flocq Require Import BinarySingleNaN.
From Verif Require Import Base PixelBuffer BufferSpec F32 Color ColorSpec Resample Kernel Ops OpsSpec Codec CodecSpec Commands Image ImageSpec.
Import ListNotations.
Open Scope Z_scope.

(* PROPERTIES *)
From Coq Require Import Lia Lra.
From Flocq Require Import Core.
From Verif Require Import BaseLemmas PixelBufferProofs EnumProofs Reachable ComposeProofs F32Lemmas ColorProofs DecodeProofs CodecThm CodecMoreProofs ResampleProofs ResampleThm CommandsProofs ImageProofs PctProofs OpsThm.
Open Scope Z_scope.

(** C67: every call that returns keeps the background colour of the image it
    is made on and gives a well-formed image of the size it documents. *)
Lemma calls_keep_metadata : forall R (e : env R) i others i' size, good_decoders (e_dec e) ->
  good_image i -> (forall o, In o others -> good_image o) -> call_on e i others i' size ->
  bg_color i' = bg_color i /\ good_image i' /\
  forall w h, size = Some (w, h) -> width (buffer i') = w /\ height (buffer i') = h.
Proof. intros R e i others i' size G V VO C. exact (call_outcome e i others i' size G V VO C). Qed.

(** C67: so every image a program can make is well-formed and has no
    background colour. *)
Lemma obtainable_images : forall R (e : env R) i, good_decoders (e_dec e) -> obtainable e i ->
  good_image i /\ bg_color i = None.
Proof.
  intros R e i G O. unfold good_image. induction O.
  - apply bind_inv in H1 as (b & H1 & H2). inversion H2; subst. simpl. split; auto. exact (reachable_is_valid _ b (reach_new _ (e_build e) RGB_NONE w h b H H0 H1)).
  - apply bind_inv in H1 as (b & H1 & H2). inversion H2; subst. simpl. split; auto. exact (reachable_is_valid _ b (reach_color _ (e_build e) c w h b H H0 H1)).
  - apply bind_inv in H1 as (b & H1 & H2). inversion H2; subst. simpl. split; auto. exact (reachable_is_valid _ b (reach_raw _ w h d b H H0 H1)).
  - apply bind_inv in H1 as (b & H1 & H2). inversion H2; subst. simpl. split; [|apply IHO]. exact (reachable_is_valid _ b (reach_raw _ w h d b H H0 H1)).
  - simpl. auto.
  - simpl. split; auto. apply IHO.
  - apply bind_inv in H as ([b|er] & H & H2); inversion H2; subst. simpl. split; auto. eapply decode_file_valid; eauto.
  - apply bind_inv in H as ([b|er] & H & H2); inversion H2; subst. simpl. split; auto.
    unfold decode_buffer in H. destruct (from_reader c); [|discriminate]. eapply decode_gives_valid; eauto.
  - destruct IHO as (V & B). destruct (call_outcome e i others i' size G V (fun o Ho => proj1 (H0 o Ho)) H1) as (B' & V' & _).
    split; auto. congruence.
Qed.

(** C67: and free rotation of such an image fills uncovered pixels with
    transparent black. *)
Lemma rotation_fill : forall R (e : env R) i a f i', good_decoders (e_dec e) -> obtainable e i ->
  image_rotate (e_libm e) (e_build e) a f i = Ok i' ->
  rotate (e_libm e) (e_build e) (buffer i) a (mkC f0 f0 f0 f0) f = Ok (buffer i') /\
  (f = Nearest -> forall c, In c (data (buffer i')) -> In c (data (buffer i)) \/ c = mkC f0 f0 f0 f0).
Proof.
  intros R e i a f i' G O H. destruct (obtainable_images R e i G O) as (V & B).
  apply with_meta_inv in H as (b & H & ->). rewrite B in H. split; [exact H|].
  intros -> c. eapply nearest_rotate_colors; eauto.
Qed.

Example calls_example :
  let g := mkRng Z (fun s => (s + 1, f0)) (fun s => (s + 1, f1)) (fun s => (s + 1, s mod 3)) (fun s => (s + 1, f1)) in
  let e := mkEnv Z example_libm Checked g example_encoders example_decoders in
  let i := mkImage (mkPB 2 1 [RGB_BLACK; RGB_WHITE]) (Some RGB_WHITE) in
  good_image i /\
  call_on e i [] (mkImage (mkPB 1 2 [RGB_BLACK; RGB_WHITE]) (Some RGB_WHITE)) (Some (1, 2)) /\
  obtainable e (mkImage (mkPB 1 2 [RGB_BLACK; RGB_WHITE]) None).
Proof.
  intros g e i. assert (V : good_image i) by (split; [right; simpl; lia|reflexivity]).
  split; [exact V|]. split.
  - apply (on_rotate90 e i). reflexivity.
  - apply (by_call e (new_from_buffer (buffer i)) [] _ (Some (1, 2)) (by_buffer e (buffer i) V)); [intros o []|].
    apply (on_rotate90 e (new_from_buffer (buffer i))). reflexivity.
Qed.

(** C68: resize_pct by [p] percent scales both sides by [p] / 100, rounded to
    the nearest number and not below 1. *)
Lemma resize_pct_sides : forall L m i p f i', good_image i -> nonempty (buffer i) ->
  is_finite p = true -> (0 <= B2R p)%R -> image_resize_pct L m p f i = Ok i' ->
  1 <= width (buffer i') /\ scaled_to (width (buffer i')) (percent p (width (buffer i))) /\
  1 <= height (buffer i') /\ scaled_to (height (buffer i')) (percent p (height (buffer i))).
Proof.
  intros L m i p f i' V N F P H. unfold image_resize_pct, image_resize in H. cbv zeta in H.
  apply with_meta_inv in H as (b & H & ->). pose proof (valid_bounds _ V) as B. destruct N as (N1 & N2).
  change (resize L m (buffer i) (pct_side p (width (buffer i))) (pct_side p (height (buffer i))) f = Ok b) in H.
  assert (P1 : 1 <= pct_side p (width (buffer i))) by (unfold pct_side; lia).
  assert (P2 : 1 <= pct_side p (height (buffer i))) by (unfold pct_side; lia).
  apply resize_made in H as (Vb & Wb & Hb); try lia; [|exact V]. cbn [buffer].
  pose proof (valid_bounds _ Vb) as B2. rewrite Wb, Hb in *.
  split; [lia|]. split; [|split; [lia|]].
  - destruct (pct_side_close p (width (buffer i))) as [(E & _)|E]; auto; lia.
  - destruct (pct_side_close p (height (buffer i))) as [(E & _)|E]; auto; lia.
Qed.

(** C68: it succeeds when the size asked for is well below the limit. *)
Lemma resize_pct_succeeds : forall L m i p f, good_image i -> nonempty (buffer i) -> is_finite p = true -> (0 <= B2R p)%R ->
  (f = Auto -> width (buffer i) <= 268435456 /\ height (buffer i) <= 268435456) ->
  (let side n := Rmax 1 (percent p n) * (1 + / 4194304) + 1 in side (width (buffer i)) * side (height (buffer i)) <= 1073741823)%R ->
  exists i', image_resize_pct L m p f i = Ok i'.
Proof.
  intros L m i p f V N F P A S. cbv beta zeta in S. pose proof (valid_bounds _ V) as B. destruct N as (N1 & N2).
  assert (Side : forall n, 0 < n <= 1073741823 -> (percent p n < 2147483648)%R ->
    1 <= pct_side p n /\ (IZR (pct_side p n) <= Rmax 1 (percent p n) * (1 + / 4194304) + 1)%R).
  { intros n Hn Hr. split; [unfold pct_side; lia|]. destruct (pct_side_close p n) as [(_ & E)|E]; auto.
    - unfold percent in Hr. lra.
    - apply Rabs_le_inv in E. fold (percent p n) in E. pose proof (Rmax_r 1 (percent p n)). lra. }
  set (pw := percent p (width (buffer i))) in *. set (ph := percent p (height (buffer i))) in *.
  pose proof (Rmax_l 1 pw). pose proof (Rmax_l 1 ph). pose proof (Rmax_r 1 pw). pose proof (Rmax_r 1 ph).
  set (sw := (Rmax 1 pw * (1 + / 4194304) + 1)%R) in *. set (sh := (Rmax 1 ph * (1 + / 4194304) + 1)%R) in *.
  assert (Lw : (1 <= sw /\ pw <= sw)%R) by (unfold sw; lra). assert (Lh : (1 <= sh /\ ph <= sh)%R) by (unfold sh; lra).
  assert (Sw : (sw <= sw * sh)%R) by nra. assert (Sh : (sh <= sw * sh)%R) by nra.
  destruct (Side (width (buffer i))) as (W1 & W2); [lia| |]. { fold pw. lra. }
  destruct (Side (height (buffer i))) as (H1' & H2'); [lia| |]. { fold ph. lra. }
  fold pw sw in W2. fold ph sh in H2'.
  set (w := pct_side p (width (buffer i))) in *. set (h := pct_side p (height (buffer i))) in *.
  assert (Vs : valid_size w h).
  { right. split; [lia|]. split; [lia|]. apply le_IZR. rewrite mult_IZR.
    apply IZR_le in W1. apply IZR_le in H1'. apply Rle_trans with (2 := S). apply Rmult_le_compat; lra. }
  destruct (resize_ok L m (buffer i) w h f V (conj N1 N2) Vs A) as (b & E & _).
  exists (mkImage b (bg_color i)). unfold image_resize_pct, image_resize. cbv zeta. fold (pct_side p (width (buffer i))) (pct_side p (height (buffer i))).
  fold w h. unfold with_meta. rewrite E. reflexivity.
Qed.

(** C68: 100 percent gives the same image back. *)
Lemma resize_pct_100 : forall L m i f, 0 < width (buffer i) < 16777216 -> 0 < height (buffer i) < 16777216 ->
  image_resize_pct L m (ofZ 100) f i = Ok i.
Proof.
  intros L m i f W H. unfold image_resize_pct, image_resize. cbv zeta.
  fold (pct_side (ofZ 100) (width (buffer i))) (pct_side (ofZ 100) (height (buffer i))). rewrite !pct_side_100 by auto.
  unfold resize. rewrite !Z.eqb_refl. destruct i. reflexivity.
Qed.

(** C68: a percentage that is not above 0 (or not a number) gives one pixel. *)
Lemma resize_pct_nonpositive : forall L m i p f i', good_image i -> nonempty (buffer i) -> flt f0 p = false ->
  image_resize_pct L m p f i = Ok i' -> width (buffer i') = 1 /\ height (buffer i') = 1.
Proof.
  intros L m i p f i' V (N1 & N2) P H. unfold image_resize_pct, image_resize in H. cbv zeta in H. pose proof (valid_bounds _ V) as B.
  fold (pct_side p (width (buffer i))) (pct_side p (height (buffer i))) in H. rewrite !pct_side_nonpos in H by (auto; lia).
  apply with_meta_inv in H as (b & H & ->). apply resize_made in H as (_ & H); auto; lia.
Qed.

Example resize_pct_example :
  let i := mkImage (mkPB 3 2 (repeat RGB_WHITE 6)) None in
  let size p := match image_resize_pct example_libm Checked p Nearest i with Ok i' => (width (buffer i'), height (buffer i')) | Panic => (0, 0) end in
  size (ofZ 200) = (6, 4) /\ size (dec 333 10) = (1, 1) /\ size (ofZ 50) = (2, 1) /\ size (ofZ (-5)) = (1, 1) /\ size fnan = (1, 1).
Proof. vm_compute. auto. Qed.

(** C82: has_transparency tells exactly whether some pixel is more transparent
    than 1/32768. *)
Lemma has_transparency_exact : forall i, good_image i -> every_pixel (buffer i) (fun c => in01 (alpha c)) ->
  (image_has_transparency i = true <-> some_pixel (buffer i) see_through).
Proof.
  intros i V A. unfold image_has_transparency, buffer_has_transparency. rewrite existsb_exists. split.
  - intros (c & I & T). apply (data_In Checked) in I as (x & y & I & Hp); auto.
    exists x, y, c. split; auto. split; [intros m; rewrite get_pixel_eq in *; auto|].
    apply transparency_iff; auto. eapply A; eauto.
  - intros (x & y & c & I & Hp & T). exists c. split; [apply (data_In Checked); eauto|].
    apply transparency_iff; auto. exact (A Checked x y c I (Hp Checked)).
Qed.

(** C82: is_grayscale never holds with a channel difference of 1/32768 or
    more, and always holds with differences slightly below that. *)
Lemma is_grayscale_bounds : forall i, good_image i -> every_pixel (buffer i) in_gamut ->
  (image_is_grayscale i = true -> every_pixel (buffer i) (gray_below (/ 32768))) /\
  (every_pixel (buffer i) (gray_below (/ 32768 * (1 - / 16777216))) -> image_is_grayscale i = true).
Proof.
  intros i V A. unfold image_is_grayscale, buffer_is_grayscale. rewrite forallb_forall. split.
  - intros H m x y c I Hp. apply gray_below_sound; [eapply A; eauto|]. apply H. apply (data_In m); eauto.
  - intros H c I. apply (data_In Checked) in I as (x & y & I & Hp); auto. apply gray_below_complete; [eapply A; eauto|]. eapply H; eauto.
Qed.

Example inspection_example :
  let i cs := mkImage (mkPB (zlen cs) 1 cs) None in
  image_has_transparency (i [RGB_WHITE; RGB_BLACK]) = false /\ image_has_transparency (i [RGB_WHITE; RGB_NONE]) = true /\
  image_has_transparency (i [mkC f0 f0 f0 (fsub f1 (dec 1 32768)); RGB_BLACK]) = false /\ image_has_transparency (i [mkC f0 f0 f0 (fsub f1 (dec 1 16384)); RGB_BLACK]) = true /\
  image_is_grayscale (i [RGB_WHITE; RGB_NONE]) = true /\ image_is_grayscale (i [RGB_WHITE; mkC f0 (dec 1 16384) f0 f1]) = false /\
  image_is_grayscale (i [RGB_WHITE; mkC f0 f0 (dec 1 32768) f1]) = false /\ image_is_grayscale (i [mkC f0 f0 (dec 1 65536) f1]) = true.
Proof. vm_compute. repeat split. Qed.

(** C53: saving to memory gives exactly the bytes the encoder writes if it
    succeeds, and its error otherwise. *)
Lemma save_to_buffer : forall E L i f,
  (forall e, make_job L (buffer i) f = RErr e -> image_save_to_buffer E L i f = RErr e) /\
  (forall j ops ok, make_job L (buffer i) f = ROk j -> E j = (ops, ok) ->
     image_save_to_buffer E L i f = if ok then ROk (output ops) else RErr EEncoding).
Proof.
  intros E L i f. unfold image_save_to_buffer, encode. split.
  - intros e ->. reflexivity.
  - intros j ops ok -> ->. rewrite run_vec. destruct ok; reflexivity.
Qed.

Example save_to_buffer_example : let b := mkPB 1 1 [mkC f1 f0 f1 f1] in
  make_job example_libm (mkPB 65536 1 (repeat (mkC f1 f0 f1 f1) (Z.to_nat 65536))) EGif = RErr (EBadDimensions 65536 1) /\
  image_save_to_buffer example_encoders example_libm (mkImage b None) bmp_default = ROk [66; 77; 1; 1; 254; 0; 254; 255].
Proof. split; reflexivity. Qed.

(** C77: white balance stretches red, green and blue, each between its own
    black and white point, and keeps alpha and the background colour. *)
Lemma white_balance : forall L t i, good_image i ->
  exists i', image_white_balance L t i = Ok i' /\ good_image i' /\ bg_color i' = bg_color i /\
    width (buffer i') = width (buffer i) /\ height (buffer i') = height (buffer i) /\
    forall m x y, inside (buffer i) x y -> exists c c', get_pixel m (buffer i) x y = Ok c /\ get_pixel m (buffer i') x y = Ok c' /\
      let t' := fdiv t (ofZ 1000) in
      balanced L t' d0 (data (buffer i)) (d0 c) (d0 c') /\ balanced L t' d1 (data (buffer i)) (d1 c) (d1 c') /\
      balanced L t' d2 (data (buffer i)) (d2 c) (d2 c') /\ alpha c' = alpha c.
Proof.
  intros L t i V. destruct (balance_spec L (buffer i) BRgb t KRgb true true true V eq_refl) as (r & E & Vr & W & H & P).
  exists (mkImage r (bg_color i)). unfold image_white_balance, with_meta. rewrite E. split; [reflexivity|].
  split; [exact Vr|]. split; [reflexivity|]. split; [exact W|]. split; [exact H|].
  intros m x y I. destruct (P m x y I) as (c & s & E1 & E2 & K). cbv zeta in K.
  exists c, s. split; [exact E1|]. split; [exact E2|]. cbv zeta.
  assert (X : map (convert_color L KRgb KRgb) (data (buffer i)) = data (buffer i)).
  { transitivity (map (fun c : col => c) (data (buffer i))); [apply map_ext; reflexivity|apply map_id]. }
  rewrite X in K. exact K.
Qed.

Example white_balance_example : good_image (mkImage (mkPB 1 1 [RGB_WHITE]) (Some RGB_BLACK)).
Proof. vm_compute. intuition congruence. Qed.
