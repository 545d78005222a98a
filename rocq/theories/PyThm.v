(** The Python methods. *)
From Coq Require Import ZArith List Bool String.
From Verif Require Import Base PixelBuffer BufferSpec Geometry F32 Color Blend Resample Kernel Ops Codec CodecSpec Names Image
  ImageSpec PyImage CliSpec PySpec.
Import ListNotations.
Local Open Scope string_scope.
Open Scope Z_scope.
From Coq Require Import Lia ZifyBool.
From Verif Require Import BaseLemmas PixelBufferProofs EnumProofs GeometryProofs ComposeProofs PyProofs BufferThm CliThm.

(* PROPERTIES *)

(** C111: [Image(w, h, color)] for any two Python integers: an image of that
    size filled with the colour (or with transparent black), a panic if an
    image cannot have that size, an OverflowError if it does not fit. *)
Lemma python_new : forall m w h color,
  (valid_size w h -> exists i, py_new m w h color = Ok (ROk i) /\ good_image i /\
     width (buffer i) = w /\ height (buffer i) = h /\ bg_color i = None /\
     forall c, In c (py_to_list i) -> c = given color RGB_NONE) /\
  (is_u32 w -> is_u32 h -> ~ valid_size w h -> py_new m w h color = Panic) /\
  (~ (is_u32 w /\ is_u32 h) -> py_new m w h color = Ok (RErr OverflowError)).
Proof.
  intros m w h color. split; [|split].
  - intros V. pose proof (valid_size_bounds _ _ V).
    exists (mkImage (mkPB w h (repeat (given color RGB_NONE) (Z.to_nat (w * h)))) None).
    unfold py_new. rewrite !py_u32_in by (unfold is_u32; lia). cbn [py_bind]. split.
    + unfold image_new_with_color, image_new, new. destruct color; cbn [given]; rewrite new_with_color_ok by auto; reflexivity.
    + split; [exact (new_with_color_valid w h _ V)|]. repeat (split; [reflexivity|]).
      intros c I. apply repeat_spec in I. exact I.
  - intros W H V. unfold py_new. rewrite !py_u32_in by auto. cbn [py_bind].
    unfold is_u32 in *. unfold image_new_with_color, image_new, new.
    destruct color; rewrite new_with_color_bad by (auto; lia); reflexivity.
  - intros H. unfold py_new. exact (u32_pair w h _ H).
Qed.

(** C111: a list becomes an image exactly if its length is the number of
    pixels of a possible size; [to_list] is the inverse; [len] is the number of
    pixels. *)
Lemma python_lists : forall w h l, is_u32 w -> is_u32 h ->
  (valid_size w h -> zlen l = w * h -> exists i, py_from_list w h l = Ok (ROk i) /\ good_image i /\
     width (buffer i) = w /\ height (buffer i) = h /\ py_to_list i = l /\ py_len i = w * h) /\
  (~ (valid_size w h /\ zlen l = w * h) -> py_from_list w h l = Panic).
Proof.
  intros w h l W H. unfold py_from_list. rewrite !py_u32_in by auto. cbn [py_bind]. unfold image_new_from_raw. split.
  - intros V E. rewrite new_from_raw_ok by auto. cbn [bind py_ok]. eexists. split; [reflexivity|].
    split; [split; [exact V|exact E]|]. repeat (split; [reflexivity|]). exact E.
  - intros N. unfold is_u32 in *. rewrite new_from_raw_bad by (auto; lia). reflexivity.
Qed.
Lemma python_list_round_trip : forall i, good_image i ->
  py_len i = width (buffer i) * height (buffer i) /\
  py_from_list (width (buffer i)) (height (buffer i)) (py_to_list i) = Ok (ROk (mkImage (buffer i) None)).
Proof.
  intros i (V & E). split; [exact E|]. pose proof (valid_size_bounds _ _ V).
  unfold py_from_list. rewrite !py_u32_in by (unfold is_u32; lia). cbn [py_bind]. unfold image_new_from_raw.
  rewrite new_from_raw_ok by auto. destruct i as [[w h d] bg]; reflexivity.
Qed.

(** C111: [img[x, y]] for any two Python integers: the pixel if there is one,
    otherwise an exception, never a panic.  [get_pixel] gives None instead of
    the OSError, [is_in_image] tells which. *)
Lemma python_getitem : forall m i x y, good_image i ->
  (inside (buffer i) x y -> exists c, get_pixel m (buffer i) x y = Ok c /\ py_getitem m i x y = Ok (ROk c) /\
     py_get_pixel m i x y = Ok (ROk (Some c)) /\ py_is_in_image i x y = Ok (ROk true)) /\
  (~ inside (buffer i) x y -> is_i32 x -> is_i32 y -> py_getitem m i x y = Ok (RErr (OSErrorRange y x)) /\
     py_get_pixel m i x y = Ok (ROk None) /\ py_is_in_image i x y = Ok (ROk false)) /\
  (~ (is_i32 x /\ is_i32 y) -> py_getitem m i x y = Ok (RErr OverflowError) /\
     py_get_pixel m i x y = Ok (RErr OverflowError) /\ py_is_in_image i x y = Ok (RErr OverflowError)).
Proof.
  intros m i x y V. split; [|split].
  - intros I. destruct (inside_i32 _ _ _ V I) as (X & Y & _).
    destruct (optional_spec _ m (buffer i) x y V X Y) as (B & O & _). destruct (O I) as (c & G & E).
    exists c. split; [exact G|]. unfold py_getitem, py_get_pixel, py_is_in_image. rewrite !py_i32_in by auto. cbn [py_bind].
    rewrite E. cbn [bind py_ok]. split; [reflexivity|]. split; [reflexivity|]. apply B in I. rewrite I. reflexivity.
  - intros I X Y. destruct (optional_spec _ m (buffer i) x y V X Y) as (B & _ & O).
    unfold py_getitem, py_get_pixel, py_is_in_image. rewrite !py_i32_in by auto. cbn [py_bind].
    rewrite (O I). cbn [bind py_ok]. split; [reflexivity|]. split; [reflexivity|].
    destruct (is_in_image (buffer i) x y); [|reflexivity]. exfalso. apply I, B. reflexivity.
  - intros N. unfold py_getitem, py_get_pixel, py_is_in_image. split; [|split]; exact (i32_pair x y _ N).
Qed.

(** C111: [img[x, y] = c] and [put_pixel]: inside exactly that pixel changes.  A
    user expects an exception outside, as for reading; the code violates that:
    it is one only for integers that do not fit u32 (negative ones among
    them), all others panic. *)
Lemma python_setitem_refuted : forall m i x y c, good_image i ->
  py_setitem m i x y c = py_put_pixel m i x y c /\
  (inside (buffer i) x y -> exists i', py_setitem m i x y c = Ok (ROk i') /\ good_image i' /\
     width (buffer i') = width (buffer i) /\ height (buffer i') = height (buffer i) /\ bg_color i' = bg_color i /\
     forall x' y', inside (buffer i) x' y' ->
       get_pixel m (buffer i') x' y' = if (x' =? x) && (y' =? y) then Ok c else get_pixel m (buffer i) x' y') /\
  (~ inside (buffer i) x y -> is_u32 x -> is_u32 y -> py_setitem m i x y c = Panic) /\
  (~ (is_u32 x /\ is_u32 y) -> py_setitem m i x y c = Ok (RErr OverflowError)).
Proof.
  intros m i x y c V. split; [reflexivity|]. split; [|split].
  - intros I. destruct (inside_i32 _ _ _ V I) as (_ & _ & X & Y).
    destruct (put_pixel_ok m (buffer i) x y c V I) as (b' & E & V' & W & H & G).
    exists (mkImage b' (bg_color i)). unfold py_setitem, py_put_pixel. rewrite !py_u32_in by auto. cbn [py_bind].
    unfold image_put_pixel, in_place. rewrite E. cbn [bind py_ok buffer bg_color]. auto 10.
  - intros I X Y. unfold py_setitem, py_put_pixel. rewrite !py_u32_in by auto. cbn [py_bind].
    unfold is_u32 in *. unfold image_put_pixel, in_place. rewrite put_pixel_outside by (auto; lia). reflexivity.
  - intros N. exact (u32_pair x y _ N).
Qed.

(** C111: [mod_colors] and [mod_colors_enumerated] call the Python function once
    per pixel in row-major order and store what it returns.  If it raises, the
    exception is passed on and the pixels before that one stay changed. *)
Lemma python_mod_colors : forall S X (f : S -> Rgb -> res (S * Result Rgb X)) s i s' i' r,
  py_mod_colors f s i = Ok (s', i', r) <->
  exists d, i' = same_with i d /\
  match r with
  | ROk _ => runs (call_ok f) s (py_to_list i) s' d
  | RErr e => exists pre new p post, first_error f s (py_to_list i) s' e pre new p post /\ d = (new ++ p :: post)%list
  end.
Proof.
  intros S X f s i s' i' r. unfold py_mod_colors, py_to_list, same_with. split.
  - intros H. apply bind_inv in H as (((s1 & b) & r1) & H1 & H). inversion H; subst s1 i' r1; clear H.
    apply try_mod_colors_spec in H1 as (W & Hh & H1). exists (data b).
    split; [destruct b as [w h d]; cbn in *; subst; reflexivity|exact H1].
  - intros (d & -> & H).
    assert (E : try_mod_colors f s (buffer i) = Ok (s', mkPB (width (buffer i)) (height (buffer i)) d, r)).
    { apply try_mod_colors_spec. split; [reflexivity|]. split; [reflexivity|exact H]. }
    rewrite E. reflexivity.
Qed.
Lemma python_mod_colors_enumerated : forall S X (f : S -> Z -> Z -> Rgb -> res (S * Result Rgb X)) s i s' i' r, good_image i ->
  py_mod_colors_enumerated f s i = Ok (s', i', r) <->
  exists d, i' = same_with i d /\
  match r with
  | ROk _ => runs (call_ok (at_pixel f)) s (pixels i) s' d
  | RErr e => exists pre new p post, first_error (at_pixel f) s (pixels i) s' e pre new p post /\ d = (new ++ map snd (p :: post))%list
  end.
Proof.
  intros S X f s i s' i' r V. unfold py_mod_colors_enumerated, same_with. rewrite enumerate_eq by exact V. cbn [bind].
  fold (items (buffer i)). rewrite items_pixels.
  rewrite (try_mod_list_ext _ (at_pixel f)).
  2: { intros s0 ((x & y) & c) I. apply (pixels_coords i _ V) in I as (X1 & Y1). unfold is_i32 in *. rewrite !as_i32_id by lia. reflexivity. }
  assert (O : forall l : list (Z * Z * Rgb), map (fun '(_, _, c) => c) l = map snd l).
  { intros l. apply map_ext. intros ((? & ?) & ?). reflexivity. }
  split.
  - intros H. apply bind_inv in H as (((s1 & d) & r1) & H1 & H). inversion H; subst s1 i' r1; clear H.
    apply try_mod_list_spec in H1. exists d. split; [reflexivity|]. destruct r as [u|e]; [exact H1|].
    destruct H1 as (pre & new & p & post & F & ->). exists pre, new, p, post. rewrite O. auto.
  - intros (d & -> & H).
    assert (E : try_mod_list (at_pixel f) (fun '(_, _, c) => c) s (pixels i) = Ok (s', d, r)).
    { apply try_mod_list_spec. destruct r as [u|e]; [exact H|].
      destruct H as (pre & new & p & post & F & ->). exists pre, new, p, post. rewrite O. auto. }
    rewrite E. reflexivity.
Qed.

(** C111: [map_colors] and [map_colors_enumerated] do the same for a new image
    and return none if the function raises; the image itself is not changed. *)
Lemma python_map_colors : forall S X (f : S -> Rgb -> res (S * Result Rgb X)) s i s' r,
  py_map_colors f s i = Ok (s', r) <->
  match r with
  | ROk i' => exists d, i' = same_with i d /\ runs (call_ok f) s (py_to_list i) s' d
  | RErr e => exists pre new p post, first_error f s (py_to_list i) s' e pre new p post
  end.
Proof.
  intros S X f s i s' r. unfold py_map_colors, image_try_map_colors, py_to_list, same_with. split.
  - intros H. apply bind_inv in H as ((s1 & [b|e]) & H1 & H); inversion H; subst s1 r; clear H.
    + apply try_map_colors_ok in H1 as (W & Hh & H1). exists (data b). split; [|exact H1].
      unfold new_from_buffer_with_meta. destruct b as [w h d]; cbn in *; subst; reflexivity.
    + apply try_map_colors_err in H1. exact H1.
  - destruct r as [i'|e].
    + intros (d & -> & H).
      assert (E : try_map_colors f s (buffer i) = Ok (s', ROk (mkPB (width (buffer i)) (height (buffer i)) d))).
      { apply try_map_colors_ok. auto. }
      rewrite E. reflexivity.
    + intros H. assert (E : try_map_colors f s (buffer i) = Ok (s', RErr e)) by (apply try_map_colors_err; exact H).
      rewrite E. reflexivity.
Qed.
Lemma python_map_colors_enumerated : forall S X (f : S -> Z -> Z -> Rgb -> res (S * Result Rgb X)) s i s' r, good_image i ->
  py_map_colors_enumerated f s i = Ok (s', r) <->
  match r with
  | ROk i' => exists d, i' = same_with i d /\ runs (call_ok (at_pixel f)) s (pixels i) s' d
  | RErr e => exists pre new p post, first_error (at_pixel f) s (pixels i) s' e pre new p post
  end.
Proof.
  intros S X f s i s' r V. unfold py_map_colors_enumerated, same_with. rewrite enumerate_eq by exact V. cbn [bind].
  fold (items (buffer i)). rewrite items_pixels.
  rewrite (try_map_st_ext _ (at_pixel f)).
  2: { intros s0 ((x & y) & c) I. apply (pixels_coords i _ V) in I as (X1 & Y1). unfold is_i32 in *. rewrite !as_i32_id by lia. reflexivity. }
  split.
  - intros H. apply bind_inv in H as ((s1 & [d|e]) & H1 & H); inversion H; subst s1 r; clear H.
    + apply try_map_st_ok in H1. eauto.
    + apply try_map_st_err in H1. exact H1.
  - destruct r as [i'|e].
    + intros (d & -> & H). apply try_map_st_ok in H. rewrite H. reflexivity.
    + intros H. apply try_map_st_err in H. rewrite H. reflexivity.
Qed.

(** C111: [Image.compose]: the function gets the coordinates and the pixels of
    all images there, with the default colour (transparent black) where an
    image has none; the result is as large as the largest, with the metadata
    of the first; without images it panics. *)
Lemma python_compose : forall S X m images default (f : S -> Z -> Z -> list Rgb -> res (S * Result Rgb X)) s s' i,
  Forall good_image images -> py_compose m images default f s = Ok (s', ROk i) ->
  good_image i /\ (exists first rest, images = first :: rest /\ bg_color i = bg_color first) /\
  (forall a, In a images -> width (buffer a) <= width (buffer i) /\ height (buffer a) <= height (buffer i)) /\
  (exists a, In a images /\ width (buffer a) = width (buffer i)) /\
  (exists a, In a images /\ height (buffer a) = height (buffer i)) /\
  exists seen : Z -> Z -> list Rgb,
    (forall x y, inside (buffer i) x y ->
      Forall2 (fun a c => (inside (buffer a) x y -> get_pixel m (buffer a) x y = Ok c) /\
                          (~ inside (buffer a) x y -> c = given default RGB_NONE)) images (seen x y)) /\
    runs (call_ok (fun s p => f s (fst p) (snd p) (seen (fst p) (snd p)))) s
         (row_major (width (buffer i)) (height (buffer i))) s' (py_to_list i).
Proof.
  intros S X m images default f s s' i V H. unfold py_compose, image_try_compose_slice in H.
  rewrite try_compose_slice_same in H. apply bind_inv in H as ((s1 & [b|e]) & H1 & H); [|discriminate].
  apply bind_inv in H as (first & H2 & H). inversion H; subst s1 i; clear H.
  assert (Vs : Forall valid (map buffer images)) by (apply Forall_map; exact V).
  apply try_compose_ok_lemma in H1 as (Vb & M & (aw & Iw & Ew) & (ah & Ih & Eh) & ps & P & R); [|exact Vs].
  unfold new_from_buffer_with_meta, good_image, py_to_list. cbn [buffer bg_color].
  split; [exact Vb|]. split.
  { destruct images as [|a l]; [discriminate|]. unfold idx in H2. cbn in H2. injection H2 as <-. exists a, l. split; reflexivity. }
  split; [intros a I; apply M; apply in_map; exact I|].
  split; [apply in_map_iff in Iw as (a & <- & I); exists a; auto|].
  split; [apply in_map_iff in Ih as (a & <- & I); exists a; auto|].
  exists ps. split; [|exact R]. intros x y I. specialize (P x y I). clear - P. revert P. generalize (ps x y).
  induction images as [|a l IH]; intros cs P; inversion P; subst; constructor; auto.
Qed.
Lemma python_compose_raises : forall S X m images default (f : S -> Z -> Z -> list Rgb -> res (S * Result Rgb X)) s,
  py_compose m [] default f s = Panic /\
  forall s' e, Forall good_image images -> py_compose m images default f s = Ok (s', RErr e) ->
    exists w h (seen : Z -> Z -> list Rgb) pre vs p post,
      (forall x y, 0 <= x < w -> 0 <= y < h ->
        Forall2 (fun a c => (inside (buffer a) x y -> get_pixel m (buffer a) x y = Ok c) /\
                            (~ inside (buffer a) x y -> c = given default RGB_NONE)) images (seen x y)) /\
      first_error (fun s p => f s (fst p) (snd p) (seen (fst p) (snd p))) s (row_major w h) s' e pre vs p post.
Proof.
  intros S X m images default f s. split; [reflexivity|]. intros s' e V H. unfold py_compose, image_try_compose_slice in H.
  rewrite try_compose_slice_same in H. apply bind_inv in H as ((s1 & [b|e1]) & H1 & H).
  { apply bind_inv in H as (first & _ & H). discriminate. }
  inversion H; subst s1 e1; clear H.
  assert (Vs : Forall valid (map buffer images)) by (apply Forall_map; exact V).
  apply try_compose_err_lemma in H1 as (w & h & ps & pre & vs & p & post & _ & _ & _ & P & F); [|exact Vs].
  exists w, h, ps, pre, vs, p, post. split; [|exact F]. intros x y X1 Y1. specialize (P x y X1 Y1). clear - P. revert P.
  generalize (ps x y). induction images as [|a l IH]; intros cs P; inversion P; subst; constructor; auto.
Qed.

Example python_pixels_example :
  let i := mkImage (mkPB 2 1 [RGB_NONE; mkC f1 f0 f0 f1]) None in
  good_image i /\ py_getitem Checked i 1 0 = Ok (ROk (mkC f1 f0 f0 f1)) /\
  py_getitem Checked i 2 0 = Ok (RErr (OSErrorRange 0 2)) /\ py_getitem Checked i (-1) 0 = Ok (RErr (OSErrorRange 0 (-1))) /\
  py_setitem Checked i 2 0 RGB_NONE = Panic /\ py_setitem Checked i (-1) 0 RGB_NONE = Ok (RErr OverflowError) /\
  py_setitem Checked i 1 0 RGB_NONE = Ok (ROk (mkImage (mkPB 2 1 [RGB_NONE; RGB_NONE]) None)) /\
  py_mod_colors_enumerated (fun n x y c => Ok (n + 1, if x =? 0 then ROk (mkC f0 f1 f0 f1) else RErr "ValueError")) 0 i =
    Ok (2, mkImage (mkPB 2 1 [mkC f0 f1 f0 f1; mkC f1 f0 f0 f1]) None, RErr "ValueError").
Proof. cbv zeta. split; [split; [right; cbn; lia|reflexivity]|]. repeat split; reflexivity. Qed.

(** C112: every call of a method that returns a new image: an integer that does
    not fit raises OverflowError, an unknown name an OSError with that name,
    both before anything is computed; otherwise it is the library's operation
    with the documented value for every omitted argument. *)
Lemma python_calls : forall m E D L i c,
  (~ fit (integers c) -> py_run m E D L i c = Ok (RErr OverflowError)) /\
  (fit (integers c) -> forall s ty, unknown_name s c ty -> py_run m E D L i c = Ok (RErr (OSErrorName (mkPEE s ty)))) /\
  (fit (integers c) -> forall op, means m E D L c op -> py_run m E D L i c = (r <- op i; Ok (ROk r))) /\
  ((exists op, means m E D L c op) \/ exists s ty, unknown_name s c ty).
Proof. exact py_run_lemma. Qed.

(** C112: in particular an omitted argument is the same as its default. *)
Lemma python_defaults : forall m E D L i,
  (forall r, py_run m E D L i (CallRotate r None) = py_run m E D L i (CallRotate r (Some "bilinear"))) /\
  (forall w h, py_run m E D L i (CallResize w h None) = py_run m E D L i (CallResize w h (Some "bilinear"))) /\
  (forall p, py_run m E D L i (CallResizePct p None) = py_run m E D L i (CallResizePct p (Some "bilinear"))) /\
  py_run m E D L i (CallEdgeDetection None) = py_run m E D L i (CallEdgeDetection (Some "sobel")) /\
  (forall q, py_run m E D L i (CallJpegQuality q None) = py_run m E D L i (CallJpegQuality q (Some true))) /\
  (forall r s, py_run m E D L i (CallUnsharp r None s) = py_run m E D L i (CallUnsharp r (Some (ofZ 1)) s)) /\
  (forall r, py_run m E D L i (CallDrawing r None) = py_run m E D L i (CallDrawing r (Some "colored"))) /\
  py_run m E D L i (CallDespeckle None None) = py_run m E D L i (CallDespeckle (Some (dec 1 10)) (Some 1)) /\
  py_run m E D L i (CallSymmetricNearestNeighbor None None) = py_run m E D L i (CallSymmetricNearestNeighbor (Some 4) (Some true)) /\
  (forall o, py_run m E D L i (CallBlend o None None) = py_run m E D L i (CallBlend o (Some "normal") (Some (ofZ 1)))) /\
  py_run m E D L i (CallStretchContrast None) = py_run m E D L i (CallStretchContrast (Some (dec 1 2))) /\
  py_run m E D L i (CallOptimizeSaturation None None) = py_run m E D L i (CallOptimizeSaturation (Some (ofZ 1)) (Some "hsl")) /\
  (forall a b, py_run m E D L i (CallChangeColorTemperature a b None) = py_run m E D L i (CallChangeColorTemperature a b (Some (ofZ 0)))) /\
  (forall f, py_run m E D L i (CallOptimizeColorTemperature f None) = py_run m E D L i (CallOptimizeColorTemperature f (Some (ofZ 0)))) /\
  py_run m E D L i (CallWhiteBalance None) = py_run m E D L i (CallBalance (Some "rgb") (Some (dec 1 2))) /\
  py_run m E D L i (CallBalance None None) = py_run m E D L i (CallBalance (Some "rgb") (Some (dec 1 2))) /\
  py_run m E D L i (CallEqualize None) = py_run m E D L i (CallEqualize (Some "srgb")).
Proof. intros. repeat split; reflexivity. Qed.

(** C112: the constructors of EncodingFormat, with the same rules. *)
Lemma python_formats : forall f,
  (~ fit (format_integers f) -> py_make_format f = RErr OverflowError) /\
  (fit (format_integers f) -> forall s ty, format_unknown s f ty -> py_make_format f = RErr (OSErrorName (mkPEE s ty))) /\
  (fit (format_integers f) -> forall e, format_means f e -> py_make_format f = ROk e) /\
  ((exists e, format_means f e) \/ exists s ty, format_unknown s f ty).
Proof. exact py_format_lemma. Qed.

(** C112: a user expects [save(path)] and [save(path, format)] with the format
    of the path and no further arguments to write the same file.  That holds
    for all formats but WebP, where the code violates it: without a format the
    quality is 90, with EncodingFormat.webp() it is 85. *)
Lemma python_save_defaults_refuted : forall L s i path f e, In f plain_formats -> py_make_format f = ROk e ->
  format_from_path path = Some (format_of e) ->
  (format_of e <> WebP -> forall E, py_save E L s i path None = py_save E L s i path (Some e)) /\
  (format_of e = WebP -> creatable s path = true -> 1 <= limits s path ->
     files (fst (py_save quality_writer L s i path None)) path = Some [90] /\
     files (fst (py_save quality_writer L s i path (Some e))) path = Some [85]).
Proof.
  intros L s i path f e I M F.
  assert (P : encoding_from_path path = match format_of e with WebP => ROk webp_default | _ => ROk e end).
  { unfold encoding_from_path. rewrite F.
    destruct I as [<-|[<-|[<-|[<-|[<-|[<-|[]]]]]]]; cbn in M; inversion M; subst e; reflexivity. }
  split.
  - intros N E. unfold py_save, image_save, image_save_with_format, encode_to_file. rewrite P.
    destruct (format_of e); try reflexivity. contradiction.
  - intros W K B.
    assert (e = EWebP 85 WDefault).
    { destruct I as [<-|[<-|[<-|[<-|[<-|[<-|[]]]]]]]; cbn in M; inversion M; subst e; try discriminate; reflexivity. }
    subst e. cbn [format_of] in P.
    unfold py_save, image_save, image_save_with_format, encode_to_file. rewrite P, K.
    split; apply quality_file; auto; lia.
Qed.

Example python_save_example : forall E D L i, py_make_format (FormatWebp None None) = ROk (EWebP 85 WDefault) /\
  py_make_format (FormatWebp (Some 256) (Some "nonsense")) = RErr OverflowError /\
  py_make_format (FormatPng None (Some "fastest") (Some "")) = RErr (OSErrorName (mkPEE "fastest" "PngCompression")) /\
  format_from_path "a.webp" = Some WebP /\
  py_run Checked E D L i (CallResize (-1) 5 (Some "x")) = Ok (RErr OverflowError) /\
  py_run Checked E D L i (CallResize 1 5 (Some "x")) = Ok (RErr (OSErrorName (mkPEE "x" "FilterMode"))).
Proof. intros. repeat split; reflexivity. Qed.
