(** Python programs: objects, references and functions called back (C121). *)
From Coq Require Import ZArith List Bool String.
From Verif Require Import Base PixelBuffer BufferSpec F32 Color Text Codec Image PyImage PyObjects PyObjSpec.
Import ListNotations.

(* PROPERTIES *)
From Verif Require Import PyObjProofs.

(** C121: whatever a program does, also when its functions raise, in the end
    every object is borrowed exactly as before: nothing stays locked, and what
    was in use has not changed. *)
Lemma borrows_returned : forall V m E D L (a : act V) w w' r, run m E D L a w = Ok (w', r) -> guarded_world w w'.
Proof. intros V m E D L a. exact (run_guarded m E D L a). Qed.

(** C121: an image stays as it is under a program that calls no method
    changing it. *)
Lemma others_unchanged : forall V m E D L (a : act V) i c w w' r, leaves_alone i a -> run m E D L a w = Ok (w', r) ->
  nth_error (images w) i = Some c -> nth_error (images w') i = Some c.
Proof. intros V m E D L a i c w w' r A H. exact (proj2 (run_same m E D L i a A w w' r H) c). Qed.

(** C121: a method changes at most the object it is documented to change:
    colours are copies, not views into an image. *)
Lemma no_aliases : forall V m E D L o (w : world V) w' r, perform m E D L o w = Ok (w', r) ->
  (forall n c, nth_error (images w) n = Some c -> ~ changes_image o n -> nth_error (images w') n = Some c) /\
  (forall n c, nth_error (colours w) n = Some c -> ~ changes_colour o n -> nth_error (colours w') n = Some c).
Proof. intros V m E D L o w w' r H. split; intros n c N K; [destruct (perform_images _ _ _ _ _ _ _ _ H n c N)|destruct (perform_colours _ _ _ _ _ _ _ _ H n c N)]; tauto. Qed.

(** C121: on an image that is being modified every method raises an error, and
    nothing happens. *)
Lemma modified_is_busy : forall V m E D L o (w : world V) i v, refers w (needs o) -> In i (needs o) -> nth_error (images w) i = Some (mkCell Exclusive v) ->
  exists e, perform m E D L o w = Ok (w, RErr e) /\ in_use e.
Proof. exact @busy_needed. Qed.

(** C121: a method that takes the image to itself raises an error if the image
    is in use, and nothing happens. *)
Lemma in_use_is_busy : forall V m E D L o (w : world V) i c, In i (takes o) -> nth_error (images w) i = Some c -> flag c <> Free ->
  perform m E D L o w = Ok (w, RErr AlreadyBorrowed).
Proof. exact @busy_taken. Qed.

(** C121: so do the methods that call a function; it is not called. *)
Lemma calls_are_busy : forall V m E D L (w : world V) i c, nth_error (images w) i = Some c ->
  (flag c <> Free -> forall f k, run m E D L (ModColors i f k) w = run m E D L (k (RErr AlreadyBorrowed)) w) /\
  (flag c <> Free -> forall f k, run m E D L (ModColorsEnumerated i f k) w = run m E D L (k (RErr AlreadyBorrowed)) w) /\
  (flag c = Exclusive -> forall f k, run m E D L (MapColors i f k) w = run m E D L (k (RErr AlreadyMutablyBorrowed)) w) /\
  (flag c = Exclusive -> forall f k, run m E D L (MapColorsEnumerated i f k) w = run m E D L (k (RErr AlreadyMutablyBorrowed)) w).
Proof. exact @busy_methods. Qed.

(** C121: mod_colors calls the function for one pixel after the other, with
    the image in use; each pixel becomes the colour returned.  If a call fails,
    the pixels before it are changed and the others are not. *)
Lemma mod_colors_calls : forall V m E D L (w : world V) i img f k x, nth_error (images w) i = Some (mkCell Free img) ->
  run m E D L (ModColors i f k) w = Ok x -> let busy := set_images w (put (images w) i (mkCell Exclusive img)) in
  exists w1 ds,
    (all_called m E D L f (data (buffer img)) busy ds w1 /\
     run m E D L (k (ROk VNone)) (set_images w1 (put (images w1) i (mkCell Free (with_pixels img ds)))) = Ok x) \/
    (exists c rest e, stopped m E D L f (data (buffer img)) busy ds w1 c rest e /\
     run m E D L (k (RErr e)) (set_images w1 (put (images w1) i (mkCell Free (with_pixels img (ds ++ c :: rest))))) = Ok x).
Proof. exact @mod_program. Qed.

(** C121: map_colors does the same to a new image; if a call fails there is no
    new image. *)
Lemma map_colors_calls : forall V m E D L (w : world V) i fl fl' img f k x, nth_error (images w) i = Some (mkCell fl img) -> share fl = ROk fl' ->
  run m E D L (MapColors i f k) w = Ok x -> let busy := set_images w (put (images w) i (mkCell fl' img)) in
  exists w1 ds, nth_error (images w1) i = Some (mkCell fl' img) /\ let w2 := set_images w1 (put (images w1) i (mkCell fl img)) in
    ((all_called m E D L f (data (buffer img)) busy ds w1 /\
      run m E D L (k (ROk (VImage (List.length (images w1))))) (set_images w2 (images w2 ++ [mkCell Free (with_pixels img ds)])) = Ok x) \/
     (exists c rest e, stopped m E D L f (data (buffer img)) busy ds w1 c rest e /\ run m E D L (k (RErr e)) w2 = Ok x)).
Proof. exact @map_program. Qed.

(** C121: an image cannot be its own palette in place. *)
Lemma own_palette : forall V m E D L (w : world V) i c, nth_error (images w) i = Some c ->
  exists e, perform m E D L (OApplyPaletteInPlace i i) w = Ok (w, RErr e) /\ in_use e.
Proof. exact @palette_itself. Qed.

(** C121: compose panics where all other methods raise an error. *)
Lemma compose_raises_refuted : forall V m E D L (w : world V) i img f g k, nth_error (images w) i = Some (mkCell Free img) -> data (buffer img) <> [] ->
  run m E D L (ModColors i (fun _ => Compose [i] None f g) k) w = Panic.
Proof. exact @compose_panics. Qed.

(** C121: an image cannot be saved while it is only read, by map_colors. *)
Lemma save_while_read_refuted : forall V m E D L (w : world V) i fl fl' img path fmt k, nth_error (images w) i = Some (mkCell fl img) -> share fl = ROk fl' ->
  data (buffer img) <> [] -> exists w', images w' = images w /\ files_of w' = files_of w /\ vars w' = vars w /\
    run m E D L (MapColors i (saving i path fmt) k) w = run m E D L (k (RErr AlreadyBorrowed)) w'.
Proof. exact @save_raises. Qed.

(** C121: on images that can be read, a method does what the library does with
    their pictures, each in its place: it makes a new object or raises, and
    changes nothing else. *)
Lemma methods_read_objects : forall V m E D L (w : world V) i img, readable (images w) i img ->
  (forall c, perform m E D L (OCall i c) w = gives_new_image w (py_run m E D L img c)) /\
  (forall j other name k, readable (images w) j other -> perform m E D L (OBlend i j name k) w = gives_new_image w (py_run m E D L img (CallBlend other name k))) /\
  (forall j palette, readable (images w) j palette -> perform m E D L (OApplyPalette i j) w = gives_new_image w (py_run m E D L img (CallApplyPalette palette))) /\
  (forall x y c, py_get_pixel m img x y = Ok (ROk (Some c)) ->
     perform m E D L (OGetPixel i x y) w = Ok (mkWorld (images w) (colours w ++ [mkCell Free (KRgb, c)]) (files_of w) (vars w), ROk (VColor (List.length (colours w))))) /\
  (forall x y, py_get_pixel m img x y = Ok (ROk None) -> perform m E D L (OGetPixel i x y) w = Ok (w, ROk VNone)) /\
  (forall x y c, py_getitem m img x y = Ok (ROk c) ->
     perform m E D L (OGetItem i x y) w = Ok (mkWorld (images w) (colours w ++ [mkCell Free (KRgb, c)]) (files_of w) (vars w), ROk (VColor (List.length (colours w))))) /\
  (forall x y e, py_getitem m img x y = Ok (RErr e) -> perform m E D L (OGetItem i x y) w = Ok (w, RErr (Raised e))).
Proof. exact @object_methods. Qed.
(** C121: put_pixel and apply_palette_in_place change the image they are called
    on, and only it; save writes the file and changes no object. *)
Lemma methods_change_objects : forall V m E D L (w : world V) i img, unused (images w) i img ->
  (forall x y n c, readable (colours w) n (KRgb, c) -> perform m E D L (OPutPixel i x y n) w = changes_in_place w i (py_put_pixel m img x y c)) /\
  (forall j palette, j <> i -> readable (images w) j palette -> perform m E D L (OApplyPaletteInPlace i j) w = changes_in_place w i (py_apply_palette_in_place L img palette)) /\
  (forall path format s r, py_save E L (files_of w) img path format = (s, r) ->
     perform m E D L (OSave i path format) w = Ok (mkWorld (images w) (colours w) s (vars w), match r with ROk _ => ROk VNone | RErr e => RErr (Raised e) end)).
Proof. exact @object_changes. Qed.
(** C121: attributes are read from, and written to, the colour object itself. *)
Lemma attributes_of_objects : forall V m E D L (w : world V) n k c,
  (forall name v, readable (colours w) n (k, c) -> getter k name c = Some v -> perform m E D L (OGetAttr n name) w = Ok (w, ROk (VFloat v))) /\
  (forall name v c', unused (colours w) n (k, c) -> setter k name v c = Some c' ->
     perform m E D L (OSetAttr n name v) w = Ok (mkWorld (images w) (put (colours w) n (mkCell Free (k, c'))) (files_of w) (vars w), ROk VNone)).
Proof. exact @object_colours. Qed.
Example objects_example : forall s, readable (images (small_world s)) 0 two_black /\ unused (images (small_world s)) 0 two_black /\
  readable (colours (small_world s)) 0 (KRgb, RGB_WHITE) /\ getter KRgb "red" RGB_WHITE = Some f1 /\ setter KRgb "red" f0 RGB_WHITE = Some (mkC f0 f1 f1 f1).
Proof. intros s. split; [exists Free; split; [reflexivity|discriminate]|]. split; [reflexivity|]. split; [exists Free; split; [reflexivity|discriminate]|]. split; reflexivity. Qed.

(** C121: mod_colors_enumerated and map_colors_enumerated run the value-level
    methods of C111 with the function as the library sees it: a new colour
    object for each pixel, and its coordinates; the image is held meanwhile. *)
Lemma mod_colors_enumerated_calls : forall V m E D L (w : world V) i img f k x, unused (images w) i img -> run m E D L (ModColorsEnumerated i f k) w = Ok x ->
  exists F w1 img' r, seen_at m E D L f F /\ py_mod_colors_enumerated F (set_images w (put (images w) i (mkCell Exclusive img))) img = Ok (w1, img', r) /\
    run m E D L (k match r with ROk _ => ROk VNone | RErr e => RErr e end) (set_images w1 (put (images w1) i (mkCell Free img'))) = Ok x.
Proof. exact @mod_enum_program. Qed.
Lemma map_colors_enumerated_calls : forall V m E D L (w : world V) i fl fl' img f k x, nth_error (images w) i = Some (mkCell fl img) -> share fl = ROk fl' ->
  run m E D L (MapColorsEnumerated i f k) w = Ok x ->
  exists F w1 r, seen_at m E D L f F /\ py_map_colors_enumerated F (set_images w (put (images w) i (mkCell fl' img))) img = Ok (w1, r) /\
    let l := put (images w1) i (mkCell fl img) in
    match r with
    | ROk new => run m E D L (k (ROk (VImage (List.length l)))) (set_images w1 (l ++ [mkCell Free new])) = Ok x
    | RErr e => run m E D L (k (RErr e)) (set_images w1 l) = Ok x
    end.
Proof. exact @map_enum_program. Qed.
(** C121: compose runs the compose of C111 on the pictures of all images, in the
    given order; the function gets a list of new colour objects in that order,
    all images are being read meanwhile and are given back in the end. *)
Lemma compose_calls : forall V m E D L (w : world V) ns imgs d default f k x, Forall2 (readable (images w)) ns imgs ->
  match d with Some n => readable (colours w) n (KRgb, default) | None => default = RGB_NONE end -> run m E D L (Compose ns d f k) w = Ok x ->
  exists F l w1 r l1, seen_list m E D L f F /\ being_read ns imgs l /\ py_compose m imgs (Some default) F (set_images w l) = Ok (w1, r) /\ guarded (images w) l1 /\
    List.length l1 = List.length (images w1) /\
    match r with
    | ROk new => run m E D L (k (ROk (VImage (List.length l1)))) (set_images w1 (l1 ++ [mkCell Free new])) = Ok x
    | RErr e => run m E D L (k (RErr e)) (set_images w1 l1) = Ok x
    end.
Proof. exact @compose_program. Qed.
(** C121: compose raises a TypeError for an object that is no image, before any
    call, and panics if one of the images is being modified. *)
Lemma compose_of_objects : forall V m E D L (w : world V) ns d default f k,
  match d with Some n => readable (colours w) n (KRgb, default) | None => default = RGB_NONE end ->
  (forall n, In n ns -> nth_error (images w) n = None -> run m E D L (Compose ns d f k) w = run m E D L (k (RErr TypeError)) w) /\
  (forall n img, refers w ns -> In n ns -> nth_error (images w) n = Some (mkCell Exclusive img) -> run m E D L (Compose ns d f k) w = Panic).
Proof. exact @compose_objects. Qed.
(** C121: map_color_channels calls the function for the three channels in turn
    and makes a colour of the same class and transparency; the first failure is
    passed on. *)
Lemma map_color_channels_calls : forall V m E D L (w : world V) n fl fl' kd c f k x, nth_error (colours w) n = Some (mkCell fl (kd, c)) -> share fl = ROk fl' ->
  run m E D L (MapColorChannels n f k) w = Ok x ->
  let busy := set_colours w (put (colours w) n (mkCell fl' (kd, c))) in
  (exists a b v w1 w2 w3, returns_number m E D L f (d0 c) busy a w1 /\ returns_number m E D L f (d1 c) w1 b w2 /\ returns_number m E D L f (d2 c) w2 v w3 /\
     let l := put (colours w3) n (mkCell fl (kd, c)) in
     run m E D L (k (ROk (VColor (List.length l)))) (set_colours w3 (l ++ [mkCell Free (kd, new_with_alpha kd a b v (d3 c))])) = Ok x) \/
  (exists e w3, run m E D L (k (RErr e)) (set_colours w3 (put (colours w3) n (mkCell fl (kd, c)))) = Ok x /\
     (no_number m E D L f (d0 c) busy e w3 \/
      (exists a w1, returns_number m E D L f (d0 c) busy a w1 /\ no_number m E D L f (d1 c) w1 e w3) \/
      (exists a b w1 w2, returns_number m E D L f (d0 c) busy a w1 /\ returns_number m E D L f (d1 c) w1 b w2 /\ no_number m E D L f (d2 c) w2 e w3))).
Proof. exact @channels_program. Qed.
(** Both black pixels become white by functions with coordinates, by compose
    with a function that picks the second object, and by one of numbers. *)
Example calls_example : forall m E D L s, let w := small_world s in
  (exists x, run m E D L (ModColorsEnumerated 0 (fun _ _ _ => Return (ROk (VColor 0))) Return) w = Ok x /\ nth_error (images (fst x)) 0 = Some (mkCell Free (with_pixels two_black [RGB_WHITE; RGB_WHITE]))) /\
  (exists x, run m E D L (MapColorsEnumerated 0 (fun _ _ _ => Return (ROk (VColor 0))) Return) w = Ok x /\ snd x = ROk (VImage 1)) /\
  (exists x, run m E D L (MapColorChannels 0 (fun _ => Return (ROk (VFloat f0))) Return) w = Ok x /\ nth_error (colours (fst x)) 1 = Some (mkCell Free (KRgb, RGB_BLACK))) /\
  Forall2 (readable (images w)) [0; 0]%nat [two_black; two_black] /\
  exists x, run Checked E D L (Compose [0; 0]%nat (Some 0%nat) (fun _ _ ns => Return (ROk (VColor (nth 1 ns 0%nat)))) Return) w = Ok x /\ nth_error (images (fst x)) 1 = Some (mkCell Free two_black).
Proof.
  intros m E D L s. split; [eexists; split; reflexivity|]. split; [eexists; split; reflexivity|]. split; [eexists; split; reflexivity|].
  split; [repeat constructor; exists Free; (split; [reflexivity|discriminate])|]. eexists; split; reflexivity.
Qed.

(** C121: a function that tries to read the image which is being modified gets
    an error each time, and the image becomes white. *)
Example reads_itself_run : forall m E D L s, exists l,
  run m E D L reads_itself (small_world s) =
  Ok (mkWorld [mkCell Free (with_pixels two_black [RGB_WHITE; RGB_WHITE])] l s [AlreadyMutablyBorrowed; AlreadyMutablyBorrowed], ROk VNone) /\
  nth_error (images (small_world s)) 0 = Some (mkCell Free two_black) /\ share Free = ROk (Shared 0) /\ data (buffer two_black) <> [].
Proof. intros m E D L s. eexists. split; [reflexivity|]. split; [reflexivity|]. split; [reflexivity|discriminate]. Qed.
