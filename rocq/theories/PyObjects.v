(** Model of Python programs that use the classes Image and the colour
    classes of d10-python: objects with an identity, references to them, and
    Python functions that are called back while a method runs.  PyO3 guards
    every object by a run-time borrow check: a method that takes [&self]
    borrows it shared, one that takes [&mut self] exclusively, and what cannot
    be had raises a RuntimeError.  This rule of PyO3 is part of the model; a
    borrow that ends before any other Python code can run is modelled by its
    check only.  A Rust panic ends the program ([Panic]). *)
From Coq Require Import ZArith List Bool String.
From Verif Require Import Base PixelBuffer F32 Color Text Codec Image PyImage.
Import ListNotations.
Open Scope Z_scope.

(** * Objects *)

(** The borrow flag of an object: [Shared n] has n+1 readers. *)
Inductive borrow := Free | Shared (n : nat) | Exclusive.
Record cell (A : Type) := mkCell { flag : borrow; value : A }.
Arguments mkCell {A}. Arguments flag {A}. Arguments value {A}.
(** A Python exception: one of the library's, those of PyO3 (RuntimeError
    "Already mutably borrowed" and "Already borrowed"), the interpreter's, and
    those of the program. *)
Inductive exn :=
| Raised (e : py_exn)
| AlreadyMutablyBorrowed
| AlreadyBorrowed
| TypeError
| AttributeError
| UserError (z : Z).
(** A Python value as far as the library looks at it; images and colours are
    references. *)
Inductive pyval := VNone | VFloat (v : f32) | VColor (n : nat) | VImage (n : nat) | VOther.
(** All of the world: the image and colour objects, the file system, and the
    program's own variables. *)
Record world (V : Type) := mkWorld { images : list (cell Image); colours : list (cell pycolor); files_of : fs; vars : V }.
Arguments mkWorld {V}. Arguments images {V}. Arguments colours {V}. Arguments files_of {V}. Arguments vars {V}.

Fixpoint put {A} (l : list A) (n : nat) (a : A) : list A :=
  match l, n with
  | [], _ => []
  | _ :: l, O => a :: l
  | b :: l, S n => b :: put l n a
  end.
Definition set_images {V} (w : world V) (l : list (cell Image)) : world V := mkWorld l (colours w) (files_of w) (vars w).
Definition set_colours {V} (w : world V) (l : list (cell pycolor)) : world V := mkWorld (images w) l (files_of w) (vars w).
Definition set_files {V} (w : world V) (s : fs) : world V := mkWorld (images w) (colours w) s (vars w).
Definition set_vars {V} (w : world V) (v : V) : world V := mkWorld (images w) (colours w) (files_of w) v.

(** A new object, [Image { inner }.into()] and [Rgb { inner }]: image.rs:732-738,
    color.rs:196-210 *)
Definition new_image {V} (w : world V) (i : Image) : world V * nat :=
  (set_images w (images w ++ [mkCell Free i]), List.length (images w)).
Definition new_colour {V} (w : world V) (c : pycolor) : world V * nat :=
  (set_colours w (colours w ++ [mkCell Free c]), List.length (colours w)).

(** * Borrowing (PyO3's [try_borrow], [try_borrow_mut] and their guards) *)

Definition share (f : borrow) : Result borrow exn :=
  match f with Free => ROk (Shared 0) | Shared n => ROk (Shared (S n)) | Exclusive => RErr AlreadyMutablyBorrowed end.
Definition unshare (f : borrow) : borrow :=
  match f with Shared (S n) => Shared n | _ => Free end.
(** A shared borrow: the objects after it, and the borrowed one. *)
Definition borrow_ref {A} (l : list (cell A)) (n : nat) : Result (list (cell A) * A) exn :=
  match nth_error l n with
  | None => RErr TypeError
  | Some c => match share (flag c) with ROk f => ROk (put l n (mkCell f (value c)), value c) | RErr e => RErr e end
  end.
Definition release_ref {A} (l : list (cell A)) (n : nat) : list (cell A) :=
  match nth_error l n with Some c => put l n (mkCell (unshare (flag c)) (value c)) | None => l end.
Definition borrow_mut {A} (l : list (cell A)) (n : nat) : Result (list (cell A) * A) exn :=
  match nth_error l n with
  | None => RErr TypeError
  | Some c => match flag c with Free => ROk (put l n (mkCell Exclusive (value c)), value c) | _ => RErr AlreadyBorrowed end
  end.
Definition release_mut {A} (l : list (cell A)) (n : nat) (a : A) : list (cell A) := put l n (mkCell Free a).
(** A shared borrow that is given back at once. *)
Definition read {A} (l : list (cell A)) (n : nat) : Result A exn :=
  match borrow_ref l n with ROk (_, a) => ROk a | RErr e => RErr e end.

(** [obj.extract::<Rgb>()], and an argument of type [Rgb] or [&Rgb]: an object
    of the class Rgb that is not being modified *)
Definition extract_rgb {V} (w : world V) (v : pyval) : Result Rgb exn :=
  match v with
  | VColor n =>
      match nth_error (colours w) n with
      | Some c => match fst (value c) with
                  | KRgb => match read (colours w) n with ROk p => ROk (snd p) | RErr e => RErr e end
                  | _ => RErr TypeError
                  end
      | None => RErr TypeError
      end
  | _ => RErr TypeError
  end.
(** [r.extract::<f32>()] *)
Definition extract_f32 (v : pyval) : Result f32 exn := match v with VFloat f => ROk f | _ => RErr TypeError end.

(** * Methods that call no Python function *)

Inductive op :=
| ONewColour (k : kind) (a b c : f32) (alpha : option f32)
| OGetAttr (c : nat) (name : string)
| OSetAttr (c : nat) (name : string) (v : f32)
| ONewImage (w h : Z) (color : option nat)
| OGetPixel (i : nat) (x y : Z)
| OGetItem (i : nat) (x y : Z)
| OPutPixel (i : nat) (x y : Z) (c : nat)
| OSave (i : nat) (path : string) (format : option EncodingFormat)
| OCall (i : nat) (c : py_call)
| OBlend (i j : nat) (blend_op : option string) (intensity : option f32)
| OApplyPalette (i j : nat)
| OApplyPaletteInPlace (i j : nat).

Section Programs.
Context {V : Type} (m : build) (E : encoders) (D : decoders) (L : libm).

Definition outcome : Type := res (world V * Result pyval exn).
Definition raise (w : world V) (e : exn) : outcome := Ok (w, RErr e).
Definition give (w : world V) (v : pyval) : outcome := Ok (w, ROk v).
(** [?] on a check before the method runs. *)
Definition need {A} (w : world V) (r : Result A exn) (k : A -> outcome) : outcome :=
  match r with ROk a => k a | RErr e => raise w e end.
(** What a method of the library gives, as an object. *)
Definition give_image (w : world V) (r : py Image) : outcome :=
  r <- r;
  match r with
  | ROk i => let '(w, n) := new_image w i in give w (VImage n)
  | RErr e => raise w (Raised e)
  end.
Definition give_colour (w : world V) (c : pycolor) : outcome := let '(w, n) := new_colour w c in give w (VColor n).

(** color.rs:39-82 and image.rs:29-36, 68-77, 134-144, 150-390, 396-402: [self]
    is borrowed first, then the arguments are converted, then the body runs. *)
Definition perform (o : op) (w : world V) : outcome :=
  match o with
  | ONewColour k a b c alpha => give_colour w (k, Text.py_new k a b c alpha)
  | OGetAttr c name =>
      need w (read (colours w) c) (fun p =>
      match getter (fst p) name (snd p) with Some v => give w (VFloat v) | None => raise w AttributeError end)
  | OSetAttr c name v =>
      need w (borrow_mut (colours w) c) (fun '(l, p) =>
      match setter (fst p) name v (snd p) with
      | Some q => give (set_colours w (release_mut l c (fst p, q))) VNone
      | None => raise w AttributeError
      end)
  | ONewImage width height color =>
      match color with
      | None => give_image w (py_new m width height None)
      | Some c => need w (extract_rgb w (VColor c)) (fun c => give_image w (py_new m width height (Some c)))
      end
  | OGetPixel i x y =>
      need w (read (images w) i) (fun img =>
      r <- py_get_pixel m img x y;
      match r with
      | RErr e => raise w (Raised e)
      | ROk None => give w VNone
      | ROk (Some c) => give_colour w (KRgb, c)
      end)
  | OGetItem i x y =>
      need w (read (images w) i) (fun img =>
      r <- py_getitem m img x y;
      match r with RErr e => raise w (Raised e) | ROk c => give_colour w (KRgb, c) end)
  | OPutPixel i x y c =>
      need w (borrow_mut (images w) i) (fun '(l, img) =>
      need w (extract_rgb w (VColor c)) (fun c =>
      r <- py_put_pixel m img x y c;
      match r with RErr e => raise w (Raised e) | ROk img => give (set_images w (release_mut l i img)) VNone end))
  | OSave i path format =>
      need w (borrow_mut (images w) i) (fun '(l, img) =>
      let '(s, r) := py_save E L (files_of w) img path format in
      let w := set_files w s in
      match r with ROk _ => give w VNone | RErr e => raise w (Raised e) end)
  | OCall i c => need w (read (images w) i) (fun img => give_image w (py_run m E D L img c))
  | OBlend i j name intensity =>
      need w (read (images w) i) (fun img => need w (read (images w) j) (fun other =>
      give_image w (py_run m E D L img (CallBlend other name intensity))))
  | OApplyPalette i j =>
      need w (read (images w) i) (fun img => need w (read (images w) j) (fun palette =>
      give_image w (py_run m E D L img (CallApplyPalette palette))))
  | OApplyPaletteInPlace i j =>
      need w (borrow_mut (images w) i) (fun '(l, img) => need w (read l j) (fun palette =>
      r <- py_apply_palette_in_place L img palette;
      match r with RErr e => raise w (Raised e) | ROk img => give (set_images w (release_mut l i img)) VNone end))
  end.

(** * Programs *)

(** A Python program, and the body of a Python function: what it does next
    depends on what it got.  [f] is the function handed to the library. *)
Inductive act :=
| Return (r : Result pyval exn)
| GetVars (k : V -> act)
| SetVars (v : V) (k : act)
| Do (o : op) (k : Result pyval exn -> act)
| ModColors (i : nat) (f : nat -> act) (k : Result pyval exn -> act)
| ModColorsEnumerated (i : nat) (f : Z -> Z -> nat -> act) (k : Result pyval exn -> act)
| MapColors (i : nat) (f : nat -> act) (k : Result pyval exn -> act)
| MapColorsEnumerated (i : nat) (f : Z -> Z -> nat -> act) (k : Result pyval exn -> act)
| Compose (l : list nat) (default : option nat) (f : Z -> Z -> list nat -> act) (k : Result pyval exn -> act)
| MapColorChannels (c : nat) (f : f32 -> act) (k : Result pyval exn -> act).

(** The closures around the Python function, image.rs:88-92 and the like:
    a new colour object is the argument, the answer must be an Rgb. *)
Definition call_back (body : nat -> world V -> outcome) (w : world V) (c : Rgb) : res (world V * Result Rgb exn) :=
  let '(w, n) := new_colour w (KRgb, c) in
  '(w, r) <- body n w;
  Ok (w, match r with ROk v => extract_rgb w v | RErr e => RErr e end).
Fixpoint new_colours (w : world V) (l : list Rgb) : world V * list nat :=
  match l with
  | [] => (w, [])
  | c :: l => let '(w, n) := new_colour w (KRgb, c) in let '(w, ns) := new_colours w l in (w, n :: ns)
  end.
(** image.rs:306-311 *)
Definition call_back_list (body : list nat -> world V -> outcome) (w : world V) (l : list Rgb) : res (world V * Result Rgb exn) :=
  let '(w, ns) := new_colours w l in
  '(w, r) <- body ns w;
  Ok (w, match r with ROk v => extract_rgb w v | RErr e => RErr e end).
(** color.rs:165-168 *)
Definition call_back_f32 (body : f32 -> world V -> outcome) (w : world V) (v : f32) : res (world V * Result f32 exn) :=
  '(w, r) <- body v w;
  Ok (w, match r with ROk v => extract_f32 v | RErr e => RErr e end).

(** image.rs:296-301: all the objects must be images, else TypeError;
    [r.borrow()] panics where [try_borrow] would raise.  The guards are dropped
    in the end (in which order makes no difference). *)
Definition all_images (w : world V) (l : list nat) : bool :=
  forallb (fun n => match nth_error (images w) n with Some _ => true | None => false end) l.
Fixpoint borrow_all (l : list (cell Image)) (ns : list nat) : res (list (cell Image) * list Image) :=
  match ns with
  | [] => Ok (l, [])
  | n :: ns =>
      match borrow_ref l n with
      | RErr _ => Panic
      | ROk (l, i) => '(l, is) <- borrow_all l ns; Ok (l, i :: is)
      end
  end.
Fixpoint release_all (l : list (cell Image)) (ns : list nat) : list (cell Image) :=
  match ns with [] => l | n :: ns => release_ref (release_all l ns) n end.

(** What a method that called back gives. *)
Definition made (w : world V) (r : Result Image exn) : world V * Result pyval exn :=
  match r with ROk i => let '(w, n) := new_image w i in (w, ROk (VImage n)) | RErr e => (w, RErr e) end.
Definition nothing (r : Result unit exn) : Result pyval exn := match r with ROk _ => ROk VNone | RErr e => RErr e end.

(** A program runs: image.rs:87-132, 289-314, color.rs:164-170. *)
Fixpoint run (a : act) (w : world V) : outcome :=
  match a with
  | Return r => Ok (w, r)
  | GetVars k => run (k (vars w)) w
  | SetVars v k => run k (set_vars w v)
  | Do o k => '(w, r) <- perform o w; run (k r) w
  | ModColors i f k =>
      match borrow_mut (images w) i with
      | RErr e => run (k (RErr e)) w
      | ROk (l, img) =>
          '(w, img, r) <- py_mod_colors (call_back (fun n => run (f n))) (set_images w l) img;
          run (k (nothing r)) (set_images w (release_mut (images w) i img))
      end
  | ModColorsEnumerated i f k =>
      match borrow_mut (images w) i with
      | RErr e => run (k (RErr e)) w
      | ROk (l, img) =>
          '(w, img, r) <- py_mod_colors_enumerated (fun w x y => call_back (fun n => run (f x y n)) w) (set_images w l) img;
          run (k (nothing r)) (set_images w (release_mut (images w) i img))
      end
  | MapColors i f k =>
      match borrow_ref (images w) i with
      | RErr e => run (k (RErr e)) w
      | ROk (l, img) =>
          '(w, r) <- py_map_colors (call_back (fun n => run (f n))) (set_images w l) img;
          let '(w, r) := made (set_images w (release_ref (images w) i)) r in run (k r) w
      end
  | MapColorsEnumerated i f k =>
      match borrow_ref (images w) i with
      | RErr e => run (k (RErr e)) w
      | ROk (l, img) =>
          '(w, r) <- py_map_colors_enumerated (fun w x y => call_back (fun n => run (f x y n)) w) (set_images w l) img;
          let '(w, r) := made (set_images w (release_ref (images w) i)) r in run (k r) w
      end
  | Compose ns default f k =>
      match match default with Some c => extract_rgb w (VColor c) | None => ROk RGB_NONE end with
      | RErr e => run (k (RErr e)) w
      | ROk default =>
          if all_images w ns then
            '(l, imgs) <- borrow_all (images w) ns;
            '(w, r) <- py_compose m imgs (Some default) (fun w x y => call_back_list (fun ns => run (f x y ns)) w) (set_images w l);
            let '(w, r) := made (set_images w (release_all (images w) ns)) r in run (k r) w
          else run (k (RErr TypeError)) w
      end
  | MapColorChannels c f k =>
      match borrow_ref (colours w) c with
      | RErr e => run (k (RErr e)) w
      | ROk (l, p) =>
          '(w, r) <- try_map_color_channels (fst p) (call_back_f32 (fun v => run (f v))) (set_colours w l) (snd p);
          let w := set_colours w (release_ref (colours w) c) in
          match r with
          | ROk q => let '(w, n) := new_colour w (fst p, q) in run (k (ROk (VColor n))) w
          | RErr e => run (k (RErr e)) w
          end
      end
  end.
End Programs.
Arguments act : clear implicits.
