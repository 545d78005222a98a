(** Python objects: what a program can and cannot do to an image or a colour
    (the vocabulary of C121). *)
From Coq Require Import ZArith List Bool String.
From Verif Require Import Base PixelBuffer BufferSpec F32 Color Text Image PyImage PyObjects.
Import ListNotations.

(** Every object is still there, borrowed as before, and a borrowed one has
    kept its value. *)
Definition guarded {A} (before after : list (cell A)) : Prop :=
  forall n c, nth_error before n = Some c ->
    exists c', nth_error after n = Some c' /\ flag c' = flag c /\ (flag c <> Free -> value c' = value c).
Definition guarded_world {V} (w w' : world V) : Prop := guarded (images w) (images w') /\ guarded (colours w) (colours w').

(** The images a method is called on or with, those it may change or wants to
    itself, and the colours it may change. *)
Definition needs (o : op) : list nat :=
  match o with
  | OGetPixel i _ _ | OGetItem i _ _ | OPutPixel i _ _ _ | OSave i _ _ | OCall i _ => [i]
  | OBlend i j _ _ | OApplyPalette i j | OApplyPaletteInPlace i j => [i; j]
  | _ => []
  end.
Definition takes (o : op) : list nat :=
  match o with OPutPixel i _ _ _ | OSave i _ _ | OApplyPaletteInPlace i _ => [i] | _ => [] end.
Definition changes_image (o : op) (n : nat) : Prop :=
  match o with OPutPixel i _ _ _ | OApplyPaletteInPlace i _ => n = i | _ => False end.
Definition changes_colour (o : op) (n : nat) : Prop := match o with OSetAttr c _ _ => n = c | _ => False end.
(** The references are to images. *)
Definition refers {V} (w : world V) (l : list nat) : Prop := forall n, In n l -> exists c, nth_error (images w) n = Some c.
(** The two errors of a borrow check. *)
Definition in_use (e : exn) : Prop := e = AlreadyMutablyBorrowed \/ e = AlreadyBorrowed.

(** A program that calls no method changing the image [i], nor do the
    functions it passes on. *)
Fixpoint leaves_alone {V} (i : nat) (a : act V) : Prop :=
  match a with
  | Return _ => True
  | GetVars k => forall v, leaves_alone i (k v)
  | SetVars _ k => leaves_alone i k
  | Do o k => ~ changes_image o i /\ forall r, leaves_alone i (k r)
  | ModColors j f k => j <> i /\ (forall n, leaves_alone i (f n)) /\ forall r, leaves_alone i (k r)
  | ModColorsEnumerated j f k => j <> i /\ (forall x y n, leaves_alone i (f x y n)) /\ forall r, leaves_alone i (k r)
  | MapColors _ f k => (forall n, leaves_alone i (f n)) /\ forall r, leaves_alone i (k r)
  | MapColorsEnumerated _ f k => (forall x y n, leaves_alone i (f x y n)) /\ forall r, leaves_alone i (k r)
  | Compose _ _ f k => (forall x y ns, leaves_alone i (f x y ns)) /\ forall r, leaves_alone i (k r)
  | MapColorChannels _ f k => (forall v, leaves_alone i (f v)) /\ forall r, leaves_alone i (k r)
  end.

Section Calls.
Context {V : Type} (m : build) (E : Codec.encoders) (D : Codec.decoders) (L : libm).
(** One call of the Python function [f]: it gets a new object with the colour
    [c]; it returns, or raises. *)
Definition calls (f : nat -> act V) (c : Rgb) (w : world V) (r : Result pyval exn) (w' : world V) : Prop :=
  run m E D L (f (List.length (colours w))) (set_colours w (colours w ++ [mkCell Free (KRgb, c)])) = Ok (w', r).
(** It returned an Rgb object of the colour [d]. *)
Definition returned (w : world V) (r : Result pyval exn) (d : Rgb) : Prop :=
  exists o fl, r = ROk (VColor o) /\ nth_error (colours w) o = Some (mkCell fl (KRgb, d)).
(** It raised [e], or what it returned is no Rgb. *)
Definition failed (r : Result pyval exn) (e : exn) : Prop := r = RErr e \/ (exists v, r = ROk v) /\ (e = TypeError \/ in_use e).
(** The function is called for one colour after the other. *)
Inductive all_called (f : nat -> act V) : list Rgb -> world V -> list Rgb -> world V -> Prop :=
| called_none w : all_called f [] w [] w
| called_next c cs d ds w r w1 w2 : calls f c w r w1 -> returned w1 r d -> all_called f cs w1 ds w2 ->
    all_called f (c :: cs) w (d :: ds) w2.
(** The function returned for the colours before [c] and failed for [c]. *)
Definition stopped (f : nat -> act V) (l : list Rgb) (w : world V) (ds : list Rgb) (w' : world V) (c : Rgb) (rest : list Rgb) (e : exn) : Prop :=
  exists cs w1 r, l = cs ++ c :: rest /\ all_called f cs w ds w1 /\ calls f c w1 r w' /\ failed r e.
End Calls.

(** The picture with the pixels [l]. *)
Definition with_pixels (i : Image) (l : list Rgb) : Image := mkImage (mkPB (width (buffer i)) (height (buffer i)) l) (bg_color i).

(** A function that saves the image [i] and gives back its argument. *)
Definition saving {V} (i : nat) (path : string) (format : option Codec.EncodingFormat) (n : nat) : act V :=
  Do (OSave i path format) (fun r => Return match r with ROk _ => ROk (VColor n) | RErr e => RErr e end).

(** A picture of two black pixels, and a colour object. *)
Definition two_black : Image := mkImage (mkPB 2 1 [RGB_BLACK; RGB_BLACK]) None.
Definition small_world (s : Codec.fs) : world (list exn) := mkWorld [mkCell Free two_black] [mkCell Free (KRgb, RGB_WHITE)] s [].
(** Each call makes the pixel white, and tries to read the picture. *)
Definition reads_itself : act (list exn) :=
  ModColors 0 (fun n => Do (OGetPixel 0 0 0) (fun r => GetVars (fun v => SetVars (match r with RErr e => e :: v | _ => v end) (Return (ROk (VColor 0))))))
    Return.

(** What a library function [r] of values means for the caller of a method on
    objects: a new object with the picture made, the exception with nothing
    changed, or the panic. *)
Definition gives_new_image {V} (w : world V) (r : py Image) : res (world V * Result pyval exn) :=
  match r with
  | Panic => Panic
  | Ok (RErr e) => Ok (w, RErr (Raised e))
  | Ok (ROk i) => Ok (mkWorld (images w ++ [mkCell Free i]) (colours w) (files_of w) (vars w), ROk (VImage (List.length (images w))))
  end.
(** The same for a method that changes the image [n]. *)
Definition changes_in_place {V} (w : world V) (n : nat) (r : py Image) : res (world V * Result pyval exn) :=
  match r with
  | Panic => Panic
  | Ok (RErr e) => Ok (w, RErr (Raised e))
  | Ok (ROk i) => Ok (mkWorld (put (images w) n (mkCell Free i)) (colours w) (files_of w) (vars w), ROk VNone)
  end.
(** The object [n] holds [a] and can be read. *)
Definition readable {A} (l : list (cell A)) (n : nat) (a : A) : Prop := exists f, nth_error l n = Some (mkCell f a) /\ f <> Exclusive.
Definition unused {A} (l : list (cell A)) (n : nat) (a : A) : Prop := nth_error l n = Some (mkCell Free a).

Section CallsWith.
Context {V : Type} (m : build) (E : Codec.encoders) (D : Codec.decoders) (L : libm).
(** One call of a Python function of a list of colours: new objects, in order. *)
Definition calls_list (f : list nat -> act V) (cs : list Rgb) (w : world V) (r : Result pyval exn) (w' : world V) : Prop :=
  run m E D L (f (seq (List.length (colours w)) (List.length cs))) (set_colours w (colours w ++ map (fun c => mkCell Free (KRgb, c)) cs)) = Ok (w', r).
(** What the library gets from a call that ended with [v] in the world [w]. *)
Definition gets_rgb (w : world V) (v : Result pyval exn) (q : Result Rgb exn) : Prop :=
  match q with ROk d => returned w v d | RErr e => failed v e end.
(** [F] is the function [f] as the library sees it. *)
Definition seen_at (f : Z -> Z -> nat -> act V) (F : world V -> Z -> Z -> Rgb -> res (world V * Result Rgb exn)) : Prop :=
  forall w x y c w' q, F w x y c = Ok (w', q) -> exists v, calls m E D L (f x y) c w v w' /\ gets_rgb w' v q.
Definition seen_list (f : Z -> Z -> list nat -> act V) (F : world V -> Z -> Z -> list Rgb -> res (world V * Result Rgb exn)) : Prop :=
  forall w x y cs w' q, F w x y cs = Ok (w', q) -> exists v, calls_list (f x y) cs w v w' /\ gets_rgb w' v q.
(** [f] is called with the number [v] and returns the number [a]; or fails. *)
Definition returns_number (f : f32 -> act V) (v : f32) (w : world V) (a : f32) (w' : world V) : Prop :=
  run m E D L (f v) w = Ok (w', ROk (VFloat a)).
Definition no_number (f : f32 -> act V) (v : f32) (w : world V) (e : exn) (w' : world V) : Prop :=
  exists r, run m E D L (f v) w = Ok (w', r) /\ (r = RErr e \/ (exists u, r = ROk u /\ (forall a, u <> VFloat a) /\ e = TypeError)).
End CallsWith.
(** The images [l] are those of [l0], each of [ns] being read once more. *)
Definition being_read (ns : list nat) (imgs : list Image) (l : list (cell Image)) : Prop :=
  Forall2 (fun n i => exists k, nth_error l n = Some (mkCell (Shared k) i)) ns imgs.
