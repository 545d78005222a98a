(** Specification vocabulary for buffers, independent of the model's loops. *)
From Coq Require Import ZArith List.
From Verif Require Import Base PixelBuffer.
Import ListNotations.
Open Scope Z_scope.

(** Values of the Rust types u32 and i32. *)
Definition is_u32 (z : Z) : Prop := 0 <= z < 4294967296.
Definition is_i32 (z : Z) : Prop := -2147483648 <= z < 2147483648.

(** The documented sizes: empty, or both sides positive and at most
    2^30 - 1 pixels. *)
Definition valid_size (w h : Z) : Prop :=
  (w = 0 /\ h = 0) \/ (0 < w /\ 0 < h /\ w * h <= 1073741823).

(** A well-formed buffer. *)
Definition valid {T} (b : PixelBuffer T) : Prop :=
  valid_size (width b) (height b) /\ zlen (data b) = width b * height b.

Definition nonempty {T} (b : PixelBuffer T) : Prop := 0 < width b /\ 0 < height b.

(** (x,y) lies inside the buffer. *)
Definition inside {T} (b : PixelBuffer T) (x y : Z) : Prop :=
  0 <= x < width b /\ 0 <= y < height b.

(** All coordinates of a w x h image, row by row from the left. *)
Definition row_major (w h : Z) : list (Z * Z) :=
  flat_map (fun y => map (fun x => (x, y)) (zrange 0 w)) (zrange 0 h).

(** [runs step s l s' bs]: feeding the items of [l] one after the other to a
    stateful function leads from state [s] to [s'] and returns [bs]. *)
Inductive runs {S A B} (step : S -> A -> S -> B -> Prop)
  : S -> list A -> S -> list B -> Prop :=
| runs_nil s : runs step s [] s []
| runs_cons s a s1 b l s' bs :
    step s a s1 b -> runs step s1 l s' bs -> runs step s (a :: l) s' (b :: bs).

(** The steps of a closure that cannot fail, and of one that returns Ok. *)
Definition call {S A B} (f : S -> A -> res (S * B)) (s : S) (a : A) (s' : S) (b : B) : Prop :=
  f s a = Ok (s', b).
Definition call_ok {S A B E} (f : S -> A -> res (S * Result B E)) (s : S) (a : A) (s' : S)
  (b : B) : Prop := f s a = Ok (s', ROk b).

(** [first_error f s l s' e pre bs p post]: [l] is [pre ++ p :: post], the calls
    on [pre] return [bs], and the next call, on [p], is the first to fail. *)
Definition first_error {S A B E} (f : S -> A -> res (S * Result B E)) (s : S) (l : list A)
  (s' : S) (e : E) (pre : list A) (bs : list B) (p : A) (post : list A) : Prop :=
  l = pre ++ p :: post /\
  exists s1, runs (call_ok f) s pre s1 bs /\ f s1 p = Ok (s', RErr e).
