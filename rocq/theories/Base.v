(** Base vocabulary of the model: panics, machine integers, loops, vectors.
    Nothing in this file is specific to d10; every definition states which
    Rust construct it stands for. *)
From Coq Require Import ZArith List Bool.
Import ListNotations.
Open Scope Z_scope.

(** Overflow behaviour of Rust integer arithmetic: [Checked] is a build with
    overflow checks (cargo's dev profile), [Wrapping] one without (release). *)
Inductive build := Checked | Wrapping.

(** The outcome of running a Rust function: a value or a panic. *)
Inductive res (A : Type) := Ok (a : A) | Panic.
Arguments Ok {A} a.
Arguments Panic {A}.

Definition bind {A B} (x : res A) (f : A -> res B) : res B :=
  match x with Ok a => f a | Panic => Panic end.

Notation "x <- e ; f" := (bind e (fun x => f))
  (at level 61, e at next level, right associativity).
Notation "' p <- e ; f" := (bind e (fun x => let p := x in f))
  (at level 61, p pattern, e at next level, right associativity).

(** [assert!(b)]. *)
Definition assert_ (b : bool) : res unit := if b then Ok tt else Panic.

(** Rust's [Result<A, E>] as data. *)
Inductive Result (A E : Type) := ROk (a : A) | RErr (e : E).
Arguments ROk {A E} a.
Arguments RErr {A E} e.

(** The result [z] of a u32 (i32) operation: in range, or overflow. *)
Definition wrap_u32 (z : Z) : Z := z mod 4294967296.
Definition wrap_i32 (z : Z) : Z := (z + 2147483648) mod 4294967296 - 2147483648.

Definition in_u32 (z : Z) : bool := (0 <=? z) && (z <? 4294967296).
Definition in_i32 (z : Z) : bool := (-2147483648 <=? z) && (z <? 2147483648).

Definition u32 (m : build) (z : Z) : res Z :=
  if in_u32 z then Ok z
  else match m with Checked => Panic | Wrapping => Ok (wrap_u32 z) end.

Definition i32 (m : build) (z : Z) : res Z :=
  if in_i32 z then Ok z
  else match m with Checked => Panic | Wrapping => Ok (wrap_i32 z) end.

(** The casts [e as u32] and [e as i32] between integer types never panic. *)
Definition as_u32 (z : Z) : Z := wrap_u32 z.
Definition as_i32 (z : Z) : Z := wrap_i32 z.

(** [Ord::clamp] on integers: panics when [min > max]. *)
Definition clamp_int (z lo hi : Z) : res Z :=
  if hi <? lo then Panic else Ok (if z <? lo then lo else if hi <? z then hi else z).

(** The range [a..b] as the list of its items. *)
Fixpoint zseq (a : Z) (n : nat) : list Z :=
  match n with O => [] | S k => a :: zseq (a + 1) k end.
Definition zrange (a b : Z) : list Z := zseq a (Z.to_nat (b - a)).

(** [for a in l { body }] over a loop state, where the body may panic. *)
Fixpoint for_ {A S} (l : list A) (body : A -> S -> res S) (s : S) : res S :=
  match l with
  | [] => Ok s
  | a :: l' => s' <- body a s; for_ l' body s'
  end.

(** [iter().map(f).collect::<Vec<_>>()] for a pure closure that may panic. *)
Fixpoint map_res {A B} (f : A -> res B) (l : list A) : res (list B) :=
  match l with
  | [] => Ok []
  | a :: l' => b <- f a; bs <- map_res f l'; Ok (b :: bs)
  end.

(** [iter().map(f).collect()] for a closure with mutable state [S]. *)
Fixpoint map_st {S A B} (f : S -> A -> res (S * B)) (l : list A) (s : S)
  : res (S * list B) :=
  match l with
  | [] => Ok (s, [])
  | a :: l' => '(s1, b) <- f s a; '(s2, bs) <- map_st f l' s1; Ok (s2, b :: bs)
  end.

(** [iter().map(f).collect::<Result<Vec<_>, E>>()]: stops at the first error.
    The final closure state is returned so that the calls made are visible. *)
Fixpoint try_map_st {S A B E} (f : S -> A -> res (S * Result B E)) (l : list A) (s : S)
  : res (S * Result (list B) E) :=
  match l with
  | [] => Ok (s, ROk [])
  | a :: l' =>
      '(s1, r) <- f s a;
      match r with
      | RErr e => Ok (s1, RErr e)
      | ROk b =>
          '(s2, rs) <- try_map_st f l' s1;
          match rs with
          | RErr e => Ok (s2, RErr e)
          | ROk bs => Ok (s2, ROk (b :: bs))
          end
      end
  end.

(** Length of a vector. *)
Definition zlen {A} (l : list A) : Z := Z.of_nat (length l).

(** [v[i]] *)
Definition idx {A} (l : list A) (i : Z) : res A :=
  if i <? 0 then Panic
  else match nth_error l (Z.to_nat i) with Some a => Ok a | None => Panic end.

(** [v[i] = a] *)
Fixpoint upd_nat {A} (l : list A) (i : nat) (a : A) : option (list A) :=
  match l, i with
  | [], _ => None
  | _ :: l', O => Some (a :: l')
  | x :: l', S k => match upd_nat l' k a with Some r => Some (x :: r) | None => None end
  end.
Definition upd {A} (l : list A) (i : Z) (a : A) : res (list A) :=
  if i <? 0 then Panic
  else match upd_nat l (Z.to_nat i) a with Some r => Ok r | None => Panic end.

(** [&v[a..b]]: panics when [a > b] or [b > v.len()]. *)
Definition slice {A} (l : list A) (a b : Z) : res (list A) :=
  if (a <=? b) && (b <=? zlen l) && (0 <=? a)
  then Ok (firstn (Z.to_nat (b - a)) (skipn (Z.to_nat a) l))
  else Panic.
