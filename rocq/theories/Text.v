(** Model of the accessors of colours, of their text form, of the iterator
    adapters and of the Python colour classes. *)
From Coq Require Import ZArith List Bool String Ascii.
From Flocq Require Import IEEE754.BinarySingleNaN.
From Verif Require Import Base F32 Color Names.
Import ListNotations.
Local Open Scope string_scope.

(** ** Accessors *)

(** The four numbers of a colour: [data[0]] to [data[3]]. *)
Inductive component := Comp0 | Comp1 | Comp2 | Comp3.

(** The component an accessor is about, by the name of its getter, which is
    also the name after [set_] and [with_]:
    rgb.rs:58-98 and 377-389, srgb.rs:29-69 and 88-100, hsl.rs:29-69 and
    132-144, hsv.rs:29-69 and 122-134, yuv.rs:41-81 and 112-124, xyz.rs:42-82
    and 112-124, lab.rs:144-178 and 226-236, lab.rs:304-338 and 366-376. *)
Definition accessor (k : kind) (name : string) : option component :=
  if name =? "alpha" then Some Comp3 else
  match k with
  | KRgb | KSrgb =>
      if name =? "red" then Some Comp0 else if name =? "green" then Some Comp1
      else if name =? "blue" then Some Comp2 else None
  | KHsl =>
      if name =? "hue" then Some Comp0 else if name =? "saturation" then Some Comp1
      else if name =? "lightness" then Some Comp2 else None
  | KHsv =>
      if name =? "hue" then Some Comp0 else if name =? "saturation" then Some Comp1
      else if name =? "value" then Some Comp2 else None
  | KYuv =>
      if name =? "y" then Some Comp0 else if name =? "u" then Some Comp1 else if name =? "v" then Some Comp2 else None
  | KXyz =>
      if name =? "x" then Some Comp0 else if name =? "y" then Some Comp1 else if name =? "z" then Some Comp2 else None
  | KLab _ _ =>
      if name =? "l" then Some Comp0 else if name =? "a" then Some Comp1 else if name =? "b" then Some Comp2 else None
  | KLch _ _ =>
      if name =? "l" then Some Comp0 else if name =? "c" then Some Comp1 else if name =? "h" then Some Comp2 else None
  end.
(** [self.data[i]] *)
Definition get (p : component) (c : col) : f32 :=
  match p with Comp0 => d0 c | Comp1 => d1 c | Comp2 => d2 c | Comp3 => d3 c end.
(** [self.data[i] = value] *)
Definition set (p : component) (v : f32) (c : col) : col :=
  match p with
  | Comp0 => mkC v (d1 c) (d2 c) (d3 c) | Comp1 => mkC (d0 c) v (d2 c) (d3 c)
  | Comp2 => mkC (d0 c) (d1 c) v (d3 c) | Comp3 => mkC (d0 c) (d1 c) (d2 c) v
  end.
(** The [with_] methods build a new colour. *)
Definition with_component (p : component) (v : f32) (c : col) : col :=
  match p with Comp0 => with_0 c v | Comp1 => with_1 c v | Comp2 => with_2 c v | Comp3 => with_alpha c v end.
(** The methods [name], [set_name] and [with_name]; [None] if there is no such
    method. *)
Definition getter (k : kind) (name : string) (c : col) : option f32 := option_map (fun p => get p c) (accessor k name).
Definition setter (k : kind) (name : string) (v : f32) (c : col) : option col := option_map (fun p => set p v c) (accessor k name).
Definition with_method (k : kind) (name : string) (v : f32) (c : col) : option col :=
  option_map (fun p => with_component p v c) (accessor k name).

(** srgb.rs:23-27, hsl.rs:23-27, hsv.rs:23-27, yuv.rs:35-39, xyz.rs:36-40,
    lab.rs:136-142 and 296-302: [new_from_fn]; Rgb has none. *)
Definition new_from_fn (k : kind) (f : Z -> f32) : col :=
  match k with
  | KSrgb => mkC (clamp (f 0%Z)) (clamp (f 1%Z)) (clamp (f 2%Z)) (clamp (f 3%Z))
  | _ => mkC (f 0%Z) (f 1%Z) (f 2%Z) (f 3%Z)
  end.

(** ** Text *)

Definition illuminant_name (i : illuminant) : string := match i with D50 => "D50" | D65 => "D65" | IllE => "E" end.
Definition observer_name (o : observer) : string := match o with O2 => "O2" | O10 => "O10" end.
(** rgb.rs:411-413, srgb.rs:126-128, hsl.rs:166-168, hsv.rs:156-158,
    yuv.rs:138-140, xyz.rs:138-140, lab.rs:43-55, 76-112, 250-252, 390-392 *)
Definition type_name (k : kind) : string :=
  match k with
  | KRgb => "rgb" | KSrgb => "srgb" | KHsl => "hsl" | KHsv => "hsv" | KYuv => "yuv" | KXyz => "xyz"
  | KLab i o => "lab<" ++ illuminant_name i ++ "," ++ observer_name o ++ ">"
  | KLch i o => "lch<" ++ illuminant_name i ++ "," ++ observer_name o ++ ">"
  end.

Fixpoint contains (c : ascii) (s : string) : bool :=
  match s with EmptyString => false | String a s => Ascii.eqb a c || contains c s end.
(** [String::pop] *)
Fixpoint pop (s : string) : string :=
  match s with EmptyString => EmptyString | String a EmptyString => EmptyString | String a s => String a (pop s) end.

(** mod.rs:313-322; [show] is [f32::to_string] *)
Definition format_f32 (show : f32 -> string) (v : f32) : string :=
  let v := fdiv (fround (fmul v (ofZ 10000))) (ofZ 10000) in
  let s := show v in
  if contains "." s then s else s ++ ".0".
(** mod.rs:298-343, and the [Display] of every colour type, rgb.rs:427-431 etc. *)
Definition format_color (show : f32 -> string) (k : kind) (c : col) : string :=
  let transparent := has_transparency c in
  let result := "" ++ type_name k in
  let result := if transparent then result ++ "a" else result in
  let result := result ++ "(" in
  let result := fold_left (fun result v => result ++ format_f32 show v ++ ", ") [d0 c; d1 c; d2 c] result in
  let result := if transparent then result ++ format_f32 show (alpha c) else pop (pop result) in
  result ++ ")".

(** ** Iterator adapters *)

(** An iterator: a state and what [next] does to it; [next] may have any
    effect on its state. *)
Definition iterator (S A : Type) := S -> option A * S.
(** iter.rs:20-22 and the seven like it: [self.iter.next().map(|v| v.to_rgb())];
    iter.rs:174-256 build the adapter around the iterator, iter.rs:262-344
    around a cloning one. *)
Definition into {S} (L : libm) (from to : kind) (it : iterator S col) : iterator S col :=
  fun s => let '(v, s) := it s in (option_map (convert_color L from to) v, s).
(** [size_hint] passes on what the inner iterator says: iter.rs:24-26 *)
Definition into_size_hint {S} (hint : S -> Z * option Z) : S -> Z * option Z := fun s => hint s.

(** ** The Python classes *)

(** d10-python/src/color.rs:40-42 *)
Definition py_new (k : kind) (a b c : f32) (alpha : option f32) : col :=
  new_with_alpha k a b c (match alpha with Some v => v | None => f1 end).

(** d10-python/src/color.rs:132-143: the arms of the match *)
Definition py_illuminant (ill obs : string) : option (illuminant * observer) :=
  if (ill =? "D65") && (obs =? "2") then Some (D65, O2)
  else if (ill =? "D65") && (obs =? "10") then Some (D65, O10)
  else if (ill =? "D50") && (obs =? "2") then Some (D50, O2)
  else if (ill =? "D50") && (obs =? "10") then Some (D50, O10)
  else if (ill =? "E") && (obs =? "2") then Some (IllE, O2)
  else if (ill =? "E") && (obs =? "10") then Some (IllE, O10)
  else None.
Definition or_default (o : option string) (d : string) : string := match o with Some s => s | None => d end.
(** A Python object of a colour class: which class, and the colour. *)
Definition pycolor : Type := kind * col.
(** d10-python/src/color.rs:128-144 and 146-162; the error is the exception's
    text. *)
Definition py_to_lab (L : libm) (self : pycolor) (ill obs : option string) : Result pycolor string :=
  let ill := or_default ill "D65" in let obs := or_default obs "2" in
  match py_illuminant ill obs with
  | Some (i, o) => ROk (KLab i o, to_lab L i o (fst self) (snd self))
  | None => RErr ("Unsupported Lab type: " ++ ill ++ " " ++ obs)
  end.
Definition py_to_lch (L : libm) (self : pycolor) (ill obs : option string) : Result pycolor string :=
  let ill := or_default ill "D65" in let obs := or_default obs "2" in
  match py_illuminant ill obs with
  | Some (i, o) => ROk (KLch i o, to_lch L i o (fst self) (snd self))
  | None => RErr ("Unsupported Lch type: " ++ ill ++ " " ++ obs)
  end.
(** d10-python/src/lib.rs:52-81 and 83-112: the module functions [Lab] and
    [Lch] *)
Definition py_lab (l a b : f32) (alpha : option f32) (ill obs : option string) : Result pycolor string :=
  let ill := or_default ill "D65" in let obs := or_default obs "2" in
  match py_illuminant ill obs with
  | Some (i, o) => ROk (KLab i o, py_new (KLab i o) l a b alpha)
  | None => RErr ("Unsupported Lab type: " ++ ill ++ " " ++ obs)
  end.
Definition py_lch (l c h : f32) (alpha : option f32) (ill obs : option string) : Result pycolor string :=
  let ill := or_default ill "D65" in let obs := or_default obs "2" in
  match py_illuminant ill obs with
  | Some (i, o) => ROk (KLch i o, py_new (KLch i o) l c h alpha)
  | None => RErr ("Unsupported Lch type: " ++ ill ++ " " ++ obs)
  end.
(** d10-python/src/color.rs:218-224 *)
Definition py_to_gray (c : Rgb) (name : option string) : Result Rgb ParseEnumError :=
  match name with
  | Some s => match parse_intensity s with ROk i => ROk (to_gray_with_intensity i c) | RErr e => RErr e end
  | None => ROk (to_gray c)
  end.

Inductive compare_op := Lt | Le | Eq | Ne | Gt | Ge.
Definition illuminant_eqb (a b : illuminant) : bool :=
  match a, b with D50, D50 | D65, D65 | IllE, IllE => true | _, _ => false end.
Definition observer_eqb (a b : observer) : bool := match a, b with O2, O2 | O10, O10 => true | _, _ => false end.
(** The Python class: each combination of illuminant and observer is one. *)
Definition same_class (a b : kind) : bool :=
  match a, b with
  | KRgb, KRgb | KSrgb, KSrgb | KHsl, KHsl | KHsv, KHsv | KYuv, KYuv | KXyz, KXyz => true
  | KLab i o, KLab i' o' | KLch i o, KLch i' o' => illuminant_eqb i i' && observer_eqb o o'
  | _, _ => false
  end.
(** d10-python/src/color.rs:185-190; [None] is [NotImplemented], which PyO3
    also returns when [other] is of another class *)
Definition richcmp (self other : pycolor) (op : compare_op) : option bool :=
  if same_class (fst self) (fst other)
  then match op with Eq => Some (color_eq (snd self) (snd other)) | _ => None end
  else None.
Definition swapped (op : compare_op) : compare_op :=
  match op with Lt => Gt | Le => Ge | Eq => Eq | Ne => Ne | Gt => Lt | Ge => Le end.
Inductive comparison_result := Answer (b : bool) | TypeError.
(** What the interpreter makes of [a op b] (CPython, [do_richcompare]): ask
    [a], then [b] with the operator swapped, then compare the identities;
    [same] says whether the two are one object. *)
Definition py_compare (a b : pycolor) (same : bool) (op : compare_op) : comparison_result :=
  match richcmp a b op with
  | Some r => Answer r
  | None =>
      match richcmp b a (swapped op) with
      | Some r => Answer r
      | None => match op with Eq => Answer same | Ne => Answer (negb same) | _ => TypeError end
      end
  end.
