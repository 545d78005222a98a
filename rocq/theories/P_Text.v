(** Property theorems, generated from TextThm.v by tools/mkp.py. *)

From Coq Require Import Reals ZArith List String Ascii.
From Flocq Require Import IEEE754.BinarySingleNaN.
From Verif Require Import Base F32 Color ColorSpec Names Text TextSpec.
Import ListNotations.
Open Scope string_scope.
Open Scope R_scope.

From Verif Require Import TextThm.


(** C90: a getter reads its own component. *)

Theorem C90_getters : forall k n0 n1 n2 c, snd (names k) = (n0, n1, n2) ->
  getter k n0 c = Some (d0 c) /\ getter k n1 c = Some (d1 c) /\ getter k n2 c = Some (d2 c) /\ getter k "alpha" c = Some (d3 c).
Proof. exact getters. Qed.
Print Assumptions C90_getters.


(** C90: a setter changes exactly its own component, to exactly the value it
    is given. *)

Theorem C90_setters : forall k n0 n1 n2 a b c d v, snd (names k) = (n0, n1, n2) ->
  setter k n0 v (mkC a b c d) = Some (mkC v b c d) /\ setter k n1 v (mkC a b c d) = Some (mkC a v c d) /\
  setter k n2 v (mkC a b c d) = Some (mkC a b v d) /\ setter k "alpha" v (mkC a b c d) = Some (mkC a b c v).
Proof. exact setters. Qed.
Print Assumptions C90_setters.


(** C90: so does the method that makes a changed copy. *)

Theorem C90_with_methods : forall k n0 n1 n2 a b c d v, snd (names k) = (n0, n1, n2) ->
  with_method k n0 v (mkC a b c d) = Some (mkC v b c d) /\ with_method k n1 v (mkC a b c d) = Some (mkC a v c d) /\
  with_method k n2 v (mkC a b c d) = Some (mkC a b v d) /\ with_method k "alpha" v (mkC a b c d) = Some (mkC a b c v).
Proof. exact with_methods. Qed.
Print Assumptions C90_with_methods.


(** C90: no other accessor exists. *)

Theorem C90_no_other_accessor : forall k n n0 n1 n2 c v, snd (names k) = (n0, n1, n2) -> n <> n0 -> n <> n1 -> n <> n2 -> n <> "alpha" ->
  getter k n c = None /\ setter k n v c = None /\ with_method k n v c = None.
Proof. exact no_other_accessor. Qed.
Print Assumptions C90_no_other_accessor.

Example C90_set_green : setter KRgb "green" (dec 1 4) (mkC f1 f1 f1 f1) = Some (mkC f1 (dec 1 4) f1 f1) /\ getter (KLch D65 O2) "saturation" (mkC f1 f1 f1 f1) = None.
Proof. exact set_green. Qed.


(** C90: nothing limits what a setter stores, although the constructors of
    Rgb limit every component: whatever the colour was, giving it a red of 2
    takes it out of range. *)

Theorem C90_setter_keeps_range_refuted : forall c, exists c', setter KRgb "red" f2 c = Some c' /\ with_method KRgb "red" f2 c = Some c' /\
  getter KRgb "red" c' = Some f2 /\ ~ in_gamut c' /\
  getter KRgb "red" (new_with_alpha KRgb f2 (d1 c) (d2 c) (d3 c)) = Some f1.
Proof. exact setter_keeps_range_refuted. Qed.
Print Assumptions C90_setter_keeps_range_refuted.


(** C90: a colour made by a function of the index has the components the
    function gives, like one made by the constructor. *)

Theorem C90_from_function : forall k f, k <> KRgb -> new_from_fn k f = new_with_alpha k (f 0%Z) (f 1%Z) (f 2%Z) (f 3%Z).
Proof. exact from_function. Qed.
Print Assumptions C90_from_function.


(** C91: the text form: the name of the type, [a] if there is transparency,
    and the components to four places. *)

Theorem C91_text_of_colour : forall show k c, prints show -> printable c ->
  exists t0 t1 t2 t3, four_places t0 (d0 c) /\ four_places t1 (d1 c) /\ four_places t2 (d2 c) /\ four_places t3 (d3 c) /\
  (/ 32768 < Rabs (1 - B2R (d3 c)) ->
     format_color show k c = fst (names k) ++ "a(" ++ t0 ++ ", " ++ t1 ++ ", " ++ t2 ++ ", " ++ t3 ++ ")") /\
  (Rabs (1 - B2R (d3 c)) <= / 32768 -> format_color show k c = fst (names k) ++ "(" ++ t0 ++ ", " ++ t1 ++ ", " ++ t2 ++ ")").
Proof. exact text_of_colour. Qed.
Print Assumptions C91_text_of_colour.


(** C91: two colours with the same text are of the same type and nearly the
    same. *)

Theorem C91_text_tells_colours_apart : forall show k k' c c' p, prints show -> printable c -> printable c' ->
  format_color show k c = format_color show k' c' ->
  k = k' /\ Rabs (B2R (get p c) - B2R (get p c')) <= 2 / 19999 + (Rabs (B2R (get p c)) + Rabs (B2R (get p c'))) / 2 ^ 22.
Proof. exact text_tells_colours_apart. Qed.
Print Assumptions C91_text_tells_colours_apart.

Example C91_printing_exists : exists show, prints show.
Proof. exact printing_exists. Qed.

Example C91_half_is_printable : printable (mkC (dec 1 2) f0 f1 f1).
Proof. exact half_is_printable. Qed.


(** C91: numbers that are not finite are followed by [.0], and so is a huge
    finite number, shown as infinite. *)

Theorem C91_text_of_extremes_refuted : forall show, prints show ->
  format_f32 show B754_nan = "NaN.0" /\ format_f32 show (B754_infinity false) = "inf.0" /\
  format_f32 show (B754_infinity true) = "-inf.0" /\
  is_finite f32_MAX = true /\ format_f32 show f32_MAX = "inf.0".
Proof. exact text_of_extremes_refuted. Qed.
Print Assumptions C91_text_of_extremes_refuted.


(** C92: the constructors of the Python classes: alpha is 1 if left out. *)

Theorem C92_python_new : forall k a b c x,
  py_new k a b c (Some x) = new_with_alpha k a b c x /\ py_new k a b c None = new_with_alpha k a b c f1.
Proof. exact python_new. Qed.
Print Assumptions C92_python_new.


(** C92: conversion to Lab and Lch from Python: the class asked for, D65 and
    the 2 degree observer if left out, and the colour the library computes. *)

Theorem C92_python_to_lab_lch : forall L k c ill obs i o, chosen_illuminant ill i -> chosen_observer obs o ->
  py_to_lab L (k, c) ill obs = ROk (KLab i o, convert_color L k (KLab i o) c) /\
  py_to_lch L (k, c) ill obs = ROk (KLch i o, convert_color L k (KLch i o) c).
Proof. exact python_to_lab_lch. Qed.
Print Assumptions C92_python_to_lab_lch.


(** C92: the same for making a Lab or Lch colour. *)

Theorem C92_python_lab_lch : forall x y z alpha ill obs i o, chosen_illuminant ill i -> chosen_observer obs o ->
  py_lab x y z alpha ill obs = ROk (KLab i o, py_new (KLab i o) x y z alpha) /\
  py_lch x y z alpha ill obs = ROk (KLch i o, py_new (KLch i o) x y z alpha).
Proof. exact python_lab_lch. Qed.
Print Assumptions C92_python_lab_lch.


(** C92: every other choice is an error that names it. *)

Theorem C92_python_lab_lch_error : forall L self x y z alpha ill obs,
  (forall i o, ~ (chosen_illuminant ill i /\ chosen_observer obs o)) ->
  let msg t := "Unsupported " ++ t ++ " type: " ++ or_nothing ill "D65" ++ " " ++ or_nothing obs "2" in
  py_to_lab L self ill obs = RErr (msg "Lab") /\ py_to_lch L self ill obs = RErr (msg "Lch") /\
  py_lab x y z alpha ill obs = RErr (msg "Lab") /\ py_lch x y z alpha ill obs = RErr (msg "Lch").
Proof. exact python_lab_lch_error. Qed.
Print Assumptions C92_python_lab_lch_error.

Example C92_python_lab_error : forall i o, ~ (chosen_illuminant (Some "D55") i /\ chosen_observer None o).
Proof. exact python_lab_error. Qed.


(** C92: [==] from Python compares colours of one class by their components;
    colours of different classes are equal only if they are one object, which
    they are not. *)

Theorem C92_python_eq : forall k c c' same, py_compare (k, c) (k, c') same Eq = Answer (color_eq c c').
Proof. exact python_eq. Qed.
Print Assumptions C92_python_eq.

Theorem C92_python_eq_other_class : forall k k' c c', k <> k' -> py_compare (k, c) (k', c') false Eq = Answer false.
Proof. exact python_eq_other_class. Qed.
Print Assumptions C92_python_eq_other_class.


(** C92: [!=] does not compare components: two objects are always unequal, so
    [a == b] and [a != b] are both true of two objects with equal colours.  The
    order operators raise TypeError. *)

Theorem C92_python_ne_refuted : forall k c c', color_eq c c' = true ->
  py_compare (k, c) (k, c') false Eq = Answer true /\ py_compare (k, c) (k, c') false Ne = Answer true.
Proof. exact python_ne_refuted. Qed.
Print Assumptions C92_python_ne_refuted.

Theorem C92_python_order : forall a b same op, In op [Lt; Le; Gt; Ge] -> py_compare a b same op = TypeError.
Proof. exact python_order. Qed.
Print Assumptions C92_python_order.

Example C92_equal_colours : color_eq (mkC f1 f0 f0 f1) (mkC f1 f0 f0 f1) = true.
Proof. exact equal_colours. Qed.


(** C93: the items of a converting iterator are the converted items, and the
    iterator inside is advanced as often. *)

Theorem C93_into_items : forall S L from to (next : S -> option col * S) n s,
  calls (into L from to next) n s = (map (option_map (convert_color L from to)) (fst (calls next n s)), snd (calls next n s)).
Proof. exact into_items. Qed.
Print Assumptions C93_into_items.


(** C93: over the colours of an image: one item per colour, in order, then
    none; and the number of remaining items reported is the right one. *)

Theorem C93_into_list : forall L from to l,
  fst (calls (into L from to list_next) (List.length l) l) = map (fun c => Some (convert_color L from to c)) l /\
  (forall n, fst (calls (into L from to list_next) n (snd (calls (into L from to list_next) (List.length l) l))) = repeat None n) /\
  (forall hint, into_size_hint hint l = hint l).
Proof. exact into_list. Qed.
Print Assumptions C93_into_list.

Example C93_into_two : forall L, fst (calls (into L KRgb KHsl list_next) 3%nat [mkC f1 f1 f1 f1; mkC f0 f0 f0 f1])
  = [Some (rgb_to_hsl (mkC f1 f1 f1 f1)); Some (rgb_to_hsl (mkC f0 f0 f0 f1)); None].
Proof. exact into_two. Qed.
