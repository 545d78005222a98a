(** Accessors, text form, iterator adapters and Python classes of colours
    (C90 to C93). *)
From Coq Require Import Reals ZArith List String Ascii.
From Flocq Require Import IEEE754.BinarySingleNaN.
From Verif Require Import Base F32 Color ColorSpec Names Text TextSpec.
Import ListNotations.
Open Scope string_scope.
Open Scope R_scope.

(* PROPERTIES *)
From Coq Require Import Bool Lra Lia.
From Flocq Require Import Core.Core.
From Verif Require Import F32Lemmas ColorProofs TextProofs.
Open Scope string_scope.
Open Scope R_scope.

(** C90: a getter reads its own component. *)
Lemma getters : forall k n0 n1 n2 c, snd (names k) = (n0, n1, n2) ->
  getter k n0 c = Some (d0 c) /\ getter k n1 c = Some (d1 c) /\ getter k n2 c = Some (d2 c) /\ getter k "alpha" c = Some (d3 c).
Proof. intros k n0 n1 n2 c E. destruct k as [| | | | | |[] []|[] []]; injection E as <- <- <-; auto. Qed.
(** C90: a setter changes exactly its own component, to exactly the value it
    is given. *)
Lemma setters : forall k n0 n1 n2 a b c d v, snd (names k) = (n0, n1, n2) ->
  setter k n0 v (mkC a b c d) = Some (mkC v b c d) /\ setter k n1 v (mkC a b c d) = Some (mkC a v c d) /\
  setter k n2 v (mkC a b c d) = Some (mkC a b v d) /\ setter k "alpha" v (mkC a b c d) = Some (mkC a b c v).
Proof. intros k n0 n1 n2 a b c d v E. destruct k as [| | | | | |[] []|[] []]; injection E as <- <- <-; auto. Qed.
(** C90: so does the method that makes a changed copy. *)
Lemma with_methods : forall k n0 n1 n2 a b c d v, snd (names k) = (n0, n1, n2) ->
  with_method k n0 v (mkC a b c d) = Some (mkC v b c d) /\ with_method k n1 v (mkC a b c d) = Some (mkC a v c d) /\
  with_method k n2 v (mkC a b c d) = Some (mkC a b v d) /\ with_method k "alpha" v (mkC a b c d) = Some (mkC a b c v).
Proof. intros k n0 n1 n2 a b c d v E. destruct k as [| | | | | |[] []|[] []]; injection E as <- <- <-; auto. Qed.
(** C90: no other accessor exists. *)
Lemma no_other_accessor : forall k n n0 n1 n2 c v, snd (names k) = (n0, n1, n2) -> n <> n0 -> n <> n1 -> n <> n2 -> n <> "alpha" ->
  getter k n c = None /\ setter k n v c = None /\ with_method k n v c = None.
Proof.
  intros k n n0 n1 n2 c v E A B C D. unfold getter, setter, with_method.
  assert (X : accessor k n = None).
  { unfold accessor. apply String.eqb_neq in D. rewrite D.
    destruct k as [| | | | | |[] []|[] []]; injection E as <- <- <-; apply String.eqb_neq in A; apply String.eqb_neq in B;
    apply String.eqb_neq in C; rewrite A, B, C; reflexivity. }
  rewrite X. auto.
Qed.
Example set_green : setter KRgb "green" (dec 1 4) (mkC f1 f1 f1 f1) = Some (mkC f1 (dec 1 4) f1 f1) /\ getter (KLch D65 O2) "saturation" (mkC f1 f1 f1 f1) = None.
Proof. split; reflexivity. Qed.
(** C90: nothing limits what a setter stores, although the constructors of
    Rgb limit every component: whatever the colour was, giving it a red of 2
    takes it out of range. *)
Lemma setter_keeps_range_refuted : forall c, exists c', setter KRgb "red" f2 c = Some c' /\ with_method KRgb "red" f2 c = Some c' /\
  getter KRgb "red" c' = Some f2 /\ ~ in_gamut c' /\
  getter KRgb "red" (new_with_alpha KRgb f2 (d1 c) (d2 c) (d3 c)) = Some f1.
Proof.
  intros c. exists (mkC f2 (d1 c) (d2 c) (d3 c)). split; [reflexivity|]. split; [reflexivity|]. split; [reflexivity|]. split.
  - intros [[_ H] _]. vm_compute in H. discriminate H.
  - change (Some (clamp f2) = Some f1). vm_cast_no_check (eq_refl (Some f1)).
Qed.
(** C90: a colour made by a function of the index has the components the
    function gives, like one made by the constructor. *)
Lemma from_function : forall k f, k <> KRgb -> new_from_fn k f = new_with_alpha k (f 0%Z) (f 1%Z) (f 2%Z) (f 3%Z).
Proof. intros k f H. destruct k; try reflexivity. now destruct H. Qed.

(** C91: the text form: the name of the type, [a] if there is transparency,
    and the components to four places. *)
Lemma text_of_colour : forall show k c, prints show -> printable c ->
  exists t0 t1 t2 t3, four_places t0 (d0 c) /\ four_places t1 (d1 c) /\ four_places t2 (d2 c) /\ four_places t3 (d3 c) /\
  (/ 32768 < Rabs (1 - B2R (d3 c)) ->
     format_color show k c = fst (names k) ++ "a(" ++ t0 ++ ", " ++ t1 ++ ", " ++ t2 ++ ", " ++ t3 ++ ")") /\
  (Rabs (1 - B2R (d3 c)) <= / 32768 -> format_color show k c = fst (names k) ++ "(" ++ t0 ++ ", " ++ t1 ++ ", " ++ t2 ++ ")").
Proof.
  intros show k c P H. exists (format_f32 show (d0 c)), (format_f32 show (d1 c)), (format_f32 show (d2 c)), (format_f32 show (d3 c)).
  split; [apply (printed show c); simpl; auto|]. split; [apply (printed show c); simpl; auto|].
  split; [apply (printed show c); simpl; auto|]. split; [apply (printed show c); simpl; auto|].
  destruct (printable_R c (d3 c) H ltac:(simpl; auto)) as [A B]. assert (O := opaque_iff (d3 c) A B).
  change (flt EPSILON (fabs (fsub f1 (d3 c)))) with (has_transparency c) in O.
  rewrite format_shape, type_name_table. split; intros T.
  - apply O in T. rewrite T. rewrite !app_assoc_s. reflexivity.
  - destruct (has_transparency c); [exfalso; assert (X := proj1 O eq_refl); lra|]. reflexivity.
Qed.
(** C91: two colours with the same text are of the same type and nearly the
    same. *)
Lemma text_tells_colours_apart : forall show k k' c c' p, prints show -> printable c -> printable c' ->
  format_color show k c = format_color show k' c' ->
  k = k' /\ Rabs (B2R (get p c) - B2R (get p c')) <= 2 / 19999 + (Rabs (B2R (get p c)) + Rabs (B2R (get p c'))) / 2 ^ 22.
Proof. intros show k k' c c' p P H H' E. destruct (same_text show k k' c c' P H H' E) as [A B]. auto. Qed.
Example printing_exists : exists show, prints show.
Proof. exists shortest. exact shortest_prints. Qed.
Example half_is_printable : printable (mkC (dec 1 2) f0 f1 f1).
Proof.
  assert (X : forall v, in01 v -> is_finite v = true /\ Rabs (B2R v) <= 2 ^ 100).
  { intros v V. apply in01_num in V as [F B]. split; auto. apply Rle_trans with 1; [apply Rabs_le; lra|].
    rewrite (pow_IZR 2 100). apply (IZR_le 1). discriminate. }
  intros v [<-|[<-|[<-|[<-|[]]]]]; apply X; split; reflexivity.
Qed.
(** C91: numbers that are not finite are followed by [.0], and so is a huge
    finite number, shown as infinite. *)
Lemma text_of_extremes_refuted : forall show, prints show ->
  format_f32 show B754_nan = "NaN.0" /\ format_f32 show (B754_infinity false) = "inf.0" /\
  format_f32 show (B754_infinity true) = "-inf.0" /\
  is_finite f32_MAX = true /\ format_f32 show f32_MAX = "inf.0".
Proof.
  intros show [_ A B C]. unfold format_f32.
  assert (E1 : fdiv (fround (fmul B754_nan (ofZ 10000))) (ofZ 10000) = B754_nan) by reflexivity.
  assert (E2 : fdiv (fround (fmul (B754_infinity false) (ofZ 10000))) (ofZ 10000) = B754_infinity false) by reflexivity.
  assert (E3 : fdiv (fround (fmul (B754_infinity true) (ofZ 10000))) (ofZ 10000) = B754_infinity true) by reflexivity.
  assert (E4 : fdiv (fround (fmul f32_MAX (ofZ 10000))) (ofZ 10000) = B754_infinity false) by reflexivity.
  rewrite E1, E2, E3, E4, A, B, C. repeat split; reflexivity.
Qed.

(** C92: the constructors of the Python classes: alpha is 1 if left out. *)
Lemma python_new : forall k a b c x,
  py_new k a b c (Some x) = new_with_alpha k a b c x /\ py_new k a b c None = new_with_alpha k a b c f1.
Proof. intros. split; reflexivity. Qed.
(** C92: conversion to Lab and Lch from Python: the class asked for, D65 and
    the 2 degree observer if left out, and the colour the library computes. *)
Lemma python_to_lab_lch : forall L k c ill obs i o, chosen_illuminant ill i -> chosen_observer obs o ->
  py_to_lab L (k, c) ill obs = ROk (KLab i o, convert_color L k (KLab i o) c) /\
  py_to_lch L (k, c) ill obs = ROk (KLch i o, convert_color L k (KLch i o) c).
Proof. intros L k c ill obs i o [] []; split; reflexivity. Qed.
(** C92: the same for making a Lab or Lch colour. *)
Lemma python_lab_lch : forall x y z alpha ill obs i o, chosen_illuminant ill i -> chosen_observer obs o ->
  py_lab x y z alpha ill obs = ROk (KLab i o, py_new (KLab i o) x y z alpha) /\
  py_lch x y z alpha ill obs = ROk (KLch i o, py_new (KLch i o) x y z alpha).
Proof. intros x y z alpha ill obs i o [] []; split; reflexivity. Qed.
(** C92: every other choice is an error that names it. *)
Lemma python_lab_lch_error : forall L self x y z alpha ill obs,
  (forall i o, ~ (chosen_illuminant ill i /\ chosen_observer obs o)) ->
  let msg t := "Unsupported " ++ t ++ " type: " ++ or_nothing ill "D65" ++ " " ++ or_nothing obs "2" in
  py_to_lab L self ill obs = RErr (msg "Lab") /\ py_to_lch L self ill obs = RErr (msg "Lch") /\
  py_lab x y z alpha ill obs = RErr (msg "Lab") /\ py_lch x y z alpha ill obs = RErr (msg "Lch").
Proof.
  intros L self x y z alpha ill obs H msg.
  assert (X : py_illuminant (or_default ill "D65") (or_default obs "2") = None).
  { unfold py_illuminant.
    assert (Hi : forall s i, or_default ill "D65" = s -> In (s, i) [("D65", D65); ("D50", D50); ("E", IllE)] -> chosen_illuminant ill i).
    { intros s i E I. destruct ill as [t|]; cbn in E; subst; destruct I as [I|[I|[I|[]]]]; try (injection I as <-; subst; constructor); try discriminate;
      try (injection I as <- <-; constructor). }
    assert (Ho : forall s o, or_default obs "2" = s -> In (s, o) [("2", O2); ("10", O10)] -> chosen_observer obs o).
    { intros s o E I. destruct obs as [t|]; cbn in E; subst; destruct I as [I|[I|[]]]; try discriminate; try (injection I as <- <-; constructor);
      try (injection I as <-; constructor). }
    assert (N : forall s i t o, In (s, i) [("D65", D65); ("D50", D50); ("E", IllE)] -> In (t, o) [("2", O2); ("10", O10)] ->
      (or_default ill "D65" =? s) && (or_default obs "2" =? t) = false).
    { intros s i t o I J. apply andb_false_iff. destruct (String.eqb_spec (or_default ill "D65") s) as [E|E]; [right|now left].
      apply String.eqb_neq. intros F. apply (H i o). eauto. }
    rewrite (N "D65" D65 "2" O2), (N "D65" D65 "10" O10), (N "D50" D50 "2" O2), (N "D50" D50 "10" O10), (N "E" IllE "2" O2), (N "E" IllE "10" O10)
      by (simpl; auto). reflexivity. }
  unfold py_to_lab, py_to_lch, py_lab, py_lch, msg. cbv zeta. rewrite X. repeat split; reflexivity.
Qed.
Example python_lab_error : forall i o, ~ (chosen_illuminant (Some "D55") i /\ chosen_observer None o).
Proof. intros i o [H _]. inversion H. Qed.
(** C92: [==] from Python compares colours of one class by their components;
    colours of different classes are equal only if they are one object, which
    they are not. *)
Lemma python_eq : forall k c c' same, py_compare (k, c) (k, c') same Eq = Answer (color_eq c c').
Proof. intros k c c' same. unfold py_compare, richcmp. cbn [fst snd]. replace (same_class k k) with true; [reflexivity|]. destruct k as [| | | | | |[] []|[] []]; reflexivity. Qed.
Lemma python_eq_other_class : forall k k' c c', k <> k' -> py_compare (k, c) (k', c') false Eq = Answer false.
Proof.
  intros k k' c c' H. unfold py_compare, richcmp. cbn [fst snd].
  replace (same_class k k') with false; [replace (same_class k' k) with false; [reflexivity|]|];
  destruct k as [| | | | | |[] []|[] []], k' as [| | | | | |[] []|[] []]; try reflexivity; now destruct H.
Qed.
(** C92: [!=] does not compare components: two objects are always unequal, so
    [a == b] and [a != b] are both true of two objects with equal colours.  The
    order operators raise TypeError. *)
Lemma python_ne_refuted : forall k c c', color_eq c c' = true ->
  py_compare (k, c) (k, c') false Eq = Answer true /\ py_compare (k, c) (k, c') false Ne = Answer true.
Proof.
  intros k c c' E. rewrite python_eq, E. split; [reflexivity|]. unfold py_compare, richcmp. cbn [swapped].
  repeat match goal with |- context [same_class ?x ?y] => destruct (same_class x y) end; reflexivity.
Qed.
Lemma python_order : forall a b same op, In op [Lt; Le; Gt; Ge] -> py_compare a b same op = TypeError.
Proof.
  intros a b same op H. unfold py_compare, richcmp.
  destruct H as [<-|[<-|[<-|[<-|[]]]]]; cbn [swapped]; repeat match goal with |- context [same_class ?x ?y] => destruct (same_class x y) end; reflexivity.
Qed.
Example equal_colours : color_eq (mkC f1 f0 f0 f1) (mkC f1 f0 f0 f1) = true.
Proof. reflexivity. Qed.

(** C93: the items of a converting iterator are the converted items, and the
    iterator inside is advanced as often. *)
Lemma into_items : forall S L from to (next : S -> option col * S) n s,
  calls (into L from to next) n s = (map (option_map (convert_color L from to)) (fst (calls next n s)), snd (calls next n s)).
Proof.
  intros S L from to next n. induction n as [|n IH]; intros s; [reflexivity|]. cbn [calls]. unfold into at 1.
  destruct (next s) as [v s']. rewrite IH. destruct (calls next n s') as [vs s'']. reflexivity.
Qed.
(** C93: over the colours of an image: one item per colour, in order, then
    none; and the number of remaining items reported is the right one. *)
Lemma into_list : forall L from to l,
  fst (calls (into L from to list_next) (List.length l) l) = map (fun c => Some (convert_color L from to c)) l /\
  (forall n, fst (calls (into L from to list_next) n (snd (calls (into L from to list_next) (List.length l) l))) = repeat None n) /\
  (forall hint, into_size_hint hint l = hint l).
Proof.
  intros L from to l. split; [|split; [|reflexivity]].
  - induction l as [|x l IH]; [reflexivity|]. cbn [List.length calls]. unfold into at 1. cbn [list_next].
    destruct (calls (into L from to list_next) (List.length l) l) as [vs s'']. cbn [fst] in *. now rewrite IH.
  - assert (E : snd (calls (into L from to list_next) (List.length l) l) = []).
    { induction l as [|x l IH]; [reflexivity|]. cbn [List.length calls]. unfold into at 1. cbn [list_next].
      destruct (calls (into L from to list_next) (List.length l) l) as [vs s'']. exact IH. }
    rewrite E. intros n. induction n as [|n IH]; [reflexivity|]. cbn [calls repeat]. unfold into at 1. cbn [list_next].
    destruct (calls (into L from to list_next) n []) as [vs s'']. cbn [fst] in *. now rewrite IH.
Qed.
Example into_two : forall L, fst (calls (into L KRgb KHsl list_next) 3%nat [mkC f1 f1 f1 f1; mkC f0 f0 f0 f1])
  = [Some (rgb_to_hsl (mkC f1 f1 f1 f1)); Some (rgb_to_hsl (mkC f0 f0 f0 f1)); None].
Proof. intros L. reflexivity. Qed.
