(** Proofs for C121: Python objects and borrow checks. *)
From Coq Require Import ZArith List Bool String Lia.
From Verif Require Import Base BaseLemmas PixelBuffer BufferSpec Geometry F32 Color Text Codec Image PyImage PyObjects PyObjSpec.
Import ListNotations.

Lemma bind_ok {A B} (r : res A) (k : A -> res B) x : bind r k = Ok x -> exists a, r = Ok a /\ k a = Ok x.
Proof. destruct r as [a|]; cbn [bind]; [eauto|discriminate]. Qed.
Ltac bound H a E := apply bind_ok in H; destruct H as (a & E & H).

(** ** Updates of lists *)
Lemma put_same {A} (l : list A) n a b : nth_error l n = Some b -> nth_error (put l n a) n = Some a.
Proof. revert n. induction l as [|x l IH]; intros [|n] H; cbn in *; try discriminate; auto. Qed.
Lemma put_other {A} (l : list A) n k a : k <> n -> nth_error (put l n a) k = nth_error l k.
Proof. revert n k. induction l as [|x l IH]; intros [|n] [|k] H; cbn; auto; try lia. Qed.
Lemma put_put {A} (l : list A) n a b : put (put l n a) n b = put l n b.
Proof. revert n. induction l as [|x l IH]; intros [|n]; cbn; auto. now rewrite IH. Qed.
Lemma put_id {A} (l : list A) n a : nth_error l n = Some a -> put l n a = l.
Proof. revert n. induction l as [|x l IH]; intros [|n] H; cbn in *; try discriminate; auto; [now inversion H|now rewrite IH]. Qed.
Lemma put_length {A} (l : list A) n a : List.length (put l n a) = List.length l.
Proof. revert n. induction l as [|x l IH]; intros [|n]; cbn; auto. Qed.
Lemma nth_app {A} (l r : list A) n a : nth_error l n = Some a -> nth_error (l ++ r) n = Some a.
Proof. intros H. rewrite nth_error_app1; auto. apply nth_error_Some. congruence. Qed.

(** ** Relations that every step of a callback keeps *)
Section Rel.
Context {S : Type} (R : S -> S -> Prop) (Rr : forall s, R s s) (Rt : forall a b c, R a b -> R b c -> R a c).
Lemma try_map_st_rel {A B X} (f : S -> A -> res (S * Result B X)) l : (forall s a s' r, f s a = Ok (s', r) -> R s s') ->
  forall s s' r, try_map_st f l s = Ok (s', r) -> R s s'.
Proof.
  intros F. induction l as [|a l IH]; cbn [try_map_st]; intros s s' r H; [inversion H; subst; auto|].
  bound H p E. destruct p as [s1 q]. apply F in E. destruct q as [b|e]; [|inversion H; subst; auto].
  bound H p E2. destruct p as [s2 q]. apply IH in E2. destruct q; inversion H; subst; eauto.
Qed.
Lemma try_mod_list_rel {A T X} (f : S -> A -> res (S * Result T X)) old l : (forall s a s' r, f s a = Ok (s', r) -> R s s') ->
  forall s s' d r, try_mod_list f old s l = Ok (s', d, r) -> R s s'.
Proof.
  intros F. induction l as [|a l IH]; cbn [try_mod_list]; intros s s' d r H; [inversion H; subst; auto|].
  bound H p E. destruct p as [s1 q]. apply F in E. destruct q as [b|e]; [|inversion H; subst; auto].
  bound H p E2. destruct p as [[s2 l2] q]. apply IH in E2. inversion H; subst; eauto.
Qed.
Lemma mod_rel {X} (f : S -> Rgb -> res (S * Result Rgb X)) i : (forall s a s' r, f s a = Ok (s', r) -> R s s') ->
  forall s s' i' r, py_mod_colors f s i = Ok (s', i', r) -> R s s'.
Proof.
  intros F s s' i' r H. unfold py_mod_colors in H. bound H p E. destruct p as [[s1 b] q]. inversion H; subst.
  unfold try_mod_colors in E. bound E p E2. destruct p as [[s2 d] q2]. inversion E; subst. eapply try_mod_list_rel; eauto.
Qed.
Lemma mod_enum_rel {X} (f : S -> Z -> Z -> Rgb -> res (S * Result Rgb X)) i : (forall s x y a s' r, f s x y a = Ok (s', r) -> R s s') ->
  forall s s' i' r, py_mod_colors_enumerated f s i = Ok (s', i', r) -> R s s'.
Proof.
  intros F s s' i' r H. unfold py_mod_colors_enumerated in H. bound H items E0. bound H p E. destruct p as [[s1 b] q]. inversion H; subst.
  eapply try_mod_list_rel; [|exact E]. intros t [[x y] c] t' r' Q. eapply F. exact Q.
Qed.
Lemma map_rel {X} (f : S -> Rgb -> res (S * Result Rgb X)) i : (forall s a s' r, f s a = Ok (s', r) -> R s s') ->
  forall s s' r, py_map_colors f s i = Ok (s', r) -> R s s'.
Proof.
  intros F s s' r H. unfold py_map_colors, image_try_map_colors in H. bound H p E. destruct p as [s1 q]. inversion H; subst.
  unfold try_map_colors in E. bound E p E2. destruct p as [s2 q2]. inversion E; subst. eapply try_map_st_rel; eauto.
Qed.
Lemma map_enum_rel {X} (f : S -> Z -> Z -> Rgb -> res (S * Result Rgb X)) i : (forall s x y a s' r, f s x y a = Ok (s', r) -> R s s') ->
  forall s s' r, py_map_colors_enumerated f s i = Ok (s', r) -> R s s'.
Proof.
  intros F s s' r H. unfold py_map_colors_enumerated in H. bound H items E0. bound H p E. destruct p as [s1 q]. inversion H; subst.
  eapply try_map_st_rel; [|exact E]. intros t [[x y] c] t' r' Q. eapply F. exact Q.
Qed.
Lemma compose_rel {X} m l d (f : S -> Z -> Z -> list Rgb -> res (S * Result Rgb X)) : (forall s x y a s' r, f s x y a = Ok (s', r) -> R s s') ->
  forall s s' r, py_compose m l d f s = Ok (s', r) -> R s s'.
Proof.
  intros F s s' r H. unfold py_compose, image_try_compose_slice in H. bound H p E. destruct p as [s1 q].
  assert (s1 = s'). { destruct q; [bound H fst0 E1|]; inversion H; subst; auto. } subst s1. clear H.
  unfold try_compose_slice in E. bound E u E0. bound E w E1. bound E h E2. unfold try_new_from_func in E. bound E v E3. bound E n E4.
  bound E p E5. destruct p as [s2 q2]. inversion E; subst. eapply try_map_st_rel; [|exact E5].
  intros t i t' r' Q. bound Q z Q0. bound Q px Q1. eapply F. exact Q.
Qed.
Lemma channels_rel {X} k (f : S -> f32 -> res (S * Result f32 X)) c : (forall s a s' r, f s a = Ok (s', r) -> R s s') ->
  forall s s' r, try_map_color_channels k f s c = Ok (s', r) -> R s s'.
Proof.
  intros F s s' r H. unfold try_map_color_channels in H. bound H p E. destruct p as [s1 q]. apply F in E. destruct q as [a|e]; [|inversion H; subst; auto].
  bound H p E1. destruct p as [s2 q]. apply F in E1. destruct q as [b|e]; [|inversion H; subst; eauto].
  bound H p E2. destruct p as [s3 q]. apply F in E2. destruct q as [v|e]; inversion H; subst; eauto.
Qed.
End Rel.

(** ** Guarded objects *)
Lemma guarded_refl {A} (l : list (cell A)) : guarded l l.
Proof. intros n c H. exists c. auto. Qed.
Lemma guarded_trans {A} (a b c : list (cell A)) : guarded a b -> guarded b c -> guarded a c.
Proof.
  intros H K n x N. destruct (H n x N) as (y & Y & F & E). destruct (K n y Y) as (z & Z & G & J). exists z. split; [exact Z|]. split; [congruence|].
  intros Q. rewrite J by congruence. auto.
Qed.
Lemma guarded_app {A} (l r : list (cell A)) : guarded l (l ++ r).
Proof. intros n c H. exists c. split; [now apply nth_app|auto]. Qed.
Lemma guarded_put {A} (l : list (cell A)) n v w : nth_error l n = Some (mkCell Free v) -> guarded l (put l n (mkCell Free w)).
Proof.
  intros H k c K. destruct (PeanoNat.Nat.eq_dec k n) as [->|N].
  - rewrite H in K. inversion K; subst. exists (mkCell Free w). split; [eapply put_same; eauto|]. split; [reflexivity|]. intros Q. now destruct Q.
  - exists c. rewrite put_other by exact N. auto.
Qed.
Lemma world_refl {V} (w : world V) : guarded_world w w.
Proof. split; apply guarded_refl. Qed.
Lemma world_trans {V} (a b c : world V) : guarded_world a b -> guarded_world b c -> guarded_world a c.
Proof. intros [A B] [C D]. split; eapply guarded_trans; eauto. Qed.

Lemma borrow_mut_ok {A} (l : list (cell A)) n l' a : borrow_mut l n = ROk (l', a) -> nth_error l n = Some (mkCell Free a) /\ l' = put l n (mkCell Exclusive a).
Proof.
  unfold borrow_mut. destruct (nth_error l n) as [[f v]|] eqn:E; [|discriminate]. cbn [flag value]. destruct f; try discriminate. intros H. inversion H; subst. auto.
Qed.
Lemma borrow_ref_ok {A} (l : list (cell A)) n l' a : borrow_ref l n = ROk (l', a) ->
  exists f f', nth_error l n = Some (mkCell f a) /\ share f = ROk f' /\ unshare f' = f /\ f' <> Free /\ l' = put l n (mkCell f' a).
Proof.
  unfold borrow_ref. destruct (nth_error l n) as [[f v]|] eqn:E; [|discriminate]. cbn [flag value]. destruct f; cbn [share]; try discriminate; intros H; inversion H; subst.
  - exists Free, (Shared 0). repeat split; auto. discriminate.
  - exists (Shared n0), (Shared (S n0)). repeat split; auto. discriminate.
Qed.
Lemma read_ok {A} (l : list (cell A)) n a : read l n = ROk a -> exists f, nth_error l n = Some (mkCell f a) /\ f <> Exclusive.
Proof.
  unfold read. destruct (borrow_ref l n) as [[l' b]|] eqn:E; [|discriminate]. intros H. inversion H; subst. destruct (borrow_ref_ok _ _ _ _ E) as (f & f' & N & S & _).
  exists f. split; [exact N|]. intros ->. discriminate.
Qed.
Lemma guarded_mut {A} (l l1 l2 : list (cell A)) n a b : borrow_mut l n = ROk (l1, a) -> guarded l1 l2 -> guarded l (release_mut l2 n b).
Proof.
  intros B G. destruct (borrow_mut_ok _ _ _ _ B) as [N ->]. intros k c K. unfold release_mut. destruct (PeanoNat.Nat.eq_dec k n) as [->|NE].
  - rewrite N in K. inversion K; subst. destruct (G n (mkCell Exclusive a)) as (c' & C & _). { eapply put_same; eauto. }
    exists (mkCell Free b). split; [eapply put_same; eauto|]. split; [reflexivity|]. intros Q. now destruct Q.
  - rewrite put_other by exact NE. apply G. now rewrite put_other.
Qed.
Lemma guarded_ref {A} (l l1 l2 : list (cell A)) n a : borrow_ref l n = ROk (l1, a) -> guarded l1 l2 -> guarded l (release_ref l2 n).
Proof.
  intros B G. destruct (borrow_ref_ok _ _ _ _ B) as (f & f' & N & S & U & Z & ->). destruct (G n (mkCell f' a)) as ([g v] & C & F & E). { eapply put_same; eauto. }
  cbn [flag value] in *. subst g. specialize (E Z). subst v. unfold release_ref. rewrite C. cbn [flag value]. rewrite U.
  intros k c K. destruct (PeanoNat.Nat.eq_dec k n) as [->|NE].
  - rewrite N in K. inversion K; subst. eexists. split; [eapply put_same; eauto|]. auto.
  - rewrite put_other by exact NE. apply G. now rewrite put_other.
Qed.
Lemma guarded_all ns : forall l l1 l2 a, borrow_all l ns = Ok (l1, a) -> guarded l1 l2 -> guarded l (release_all l2 ns).
Proof.
  induction ns as [|n ns IH]; cbn [borrow_all release_all]; intros l l1 l2 a B G; [inversion B; subst; exact G|].
  destruct (borrow_ref l n) as [[l' i]|] eqn:E; [|discriminate]. bound B p P. destruct p as [l3 is]. inversion B; subst.
  eapply guarded_ref; [exact E|]. eapply IH; [exact P|exact G].
Qed.

Section Run.
Context {V : Type} (m : build) (E : encoders) (D : decoders) (L : libm).
Notation run := (@run V m E D L).

Lemma new_image_guarded (w : world V) i w' n : new_image w i = (w', n) -> guarded_world w w'.
Proof. intros H. inversion H; subst. split; cbn [images colours set_images]; [apply guarded_app|apply guarded_refl]. Qed.
Lemma new_colour_guarded (w : world V) i w' n : new_colour w i = (w', n) -> guarded_world w w'.
Proof. intros H. inversion H; subst. split; cbn [images colours set_colours]; [apply guarded_refl|apply guarded_app]. Qed.
Lemma new_colours_guarded l : forall (w : world V) w' n, new_colours w l = (w', n) -> guarded_world w w'.
Proof.
  induction l as [|c l IH]; cbn [new_colours]; intros w w' n H; [inversion H; subst; apply world_refl|].
  destruct (new_colour w (KRgb, c)) as [w1 n1] eqn:A. destruct (new_colours w1 l) as [w2 ns] eqn:B. inversion H; subst. eapply world_trans; [eapply new_colour_guarded; eauto|eauto].
Qed.
Lemma made_guarded (w : world V) r w' q : made w r = (w', q) -> guarded_world w w'.
Proof. unfold made. destruct r as [i|e]; intros H; [|inversion H; subst; apply world_refl]. destruct (new_image w i) as [w1 n] eqn:A. inversion H; subst. eapply new_image_guarded; eauto. Qed.

Lemma give_image_ok (w : world V) r w' q : give_image w r = Ok (w', q) -> w' = w \/ exists i, w' = set_images w (images w ++ [mkCell Free i]).
Proof.
  unfold give_image. intros H. bound H x X. destruct x as [i|e]; [|left; unfold raise in H; now inversion H]. cbv beta iota zeta delta [new_image give] in H. right. exists i. now inversion H.
Qed.

(** ** What a method without callback does *)
Lemma perform_images (o : op) (w : world V) w' r : perform m E D L o w = Ok (w', r) -> forall n c, nth_error (images w) n = Some c ->
  ~ changes_image o n -> nth_error (images w') n = Some c.
Proof.
  intros H n c N K.
  assert (GI : forall x, give_image w x = Ok (w', r) -> nth_error (images w') n = Some c).
  { intros x G. apply give_image_ok in G. destruct G as [->|(i & ->)]; [exact N|]. cbn [images set_images]. now apply nth_app. }
  destruct o; cbn [perform changes_image] in *; unfold need, raise, give, give_colour in H.
  - inversion H; subst. exact N.
  - destruct (read _ _); [|now inversion H; subst]. destruct (getter _ _ _); inversion H; subst; exact N.
  - destruct (borrow_mut _ _) as [[l p]|]; [|now inversion H; subst]. destruct (setter _ _ _ _); inversion H; subst; exact N.
  - destruct color; [|eauto]. destruct (extract_rgb _ _); [eauto|now inversion H; subst].
  - destruct (read _ _); [|now inversion H; subst]. bound H q Q. destruct q as [[q|]|]; inversion H; subst; exact N.
  - destruct (read _ _); [|now inversion H; subst]. bound H q Q. destruct q as [q|]; inversion H; subst; exact N.
  - destruct (borrow_mut _ _) as [[l p]|] eqn:B; [|now inversion H; subst]. destruct (extract_rgb _ _); [|now inversion H; subst]. bound H q Q. destruct q as [q|]; inversion H; subst; [|exact N].
    apply borrow_mut_ok in B. destruct B as [_ ->]. cbn [images set_images]. unfold release_mut. rewrite !put_other by exact K. exact N.
  - destruct (borrow_mut _ _) as [[l p]|] eqn:B; [|now inversion H; subst]. destruct (py_save _ _ _ _ _ _) as [s q]. destruct q; inversion H; subst; exact N.
  - destruct (read _ _); [eauto|now inversion H; subst].
  - destruct (read _ _); [|now inversion H; subst]. destruct (read _ _); [eauto|now inversion H; subst].
  - destruct (read _ _); [|now inversion H; subst]. destruct (read _ _); [eauto|now inversion H; subst].
  - destruct (borrow_mut _ _) as [[l p]|] eqn:B; [|now inversion H; subst]. destruct (read _ _); [|now inversion H; subst]. bound H q Q. destruct q as [q|]; inversion H; subst; [|exact N].
    apply borrow_mut_ok in B. destruct B as [_ ->]. cbn [images set_images]. unfold release_mut. rewrite !put_other by exact K. exact N.
Qed.
Lemma perform_colours (o : op) (w : world V) w' r : perform m E D L o w = Ok (w', r) -> forall n c, nth_error (colours w) n = Some c ->
  ~ changes_colour o n -> nth_error (colours w') n = Some c.
Proof.
  intros H n c N K.
  assert (GI : forall x, give_image w x = Ok (w', r) -> nth_error (colours w') n = Some c).
  { intros x G. apply give_image_ok in G. destruct G as [->|(i & ->)]; exact N. }
  destruct o; cbn [perform changes_colour] in *; unfold need, raise, give, give_colour in H.
  - inversion H; subst. now apply nth_app.
  - destruct (read _ _); [|now inversion H; subst]. destruct (getter _ _ _); inversion H; subst; exact N.
  - destruct (borrow_mut _ _) as [[l p]|] eqn:B; [|now inversion H; subst]. destruct (setter _ _ _ _); inversion H; subst; [|exact N].
    apply borrow_mut_ok in B. destruct B as [_ ->]. cbn [colours set_colours]. unfold release_mut. rewrite !put_other by exact K. exact N.
  - destruct color; [|eauto]. destruct (extract_rgb _ _); [eauto|now inversion H; subst].
  - destruct (read _ _); [|now inversion H; subst]. bound H q Q. destruct q as [[q|]|]; inversion H; subst; try exact N. now apply nth_app.
  - destruct (read _ _); [|now inversion H; subst]. bound H q Q. destruct q as [q|]; inversion H; subst; [|exact N]. now apply nth_app.
  - destruct (borrow_mut _ _) as [[l p]|] eqn:B; [|now inversion H; subst]. destruct (extract_rgb _ _); [|now inversion H; subst]. bound H q Q. destruct q as [q|]; inversion H; subst; exact N.
  - destruct (borrow_mut _ _) as [[l p]|] eqn:B; [|now inversion H; subst]. destruct (py_save _ _ _ _ _ _) as [s q]. destruct q; inversion H; subst; exact N.
  - destruct (read _ _); [eauto|now inversion H; subst].
  - destruct (read _ _); [|now inversion H; subst]. destruct (read _ _); [eauto|now inversion H; subst].
  - destruct (read _ _); [|now inversion H; subst]. destruct (read _ _); [eauto|now inversion H; subst].
  - destruct (borrow_mut _ _) as [[l p]|] eqn:B; [|now inversion H; subst]. destruct (read _ _); [|now inversion H; subst]. bound H q Q. destruct q as [q|]; inversion H; subst; exact N.
Qed.
(** A changed object was free and is free again. *)
Lemma perform_changed (o : op) (w : world V) w' r : perform m E D L o w = Ok (w', r) ->
  (forall n c, changes_image o n -> nth_error (images w) n = Some c -> exists c', nth_error (images w') n = Some c' /\ (c' = c \/ flag c = Free /\ flag c' = Free)) /\
  (forall n c, changes_colour o n -> nth_error (colours w) n = Some c -> exists c', nth_error (colours w') n = Some c' /\ (c' = c \/ flag c = Free /\ flag c' = Free)).
Proof.
  intros H. split; intros n c C N; destruct o; cbn [changes_image changes_colour] in C; try tauto; subst n; cbn [perform] in H; unfold need, raise, give in H.
  - destruct (borrow_mut _ _) as [[l p]|] eqn:B; [|inversion H; subst; eauto]. destruct (extract_rgb _ _); [|inversion H; subst; eauto]. bound H q Q. destruct q as [q|]; inversion H; subst; [|eauto].
    apply borrow_mut_ok in B. destruct B as [B ->]. cbn [images set_images]. unfold release_mut. rewrite put_put. rewrite N in B. inversion B; subst. eexists. split; [eapply put_same; eauto|]. right. auto.
  - destruct (borrow_mut _ _) as [[l p]|] eqn:B; [|inversion H; subst; eauto]. destruct (read _ _); [|inversion H; subst; eauto]. bound H q Q. destruct q as [q|]; inversion H; subst; [|eauto].
    apply borrow_mut_ok in B. destruct B as [B ->]. cbn [images set_images]. unfold release_mut. rewrite put_put. rewrite N in B. inversion B; subst. eexists. split; [eapply put_same; eauto|]. right. auto.
  - destruct (borrow_mut _ _) as [[l p]|] eqn:B; [|inversion H; subst; eauto]. destruct (setter _ _ _ _) as [q|]; inversion H; subst; [|eauto].
    apply borrow_mut_ok in B. destruct B as [B ->]. cbn [colours set_colours]. unfold release_mut. rewrite put_put. rewrite N in B. inversion B; subst. eexists. split; [eapply put_same; eauto|]. right. auto.
Qed.
Lemma changes_image_dec o n : changes_image o n \/ ~ changes_image o n.
Proof. destruct o; cbn [changes_image]; auto; destruct (PeanoNat.Nat.eq_dec n i); auto. Qed.
Lemma changes_colour_dec o n : changes_colour o n \/ ~ changes_colour o n.
Proof. destruct o; cbn [changes_colour]; auto; destruct (PeanoNat.Nat.eq_dec n c); auto. Qed.
Lemma perform_guarded o (w : world V) w' r : perform m E D L o w = Ok (w', r) -> guarded_world w w'.
Proof.
  intros H. destruct (perform_changed o w w' r H) as [CI CC]. split; intros n c N.
  - destruct (changes_image_dec o n) as [K|K].
    + destruct (CI n c K N) as (c' & C & Q). exists c'. split; [exact C|]. destruct Q as [->|[F F']]; [auto|]. split; [congruence|]. intros Q. congruence.
    + exists c. split; [eapply perform_images; eauto|auto].
  - destruct (changes_colour_dec o n) as [K|K].
    + destruct (CC n c K N) as (c' & C & Q). exists c'. split; [exact C|]. destruct Q as [->|[F F']]; [auto|]. split; [congruence|]. intros Q. congruence.
    + exists c. split; [eapply perform_colours; eauto|auto].
Qed.

(** ** Programs *)
Definition keeps (R : world V -> world V -> Prop) (a : act V) : Prop := forall w w' r, run a w = Ok (w', r) -> R w w'.
Lemma call_back_rel (R : world V -> world V -> Prop) (Rt : forall a b c, R a b -> R b c -> R a c) (Rn : forall w c w' n, new_colour w c = (w', n) -> R w w') (f : nat -> act V) :
  (forall n, keeps R (f n)) -> forall w c w' r, call_back (fun n => run (f n)) w c = Ok (w', r) -> R w w'.
Proof.
  intros F w c w' r H. unfold call_back in H. destruct (new_colour w (KRgb, c)) as [w1 n] eqn:N. bound H p P. destruct p as [w2 q]. apply F in P. inversion H; subst. eauto.
Qed.
Lemma call_back_list_rel (R : world V -> world V -> Prop) (Rt : forall a b c, R a b -> R b c -> R a c) (Rn : forall w l w' n, new_colours w l = (w', n) -> R w w') (f : list nat -> act V) :
  (forall n, keeps R (f n)) -> forall w c w' r, call_back_list (fun n => run (f n)) w c = Ok (w', r) -> R w w'.
Proof.
  intros F w c w' r H. unfold call_back_list in H. destruct (new_colours w c) as [w1 n] eqn:N. bound H p P. destruct p as [w2 q]. apply F in P. inversion H; subst. eauto.
Qed.
Lemma call_back_f32_rel (R : world V -> world V -> Prop) (f : f32 -> act V) :
  (forall v, keeps R (f v)) -> forall w c w' r, call_back_f32 (fun n => run (f n)) w c = Ok (w', r) -> R w w'.
Proof. intros F w c w' r H. unfold call_back_f32 in H. bound H p P. destruct p as [w2 q]. apply F in P. inversion H; subst. exact P. Qed.

Lemma run_guarded (a : act V) : keeps guarded_world a.
Proof.
  pose proof (@world_refl V) as RR. pose proof (@world_trans V) as RT.
  induction a as [r|k IH|v k IH|o k IH|i f IF k IH|i f IF k IH|i f IF k IH|i f IF k IH|ns d f IF k IH|c f IF k IH]; intros w w' q H; cbn [PyObjects.run] in H.
  - inversion H; subst. apply RR.
  - eapply IH; eauto.
  - apply IH in H. exact H.
  - bound H p P. destruct p as [w1 q1]. apply IH in H. apply perform_guarded in P. eauto.
  - destruct (borrow_mut (images w) i) as [[l img]|e] eqn:B; [|eapply IH; eauto].
    bound H p P. destruct p as [[w1 i1] q1]. apply IH in H. apply (mod_rel guarded_world RR RT) in P; [|apply (call_back_rel _ RT new_colour_guarded f IF)].
    eapply RT; [|exact H]. destruct P as [PI PC]. split; cbn [images colours set_images] in *; [|exact PC]. eapply guarded_mut; eauto.
  - destruct (borrow_mut (images w) i) as [[l img]|e] eqn:B; [|eapply IH; eauto].
    bound H p P. destruct p as [[w1 i1] q1]. apply IH in H. apply (mod_enum_rel guarded_world RR RT) in P; [|intros s x y; apply (call_back_rel _ RT new_colour_guarded (f x y) (IF x y))].
    eapply RT; [|exact H]. destruct P as [PI PC]. split; cbn [images colours set_images] in *; [|exact PC]. eapply guarded_mut; eauto.
  - destruct (borrow_ref (images w) i) as [[l img]|e] eqn:B; [|eapply IH; eauto].
    bound H p P. destruct p as [w1 q1]. apply (map_rel guarded_world RR RT) in P; [|apply (call_back_rel _ RT new_colour_guarded f IF)].
    destruct (made _ q1) as [w2 q2] eqn:M. apply IH in H. apply made_guarded in M. eapply RT; [|exact H]. eapply RT; [|exact M].
    destruct P as [PI PC]. split; cbn [images colours set_images] in *; [|exact PC]. eapply guarded_ref; eauto.
  - destruct (borrow_ref (images w) i) as [[l img]|e] eqn:B; [|eapply IH; eauto].
    bound H p P. destruct p as [w1 q1]. apply (map_enum_rel guarded_world RR RT) in P; [|intros s x y; apply (call_back_rel _ RT new_colour_guarded (f x y) (IF x y))].
    destruct (made _ q1) as [w2 q2] eqn:M. apply IH in H. apply made_guarded in M. eapply RT; [|exact H]. eapply RT; [|exact M].
    destruct P as [PI PC]. split; cbn [images colours set_images] in *; [|exact PC]. eapply guarded_ref; eauto.
  - destruct (match d with Some c => extract_rgb w (VColor c) | None => ROk RGB_NONE end) as [dc|e]; [|eapply IH; eauto].
    destruct (all_images w ns); [|eapply IH; eauto]. bound H p0 B. destruct p0 as [l imgs].
    bound H p P. destruct p as [w1 q1]. apply (compose_rel guarded_world RR RT) in P; [|intros s x y; apply (call_back_list_rel _ RT (fun w l => new_colours_guarded l w) (f x y) (IF x y))].
    destruct (made _ q1) as [w2 q2] eqn:M. apply IH in H. apply made_guarded in M. eapply RT; [|exact H]. eapply RT; [|exact M].
    destruct P as [PI PC]. split; cbn [images colours set_images] in *; [|exact PC]. eapply guarded_all; eauto.
  - destruct (borrow_ref (colours w) c) as [[l p0]|e] eqn:B; [|eapply IH; eauto].
    bound H p P. destruct p as [w1 q1]. apply (channels_rel guarded_world RT) in P; [|apply (call_back_f32_rel _ f IF)].
    assert (G : guarded_world w (set_colours w1 (release_ref (colours w1) c))).
    { destruct P as [PI PC]. split; cbn [images colours set_colours] in *; [exact PI|]. eapply guarded_ref; eauto. }
    destruct q1 as [q2|e]; [|apply IH in H; eauto]. destruct (new_colour _ (fst p0, q2)) as [w2 n] eqn:N. apply IH in H. apply new_colour_guarded in N. eauto.
Qed.

(** ** An image nobody changes *)
Definition same_image (i : nat) (w w' : world V) : Prop := forall c, nth_error (images w) i = Some c -> nth_error (images w') i = Some c.
Lemma same_trans i a b c : same_image i a b -> same_image i b c -> same_image i a c.
Proof. unfold same_image. auto. Qed.
Lemma same_refl i a : same_image i a a.
Proof. unfold same_image. auto. Qed.
Lemma same_new_colour i w c w' n : new_colour w c = (w', n) -> same_image i w w'.
Proof. intros H. inversion H; subst. intros x X. exact X. Qed.
Lemma same_new_image i w c w' n : new_image w c = (w', n) -> same_image i w w'.
Proof. intros H. inversion H; subst. intros x X. cbn [images set_images]. now apply nth_app. Qed.
Lemma same_new_colours i l : forall w w' n, new_colours w l = (w', n) -> same_image i w w'.
Proof.
  induction l as [|c l IH]; cbn [new_colours]; intros w w' n H; [inversion H; subst; apply same_refl|].
  destruct (new_colour w (KRgb, c)) as [w1 n1] eqn:A. destruct (new_colours w1 l) as [w2 ns] eqn:B. inversion H; subst. eapply same_trans; [eapply same_new_colour; eauto|eauto].
Qed.
Lemma same_made i (w : world V) r w' q : made w r = (w', q) -> same_image i w w'.
Proof. unfold made. destruct r as [x|e]; intros H; [|inversion H; subst; apply same_refl]. destruct (new_image w x) as [w1 n] eqn:A. inversion H; subst. eapply same_new_image; eauto. Qed.
Lemma same_mut i j (w w1 : world V) l img img' : j <> i -> borrow_mut (images w) j = ROk (l, img) -> same_image i (set_images w l) w1 ->
  same_image i w (set_images w1 (release_mut (images w1) j img')).
Proof.
  intros N B S c C. destruct (borrow_mut_ok _ _ _ _ B) as [_ ->]. cbn [images set_images] in *. unfold release_mut. rewrite put_other by auto. apply S. cbn [images set_images]. now rewrite put_other by auto.
Qed.
Lemma same_ref i (l l1 : list (cell Image)) l2 n a c : borrow_ref l n = ROk (l1, a) -> guarded l1 l2 -> (forall c, nth_error l1 i = Some c -> nth_error l2 i = Some c) ->
  nth_error l i = Some c -> nth_error (release_ref l2 n) i = Some c.
Proof.
  intros B G S C. destruct (borrow_ref_ok _ _ _ _ B) as (f & f' & N & Sh & U & Z & ->). unfold release_ref.
  destruct (PeanoNat.Nat.eq_dec i n) as [->|NE].
  - pose proof (put_same _ _ (mkCell f' a) _ N) as P. apply S in P. rewrite P. cbn [flag value]. rewrite U. rewrite N in C. inversion C; subst. eapply put_same; eauto.
  - destruct (nth_error l2 n); [rewrite put_other by exact NE|]; apply S; now rewrite put_other.
Qed.
Lemma same_all i ns : forall (l l1 : list (cell Image)) l2 a c, borrow_all l ns = Ok (l1, a) -> guarded l1 l2 -> (forall c, nth_error l1 i = Some c -> nth_error l2 i = Some c) ->
  nth_error l i = Some c -> nth_error (release_all l2 ns) i = Some c.
Proof.
  induction ns as [|n ns IH]; cbn [borrow_all release_all]; intros l l1 l2 a c B G S C; [inversion B; subst; auto|].
  destruct (borrow_ref l n) as [[l' x]|] eqn:E0; [|discriminate]. bound B p P. destruct p as [l3 is]. inversion B; subst.
  eapply same_ref; [exact E0|eapply guarded_all; eauto| |exact C]. intros c' C'. eapply IH; eauto.
Qed.
Definition both i (w w' : world V) : Prop := guarded_world w w' /\ same_image i w w'.
Lemma both_refl i w : both i w w.
Proof. split; [apply world_refl|apply same_refl]. Qed.
Lemma both_trans i a b c : both i a b -> both i b c -> both i a c.
Proof. intros [A B] [C F]. split; [eapply world_trans; eauto|eapply same_trans; eauto]. Qed.
Lemma both_new i w c w' n : new_colour w c = (w', n) -> both i w w'.
Proof. intros H. split; [eapply new_colour_guarded; eauto|eapply same_new_colour; eauto]. Qed.
Lemma both_news i w l w' n : new_colours w l = (w', n) -> both i w w'.
Proof. intros H. split; [eapply new_colours_guarded; eauto|eapply same_new_colours; eauto]. Qed.
Lemma run_same i (a : act V) : leaves_alone i a -> keeps (both i) a.
Proof.
  pose proof (both_refl i) as RR. pose proof (both_trans i) as RT.
  assert (GS : forall a, keeps (same_image i) a -> keeps (both i) a). { intros a0 K w w' r H. split; [eapply run_guarded; eauto|eapply K; eauto]. }
  induction a as [r|k IH|v k IH|o k IH|j f IF k IH|j f IF k IH|j f IF k IH|j f IF k IH|ns d f IF k IH|c f IF k IH]; cbn [leaves_alone]; intros A; apply GS; intros w w' q H; cbn [PyObjects.run] in H.
  - inversion H; subst. apply same_refl.
  - eapply (IH (vars w)); eauto.
  - apply (IH A) in H. exact (proj2 H).
  - destruct A as [A AK]. bound H p P. destruct p as [w1 q1]. apply (IH _ (AK _)) in H. destruct H as [_ H]. eapply same_trans; [|exact H].
    intros x X. eapply perform_images; eauto.
  - destruct A as (N & AF & AK). destruct (borrow_mut (images w) j) as [[l img]|e] eqn:B; [|eapply (IH _ (AK _)); eauto].
    bound H p P. destruct p as [[w1 i1] q1]. apply (IH _ (AK _)) in H. apply (mod_rel (both i) RR RT) in P; [|apply (call_back_rel _ RT (both_new i) f (fun n => IF n (AF n)))].
    eapply same_trans; [|exact (proj2 H)]. eapply same_mut; eauto. exact (proj2 P).
  - destruct A as (N & AF & AK). destruct (borrow_mut (images w) j) as [[l img]|e] eqn:B; [|eapply (IH _ (AK _)); eauto].
    bound H p P. destruct p as [[w1 i1] q1]. apply (IH _ (AK _)) in H. apply (mod_enum_rel (both i) RR RT) in P; [|intros s x y; apply (call_back_rel _ RT (both_new i) (f x y) (fun n => IF x y n (AF x y n)))].
    eapply same_trans; [|exact (proj2 H)]. eapply same_mut; eauto. exact (proj2 P).
  - destruct A as (AF & AK). destruct (borrow_ref (images w) j) as [[l img]|e] eqn:B; [|eapply (IH _ (AK _)); eauto].
    bound H p P. destruct p as [w1 q1]. apply (map_rel (both i) RR RT) in P; [|apply (call_back_rel _ RT (both_new i) f (fun n => IF n (AF n)))].
    destruct (made _ q1) as [w2 q2] eqn:M. apply (IH _ (AK _)) in H. apply (same_made i) in M. eapply same_trans; [|exact (proj2 H)]. eapply same_trans; [|exact M].
    destruct P as [[PI PC] PS]. intros x X. cbn [images set_images] in *. eapply same_ref; eauto.
  - destruct A as (AF & AK). destruct (borrow_ref (images w) j) as [[l img]|e] eqn:B; [|eapply (IH _ (AK _)); eauto].
    bound H p P. destruct p as [w1 q1]. apply (map_enum_rel (both i) RR RT) in P; [|intros s x y; apply (call_back_rel _ RT (both_new i) (f x y) (fun n => IF x y n (AF x y n)))].
    destruct (made _ q1) as [w2 q2] eqn:M. apply (IH _ (AK _)) in H. apply (same_made i) in M. eapply same_trans; [|exact (proj2 H)]. eapply same_trans; [|exact M].
    destruct P as [[PI PC] PS]. intros x X. cbn [images set_images] in *. eapply same_ref; eauto.
  - destruct A as (AF & AK). destruct (match d with Some c => extract_rgb w (VColor c) | None => ROk RGB_NONE end) as [dc|e]; [|eapply (IH _ (AK _)); eauto].
    destruct (all_images w ns); [|eapply (IH _ (AK _)); eauto]. bound H p0 B. destruct p0 as [l imgs].
    bound H p P. destruct p as [w1 q1]. apply (compose_rel (both i) RR RT) in P; [|intros s x y; apply (call_back_list_rel _ RT (both_news i) (f x y) (fun n => IF x y n (AF x y n)))].
    destruct (made _ q1) as [w2 q2] eqn:M. apply (IH _ (AK _)) in H. apply (same_made i) in M. eapply same_trans; [|exact (proj2 H)]. eapply same_trans; [|exact M].
    destruct P as [[PI PC] PS]. intros x X. cbn [images set_images] in *. eapply same_all; eauto.
  - destruct A as (AF & AK). destruct (borrow_ref (colours w) c) as [[l p0]|e] eqn:B; [|eapply (IH _ (AK _)); eauto].
    bound H p P. destruct p as [w1 q1]. apply (channels_rel (both i) RT) in P; [|apply (call_back_f32_rel _ f (fun v => IF v (AF v)))].
    assert (G : same_image i w (set_colours w1 (release_ref (colours w1) c))) by exact (proj2 P).
    destruct q1 as [q2|e]; [|apply (IH _ (AK _)) in H; eapply same_trans; [exact G|exact (proj2 H)]]. destruct (new_colour _ (fst p0, q2)) as [w2 n] eqn:N.
    apply (IH _ (AK _)) in H. apply (same_new_colour i) in N. eapply same_trans; [exact G|]. eapply same_trans; [exact N|exact (proj2 H)].
Qed.

(** ** Objects in use *)
Lemma read_busy {A} (l : list (cell A)) n v : nth_error l n = Some (mkCell Exclusive v) -> read l n = RErr AlreadyMutablyBorrowed.
Proof. intros H. unfold read, borrow_ref. rewrite H. reflexivity. Qed.
Lemma mut_busy {A} (l : list (cell A)) n c : nth_error l n = Some c -> flag c <> Free -> borrow_mut l n = RErr AlreadyBorrowed.
Proof. intros H F. unfold borrow_mut. rewrite H. destruct (flag c); [now destruct F| |]; reflexivity. Qed.
Lemma read_either {A} (l : list (cell A)) n c : nth_error l n = Some c -> read l n = ROk (value c) \/ read l n = RErr AlreadyMutablyBorrowed.
Proof. intros H. unfold read, borrow_ref. rewrite H. destruct (flag c); cbn [share]; auto. Qed.
Lemma mut_either {A} (l : list (cell A)) n c : nth_error l n = Some c -> borrow_mut l n = ROk (put l n (mkCell Exclusive (value c)), value c) \/ borrow_mut l n = RErr AlreadyBorrowed.
Proof. intros H. unfold borrow_mut. rewrite H. destruct (flag c); auto. Qed.

Lemma busy_taken o (w : world V) i c : In i (takes o) -> nth_error (images w) i = Some c -> flag c <> Free -> perform m E D L o w = Ok (w, RErr AlreadyBorrowed).
Proof.
  intros T N F. pose proof (mut_busy _ _ _ N F) as B. destruct o; cbn [takes In] in T; try tauto; destruct T as [->|[]]; cbn [perform]; rewrite B; reflexivity.
Qed.
Lemma busy_needed o (w : world V) i v : refers w (needs o) -> In i (needs o) -> nth_error (images w) i = Some (mkCell Exclusive v) ->
  exists e, perform m E D L o w = Ok (w, RErr e) /\ in_use e.
Proof.
  intros RF T N. pose proof (read_busy _ _ _ N) as B. assert (BM : borrow_mut (images w) i = RErr AlreadyBorrowed) by (eapply mut_busy; [exact N|discriminate]).
  destruct o; cbn [needs In] in T; try tauto; cbn [perform needs] in *.
  1,2,5: destruct T as [->|[]]; rewrite B; eexists; split; [reflexivity|left; reflexivity].
  1,2: destruct T as [->|[]]; rewrite BM; eexists; split; [reflexivity|right; reflexivity].
  1,2: destruct T as [->|[->|[]]]; [rewrite B; eexists; split; [reflexivity|left; reflexivity]|];
    destruct (RF i0 (or_introl eq_refl)) as [c0 N0]; destruct (read_either _ _ _ N0) as [-> | ->]; cbn [need]; [rewrite B|]; eexists; (split; [reflexivity|left; reflexivity]).
  destruct T as [->|[->|[]]]; [rewrite BM; eexists; split; [reflexivity|right; reflexivity]|].
  destruct (RF i0 (or_introl eq_refl)) as [c0 N0]. destruct (mut_either _ _ _ N0) as [-> | ->]; cbn [need]; [|eexists; split; [reflexivity|right; reflexivity]].
  destruct (PeanoNat.Nat.eq_dec i i0) as [->|NE].
  - rewrite (read_busy (put (images w) i0 (mkCell Exclusive (value c0))) i0 (value c0)) by (eapply put_same; eauto). eexists. split; [reflexivity|left; reflexivity].
  - rewrite (read_busy (put (images w) i0 (mkCell Exclusive (value c0))) i v) by (rewrite put_other by exact NE; exact N). eexists. split; [reflexivity|left; reflexivity].
Qed.
Lemma palette_itself (w : world V) i c : nth_error (images w) i = Some c -> exists e, perform m E D L (OApplyPaletteInPlace i i) w = Ok (w, RErr e) /\ in_use e.
Proof.
  intros N. cbn [perform]. destruct (mut_either _ _ _ N) as [-> | ->]; cbn [need]; [|eexists; split; [reflexivity|right; reflexivity]].
  rewrite (read_busy (put (images w) i (mkCell Exclusive (value c))) i (value c)) by (eapply put_same; eauto). eexists. split; [reflexivity|left; reflexivity].
Qed.
Lemma busy_methods (w : world V) i c : nth_error (images w) i = Some c ->
  (flag c <> Free -> forall f k, run (ModColors i f k) w = run (k (RErr AlreadyBorrowed)) w) /\
  (flag c <> Free -> forall f k, run (ModColorsEnumerated i f k) w = run (k (RErr AlreadyBorrowed)) w) /\
  (flag c = Exclusive -> forall f k, run (MapColors i f k) w = run (k (RErr AlreadyMutablyBorrowed)) w) /\
  (flag c = Exclusive -> forall f k, run (MapColorsEnumerated i f k) w = run (k (RErr AlreadyMutablyBorrowed)) w).
Proof.
  intros N. split; [|split; [|split]]; intros F f k; cbn [PyObjects.run].
  1,2: rewrite (mut_busy _ _ _ N F); reflexivity.
  1,2: unfold borrow_ref; rewrite N, F; reflexivity.
Qed.

(** ** The calls of a function *)
Lemma extract_ok (w : world V) v d : extract_rgb w v = ROk d -> returned w (ROk v) d.
Proof.
  destruct v; cbn [extract_rgb]; try discriminate. destruct (nth_error (colours w) n) as [[f [k c]]|] eqn:N; [|discriminate]. cbn [value fst]. destruct k; try discriminate.
  destruct (read (colours w) n) as [p|] eqn:R; [|discriminate]. intros H. destruct (read_ok _ _ _ R) as (g & G & _). rewrite N in G. inversion G; subst. inversion H; subst.
  exists n, g. auto.
Qed.
Lemma extract_err (w : world V) v e : extract_rgb w v = RErr e -> failed (ROk v) e.
Proof.
  intros H. right. split; [eauto|]. destruct v; cbn [extract_rgb] in H; try (inversion H; auto; fail).
  destruct (nth_error (colours w) n) as [[f [k c]]|] eqn:N; [|inversion H; auto]. cbn [value fst] in H. destruct k; try (inversion H; auto; fail).
  destruct (read_either _ _ _ N) as [R|R]; rewrite R in H; inversion H. right. left. reflexivity.
Qed.
Lemma call_back_calls (f : nat -> act V) w c w' r : call_back (fun n => run (f n)) w c = Ok (w', r) ->
  exists q, calls m E D L f c w q w' /\ match r with ROk d => returned w' q d | RErr e => failed q e end.
Proof.
  unfold call_back. cbv beta iota zeta delta [new_colour]. intros H. bound H p P. destruct p as [w1 q]. exists q. inversion H; subst. split; [exact P|].
  destruct q as [v|e]; [|left; reflexivity]. destruct (extract_rgb w' v) as [d|e] eqn:X; [apply extract_ok; exact X|eapply extract_err; exact X].
Qed.
Lemma mod_calls (f : nat -> act V) l : forall w w' d r, try_mod_list (call_back (fun n => run (f n))) (fun p => p) w l = Ok (w', d, r) ->
  (r = ROk tt /\ all_called m E D L f l w d w') \/ (exists ds c rest e, r = RErr e /\ d = ds ++ c :: rest /\ stopped m E D L f l w ds w' c rest e).
Proof.
  induction l as [|c l IH]; cbn [try_mod_list]; intros w w' d r H.
  - inversion H; subst. left. split; [reflexivity|constructor].
  - bound H p P. destruct p as [w1 q]. apply call_back_calls in P. destruct P as (v & C & Q). destruct q as [b|e].
    + bound H p2 P2. destruct p2 as [[w2 l2] r2]. inversion H; subst. destruct (IH _ _ _ _ P2) as [[-> A] | (ds & c0 & rest & e & -> & -> & (cs & w3 & q3 & -> & A & K & F))].
      * left. split; [reflexivity|]. econstructor; eauto.
      * right. exists (b :: ds), c0, rest, e. split; [reflexivity|]. split; [reflexivity|]. exists (c :: cs), w3, q3. split; [reflexivity|]. split; [econstructor; eauto|]. auto.
    + inversion H; subst. right. exists [], c, l, e. split; [reflexivity|]. split; [cbn [app]; f_equal; apply map_id|]. exists [], w, v. split; [reflexivity|]. split; [constructor|]. auto.
Qed.
Lemma map_calls (f : nat -> act V) l : forall w w' r, try_map_st (call_back (fun n => run (f n))) l w = Ok (w', r) ->
  (exists d, r = ROk d /\ all_called m E D L f l w d w') \/ (exists ds c rest e, r = RErr e /\ stopped m E D L f l w ds w' c rest e).
Proof.
  induction l as [|c l IH]; cbn [try_map_st]; intros w w' r H.
  - inversion H; subst. left. exists []. split; [reflexivity|constructor].
  - bound H p P. destruct p as [w1 q]. apply call_back_calls in P. destruct P as (v & C & Q). destruct q as [b|e].
    + bound H p2 P2. destruct p2 as [w2 r2]. destruct (IH _ _ _ P2) as [(d & -> & A) | (ds & c0 & rest & e & -> & (cs & w3 & q3 & -> & A & K & F))]; inversion H; subst.
      * left. exists (b :: d). split; [reflexivity|]. econstructor; eauto.
      * right. exists (b :: ds), c0, rest, e. split; [reflexivity|]. exists (c :: cs), w3, q3. split; [reflexivity|]. split; [econstructor; eauto|]. auto.
    + inversion H; subst. right. exists [], c, l, e. split; [reflexivity|]. exists [], w, v. split; [reflexivity|]. split; [constructor|]. auto.
Qed.
Lemma mod_program (w : world V) i img f k x : nth_error (images w) i = Some (mkCell Free img) -> run (ModColors i f k) w = Ok x ->
  let busy := set_images w (put (images w) i (mkCell Exclusive img)) in
  exists w1 ds, (all_called m E D L f (data (buffer img)) busy ds w1 /\ run (k (ROk VNone)) (set_images w1 (put (images w1) i (mkCell Free (with_pixels img ds)))) = Ok x) \/
    (exists c rest e, stopped m E D L f (data (buffer img)) busy ds w1 c rest e /\ run (k (RErr e)) (set_images w1 (put (images w1) i (mkCell Free (with_pixels img (ds ++ c :: rest))))) = Ok x).
Proof.
  intros N H busy. cbn [PyObjects.run] in H. unfold borrow_mut in H. rewrite N in H. cbn [flag value] in H. fold busy in H.
  bound H p P. destruct p as [[w1 i1] r]. unfold py_mod_colors in P. bound P p2 P2. destruct p2 as [[w2 b] q]. inversion P; subst.
  unfold try_mod_colors in P2. bound P2 p3 P3. destruct p3 as [[w3 d] q3]. inversion P2; subst. exists w1.
  destruct (mod_calls _ _ _ _ _ _ P3) as [[-> A] | (ds & c & rest & e & -> & -> & S)].
  - exists d. left. split; [exact A|exact H].
  - exists ds. right. exists c, rest, e. split; [exact S|exact H].
Qed.
Lemma map_program (w : world V) i fl fl' img f k x : nth_error (images w) i = Some (mkCell fl img) -> share fl = ROk fl' -> run (MapColors i f k) w = Ok x ->
  let busy := set_images w (put (images w) i (mkCell fl' img)) in
  exists w1 ds, nth_error (images w1) i = Some (mkCell fl' img) /\ let w2 := set_images w1 (put (images w1) i (mkCell fl img)) in
    ((all_called m E D L f (data (buffer img)) busy ds w1 /\
      run (k (ROk (VImage (List.length (images w1))))) (set_images w2 (images w2 ++ [mkCell Free (with_pixels img ds)])) = Ok x) \/
    (exists c rest e, stopped m E D L f (data (buffer img)) busy ds w1 c rest e /\ run (k (RErr e)) w2 = Ok x)).
Proof.
  intros N S H busy. cbn [PyObjects.run] in H. unfold borrow_ref in H. rewrite N in H. cbn [flag value] in H. rewrite S in H. fold busy in H.
  bound H p P. destruct p as [w1 r]. exists w1.
  assert (K : nth_error (images w1) i = Some (mkCell fl' img) /\ unshare fl' = fl).
  { pose proof P as G. apply (map_rel guarded_world (@world_refl V) (@world_trans V)) in G; [|apply (call_back_rel _ (@world_trans V) new_colour_guarded f (fun n => run_guarded (f n)))].
    destruct G as [G _]. destruct (G i (mkCell fl' img)) as ([g v] & C & F & X). { unfold busy. cbn [images set_images]. eapply put_same; eauto. }
    cbn [flag value] in *. subst g. rewrite C. destruct fl; inversion S; subst; (split; [rewrite X by discriminate; reflexivity|reflexivity]). }
  destruct K as [K U]. assert (RE : release_ref (images w1) i = put (images w1) i (mkCell fl img)). { unfold release_ref. rewrite K. cbn [flag value]. rewrite U. reflexivity. }
  rewrite RE in H.
  unfold py_map_colors, image_try_map_colors in P. bound P p2 P2. destruct p2 as [w2 q]. inversion P; subst. unfold try_map_colors in P2. bound P2 p3 P3. destruct p3 as [w3 q3]. inversion P2; subst.
  destruct (map_calls _ _ _ _ _ P3) as [(d & -> & A) | (ds & c & rest & e & -> & ST)].
  - exists d. split; [exact K|]. cbv zeta. left. split; [exact A|]. cbn [made new_image images set_images] in H. rewrite (put_length (images w1)) in H. exact H.
  - exists ds. split; [exact K|]. cbv zeta. right. exists c, rest, e. split; [exact ST|]. exact H.
Qed.

(** ** Two surprises *)
Lemma compose_panics (w : world V) i img f g k : nth_error (images w) i = Some (mkCell Free img) -> data (buffer img) <> [] ->
  run (ModColors i (fun _ => Compose [i] None f g) k) w = Panic.
Proof.
  intros N NE. cbn [PyObjects.run]. unfold borrow_mut. rewrite N. cbn [flag value]. unfold py_mod_colors, try_mod_colors. destruct (data (buffer img)) as [|c l]; [now destruct NE|]. cbn [try_mod_list].
  unfold call_back at 1. cbv beta iota zeta delta [new_colour]. cbn [all_images forallb images set_colours set_images].
  rewrite (put_same _ _ _ _ N). cbn [andb borrow_all]. unfold borrow_ref. rewrite (put_same _ _ _ _ N). reflexivity.
Qed.
Lemma save_raises (w : world V) i fl fl' img path fmt k : nth_error (images w) i = Some (mkCell fl img) -> share fl = ROk fl' -> data (buffer img) <> [] ->
  exists w', images w' = images w /\ files_of w' = files_of w /\ vars w' = vars w /\ run (MapColors i (saving i path fmt) k) w = run (k (RErr AlreadyBorrowed)) w'.
Proof.
  intros N S NE. cbn [PyObjects.run]. unfold borrow_ref. rewrite N. cbn [flag value]. rewrite S. unfold py_map_colors, image_try_map_colors, try_map_colors.
  destruct (data (buffer img)) as [|c l]; [now destruct NE|]. cbn [try_map_st]. unfold call_back at 1. cbv beta iota zeta delta [new_colour]. unfold saving at 1. cbn [PyObjects.run].
  match goal with |- context [perform m E D L (OSave i path fmt) ?W] => set (w1 := W) end.
  assert (N1 : nth_error (images w1) i = Some (mkCell fl' img)) by (eapply put_same; exact N).
  rewrite (busy_taken (OSave i path fmt) w1 i (mkCell fl' img)); [|left; reflexivity|exact N1|destruct fl; inversion S; discriminate].
  cbn [bind PyObjects.run made]. exists (set_images w1 (release_ref (images w1) i)). split; [|split; [reflexivity|split; reflexivity]].
  cbn [images set_images]. unfold release_ref. rewrite N1. cbn [flag value]. cbn [w1 images set_images set_colours]. rewrite put_put. apply put_id. rewrite N. f_equal. f_equal.
  destruct fl; inversion S; reflexivity.
Qed.
End Run.

(** ** What methods do to objects that can be had *)
Lemma read_readable {A} (l : list (cell A)) n a : readable l n a -> read l n = ROk a.
Proof. intros (f & N & F). unfold read, borrow_ref. rewrite N. cbn [flag value]. destruct f; cbn [share]; auto. now destruct F. Qed.
Lemma mut_unused {A} (l : list (cell A)) n a : unused l n a -> borrow_mut l n = ROk (put l n (mkCell Exclusive a), a).
Proof. intros N. unfold borrow_mut. rewrite N. reflexivity. Qed.
Lemma extract_readable {V} (w : world V) n c : readable (colours w) n (KRgb, c) -> extract_rgb w (VColor n) = ROk c.
Proof. intros R. pose proof (read_readable _ _ _ R) as Q. destruct R as (f & N & _). cbn [extract_rgb]. rewrite N. cbn [value fst]. rewrite Q. reflexivity. Qed.
Lemma give_image_new {V} (w : world V) r : give_image w r = gives_new_image w r.
Proof. destruct r as [[i|e]|]; reflexivity. Qed.
Lemma readable_put {A} (l : list (cell A)) n k a b : k <> n -> readable l k a -> readable (put l n b) k a.
Proof. intros N (f & H & F). exists f. rewrite put_other by exact N. auto. Qed.
Lemma object_methods {V} m E D L (w : world V) i img : readable (images w) i img ->
  (forall c, perform m E D L (OCall i c) w = gives_new_image w (py_run m E D L img c)) /\
  (forall j other name k, readable (images w) j other -> perform m E D L (OBlend i j name k) w = gives_new_image w (py_run m E D L img (CallBlend other name k))) /\
  (forall j palette, readable (images w) j palette -> perform m E D L (OApplyPalette i j) w = gives_new_image w (py_run m E D L img (CallApplyPalette palette))) /\
  (forall x y c, py_get_pixel m img x y = Ok (ROk (Some c)) ->
     perform m E D L (OGetPixel i x y) w = Ok (mkWorld (images w) (colours w ++ [mkCell Free (KRgb, c)]) (files_of w) (vars w), ROk (VColor (List.length (colours w))))) /\
  (forall x y, py_get_pixel m img x y = Ok (ROk None) -> perform m E D L (OGetPixel i x y) w = Ok (w, ROk VNone)) /\
  (forall x y c, py_getitem m img x y = Ok (ROk c) ->
     perform m E D L (OGetItem i x y) w = Ok (mkWorld (images w) (colours w ++ [mkCell Free (KRgb, c)]) (files_of w) (vars w), ROk (VColor (List.length (colours w))))) /\
  (forall x y e, py_getitem m img x y = Ok (RErr e) -> perform m E D L (OGetItem i x y) w = Ok (w, RErr (Raised e))).
Proof.
  intros R. pose proof (read_readable _ _ _ R) as Q. cbn [perform]. rewrite Q. cbn [need].
  split; [intros c; apply give_image_new|]. split; [intros j o n k J; rewrite (read_readable _ _ _ J); apply give_image_new|].
  split; [intros j p J; rewrite (read_readable _ _ _ J); apply give_image_new|].
  split; [intros x y c ->; reflexivity|]. split; [intros x y ->; reflexivity|]. split; [intros x y c ->; reflexivity|]. intros x y e ->. reflexivity.
Qed.
Lemma object_changes {V} m E D L (w : world V) i img : unused (images w) i img ->
  (forall x y n c, readable (colours w) n (KRgb, c) -> perform m E D L (OPutPixel i x y n) w = changes_in_place w i (py_put_pixel m img x y c)) /\
  (forall j palette, j <> i -> readable (images w) j palette -> perform m E D L (OApplyPaletteInPlace i j) w = changes_in_place w i (py_apply_palette_in_place L img palette)) /\
  (forall path format s r, py_save E L (files_of w) img path format = (s, r) ->
     perform m E D L (OSave i path format) w = Ok (mkWorld (images w) (colours w) s (vars w), match r with ROk _ => ROk VNone | RErr e => RErr (Raised e) end)).
Proof.
  intros N. cbn [perform]. rewrite (mut_unused _ _ _ N). cbn [need]. split; [|split].
  - intros x y n c C. rewrite (extract_readable _ _ _ C). cbn [need]. destruct (py_put_pixel m img x y c) as [[j|e]|]; cbn [bind changes_in_place]; try reflexivity.
    unfold give, set_images, release_mut. rewrite put_put. reflexivity.
  - intros j p J R. rewrite (read_readable _ _ _ (readable_put _ i j p _ J R)). cbn [need]. destruct (py_apply_palette_in_place L img p) as [[q|e]|]; cbn [bind changes_in_place]; try reflexivity.
    unfold give, set_images, release_mut. rewrite put_put. reflexivity.
  - intros path fmt s r ->. destruct r; reflexivity.
Qed.
Lemma object_colours {V} m E D L (w : world V) n k c :
  (forall name v, readable (colours w) n (k, c) -> getter k name c = Some v -> perform m E D L (OGetAttr n name) w = Ok (w, ROk (VFloat v))) /\
  (forall name v c', unused (colours w) n (k, c) -> setter k name v c = Some c' ->
     perform m E D L (OSetAttr n name v) w = Ok (mkWorld (images w) (put (colours w) n (mkCell Free (k, c'))) (files_of w) (vars w), ROk VNone)).
Proof.
  cbn [perform]. split.
  - intros name v R G. rewrite (read_readable _ _ _ R). cbn [need fst snd]. rewrite G. reflexivity.
  - intros name v c' U G. rewrite (mut_unused _ _ _ U). cbn [need fst snd]. rewrite G. unfold give, set_colours, release_mut. rewrite put_put. reflexivity.
Qed.

(** ** Functions that get coordinates, lists or numbers *)
Section With.
Context {V : Type} (m : build) (E : encoders) (D : decoders) (L : libm).
Notation run := (PyObjects.run m E D L).
Lemma new_colours_list l : forall (w : world V), new_colours w l = (set_colours w (colours w ++ map (fun c => mkCell Free (KRgb, c)) l), seq (List.length (colours w)) (List.length l)).
Proof.
  induction l as [|c l IH]; intros w; cbn [new_colours map seq List.length].
  - rewrite app_nil_r. destruct w; reflexivity.
  - unfold new_colour. rewrite IH. cbn [set_colours colours images files_of vars]. rewrite app_length, PeanoNat.Nat.add_1_r, <- app_assoc. reflexivity.
Qed.
Lemma answer_gets (w : world V) v : gets_rgb w v match v with ROk u => extract_rgb w u | RErr e => RErr e end.
Proof. destruct v as [u|e]; [|left; reflexivity]. destruct (extract_rgb w u) as [d|e] eqn:X; [apply extract_ok; exact X|eapply extract_err; exact X]. Qed.
Lemma call_back_seen (f : Z -> Z -> nat -> act V) : seen_at m E D L f (fun w x y => call_back (fun n => run (f x y n)) w).
Proof.
  intros w x y c w' q H. unfold call_back in H. cbv beta iota zeta delta [new_colour] in H. bound H p P. destruct p as [w1 v]. exists v. inversion H; subst. split; [exact P|apply answer_gets].
Qed.
Lemma call_back_list_seen (f : Z -> Z -> list nat -> act V) : seen_list m E D L f (fun w x y => call_back_list (fun ns => run (f x y ns)) w).
Proof.
  intros w x y cs w' q H. unfold call_back_list in H. rewrite new_colours_list in H. bound H p P. destruct p as [w1 v]. exists v. inversion H; subst. split; [exact P|apply answer_gets].
Qed.
Lemma mod_enum_program (w : world V) i img f k x : unused (images w) i img -> run (ModColorsEnumerated i f k) w = Ok x ->
  exists F w1 img' r, seen_at m E D L f F /\ py_mod_colors_enumerated F (set_images w (put (images w) i (mkCell Exclusive img))) img = Ok (w1, img', r) /\
    run (k match r with ROk _ => ROk VNone | RErr e => RErr e end) (set_images w1 (put (images w1) i (mkCell Free img'))) = Ok x.
Proof.
  intros N H. cbn [PyObjects.run] in H. rewrite (mut_unused _ _ _ N) in H. bound H p P. destruct p as [[w1 img'] r].
  exists (fun w x y => call_back (fun n => run (f x y n)) w), w1, img', r. split; [apply call_back_seen|]. split; [exact P|]. exact H.
Qed.
Lemma shared_kept (w1 : world V) l i fl fl' img : share fl = ROk fl' -> nth_error l i = Some (mkCell fl' img) -> guarded l (images w1) ->
  release_ref (images w1) i = put (images w1) i (mkCell fl img).
Proof.
  intros S N G. destruct (G i _ N) as ([g v] & C & F & X). cbn [flag value] in *. subst g. unfold release_ref. rewrite C. cbn [flag value].
  destruct fl; inversion S; subst; rewrite X by discriminate; reflexivity.
Qed.
Lemma map_enum_program (w : world V) i fl fl' img f k x : nth_error (images w) i = Some (mkCell fl img) -> share fl = ROk fl' -> run (MapColorsEnumerated i f k) w = Ok x ->
  exists F w1 r, seen_at m E D L f F /\ py_map_colors_enumerated F (set_images w (put (images w) i (mkCell fl' img))) img = Ok (w1, r) /\
    let l := put (images w1) i (mkCell fl img) in
    match r with
    | ROk new => run (k (ROk (VImage (List.length l)))) (set_images w1 (l ++ [mkCell Free new])) = Ok x
    | RErr e => run (k (RErr e)) (set_images w1 l) = Ok x
    end.
Proof.
  intros N S H. cbn [PyObjects.run] in H. unfold borrow_ref in H. rewrite N in H. cbn [flag value] in H. rewrite S in H. bound H p P. destruct p as [w1 r].
  exists (fun w x y => call_back (fun n => run (f x y n)) w), w1, r. split; [apply call_back_seen|]. split; [exact P|]. cbv zeta.
  apply (map_enum_rel guarded_world (@world_refl V) (@world_trans V)) in P; [|intros s x0 y0; apply (call_back_rel m E D L _ (@world_trans V) new_colour_guarded (f x0 y0) (fun n => run_guarded m E D L (f x0 y0 n)))].
  rewrite (shared_kept w1 _ i fl fl' img S (put_same _ _ _ _ N) (proj1 P)) in H. destruct r; exact H.
Qed.
Lemma borrow_all_read ns : forall imgs l, Forall2 (readable l) ns imgs ->
  exists l', borrow_all l ns = Ok (l', imgs) /\ being_read ns imgs l' /\
    forall n c, nth_error l n = Some c -> exists c', nth_error l' n = Some c' /\ value c' = value c /\ (c' = c \/ exists j, flag c' = Shared j) /\ ((exists j, flag c = Shared j) -> exists j, flag c' = Shared j).
Proof.
  induction ns as [|n ns IH]; intros imgs l H; inversion H; subst.
  - exists l. split; [reflexivity|]. split; [constructor|]. intros n c N. exists c. auto.
  - rename y into img, l' into imgs'. destruct H2 as (f & N & F). cbn [borrow_all]. unfold borrow_ref. rewrite N. cbn [flag value].
    assert (SH : exists j, share f = ROk (Shared j)) by (destruct f; cbn [share]; eauto; now destruct F). destruct SH as [j SH]. rewrite SH.
    set (l1 := put l n (mkCell (Shared j) img)). assert (N1 : nth_error l1 n = Some (mkCell (Shared j) img)) by (eapply put_same; eauto).
    assert (R : Forall2 (readable l1) ns imgs').
    { assert (IM : forall q a, readable l q a -> readable l1 q a); [|clear - H4 IM; induction H4; constructor; auto]. intros q a (g & Q & G). destruct (PeanoNat.Nat.eq_dec q n) as [->|NE].
      - rewrite N in Q. inversion Q; subst. exists (Shared j). split; [exact N1|discriminate].
      - apply readable_put; [exact NE|]. exists g. auto. }
    destruct (IH _ _ R) as (l2 & B & RD & K). exists l2. rewrite B. cbn [bind]. split; [reflexivity|]. split.
    + constructor; [|exact RD]. destruct (K _ _ N1) as ([g v] & C & Ev & _ & Sh). cbn [flag value] in *. subst v. destruct Sh as [q ->]; [eauto|]. exists q. exact C.
    + intros q c Q. destruct (PeanoNat.Nat.eq_dec q n) as [->|NE].
      * rewrite N in Q. inversion Q; subst. destruct (K _ _ N1) as (c' & C & Ev & _ & Sh). cbn [flag value] in *. exists c'. split; [exact C|]. split; [exact Ev|]. split; [right|intros _]; apply Sh; eauto.
      * apply K. unfold l1. rewrite put_other by exact NE. exact Q.
Qed.
Lemma compose_program (w : world V) ns imgs d default f k x : Forall2 (readable (images w)) ns imgs ->
  match d with Some n => readable (colours w) n (KRgb, default) | None => default = RGB_NONE end -> run (Compose ns d f k) w = Ok x ->
  exists F l w1 r l1, seen_list m E D L f F /\ being_read ns imgs l /\ py_compose m imgs (Some default) F (set_images w l) = Ok (w1, r) /\ guarded (images w) l1 /\
    List.length l1 = List.length (images w1) /\
    match r with
    | ROk new => run (k (ROk (VImage (List.length l1)))) (set_images w1 (l1 ++ [mkCell Free new])) = Ok x
    | RErr e => run (k (RErr e)) (set_images w1 l1) = Ok x
    end.
Proof.
  intros R DF H. cbn [PyObjects.run] in H.
  assert (X : match d with Some c => extract_rgb w (VColor c) | None => ROk RGB_NONE end = ROk default).
  { destruct d as [n|]; [apply extract_readable; exact DF|now rewrite DF]. }
  rewrite X in H. assert (A : all_images w ns = true).
  { unfold all_images. apply forallb_forall. intros n I. assert (Q : exists a, readable (images w) n a).
    { clear -R I. induction R as [|n' a ns imgs Rn R IH]; [destruct I|]. destruct I as [->|I]; eauto. }
    destruct Q as (a & g & -> & _). reflexivity. }
  rewrite A in H. destruct (borrow_all_read ns imgs _ R) as (l & B & RD & K). rewrite B in H. cbn [bind] in H. bound H p P. destruct p as [w1 r].
  exists (fun w x y => call_back_list (fun ns => run (f x y ns)) w), l, w1, r, (release_all (images w1) ns). split; [apply call_back_list_seen|]. split; [exact RD|]. split; [exact P|].
  apply (compose_rel guarded_world (@world_refl V) (@world_trans V)) in P; [|intros s x0 y0; apply (call_back_list_rel m E D L _ (@world_trans V) (fun w l => new_colours_guarded l w) (f x0 y0) (fun n => run_guarded m E D L (f x0 y0 n)))].
  split; [exact (guarded_all _ _ _ _ _ B (proj1 P))|]. split.
  { clear. induction ns as [|n ns IH]; cbn [release_all]; [reflexivity|]. unfold release_ref. destruct (nth_error _ n); [rewrite put_length|]; exact IH. }
  destruct r; exact H.
Qed.
Lemma compose_objects (w : world V) ns d default f k : match d with Some n => readable (colours w) n (KRgb, default) | None => default = RGB_NONE end ->
  (forall n, In n ns -> nth_error (images w) n = None -> run (Compose ns d f k) w = run (k (RErr TypeError)) w) /\
  (forall n img, refers w ns -> In n ns -> nth_error (images w) n = Some (mkCell Exclusive img) -> run (Compose ns d f k) w = Panic).
Proof.
  intros DF. cbn [PyObjects.run].
  assert (X : match d with Some c => extract_rgb w (VColor c) | None => ROk RGB_NONE end = ROk default).
  { destruct d as [n|]; [apply extract_readable; exact DF|now rewrite DF]. }
  rewrite X. split.
  - intros n I N. assert (A : all_images w ns = false); [|rewrite A; reflexivity]. unfold all_images. apply not_true_is_false. intros T. rewrite forallb_forall in T. specialize (T n I). rewrite N in T. discriminate.
  - intros n img RF I N. destruct (all_images w ns) eqn:A.
    2:{ exfalso. apply not_true_iff_false in A. apply A. apply forallb_forall. intros q Q. destruct (RF q Q) as [c ->]. reflexivity. }
    assert (B : borrow_all (images w) ns = Panic); [|rewrite B; reflexivity]. clear - I N. revert N. generalize (images w) as l. induction ns as [|q ns IH]; intros l N; [destruct I|]. cbn [borrow_all].
    destruct (borrow_ref l q) as [[l1 i]|] eqn:B; [|reflexivity]. destruct I as [->|I].
    + unfold borrow_ref in B. rewrite N in B. discriminate.
    + rewrite (IH I l1); [reflexivity|]. destruct (borrow_ref_ok _ _ _ _ B) as (g & g' & Q & S & _ & _ & ->). rewrite put_other; [exact N|]. intros ->. rewrite N in Q. inversion Q; subst. discriminate.
Qed.
Lemma number_answer v w a (w' : world V) f : call_back_f32 (fun v => run (f v)) w v = Ok (w', a) ->
  match a with ROk a => returns_number m E D L f v w a w' | RErr e => no_number m E D L f v w e w' end.
Proof.
  unfold call_back_f32. intros H. bound H p P. destruct p as [w1 r]. inversion H; subst. destruct r as [u|e].
  - destruct u as [|z| | |]; cbn [extract_f32]; [|exact P| | |]; (eexists; split; [exact P|right; eexists; split; [reflexivity|]; split; [discriminate|reflexivity]]).
  - exists (RErr e). split; [exact P|left; reflexivity].
Qed.
Lemma channels_program (w : world V) n fl fl' kd c f k x : nth_error (colours w) n = Some (mkCell fl (kd, c)) -> share fl = ROk fl' -> run (MapColorChannels n f k) w = Ok x ->
  let busy := set_colours w (put (colours w) n (mkCell fl' (kd, c))) in
  (exists a b v w1 w2 w3, returns_number m E D L f (d0 c) busy a w1 /\ returns_number m E D L f (d1 c) w1 b w2 /\ returns_number m E D L f (d2 c) w2 v w3 /\
     let l := put (colours w3) n (mkCell fl (kd, c)) in
     run (k (ROk (VColor (List.length l)))) (set_colours w3 (l ++ [mkCell Free (kd, new_with_alpha kd a b v (d3 c))])) = Ok x) \/
  (exists e w3, run (k (RErr e)) (set_colours w3 (put (colours w3) n (mkCell fl (kd, c)))) = Ok x /\
     (no_number m E D L f (d0 c) busy e w3 \/
      (exists a w1, returns_number m E D L f (d0 c) busy a w1 /\ no_number m E D L f (d1 c) w1 e w3) \/
      (exists a b w1 w2, returns_number m E D L f (d0 c) busy a w1 /\ returns_number m E D L f (d1 c) w1 b w2 /\ no_number m E D L f (d2 c) w2 e w3))).
Proof.
  intros N S H busy. cbn [PyObjects.run] in H. unfold borrow_ref in H. rewrite N in H. cbn [flag value] in H. rewrite S in H. cbn [fst snd] in H. fold busy in H.
  bound H p P. destruct p as [w3 r].
  assert (RE : release_ref (colours w3) n = put (colours w3) n (mkCell fl (kd, c))).
  { pose proof P as G. apply (channels_rel guarded_world (@world_trans V)) in G; [|apply (call_back_f32_rel m E D L _ f (fun v => run_guarded m E D L (f v)))].
    destruct G as [_ G]. destruct (G n (mkCell fl' (kd, c))) as ([g v] & C & F & X). { unfold busy. cbn [colours set_colours]. eapply put_same; eauto. }
    cbn [flag value] in *. subst g. unfold release_ref. rewrite C. cbn [flag value]. destruct fl; inversion S; subst; rewrite X by discriminate; reflexivity. }
  rewrite RE in H. clear RE. unfold try_map_color_channels in P. bound P p A. destruct p as [w1 a]. apply number_answer in A. destruct a as [a|e].
  2:{ inversion P; subst. right. exists e, w3. split; [exact H|]. left. exact A. }
  bound P p B. destruct p as [w2 b]. apply number_answer in B. destruct b as [b|e].
  2:{ inversion P; subst. right. exists e, w3. split; [exact H|]. right. left. eauto. }
  bound P p C. destruct p as [w4 v]. apply number_answer in C. destruct v as [v|e]; inversion P; subst.
  2:{ right. exists e, w3. split; [exact H|]. right. right. eauto 8. }
  left. exists a, b, v, w1, w2, w3. split; [exact A|]. split; [exact B|]. split; [exact C|]. exact H.
Qed.
End With.
