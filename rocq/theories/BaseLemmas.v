(** Lemmas about the vocabulary of Base.v. *)
From Coq Require Import ZArith List Bool Lia ZifyBool ZifyNat.
From Verif Require Import Base.
Import ListNotations.
Open Scope Z_scope.
Ltac Zify.zify_post_hook ::= Z.div_mod_to_equations.

Lemma bind_Ok {A B} (a : A) (f : A -> res B) : bind (Ok a) f = f a.
Proof. reflexivity. Qed.

Lemma bind_inv {A B} (e : res A) (f : A -> res B) b :
  bind e f = Ok b -> exists a, e = Ok a /\ f a = Ok b.
Proof. destruct e; simpl; [eauto | discriminate]. Qed.

Lemma bind_Panic_inv {A B} (e : res A) (f : A -> res B) :
  bind e f = Panic -> e = Panic \/ exists a, e = Ok a /\ f a = Panic.
Proof. destruct e; simpl; eauto. Qed.

Lemma bind_ext {A B} (e : res A) (f g : A -> res B) :
  (forall a, e = Ok a -> f a = g a) -> bind e f = bind e g.
Proof. destruct e; simpl; auto. Qed.

Lemma assert_true b : b = true -> assert_ b = Ok tt.
Proof. intros ->. reflexivity. Qed.

Lemma u32_ok m z : 0 <= z < 4294967296 -> u32 m z = Ok z.
Proof. intros H. unfold u32, in_u32.
  replace ((0 <=? z) && (z <? 4294967296)) with true by lia. reflexivity. Qed.
Lemma i32_ok m z : -2147483648 <= z < 2147483648 -> i32 m z = Ok z.
Proof. intros H. unfold i32, in_i32.
  replace ((-2147483648 <=? z) && (z <? 2147483648)) with true by lia. reflexivity. Qed.
Lemma as_u32_id z : 0 <= z < 4294967296 -> as_u32 z = z.
Proof. unfold as_u32, wrap_u32. intros. apply Z.mod_small; lia. Qed.
Lemma as_i32_id z : -2147483648 <= z < 2147483648 -> as_i32 z = z.
Proof. unfold as_i32, wrap_i32. intros. rewrite Z.mod_small; lia. Qed.
Lemma as_u32_range z : 0 <= as_u32 z < 4294967296.
Proof. unfold as_u32, wrap_u32. apply Z.mod_pos_bound; lia. Qed.
Lemma as_i32_range z : -2147483648 <= as_i32 z < 2147483648.
Proof. unfold as_i32, wrap_i32. pose proof (Z.mod_pos_bound (z + 2147483648) 4294967296). lia. Qed.

Lemma zseq_length a n : length (zseq a n) = n.
Proof. revert a. induction n; simpl; auto. Qed.
Lemma zseq_nth a n i : (i < n)%nat -> nth_error (zseq a n) i = Some (a + Z.of_nat i).
Proof. revert a i. induction n; intros a i H; [lia|]. destruct i; simpl.
  - f_equal. lia.
  - rewrite IHn by lia. f_equal. lia. Qed.
Lemma zseq_In a n z : In z (zseq a n) <-> a <= z < a + Z.of_nat n.
Proof. revert a. induction n; intros a; simpl.
  - lia.
  - rewrite IHn. lia. Qed.
Lemma zseq_NoDup a n : NoDup (zseq a n).
Proof. revert a. induction n; intros a; simpl; constructor; auto.
  rewrite zseq_In. lia. Qed.
Lemma zseq_app a n k : zseq a (n + k) = zseq a n ++ zseq (a + Z.of_nat n) k.
Proof. revert a. induction n; intros a; simpl.
  - f_equal. lia.
  - rewrite IHn. do 3 f_equal. lia. Qed.
Lemma zrange_length a b : length (zrange a b) = Z.to_nat (b - a).
Proof. apply zseq_length. Qed.
Lemma zrange_zlen a b : a <= b -> zlen (zrange a b) = b - a.
Proof. intros. unfold zlen. rewrite zrange_length. lia. Qed.
Lemma zrange_In a b z : In z (zrange a b) <-> a <= z < b.
Proof. unfold zrange. rewrite zseq_In. lia. Qed.
Lemma zrange_NoDup a b : NoDup (zrange a b).
Proof. apply zseq_NoDup. Qed.
Lemma zrange_nth a b i : (i < Z.to_nat (b - a))%nat ->
  nth_error (zrange a b) i = Some (a + Z.of_nat i).
Proof. apply zseq_nth. Qed.
Lemma zrange_split a b c : a <= b <= c -> zrange a c = zrange a b ++ zrange b c.
Proof. intros. unfold zrange.
  replace (Z.to_nat (c - a)) with (Z.to_nat (b - a) + Z.to_nat (c - b))%nat by lia.
  rewrite zseq_app. do 2 f_equal. lia. Qed.
Lemma zrange_shift a b k : zrange (a + k) (b + k) = map (fun z => z + k) (zrange a b).
Proof. unfold zrange. replace (b + k - (a + k)) with (b - a) by lia.
  generalize (Z.to_nat (b - a)). intros n. revert a. induction n; intros a; simpl; auto.
  f_equal. rewrite <- IHn. f_equal. lia. Qed.
Lemma zrange_empty a b : b <= a -> zrange a b = [].
Proof. intros. unfold zrange. replace (Z.to_nat (b - a)) with O by lia. reflexivity. Qed.
Lemma zrange_cons a b : a < b -> zrange a b = a :: zrange (a + 1) b.
Proof. intros. unfold zrange. replace (Z.to_nat (b - a)) with (S (Z.to_nat (b - (a + 1)))) by lia.
  reflexivity. Qed.
Lemma zrange_snoc a b : a <= b -> zrange a (b + 1) = zrange a b ++ [b].
Proof. intros. rewrite (zrange_split a b (b + 1)) by lia. f_equal.
  rewrite zrange_cons by lia. rewrite zrange_empty by lia. reflexivity. Qed.

(** Loops *)
Lemma for_app {A S} (l1 l2 : list A) (f : A -> S -> res S) s :
  for_ (l1 ++ l2) f s = bind (for_ l1 f s) (fun s => for_ l2 f s).
Proof. revert s. induction l1; intros; simpl; auto.
  destruct (f a s); simpl; auto. Qed.
Lemma for_ext {A S} (l : list A) (f g : A -> S -> res S) s :
  (forall a s, In a l -> f a s = g a s) -> for_ l f s = for_ l g s.
Proof. revert s. induction l; intros s H; simpl; auto.
  rewrite (H a s) by (left; auto). apply bind_ext. intros. apply IHl.
  intros. apply H. right; auto. Qed.
(** Invariant rule for loops that do not panic. *)
Lemma for_inv {A S} (l : list A) (f : A -> S -> res S) (P : list A -> S -> Prop) s :
  P [] s ->
  (forall done a rest s, l = done ++ a :: rest -> P done s ->
     exists s', f a s = Ok s' /\ P (done ++ [a]) s') ->
  exists s', for_ l f s = Ok s' /\ P l s'.
Proof.
  intros H0 Hstep.
  assert (G : forall rest done s, l = done ++ rest -> P done s ->
     exists s', for_ rest f s = Ok s' /\ P l s').
  { induction rest as [|a rest IH]; intros done t Hl Hp.
    - exists t. simpl. rewrite app_nil_r in Hl. subst. auto.
    - destruct (Hstep done a rest t Hl Hp) as (t' & Hf & Hp').
      simpl. rewrite Hf. simpl. apply (IH (done ++ [a])); auto.
      rewrite <- app_assoc. auto. }
  apply (G l []); auto.
Qed.

Lemma map_res_ok {A B} (f : A -> res B) (g : A -> B) l :
  (forall a, In a l -> f a = Ok (g a)) -> map_res f l = Ok (map g l).
Proof. induction l; intros H; simpl; auto.
  rewrite (H a) by (left; auto). simpl. rewrite IHl by (intros; apply H; right; auto). auto. Qed.
Lemma map_res_ext {A B} (f g : A -> res B) l :
  (forall a, In a l -> f a = g a) -> map_res f l = map_res g l.
Proof. induction l; intros H; simpl; auto.
  rewrite (H a) by (left; auto). rewrite IHl by (intros; apply H; right; auto). auto. Qed.
Lemma map_res_inv {A B} (f : A -> res B) l bs :
  map_res f l = Ok bs -> Forall2 (fun a b => f a = Ok b) l bs.
Proof. revert bs. induction l; intros bs H; simpl in H.
  - inversion H. constructor.
  - apply bind_inv in H as (b & Hb & H). apply bind_inv in H as (bs' & Hbs & H).
    inversion H; subst. constructor; auto. Qed.
Lemma map_res_Forall2 {A B} (f : A -> res B) l bs :
  Forall2 (fun a b => f a = Ok b) l bs -> map_res f l = Ok bs.
Proof. induction 1; simpl; auto. rewrite H. simpl. rewrite IHForall2. auto. Qed.
Lemma map_res_total {A B} (f : A -> res B) l :
  (forall a, In a l -> exists b, f a = Ok b) -> exists bs, map_res f l = Ok bs.
Proof. induction l; intros H; simpl; eauto.
  destruct (H a) as (b & Hb); [left; auto|]. rewrite Hb. simpl.
  destruct IHl as (bs & Hbs); [intros; apply H; right; auto|]. rewrite Hbs. simpl. eauto. Qed.
Lemma map_res_length {A B} (f : A -> res B) l bs :
  map_res f l = Ok bs -> length bs = length l.
Proof. intros H. apply map_res_inv in H. induction H; simpl; auto. Qed.
Lemma map_res_map {A B C} (f : B -> res C) (g : A -> B) l :
  map_res f (map g l) = map_res (fun a => f (g a)) l.
Proof. induction l; simpl; auto. rewrite IHl. auto. Qed.

Lemma Forall2_nth_error {A B} (R : A -> B -> Prop) l1 l2 i a :
  Forall2 R l1 l2 -> nth_error l1 i = Some a ->
  exists b, nth_error l2 i = Some b /\ R a b.
Proof. intros H. revert i. induction H; intros i Hi; destruct i; simpl in *; try discriminate.
  - inversion Hi; subst. eauto.
  - apply IHForall2; auto. Qed.

Lemma map_res_nth {A B} (f : A -> res B) l bs i a :
  map_res f l = Ok bs -> nth_error l i = Some a ->
  exists b, nth_error bs i = Some b /\ f a = Ok b.
Proof. intros H. apply map_res_inv in H. intros. eapply Forall2_nth_error in H; eauto. Qed.

(** Vectors *)
Lemma zlen_nonneg {A} (l : list A) : 0 <= zlen l.
Proof. unfold zlen. lia. Qed.
Lemma zlen_app {A} (l1 l2 : list A) : zlen (l1 ++ l2) = zlen l1 + zlen l2.
Proof. unfold zlen. rewrite app_length. lia. Qed.
Lemma zlen_cons {A} (a : A) l : zlen (a :: l) = zlen l + 1.
Proof. unfold zlen. simpl length. lia. Qed.
Lemma zlen_map {A B} (f : A -> B) l : zlen (map f l) = zlen l.
Proof. unfold zlen. rewrite map_length. auto. Qed.
Lemma zlen_repeat {A} (a : A) n : zlen (repeat a n) = Z.of_nat n.
Proof. unfold zlen. rewrite repeat_length. auto. Qed.

Lemma idx_ok {A} (l : list A) i : 0 <= i < zlen l -> exists a, idx l i = Ok a.
Proof. unfold idx, zlen. intros H. replace (i <? 0) with false by lia.
  destruct (nth_error l (Z.to_nat i)) eqn:E; eauto.
  apply nth_error_None in E. lia. Qed.
Lemma idx_inv {A} (l : list A) i a : idx l i = Ok a -> 0 <= i < zlen l.
Proof. unfold idx, zlen. destruct (i <? 0) eqn:E; [discriminate|].
  destruct (nth_error l (Z.to_nat i)) eqn:E2; [|discriminate]. intros _.
  assert (Z.to_nat i < length l)%nat by (apply nth_error_Some; congruence). lia. Qed.
Lemma idx_panic {A} (l : list A) i : i < 0 \/ zlen l <= i -> idx l i = Panic.
Proof. intros H. destruct (idx l i) eqn:E; auto. apply idx_inv in E. lia. Qed.
Lemma idx_nth {A} (l : list A) i : 0 <= i ->
  idx l i = match nth_error l (Z.to_nat i) with Some a => Ok a | None => Panic end.
Proof. intros. unfold idx. replace (i <? 0) with false by lia. auto. Qed.
Lemma idx_nat {A} (l : list A) n a : idx l (Z.of_nat n) = Ok a <-> nth_error l n = Some a.
Proof. rewrite idx_nth by lia. rewrite Nat2Z.id. destruct (nth_error l n); split; congruence. Qed.
Lemma idx_map {A B} (f : A -> B) l i :
  idx (map f l) i = bind (idx l i) (fun a => Ok (f a)).
Proof. unfold idx. destruct (i <? 0); auto. rewrite nth_error_map.
  destruct (nth_error l (Z.to_nat i)); auto. Qed.
Lemma idx_app_l {A} (l1 l2 : list A) i : i < zlen l1 -> idx (l1 ++ l2) i = idx l1 i.
Proof. unfold idx, zlen. intros. destruct (i <? 0) eqn:E; auto.
  rewrite nth_error_app1 by lia. auto. Qed.
Lemma idx_app_r {A} (l1 l2 : list A) i : zlen l1 <= i -> idx (l1 ++ l2) i = idx l2 (i - zlen l1).
Proof. unfold idx, zlen. intros. replace (i <? 0) with false by lia.
  replace (i - Z.of_nat (length l1) <? 0) with false by lia.
  rewrite nth_error_app2 by lia. do 2 f_equal. replace (Z.to_nat i - length l1)%nat with
  (Z.to_nat (i - Z.of_nat (length l1))) by lia. auto. Qed.
Lemma idx_zrange a b i : 0 <= i < b - a -> idx (zrange a b) i = Ok (a + i).
Proof. intros. rewrite idx_nth by lia. rewrite zrange_nth by lia. f_equal. lia. Qed.
Lemma idx_repeat {A} (a : A) n i : 0 <= i < Z.of_nat n -> idx (repeat a n) i = Ok a.
Proof. intros. rewrite idx_nth by lia. rewrite nth_error_repeat by lia. auto. Qed.
Lemma idx_In {A} (l : list A) i a : idx l i = Ok a -> In a l.
Proof. unfold idx. destruct (i <? 0); [discriminate|].
  destruct (nth_error l (Z.to_nat i)) eqn:E; [|discriminate]. intros H; inversion H; subst.
  eapply nth_error_In; eauto. Qed.
Lemma In_idx {A} (l : list A) a : In a l -> exists i, 0 <= i < zlen l /\ idx l i = Ok a.
Proof. intros H. apply In_nth_error in H as (n & Hn). exists (Z.of_nat n). split.
  - unfold zlen. assert (n < length l)%nat by (apply nth_error_Some; congruence). lia.
  - apply idx_nat. auto. Qed.

Lemma list_ext {A} (l1 l2 : list A) :
  zlen l1 = zlen l2 -> (forall i, 0 <= i < zlen l1 -> idx l1 i = idx l2 i) -> l1 = l2.
Proof.
  unfold zlen. revert l2. induction l1 as [|a l1 IH]; intros [|b l2] Hl H; simpl in *; try lia; auto.
  f_equal.
  - specialize (H 0). unfold idx in H. simpl in H. assert (Ok a = Ok b) by (apply H; lia). congruence.
  - apply IH; [lia|]. intros i Hi. specialize (H (i + 1)). rewrite !idx_nth in * by lia.
    replace (Z.to_nat (i + 1)) with (S (Z.to_nat i)) in H by lia. simpl in H. apply H. lia.
Qed.

Lemma upd_nat_ok {A} (l : list A) i a : (i < length l)%nat ->
  exists l', upd_nat l i a = Some l' /\ length l' = length l /\
    forall j, nth_error l' j = if (j =? i)%nat then Some a else nth_error l j.
Proof.
  revert i. induction l as [|x l IH]; intros i H; simpl in *; [lia|]. destruct i.
  - eexists. split; [reflexivity|]. split; auto. intros [|j]; auto.
  - destruct (IH i) as (l' & -> & Hl & Hn); [lia|]. eexists. split; [reflexivity|].
    simpl. split; [lia|]. intros [|j]; simpl; auto.
Qed.
Lemma upd_ok {A} (l : list A) i a : 0 <= i < zlen l ->
  exists l', upd l i a = Ok l' /\ zlen l' = zlen l /\
    forall j, idx l' j = if j =? i then Ok a else idx l j.
Proof.
  unfold zlen. intros H. destruct (upd_nat_ok l (Z.to_nat i) a) as (l' & H1 & H2 & H3); [lia|].
  exists l'. unfold upd. replace (i <? 0) with false by lia. rewrite H1. split; auto.
  split; [lia|]. intros j. unfold idx. destruct (j <? 0) eqn:E.
  - replace (j =? i) with false by lia. auto.
  - rewrite H3. destruct (j =? i) eqn:E2.
    + replace (Z.to_nat j =? Z.to_nat i)%nat with true by lia. auto.
    + replace (Z.to_nat j =? Z.to_nat i)%nat with false by lia. auto.
Qed.
Lemma upd_panic {A} (l : list A) i a : i < 0 \/ zlen l <= i -> upd l i a = Panic.
Proof.
  unfold upd, zlen. intros H. destruct (i <? 0) eqn:E; auto.
  assert (G : forall (l : list A) k, (length l <= k)%nat -> upd_nat l k a = None).
  { induction l0; intros k Hk; simpl in *; auto. destruct k; [lia|]. rewrite IHl0 by lia. auto. }
  rewrite G by lia. auto.
Qed.

Lemma slice_ok {A} (l : list A) a n : 0 <= a -> 0 <= n -> a + n <= zlen l ->
  exists r, slice l a (a + n) = Ok r /\ zlen r = n /\
    forall j, 0 <= j < n -> idx r j = idx l (a + j).
Proof.
  unfold zlen, slice. intros. replace ((a <=? a + n) && (a + n <=? zlen l) && (0 <=? a)) with true
    by (unfold zlen; lia).
  eexists. split; [reflexivity|]. replace (a + n - a) with n by lia. split.
  - rewrite firstn_length, skipn_length. lia.
  - intros j Hj. rewrite !idx_nth by lia.
    cut (nth_error (firstn (Z.to_nat n) (skipn (Z.to_nat a) l)) (Z.to_nat j)
         = nth_error l (Z.to_nat (a + j))); [intros ->; auto|].
    transitivity (nth_error (skipn (Z.to_nat a) l) (Z.to_nat j)).
    + assert (G : forall (l : list A) n k, (k < n)%nat -> nth_error (firstn n l) k = nth_error l k).
      { induction l0; intros [|n0] k Hk; try lia; simpl; auto. destruct k; simpl; auto.
        apply IHl0. lia. }
      apply G. lia.
    + replace (Z.to_nat (a + j)) with (Z.to_nat a + Z.to_nat j)%nat by lia.
      generalize (Z.to_nat a) (Z.to_nat j). clear. induction l; intros [|n] k; simpl; auto.
      destruct k; auto.
Qed.

(** [map_st]/[try_map_st] *)
Lemma map_st_ext {S A B} (f g : S -> A -> res (S * B)) l s :
  (forall s a, In a l -> f s a = g s a) -> map_st f l s = map_st g l s.
Proof. revert s. induction l; intros s H; simpl; auto.
  rewrite (H s a) by (left; auto). apply bind_ext. intros (s1 & b) _.
  rewrite IHl by (intros; apply H; right; auto). auto. Qed.
Lemma try_map_st_ext {S A B E} (f g : S -> A -> res (S * Result B E)) l s :
  (forall s a, In a l -> f s a = g s a) -> try_map_st f l s = try_map_st g l s.
Proof. revert s. induction l; intros s H; simpl; auto.
  rewrite (H s a) by (left; auto). apply bind_ext. intros (s1 & [b|e]) _; auto.
  rewrite IHl by (intros; apply H; right; auto). auto. Qed.
Lemma map_st_length {S A B} (f : S -> A -> res (S * B)) l s s' bs :
  map_st f l s = Ok (s', bs) -> length bs = length l.
Proof. revert s s' bs. induction l; intros s s' bs H; simpl in H.
  - inversion H; auto.
  - apply bind_inv in H as ((s1 & b) & _ & H). apply bind_inv in H as ((s2 & bs') & H2 & H).
    inversion H; subst. simpl. f_equal. eauto. Qed.
Lemma try_map_st_length {S A B E} (f : S -> A -> res (S * Result B E)) l s s' bs :
  try_map_st f l s = Ok (s', ROk bs) -> length bs = length l.
Proof. revert s s' bs. induction l; intros s s' bs H; simpl in H.
  - inversion H; auto.
  - apply bind_inv in H as ((s1 & [b|e]) & _ & H); [|discriminate].
    apply bind_inv in H as ((s2 & [bs'|e]) & H2 & H); [|discriminate].
    inversion H; subst. simpl. f_equal. eauto. Qed.
Lemma map_st_unit {A B} (f : A -> res B) l :
  map_st (fun (_ : unit) a => c <- f a; Ok (tt, c)) l tt
  = bind (map_res f l) (fun bs => Ok (tt, bs)).
Proof. induction l; simpl; auto. destruct (f a); simpl; auto. rewrite IHl.
  destruct (map_res f l); auto. Qed.
Lemma map_st_try {S A B E} (f : S -> A -> res (S * B)) l s :
  try_map_st (fun s a => '(s1, c) <- f s a; Ok (s1, @ROk B E c)) l s
  = bind (map_st f l s) (fun '(s', bs) => Ok (s', ROk bs)).
Proof. revert s. induction l; intros s; simpl; auto. destruct (f s a) as [(s1 & b)|]; simpl; auto.
  rewrite IHl. destruct (map_st f l s1) as [(s2 & bs)|]; auto. Qed.
