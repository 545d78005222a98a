(** Lemmas for C136. *)
From Coq Require Import ZArith List.
From Verif Require Import Base PixelBuffer Geometry F32 Color Blend Resample Kernel Ops Codec Commands Image ActsSpec.
Import ListNotations.
Open Scope Z_scope.

Lemma acts_in_place op : acts (fun i => in_place i (op (buffer i))) op.
Proof. intros i. unfold in_place. split; [intros b -> | intros ->]; reflexivity. Qed.
Lemma acts_with_meta op : acts (fun i => with_meta i (op (buffer i))) op.
Proof. intros i. unfold with_meta. split; [intros b -> | intros ->]; reflexivity. Qed.
Lemma acts_in_place_st {S} (op : S -> _) : acts_random (fun s i => in_place_st i (op s (buffer i))) op.
Proof. intros s i. unfold in_place_st. split; [intros s' b -> | intros ->]; reflexivity. Qed.
Lemma acts_with_meta_st {S} (op : S -> _) : acts_random (fun s i => with_meta_st i (op s (buffer i))) op.
Proof. intros s i. unfold with_meta_st. split; [intros s' b -> | intros ->]; reflexivity. Qed.
Lemma every_method {R} (e : env R) f op : method e f op -> acts f op.
Proof. intros []; first [exact (acts_in_place _)|exact (acts_with_meta _)]. Qed.
Lemma every_random_method {R} (e : env R) f op : random_method e f op -> acts_random f op.
Proof. intros []; first [exact (acts_in_place_st _)|exact (acts_with_meta_st _)]. Qed.
Lemma every_step {R} (e : env R) f op : step e f op -> acts_random f op.
Proof.
  intros [f' op' M|f' op' M]; [|exact (every_random_method e f' op' M)].
  intros s i. destruct (every_method e f' op' M i) as [A P]. split.
  - intros s' b E. destruct (op' (buffer i)) as [b'|] eqn:O; cbn [bind] in E; [|discriminate]. injection E as -> ->. rewrite (A b eq_refl). reflexivity.
  - intros E. destruct (op' (buffer i)) as [b'|] eqn:O; cbn [bind] in E; [discriminate|]. rewrite (P eq_refl). reflexivity.
Qed.
Lemma rows {R} (e : env R) fs : forall ops, Forall2 (step e) fs ops -> acts_random (in_a_row fs) (in_a_row ops).
Proof.
  induction fs as [|f fs IH]; intros ops F; inversion F as [|? op ? ops' M F']; subst.
  - intros s i. split; [|discriminate]. intros s' b E. cbn in E. injection E as <- <-. destruct i. reflexivity.
  - intros s i. destruct (every_step e f op M s i) as [A P]. cbn [in_a_row]. split.
    + intros s' b E. destruct (op s (buffer i)) as [[s1 b1]|] eqn:O; cbn [bind] in E; [|discriminate]. rewrite (A s1 b1 eq_refl). cbn [bind].
      destruct (IH ops' F' s1 (mkImage b1 (bg_color i))) as [A' _]. exact (A' s' b E).
    + intros E. destruct (op s (buffer i)) as [[s1 b1]|] eqn:O; cbn [bind] in E.
      * rewrite (A s1 b1 eq_refl). cbn [bind]. destruct (IH ops' F' s1 (mkImage b1 (bg_color i))) as [_ P']. exact (P' E).
      * rewrite (P eq_refl). reflexivity.
Qed.
