(** Proofs about saving to files (C53). *)
From Coq Require Import ZArith List Bool String Ascii Lia.
From Verif Require Import Base BaseLemmas PixelBuffer BufferSpec PixelBufferProofs F32 Color Codec CodecSpec PathProofs LayoutProofs.
Import ListNotations.
Open Scope Z_scope.

Definition take {A} (n : Z) (l : list A) := firstn (Z.to_nat n) l.
Lemma take_all {A} n (l : list A) : zlen l <= n -> take n l = l.
Proof. intros H. unfold take. apply firstn_all2. unfold zlen in H. lia. Qed.
Lemma take_app {A} n (a b : list A) : zlen a <= n -> take n (a ++ b) = a ++ take (n - zlen a) b.
Proof.
  intros H. unfold take, zlen in *. rewrite firstn_app. rewrite firstn_all2 by lia. do 2 f_equal. lia.
Qed.
Lemma take_app_l {A} n (a b : list A) : n <= zlen a -> take n (a ++ b) = take n a.
Proof.
  intros H. unfold take, zlen in *. rewrite firstn_app. replace (Z.to_nat n - List.length a)%nat with 0%nat by lia. apply app_nil_r.
Qed.
Lemma take_len {A} n (l : list A) : 0 <= n <= zlen l -> zlen (take n l) = n.
Proof. unfold take, zlen. intros H. rewrite firstn_length. lia. Qed.
Lemma take_skip {A} n (l : list A) : take n l ++ skipn (Z.to_nat n) l = l.
Proof. apply firstn_skipn. Qed.

Definition sto (w : buf_writer) := stored_bytes (inner w).
Definition healthy (cap : Z) (w : buf_writer) (S : list Z) : Prop :=
  capacity (inner w) = cap /\ zlen (sto w) <= cap /\ zlen (pending w) <= 8192 /\ sto w ++ pending w = S.
Definition full (cap : Z) (w : buf_writer) (S : list Z) : Prop :=
  capacity (inner w) = cap /\ zlen (sto w) = cap /\ cap <= zlen S /\ sto w = take cap S.

Lemma full_more cap w S l : full cap w S -> full cap w (S ++ l).
Proof.
  intros (A & B & C & D). split; [first [exact A|reflexivity]|]. split; [exact B|]. rewrite zlen_app. pose proof (zlen_nonneg l). split; [lia|]. rewrite take_app_l by lia. exact D.
Qed.

Lemma flush_healthy cap w S w' r : healthy cap w S -> flush_buf w = (w', r) ->
  healthy cap w' S /\ (r = true -> pending w' = [] /\ zlen S <= cap) /\ (r = false -> full cap w' S /\ cap < zlen S).
Proof.
  intros (A & B & C & D) F. unfold flush_buf, file_write_all in F. fold (sto w) in F. rewrite A in F. injection F as <- <-.
  fold (take (cap - zlen (sto w)) (pending w)).
  unfold healthy, full, sto. cbn [inner pending capacity stored_bytes]. fold (sto w).
  assert (T : sto w ++ take (cap - zlen (sto w)) (pending w) = take cap S) by (rewrite <- D, take_app by exact B; reflexivity).
  assert (ZS : zlen S = zlen (sto w) + zlen (pending w)) by (rewrite <- D; apply zlen_app).
  split; [|split].
  - split; [first [exact A|reflexivity]|]. split; [|split].
    + rewrite T. unfold take, zlen. rewrite firstn_length. pose proof (zlen_nonneg (sto w)). lia.
    + unfold zlen in *. rewrite skipn_length. lia.
    + rewrite <- app_assoc, take_skip. exact D.
  - intros R. apply Z.leb_le in R. split; [|lia]. apply skipn_all2. unfold zlen in *. lia.
  - intros R. apply Z.leb_gt in R. split; [|lia]. split; [first [exact A|reflexivity]|]. pose proof (zlen_nonneg (sto w)). rewrite T. split; [apply take_len; lia|]. split; [lia|reflexivity].
Qed.
Lemma flush_full cap w S w' r : full cap w S -> flush_buf w = (w', r) -> full cap w' S.
Proof.
  intros (A & B & C & D) F. unfold flush_buf, file_write_all in F. fold (sto w) in F. rewrite A, B, Z.sub_diag in F. injection F as <- <-.
  unfold full, sto. cbn [inner pending capacity stored_bytes firstn Z.to_nat]. fold (sto w). rewrite app_nil_r. auto.
Qed.

Lemma write_healthy cap w S l w' r : healthy cap w S -> buf_write_all w l = (w', r) ->
  (r = true -> healthy cap w' (S ++ l)) /\ (r = false -> full cap w' (S ++ l) /\ cap < zlen (S ++ l)).
Proof.
  intros H F. unfold buf_write_all in F. pose proof (zlen_nonneg l) as PL. pose proof (zlen_nonneg (pending w)) as PP. destruct (Z.ltb_spec (zlen l) (8192 - zlen (pending w))) as [K|K].
  - injection F as <- <-. split; [|discriminate]. destruct H as (A & B & C & D). unfold healthy, sto. cbn. fold (sto w).
    split; [first [exact A|reflexivity]|]. split; [exact B|]. split; [rewrite zlen_app; lia|]. rewrite app_assoc, D. reflexivity.
  - assert (Q : exists w1 r1, (if 8192 - zlen (pending w) <? zlen l then flush_buf w else (w, true)) = (w1, r1) /\ healthy cap w1 S /\
      (r1 = true -> zlen l < 8192 -> zlen (pending w1) + zlen l <= 8192) /\ (r1 = true -> 8192 <= zlen l -> pending w1 = []) /\
      (r1 = false -> full cap w1 S /\ cap < zlen S)).
    { destruct (Z.ltb_spec (8192 - zlen (pending w)) (zlen l)) as [K2|K2].
      - destruct (flush_buf w) as [w1 r1] eqn:FB. exists w1, r1. split; [reflexivity|]. destruct (flush_healthy _ _ _ _ _ H FB) as (H1 & H2 & H3).
        split; [exact H1|]. split; [|split; [|exact H3]].
        + intros R. destruct (H2 R) as [-> _]. cbn. lia. + intros R. destruct (H2 R). auto.
      - exists w, true. split; [reflexivity|]. split; [exact H|]. split; [lia|]. split; [|discriminate]. intros _ G.
        destruct (pending w); auto. rewrite zlen_cons in *. pose proof (zlen_nonneg l0). lia. }
    destruct Q as (w1 & r1 & E & H1 & P1 & P2 & P3). rewrite E in F. destruct r1; cbn [negb] in F.
    2:{ injection F as <- <-. split; [discriminate|]. intros _. destruct (P3 eq_refl) as [P4 P5]. split; [apply full_more, P4|]. rewrite zlen_app. lia. }
    destruct H1 as (A & B & C & D). destruct (Z.leb_spec 8192 (zlen l)) as [G|G].
    + specialize (P2 eq_refl G). rewrite P2, app_nil_r in D. unfold file_write_all in F. fold (sto w1) in F. rewrite A in F. injection F as <- <-. subst S.
      fold (take (cap - zlen (sto w1)) l). unfold healthy, full, sto. cbn [inner pending capacity stored_bytes]. fold (sto w1). rewrite P2.
      split; intros R.
      * apply Z.leb_le in R. rewrite take_all by lia. rewrite zlen_app. rewrite app_nil_r. change (zlen (@nil Z)) with 0. repeat split; auto; lia.
      * apply Z.leb_gt in R. pose proof (zlen_nonneg (sto w1)). rewrite !zlen_app, take_len by lia. rewrite take_app by lia. repeat split; auto; lia.
    + injection F as <- <-. split; [|discriminate]. intros _. specialize (P1 eq_refl G). unfold healthy, sto. cbn. fold (sto w1).
      split; [first [exact A|reflexivity]|]. split; [exact B|]. split; [rewrite zlen_app; lia|]. rewrite app_assoc, D. reflexivity.
Qed.
Lemma write_full cap w S l w' r : full cap w S -> buf_write_all w l = (w', r) -> full cap w' (S ++ l).
Proof.
  intros H F. apply (full_more _ _ _ l) in H. unfold buf_write_all in F. destruct (zlen l <? 8192 - zlen (pending w)).
  - injection F as <- <-. exact H.
  - destruct (if 8192 - zlen (pending w) <? zlen l then flush_buf w else (w, true)) as [w1 r1] eqn:E.
    assert (H1 : full cap w1 (S ++ l)).
    { destruct (8192 - zlen (pending w) <? zlen l); [eapply flush_full; eauto|injection E as <- <-; exact H]. }
    destruct r1; cbn [negb] in F; [|injection F as <- <-; exact H1]. destruct (8192 <=? zlen l).
    + destruct H1 as (A & B & C & D). unfold file_write_all in F. fold (sto w1) in F. rewrite A, B, Z.sub_diag in F. injection F as <- <-.
      unfold full, sto. cbn [inner pending capacity stored_bytes firstn Z.to_nat]. fold (sto w1). rewrite app_nil_r. auto.
    + injection F as <- <-. exact H1.
Qed.

Lemma drop_full cap w S : full cap w S -> stored_bytes (drop_buf w) = take cap S.
Proof.
  intros H. unfold drop_buf. destruct (flush_buf w) as [w' r] eqn:F. destruct (flush_full _ _ _ _ _ H F) as (_ & _ & _ & D). exact D.
Qed.
Lemma drop_healthy cap w S : healthy cap w S -> stored_bytes (drop_buf w) = take cap S.
Proof.
  intros H. unfold drop_buf. destruct (flush_buf w) as [w' r] eqn:F. destruct (flush_healthy _ _ _ _ _ H F) as (H1 & H2 & H3).
  destruct r; [|apply H3; reflexivity]. destruct (H2 eq_refl) as [P Z]. destruct H1 as (_ & _ & _ & D). rewrite P, app_nil_r in D. fold (sto w'). cbn [fst].
  fold (sto w'). rewrite D. symmetry. apply take_all, Z.
Qed.

Lemma run_file cap ops ok : forall w S w' r, healthy cap w S \/ full cap w S -> run_ops file_writer ops ok w = (w', r) ->
  stored_bytes (drop_buf w') = take cap (S ++ output ops) /\
  (healthy cap w S -> zlen (S ++ output ops) <= cap -> r = if ok then ROk tt else RErr EEncoding) /\
  (healthy cap w S -> no_ignored ops -> r = ROk tt -> healthy cap w' (S ++ output ops)) /\
  (r = ROk tt -> ok = true).
Proof.
  induction ops as [|[l|l|] ops IH]; intros w S w' r H R; cbn [run_ops] in R; cbn [output flat_map].
  - injection R as <- <-. rewrite app_nil_r. split; [destruct H; [eapply drop_healthy|eapply drop_full]; eassumption|]. split; [reflexivity|]. split; [auto|]. destruct ok; [reflexivity|discriminate].
  - fold (output ops). rewrite app_assoc. destruct (write_all file_writer w l) as [w1 [|]] eqn:F; cbn [write_all file_writer] in F.
    + assert (H1 : healthy cap w1 (S ++ l) \/ full cap w1 (S ++ l)).
      { destruct H as [H|H]; [left; apply (write_healthy _ _ _ _ _ _ H F); reflexivity|right; apply (write_full _ _ _ _ _ _ H F)]. }
      destruct (IH _ _ _ _ H1 R) as (A & B & C & D). split; [first [exact A|reflexivity]|]. split; [|split; [|exact D]].
      * intros Hh. apply B. apply (write_healthy _ _ _ _ _ _ Hh F). reflexivity.
      * intros Hh NI. inversion NI; subst. apply C; auto. apply (write_healthy _ _ _ _ _ _ Hh F). reflexivity.
    + injection R as <- <-.
      assert (H1 : full cap w1 (S ++ l)).
      { destruct H as [H|H]; [apply (write_healthy _ _ _ _ _ _ H F); reflexivity|apply (write_full _ _ _ _ _ _ H F)]. }
      split; [apply drop_full, full_more, H1|]. split; [|split; discriminate]. intros Hh Z. exfalso.
      destruct (proj2 (write_healthy _ _ _ _ _ _ Hh F) eq_refl) as [_ G]. rewrite zlen_app in Z. pose proof (zlen_nonneg (output ops)). lia.
  - fold (output ops). rewrite app_assoc. destruct (write_all file_writer w l) as [w1 [|]] eqn:F; cbn [write_all file_writer] in F.
    + assert (H1 : healthy cap w1 (S ++ l) \/ full cap w1 (S ++ l)).
      { destruct H as [H|H]; [left; apply (write_healthy _ _ _ _ _ _ H F); reflexivity|right; apply (write_full _ _ _ _ _ _ H F)]. }
      destruct (IH _ _ _ _ H1 R) as (A & B & C & D). split; [first [exact A|reflexivity]|]. split; [|split; [|exact D]].
      * intros Hh. apply B. apply (write_healthy _ _ _ _ _ _ Hh F). reflexivity.
      * intros Hh NI. exfalso. apply Forall_cons_iff in NI. apply NI.
    + assert (H1 : full cap w1 (S ++ l)).
      { destruct H as [H|H]; [apply (write_healthy _ _ _ _ _ _ H F); reflexivity|apply (write_full _ _ _ _ _ _ H F)]. }
      destruct (IH _ _ _ _ (or_intror H1) R) as (A & B & C & D). split; [first [exact A|reflexivity]|]. split; [|split; [|exact D]].
      * intros Hh Z. exfalso. destruct (proj2 (write_healthy _ _ _ _ _ _ Hh F) eq_refl) as [_ G]. rewrite zlen_app in Z. pose proof (zlen_nonneg (output ops)). lia.
      * intros Hh NI. exfalso. apply Forall_cons_iff in NI. apply NI.
  - cbn [app]. fold (output ops). destruct (flush file_writer w) as [w1 [|]] eqn:F; cbn [flush file_writer] in F.
    + assert (H1 : healthy cap w1 S \/ full cap w1 S).
      { destruct H as [H|H]; [left; apply (flush_healthy _ _ _ _ _ H F)|right; apply (flush_full _ _ _ _ _ H F)]. }
      destruct (IH _ _ _ _ H1 R) as (A & B & C & D). split; [first [exact A|reflexivity]|]. split; [|split; [|exact D]].
      * intros Hh. apply B. apply (flush_healthy _ _ _ _ _ Hh F).
      * intros Hh NI. inversion NI; subst. apply C; auto. apply (flush_healthy _ _ _ _ _ Hh F).
    + injection R as <- <-.
      assert (H1 : full cap w1 S).
      { destruct H as [H|H]; [apply (flush_healthy _ _ _ _ _ H F); reflexivity|apply (flush_full _ _ _ _ _ H F)]. }
      split; [apply drop_full, full_more, H1|]. split; [|split; discriminate]. intros Hh Z. exfalso.
      destruct (flush_healthy _ _ _ _ _ Hh F) as (_ & _ & G). destruct (G eq_refl). rewrite zlen_app in Z. pose proof (zlen_nonneg (output ops)). lia.
Qed.

(** An encoder that flushes last and reports success has stored all bytes. *)
Lemma run_flush cap ops ok : forall w S w' r, healthy cap w S -> no_ignored ops -> run_ops file_writer (ops ++ [Flush]) ok w = (w', r) -> r = ROk tt ->
  zlen (S ++ output ops) <= cap.
Proof.
  induction ops as [|[l|l|] ops IH]; intros w S w' r H NI R ->; cbn [run_ops app] in R; cbn [output flat_map].
  - destruct (flush file_writer w) as [w1 [|]] eqn:F; cbn [flush file_writer] in F; [|discriminate R]. rewrite app_nil_r.
    destruct (flush_healthy _ _ _ _ _ H F) as (_ & G & _). apply G. reflexivity.
  - fold (output ops). rewrite app_assoc. apply Forall_cons_iff in NI as [_ NI]. destruct (write_all file_writer w l) as [w1 [|]] eqn:F; cbn [write_all file_writer] in F; [|discriminate R].
    eapply (IH w1); [apply (write_healthy _ _ _ _ _ _ H F); reflexivity|exact NI|exact R|reflexivity].
  - apply Forall_cons_iff in NI as [[] _].
  - apply Forall_cons_iff in NI as [_ NI]. destruct (flush file_writer w) as [w1 [|]] eqn:F; cbn [flush file_writer] in F; [|discriminate R].
    eapply (IH w1); [apply (flush_healthy _ _ _ _ _ H F)|exact NI|exact R|reflexivity].
Qed.

Lemma fresh_healthy cap : 0 <= cap -> healthy cap (mkBuf (mkFile [] cap) []) [].
Proof. intros H. repeat split; cbn; lia. Qed.

(** ** Saving *)

Lemma set_file_same s path c : files (set_file s path c) path = Some c.
Proof. cbn. rewrite String.eqb_refl. reflexivity. Qed.
Lemma set_file_other s path c p : p <> path -> files (set_file s path c) p = files s p.
Proof. intros H. cbn. destruct (String.eqb_spec p path); [contradiction|reflexivity]. Qed.

Lemma save_others : forall E L s path b f s' r p, encode_to_file E L s path b f = (s', r) -> p <> path -> files s' p = files s p.
Proof.
  intros E L s path b f s' r p H N. unfold encode_to_file in H. fold (chosen path f) in H. destruct (chosen path f) as [g|e]; [|injection H as <- _; reflexivity].
  destruct (creatable s path); [|injection H as <- _; reflexivity]. destruct (encode E L file_writer _ b g) as [w r']. injection H as <- _.
  apply set_file_other, N.
Qed.
Lemma save_untouched : forall E L s path b f, (exists e, chosen path f = RErr e) \/ creatable s path = false ->
  exists e, encode_to_file E L s path b f = (s, RErr e).
Proof.
  intros E L s path b f H. unfold encode_to_file. fold (chosen path f). destruct (chosen path f) as [g|e]; [|eauto].
  destruct H as [[e H]| ->]; [discriminate H|eauto].
Qed.

(** The save has started once format and file are known. *)
Lemma save_contents : forall E L s path b f g j ops ok s' r, 0 <= limits s path -> chosen path f = ROk g -> creatable s path = true ->
  make_job L b g = ROk j -> E j = (ops, ok) -> encode_to_file E L s path b f = (s', r) ->
  files s' path = Some (firstn (Z.to_nat (limits s path)) (output ops)) /\
  (zlen (output ops) <= limits s path -> files s' path = Some (output ops) /\ r = if ok then ROk tt else RErr EEncoding) /\
  (r = ROk tt -> ok = true) /\
  (r = ROk tt -> no_ignored ops -> zlen (output ops) <= limits s path + 8192) /\
  (r = ROk tt -> no_ignored ops -> (exists before, ops = before ++ [Flush]) -> files s' path = Some (output ops)).
Proof.
  intros E L s path b f g j ops ok s' r CL CG CC J O H. unfold encode_to_file in H. fold (chosen path f) in H. rewrite CG, CC in H.
  unfold encode in H. rewrite J, O in H. destruct (run_ops file_writer ops ok _) as [w' r'] eqn:R. apply pair_equal_spec in H as [<- <-].
  destruct (run_file (limits s path) ops ok _ [] w' r' (or_introl (fresh_healthy _ CL)) R) as (A & B & C & D).
  cbn [app] in *. rewrite set_file_same, A. fold (take (limits s path) (output ops)).
  split; [reflexivity|]. split; [|split; [exact D|split]].
  - intros Z. rewrite take_all by exact Z. split; [reflexivity|]. apply B; auto using fresh_healthy.
  - intros RR NI. destruct (C (fresh_healthy _ CL) NI RR) as (_ & S1 & S2 & S3). rewrite <- S3, zlen_app. lia.
  - intros RR NI [before ->]. assert (NB : no_ignored before) by (apply Forall_app in NI; apply NI).
    pose proof (run_flush _ before ok _ _ _ _ (fresh_healthy _ CL) NB R RR) as Z. cbn [app] in Z. unfold output in Z |- *. rewrite flat_map_app. cbn [flat_map]. rewrite !app_nil_r.
    rewrite take_all by exact Z. reflexivity.
Qed.

(** A failure before anything is encoded still truncates the file. *)
Lemma save_bad_job : forall E L s path b f g e s' r, chosen path f = ROk g -> creatable s path = true -> make_job L b g = RErr e ->
  encode_to_file E L s path b f = (s', r) -> files s' path = Some [] /\ r = RErr e.
Proof.
  intros E L s path b f g e s' r CG CC J H. unfold encode_to_file in H. fold (chosen path f) in H. rewrite CG, CC in H.
  unfold encode in H. rewrite J in H. apply pair_equal_spec in H as [<- <-]. rewrite set_file_same. split; [|reflexivity].
  unfold drop_buf, flush_buf, file_write_all. cbn. rewrite firstn_nil. reflexivity.
Qed.
