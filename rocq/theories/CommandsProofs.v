(** Proofs about command queues. *)
From Coq Require Import ZArith Reals List Bool String Lia.
From Verif Require Import Base BaseLemmas PixelBuffer BufferSpec PixelBufferProofs F32 Color Resample Kernel Ops OpsSpec Codec CodecSpec Image Commands CommandsSpec.
From Verif Require Import P_Resample P_Ops P_Codec.
Import ListNotations.
Open Scope Z_scope.

Definition im (b : PixelBuffer Rgb) : Image := mkImage b None.
Definition ctx_of (b : option (PixelBuffer Rgb)) : option Image := option_map im b.
Definition held_valid {R} (st : state R) : Prop := forall b, held st = Some b -> valid b.
Definition st_of {R} (b : option (PixelBuffer Rgb)) (w : world R) : state R := mkState b (w_fs w) (w_rng w).

Lemma map_pure {A B} (f : A -> B) l : map_res (fun a => Ok (f a)) l = Ok (map f l).
Proof. induction l; simpl; auto. rewrite IHl. auto. Qed.

Lemma mod_pure (f : Rgb -> Rgb) b : image_mod_colors (fun c => Ok (f c)) (im b) = Ok (im (mkPB (width b) (height b) (map f (data b)))).
Proof. unfold image_mod_colors, in_place_st, mod_colors. simpl buffer.
  rewrite (map_st_unit (fun c => Ok (f c))). rewrite map_pure. reflexivity. Qed.

Lemma recolored_map f b : valid b -> recolored f b (mkPB (width b) (height b) (map f (data b))).
Proof.
  intros V. assert (V' : valid (mkPB (width b) (height b) (map f (data b)))).
  { destruct V as (V1 & V2). split; simpl; auto. unfold zlen in *. rewrite map_length. auto. }
  split; auto. split; auto. split; auto. intros m x y c I G.
  rewrite get_pixel_eq by auto. rewrite get_pixel_eq in G by auto. simpl.
  rewrite idx_map, G. reflexivity.
Qed.
Lemma recolored_unique f b b1 b2 : valid b -> recolored f b b1 -> recolored f b b2 -> b1 = b2.
Proof.
  intros V (V1 & W1 & H1 & P1) (V2 & W2 & H2 & P2). apply (buffer_ext Checked); auto; try congruence.
  intros x y (Ix & Iy). assert (I : inside b x y) by (split; lia).
  destruct (get_pixel_inside Checked b x y V I) as (c & G).
  rewrite (P1 Checked x y c), (P2 Checked x y c); auto.
Qed.

Lemma decode_file_valid m D L s path b : good_decoders D -> decode_file m D L s path = Ok (ROk b) -> valid b.
Proof.
  intros G. unfold decode_file. destruct (files s path); [|discriminate].
  destruct (from_reader l); [apply C59_decode_gives_valid; auto|].
  destruct (format_from_path path); [apply C59_decode_gives_valid; auto|discriminate].
Qed.

Lemma Some_inj' {A} (a b : A) : Some a = Some b -> a = b.
Proof. intros H. inversion H. auto. Qed.
Lemma Ok_inj1 {A} (a b : A) : Ok a = Ok b -> a = b.
Proof. intros H. inversion H. auto. Qed.

Lemma cons_inj {A} (a b : A) l l' : a :: l = b :: l' -> a = b /\ l = l'.
Proof. intros H. inversion H. auto. Qed.

Section Steps.
Context {R : Type} (e : env R).

Lemma does_valid c st r st' : good_decoders (e_dec e) -> held_valid st -> does e c st r st' -> held_valid st'.
Proof.
  intros G V H. destruct H as [st|path b b' s r E|path b s r err E|c s r|path b s r s' E|path b s r s' err E
    |c f b b' s r F E|radians f b b' s r E|c n b b' s r r' F E]; auto; intros x Hx; simpl in Hx; try discriminate Hx.
  - apply Some_inj' in Hx as <-. eapply decode_file_valid; eauto.
  - apply Some_inj' in Hx as <-. destruct E as (E & _). exact E.
  - apply Some_inj' in Hx as <-.
    destruct (C24_rotate_total (e_libm e) (e_build e) b radians RGB_NONE f (V b eq_refl)) as (r1 & Hr & Vr & _).
    unfold RGB_NONE in Hr. rewrite E in Hr. apply Ok_inj1 in Hr as ->. exact Vr.
  - apply Some_inj' in Hx as <-. pose proof (V b eq_refl) as Vb.
    destruct c; try discriminate F; apply Some_inj' in F as <-.
    + destruct (C48_noise_mixes R (e_rng e) KRgb r b strength Vb) as ((s1 & b1 & E1 & _ & V1 & _) & _).
      pose proof (Ok_inj1 _ _ (eq_trans (eq_sym E1) E)) as X. apply pair_equal_spec in X as (_ & X). rewrite <- X. exact V1.
    + destruct (C47_salt_and_pepper R (e_rng e) r b threshold Vb) as (s1 & b1 & E1 & _ & V1 & _).
      pose proof (Ok_inj1 _ _ (eq_trans (eq_sym E1) E)) as X. apply pair_equal_spec in X as (_ & X). rewrite <- X. exact V1.
    + destruct (C47_rgb_noise_spec R (e_rng e) r b threshold Vb) as (s1 & b1 & E1 & _ & V1 & _).
      pose proof (Ok_inj1 _ _ (eq_trans (eq_sym E1) E)) as X. apply pair_equal_spec in X as (_ & X). rewrite <- X. exact V1.
Qed.

(** What a command does when it does not panic. *)
Lemma step_forward c hb w ctx' w' r : held_valid (st_of hb w) ->
  execute_cmd e c (ctx_of hb) w = Ok (ctx', w', r) ->
  exists hb', ctx' = ctx_of hb' /\ does e c (st_of hb w) r (st_of hb' w') /\ w_out w' = w_out w.
Proof.
  intros V H.
  assert (P : forall f, execute_mod f (ctx_of hb) w = Ok (ctx', w', r) -> pixel_function (e_libm e) c = Some f ->
    exists hb', ctx' = ctx_of hb' /\ does e c (st_of hb w) r (st_of hb' w') /\ w_out w' = w_out w).
  { intros f X F. unfold execute_mod, with_image in X. destruct hb as [b|]; unfold ctx_of, option_map in X.
    - rewrite mod_pure in X. simpl bind in X. inversion X; subst. exists (Some (mkPB (width b) (height b) (map f (data b)))).
      split; auto. split; auto. apply does_pixels with (f := f); auto. apply recolored_map. apply V. auto.
    - inversion X; subst. exists None. split; auto. split; auto. unfold st_of. apply does_missing; destruct c; auto; discriminate F. }
  assert (N : forall f n, execute_noise f (ctx_of hb) w = Ok (ctx', w', r) -> noise_function (e_rng e) c = Some n ->
    (forall s b, f s (im b) = bind (n s b) (fun '(s', b') => Ok (s', im b'))) ->
    exists hb', ctx' = ctx_of hb' /\ does e c (st_of hb w) r (st_of hb' w') /\ w_out w' = w_out w).
  { intros f n X F E. unfold execute_noise, with_image in X. destruct hb as [b|]; unfold ctx_of, option_map in X.
    - rewrite E in X. destruct (n (w_rng w) b) as [(s1 & b1)|] eqn:En; [|discriminate X]. simpl bind in X. inversion X; subst.
      exists (Some b1). split; auto. split; auto. apply does_noise with (n := n); auto.
    - inversion X; subst. exists None. split; auto. split; auto. unfold st_of. apply does_missing; destruct c; auto; discriminate F. }
  destruct c; simpl execute_cmd in H; try (eapply P; [exact H|reflexivity]);
    try (eapply N; [exact H|reflexivity|intros; reflexivity]).
  - inversion H; subst. exists hb. split; auto. split; auto. apply does_silent.
  - unfold execute_open, image_open in H. destruct (decode_file _ _ _ _ _) as [[b|err]|] eqn:E; simpl bind in H; inversion H; subst.
    + exists (Some b). split; auto. split; auto. apply does_open; auto.
    + exists hb. split; auto. split; auto. apply does_open_fail; auto.
  - unfold execute_save, with_image in H. destruct hb as [b|]; unfold ctx_of, option_map in H.
    + unfold image_save in H. simpl buffer in H. destruct (encode_to_file _ _ _ _ _ _) as (s1 & [[]|err]) eqn:E; inversion H; subst; exists (Some b);
        (split; [auto|split; [|auto]]).
      * apply does_save; auto.
      * apply does_save_fail; auto.
    + inversion H; subst. exists None. split; auto. split; auto. apply does_missing; auto.
  - unfold with_image in H. destruct hb as [b|]; unfold ctx_of, option_map in H.
    + unfold image_rotate, with_meta in H. simpl in H. destruct (rotate _ _ _ _ _ _) as [b1|] eqn:E; [|discriminate H].
      simpl bind in H. inversion H; subst. exists (Some b1). split; auto. split; auto. apply does_rotate. exact E.
    + inversion H; subst. exists None. split; auto. split; auto. apply does_missing; auto.
Qed.

Lemma step_backward' c st r st' : held_valid st -> does e c st r st' -> forall o,
  execute_cmd e c (ctx_of (held st)) (mkWorld (on_disk st) (random st) o) = Ok (ctx_of (held st'), mkWorld (on_disk st') (random st') o, r).
Proof.
  intros V H o. destruct H as [st|path b b' s r E|path b s r err E|c s r E1 E2|path b s r s' E|path b s r s' err E
    |c f b b' s r F E|radians f b b' s r E|c n b b' s r r' F E]; cbn [held on_disk random].
  - reflexivity.
  - unfold execute_cmd, execute_open, image_open. cbn [w_fs]. rewrite E. reflexivity.
  - unfold execute_cmd, execute_open, image_open. cbn [w_fs]. rewrite E. reflexivity.
  - destruct c; try reflexivity; discriminate.
  - unfold execute_cmd, execute_save, image_save, with_image, ctx_of, option_map. cbn [w_fs buffer im]. rewrite E. reflexivity.
  - unfold execute_cmd, execute_save, image_save, with_image, ctx_of, option_map. cbn [w_fs buffer im]. rewrite E. reflexivity.
  - pose proof (V b eq_refl) as Vb.
    assert (b' = mkPB (width b) (height b) (map f (data b))) as -> by (eapply recolored_unique; eauto using recolored_map).
    destruct c; try discriminate F; apply Some_inj' in F as <-; unfold execute_cmd, execute_mod, with_image, ctx_of, option_map;
      rewrite mod_pure; reflexivity.
  - unfold execute_cmd, image_rotate, with_image, with_meta, ctx_of, option_map. cbn [im buffer bg_color]. unfold RGB_NONE. rewrite E. reflexivity.
  - destruct c; try discriminate F; apply Some_inj' in F as <-;
      unfold execute_cmd, execute_noise, with_image, ctx_of, option_map, image_random_noise, image_salt_n_pepper_noise, image_rgb_noise, with_meta_st; cbn [w_rng im buffer]; rewrite E; reflexivity.
Qed.
Lemma step_backward c hb w r st' : held_valid (st_of hb w) -> does e c (st_of hb w) r st' ->
  execute_cmd e c (ctx_of hb) w = Ok (ctx_of (held st'), mkWorld (on_disk st') (random st') (w_out w), r).
Proof. intros V H. destruct w as [s0 g0 o0]. exact (step_backward' c _ r st' V H o0). Qed.

Lemma step_panic c hb w : held_valid (st_of hb w) ->
  (execute_cmd e c (ctx_of hb) w = Panic <-> exists path, c = CmdOpen path /\ decode_file (e_build e) (e_dec e) (e_libm e) (w_fs w) path = Panic).
Proof.
  intros V. split.
  - intros H. 
    assert (P : forall f, execute_mod f (ctx_of hb) w = Panic -> False).
    { intros f X. unfold execute_mod, with_image in X. destruct hb as [b|]; unfold ctx_of, option_map in X; [rewrite mod_pure in X|]; discriminate X. }
    destruct c; simpl execute_cmd in H; try (exfalso; exact (P _ H)); try discriminate H.
    + exists path. split; auto. unfold execute_open, image_open in H. destruct (decode_file _ _ _ _ _) as [[|]|]; auto; discriminate H.
    + unfold execute_save, with_image in H. destruct (ctx_of hb) as [i|]; [|discriminate H]. destruct (image_save _ _ _ _ _) as (s1 & [|]); discriminate H.
    + unfold with_image in H. destruct hb as [b|]; unfold ctx_of, option_map in H; [|discriminate H].
      unfold image_rotate, with_meta in H. simpl in H.
      destruct (C24_rotate_total (e_libm e) (e_build e) b radians RGB_NONE filter (V b eq_refl)) as (r' & Hr & _).
      rewrite Hr in H. discriminate H.
    + unfold execute_noise, with_image in H. destruct hb as [b|]; unfold ctx_of, option_map in H; [|discriminate H].
      destruct (C48_noise_mixes R (e_rng e) KRgb (w_rng w) b strength (V b eq_refl)) as ((s1 & b1 & E & _) & _).
      unfold image_random_noise, with_meta_st in H. simpl buffer in H.
      assert (E' : random_noise (e_rng e) KRgb (w_rng w) b strength = Ok (s1, b1)) by exact E.
      rewrite E' in H. discriminate H.
    + unfold execute_noise, with_image in H. destruct hb as [b|]; unfold ctx_of, option_map in H; [|discriminate H].
      destruct (C47_salt_and_pepper R (e_rng e) (w_rng w) b threshold (V b eq_refl)) as (s1 & b1 & E & _).
      unfold image_salt_n_pepper_noise, with_meta_st in H. simpl buffer in H. rewrite E in H. discriminate H.
    + unfold execute_noise, with_image in H. destruct hb as [b|]; unfold ctx_of, option_map in H; [|discriminate H].
      destruct (C47_rgb_noise_spec R (e_rng e) (w_rng w) b threshold (V b eq_refl)) as (s1 & b1 & E & _).
      unfold image_rgb_noise, with_meta_st in H. simpl buffer in H. rewrite E in H. discriminate H.
  - intros (path & -> & E). simpl. unfold execute_open, image_open. rewrite E. reflexivity.
Qed.

(** The lines printed from a given state of the log. *)
Fixpoint lines_of (log : Log) (started : list Cmd) : list line :=
  match started with
  | [] => []
  | c :: l => if silent c then lines_of (log_disable log) l
              else (if disabled log then [] else [mkLine (current log + 1) (total log) c])
                   ++ lines_of (mkLog (disabled log) (total log) (current log + 1)) l
  end.

Definition next_log (log : Log) (c : Cmd) : Log :=
  if silent c then log_disable log else mkLog (disabled log) (total log) (current log + 1).
Definition own_lines (log : Log) (c : Cmd) : list line :=
  if silent c then [] else if disabled log then [] else [mkLine (current log + 1) (total log) c].
Lemma lines_of_cons log c l : lines_of log (c :: l) = own_lines log c ++ lines_of (next_log log c) l.
Proof. simpl. unfold own_lines, next_log. destruct (silent c); auto. Qed.
Definition printed (w : world R) (l : list line) : world R := mkWorld (w_fs w) (w_rng w) (w_out w ++ l).

Lemma execute_cons c q ctx log w : execute e (c :: q) ctx log w =
  bind (execute_cmd e c ctx (printed w (own_lines log c))) (fun '(ctx, w, r) =>
    match r with ROk _ => execute e q ctx (next_log log c) w | RErr err => Ok (w, RErr err) end).
Proof.
  assert (X : w = printed w []) by (destruct w; unfold printed; simpl; rewrite app_nil_r; auto).
  destruct c; simpl execute; unfold own_lines, next_log; simpl silent; cbv iota;
   try (destruct (disabled log) eqn:D; simpl negb; cbv iota; [rewrite <- X|]; destruct log; simpl in D; subst; reflexivity).
  rewrite <- X. reflexivity.
Qed.

Lemma do_all_cons c l st st2 : do_all e (c :: l) st st2 -> exists st1, does e c st (ROk tt) st1 /\ do_all e l st1 st2.
Proof. intros H. inversion H; subst. eauto. Qed.
Lemma do_all_nil st st2 : do_all e [] st st2 -> st2 = st.
Proof. intros H. inversion H; subst. auto. Qed.

Lemma execute_iff q : forall hb log w w' r, good_decoders (e_dec e) -> held_valid (st_of hb w) ->
  (execute e q (ctx_of hb) log w = Ok (w', r) <->
   exists hb' started, do_until_error e q (st_of hb w) (st_of hb' w') started r /\ w_out w' = w_out w ++ lines_of log started).
Proof.
  induction q as [|c q IH]; intros hb log w w' r G V.
  - simpl execute. split.
    + intros H. inversion H; subst. exists hb, []. split; [|simpl; rewrite app_nil_r; auto]. left. repeat split. constructor.
    + intros (hb' & started & [(-> & -> & H) | (done & c & later & st1 & err & E & _)] & O).
      * inversion H; subst. simpl in O. rewrite app_nil_r in O. destruct w, w'; simpl in *; subst; auto.
      * destruct done; discriminate E.
  - rewrite execute_cons. set (w1 := printed w (own_lines log c)).
    assert (V1 : held_valid (st_of hb w1)) by exact V.
    split.
    + intros H. destruct (execute_cmd e c (ctx_of hb) w1) as [((ctx1 & w2) & r1)|] eqn:E; [|discriminate H]. simpl bind in H.
      destruct (step_forward c hb w1 ctx1 w2 r1 V1 E) as (hb1 & -> & D & O).
      assert (V2 : held_valid (st_of hb1 w2)) by (eapply does_valid; eauto).
      change (st_of hb w1) with (st_of hb w) in D.
      destruct r1 as [[]|err].
      * apply IH in H as (hb' & started & U & O'); auto. exists hb', (c :: started). split.
        -- destruct U as [(-> & -> & U) | (done & c0 & later & st1 & err & -> & -> & -> & U & F)].
           ++ left. repeat split. econstructor; eauto.
           ++ right. exists (c :: done), c0, later, st1, err. repeat split; auto. econstructor; eauto.
        -- rewrite lines_of_cons, O', O. unfold w1, printed. simpl. rewrite app_assoc. auto.
      * inversion H; subst. exists hb1, [c]. split.
        -- right. exists [], c, q, (st_of hb w), err. repeat split; auto. constructor.
        -- rewrite lines_of_cons. cbn [lines_of]. rewrite O, app_nil_r. auto.
    + intros (hb' & started & [(-> & -> & H) | (done & c0 & later & st1 & err & E & -> & -> & U & F)] & O).
      * apply do_all_cons in H as (st1 & H3 & H4). assert (V2 : held_valid st1) by (eapply does_valid; eauto).
        change (st_of hb w) with (st_of hb w1) in H3. rewrite (step_backward _ _ _ _ _ V1 H3). simpl bind.
        destruct st1 as [h1 s1 g1]. simpl. apply (IH h1 (next_log log c) (mkWorld s1 g1 (w_out w1)) w' (ROk tt) G V2).
        exists hb', q. split; [left; auto|]. rewrite O, lines_of_cons. simpl. rewrite app_assoc. auto.
      * destruct done as [|c1 done]; simpl in E; apply cons_inj in E as (<- & ->).
        -- apply do_all_nil in U. subst st1. change (st_of hb w) with (st_of hb w1) in F. rewrite (step_backward _ _ _ _ _ V1 F). simpl bind.
           cbn [app] in O. rewrite lines_of_cons in O. cbn [lines_of] in O. rewrite app_nil_r in O.
           destruct w' as [s' g' o']. simpl in O. subst o'. reflexivity.
        -- apply do_all_cons in U as (st0 & H2 & H4). assert (V2 : held_valid st0) by (eapply does_valid; eauto).
           change (st_of hb w) with (st_of hb w1) in H2. rewrite (step_backward _ _ _ _ _ V1 H2). simpl bind.
           destruct st0 as [h1 s1 g1]. simpl. apply (IH h1 (next_log log c) (mkWorld s1 g1 (w_out w1)) w' (RErr err) G V2).
           exists hb', (done ++ [c0]). split.
           ++ right. exists done, c0, later, st1, err. repeat split; auto.
           ++ rewrite O. cbn [app]. rewrite lines_of_cons. simpl. rewrite app_assoc. auto.
Qed.

(** Panics. *)
Lemma execute_panic q : forall hb log w, good_decoders (e_dec e) -> held_valid (st_of hb w) ->
  (execute e q (ctx_of hb) log w = Panic <->
   exists done path later st, q = done ++ CmdOpen path :: later /\ do_all e done (st_of hb w) st /\
     decode_file (e_build e) (e_dec e) (e_libm e) (on_disk st) path = Panic).
Proof.
  induction q as [|c q IH]; intros hb log w G V.
  - split; [discriminate|]. intros (done & path & later & st & E & _). destruct done; discriminate E.
  - rewrite execute_cons. set (w1 := printed w (own_lines log c)).
    assert (V1 : held_valid (st_of hb w1)) by exact V. split.
    + intros H. destruct (execute_cmd e c (ctx_of hb) w1) as [((ctx1 & w2) & r1)|] eqn:E.
      * simpl bind in H. destruct (step_forward c hb w1 ctx1 w2 r1 V1 E) as (hb1 & -> & D & O).
        assert (V2 : held_valid (st_of hb1 w2)) by (eapply does_valid; eauto).
        destruct r1 as [[]|err]; [|discriminate H].
        apply IH in H as (done & path & later & st & -> & A & P); auto.
        exists (c :: done), path, later, st. repeat split; auto. econstructor; eauto.
      * apply step_panic in E as (path & -> & P); auto. exists [], path, q, (st_of hb w). repeat split; auto. constructor.
    + intros (done & path & later & st & E & A & P). destruct done as [|c1 done]; simpl in E; apply cons_inj in E as (-> & ->).
      * apply do_all_nil in A. subst st. assert (execute_cmd e (CmdOpen path) (ctx_of hb) w1 = Panic) as ->; [|reflexivity].
        apply step_panic; auto. eauto.
      * apply do_all_cons in A as (st1 & D & A). assert (V2 : held_valid st1) by (eapply does_valid; eauto).
        change (st_of hb w) with (st_of hb w1) in D. rewrite (step_backward _ _ _ _ _ V1 D). simpl bind.
        destruct st1 as [h1 s1 g1]. apply (IH h1 (next_log log c1) (mkWorld s1 g1 (w_out w1)) G V2).
        exists done, path, later, st. auto.
Qed.
End Steps.

Section Queue.
Context {R : Type} (e : env R).
Context (G : good_decoders (e_dec e)).

Lemma start_valid (w : world R) : held_valid (before_all w).
Proof. intros b H. discriminate H. Qed.

Lemma run_forward q w w' r : queue_run e q w = Ok (w', r) ->
  exists h started, do_until_error e q (before_all w) (mkState h (w_fs w') (w_rng w')) started r /\
    w_out w' = w_out w ++ lines_of (log_new (zlen (filter (fun c => negb (silent c)) q))) started.
Proof. intros H. apply (execute_iff e q None) in H; auto. apply start_valid. Qed.
Lemma run_backward q w st' started r : do_until_error e q (before_all w) st' started r ->
  exists w', queue_run e q w = Ok (w', r) /\ w_fs w' = on_disk st' /\ w_rng w' = random st' /\
    w_out w' = w_out w ++ lines_of (log_new (zlen (filter (fun c => negb (silent c)) q))) started.
Proof.
  intros H. destruct st' as [h s g]. exists (mkWorld s g (w_out w ++ lines_of (log_new (zlen (filter (fun c => negb (silent c)) q))) started)). split; [|auto].
  apply (execute_iff e q None); [auto|apply start_valid|]. exists h, started. split; [exact H|reflexivity].
Qed.

Lemma do_all_app l1 : forall l2 st st1 st2, do_all e l1 st st1 -> do_all e l2 st1 st2 -> do_all e (l1 ++ l2) st st2.
Proof.
  induction l1 as [|c l IH]; intros l2 st st1 st2 H1 H2.
  - apply do_all_nil in H1 as ->. exact H2.
  - apply do_all_cons in H1 as (st' & H & H1). simpl. econstructor; eauto.
Qed.
Lemma recolours_cmd L step f : recolours L step f -> exists c, pixel_function L c = Some f /\ forall q, step q = q ++ [c].
Proof. intros H. destruct H; unfold queue_to_gray, queue_invert, queue_gamma, queue_level, queue_brightness, queue_contrast,
  queue_brightness_contrast, queue_saturation, queue_stretch_saturation, queue_lightness, queue_hue_rotate, queue_with, queue_push;
  eexists; (split; [|reflexivity]); reflexivity. Qed.
Lemma recolored_trans f g b b1 b2 : valid b -> recolored f b b1 -> recolored g b1 b2 -> recolored (fun c => g (f c)) b b2.
Proof.
  intros V (V1 & W1 & H1 & P1) (V2 & W2 & H2 & P2). split; [exact V2|]. split; [etransitivity; eassumption|]. split; [etransitivity; eassumption|].
  intros m x y c I E. apply P2; [destruct I; split; lia|]. apply P1; auto.
Qed.
Lemma recolored_id b : valid b -> recolored (fun c => c) b b.
Proof. intros V. repeat split; auto; apply V. Qed.
Lemma steps_done steps : forall q b w (s : fs) (g : R), valid b ->
  Forall (fun '(step, f) => recolours (e_libm e) step f) steps -> do_all e q w (mkState (Some b) s g) ->
  exists b', recolored (fun c => fold_left (fun c '(step, f) => f c) steps c) b b' /\
    do_all e (fold_left (fun q '(step, f) => step q) steps q) w (mkState (Some b') s g).
Proof.
  induction steps as [|(step & f) steps IH]; intros q b w s g V F D.
  - exists b. split; [apply recolored_id; auto|exact D].
  - inversion F as [|x l F1 F2]; subst. destruct (recolours_cmd _ _ _ F1) as (c & P & Q).
    pose proof (recolored_map f b V) as M. set (b1 := mkPB (width b) (height b) (map f (data b))) in *.
    destruct (IH (step q) b1 w s g (proj1 M) F2) as (b' & H1 & H2).
    + rewrite Q. eapply do_all_app; [exact D|]. econstructor; [|constructor]. eapply does_pixels; eauto.
    + exists b'. split; [|exact H2]. change (recolored (fun c => fold_left (fun c '(_, f) => f c) steps (f c)) b b').
      exact (recolored_trans f (fun c => fold_left (fun c '(_, f) => f c) steps c) b b1 b' V M H1).
Qed.
Lemma save_last q w b output : do_all e q (before_all w) (mkState (Some b) (w_fs w) (w_rng w)) ->
  ends_saving e (queue_save q output) w output b.
Proof.
  intros D. unfold ends_saving, queue_save, queue_with, queue_push.
  destruct (encode_to_file (e_enc e) (e_libm e) (w_fs w) output b None) as (s' & [[]|err]) eqn:E.
  - destruct (run_backward (q ++ [CmdSave output]) w (mkState (Some b) s' (w_rng w)) (q ++ [CmdSave output]) (ROk tt)) as (w' & H1 & H2 & H3 & _).
    { left. split; auto. split; auto. eapply do_all_app; [exact D|]. econstructor; [|constructor]. apply does_save. exact E. }
    exists w', (ROk tt). rewrite H2. auto.
  - destruct (run_backward (q ++ [CmdSave output]) w (mkState (Some b) s' (w_rng w)) (q ++ [CmdSave output]) (RErr (Encoding err))) as (w' & H1 & H2 & H3 & _).
    { right. exists q, (CmdSave output), [], (mkState (Some b) (w_fs w) (w_rng w)), (Encoding err). repeat split; auto. apply does_save_fail. exact E. }
    exists w', (RErr err). rewrite H2. auto.
Qed.
Lemma open_first w input b : decode_file (e_build e) (e_dec e) (e_libm e) (w_fs w) input = Ok (ROk b) ->
  do_all e (queue_open queue_new input) (before_all w) (mkState (Some b) (w_fs w) (w_rng w)).
Proof. intros H. econstructor; [|constructor]. apply does_open. exact H. Qed.
Lemma builder_pixels steps w input output b : decode_file (e_build e) (e_dec e) (e_libm e) (w_fs w) input = Ok (ROk b) ->
  Forall (fun '(step, f) => recolours (e_libm e) step f) steps ->
  exists b', recolored (fun c => fold_left (fun c '(step, f) => f c) steps c) b b' /\
    ends_saving e (queue_save (fold_left (fun q '(step, f) => step q) steps (queue_open queue_new input)) output) w output b'.
Proof.
  intros D F. destruct (steps_done steps (queue_open queue_new input) b (before_all w) (w_fs w) (w_rng w)) as (b' & H1 & H2).
  - eapply decode_file_valid; eauto.
  - exact F.
  - apply open_first. exact D.
  - exists b'. split; [exact H1|]. apply save_last. exact H2.
Qed.
Lemma builder_rotate w input output b radians f b' : decode_file (e_build e) (e_dec e) (e_libm e) (w_fs w) input = Ok (ROk b) ->
  rotate (e_libm e) (e_build e) b radians (mkC f0 f0 f0 f0) f = Ok b' ->
  ends_saving e (queue_save (queue_rotate (queue_open queue_new input) radians f) output) w output b'.
Proof.
  intros D Q. apply save_last. unfold queue_rotate, queue_with, queue_push. eapply do_all_app; [apply open_first; exact D|].
  econstructor; [|constructor]. apply does_rotate. exact Q.
Qed.

Lemma decode_file_panic m D L s path : good_decoders D -> decode_file m D L s path = Panic ->
  exists contents raw w h f, files s path = Some contents /\ dec_jpeg D contents = ROk (raw, Some (w, h, f)) /\ 1073741823 < w * h.
Proof.
  intros GD. unfold decode_file. destruct (files s path) as [c|]; [|discriminate].
  assert (X : forall f, decode m D L c f = Panic -> exists contents raw w h f, Some c = Some contents /\ dec_jpeg D contents = ROk (raw, Some (w, h, f)) /\ 1073741823 < w * h).
  { intros f H. apply C59_decode_panics_exactly in H as (_ & raw & w & h & fm & H1 & H2); auto. exists c, raw, w, h, fm. auto. }
  destruct (from_reader c); [apply X|]. destruct (format_from_path path); [apply X|discriminate].
Qed.

Lemma log_lines_from q started : forall k dis, dis = false ->
  exists shown hidden, started = shown ++ hidden /\ ~ In CmdSilent shown /\
    (hidden = [] \/ exists l, hidden = CmdSilent :: l) /\
    zlen (lines_of (mkLog dis (zlen (filter (fun c => negb (silent c)) q)) k) started) = zlen shown /\
    forall j c, idx shown j = Ok c -> idx (lines_of (mkLog dis (zlen (filter (fun c => negb (silent c)) q)) k) started) j =
      Ok (mkLine (k + j + 1) (zlen (filter (fun c => negb (silent c)) q)) c).
Proof.
  set (t := zlen _). clearbody t.
  assert (Off : forall l t k, lines_of (mkLog true t k) l = []).
  { induction l as [|c l IH]; intros; simpl; auto. destruct (silent c); simpl; apply IH. }
  induction started as [|c l IH]; intros k dis ->.
  - exists [], []. split; auto. split; auto. split; auto. split; auto. intros j c H. apply idx_inv in H. unfold zlen in H. simpl in H. lia.
  - rewrite lines_of_cons. unfold own_lines, next_log. destruct (silent c) eqn:S.
    + exists [], (c :: l). destruct c; try discriminate S. split; auto. split; auto. split; eauto. simpl app. unfold log_disable. simpl.
      rewrite Off. split; auto. intros j c H. apply idx_inv in H. unfold zlen in H. simpl in H. lia.
    + destruct (IH (k + 1) false eq_refl) as (shown & hidden & -> & N & Hd & Z1 & Z2). exists (c :: shown), hidden.
      simpl disabled. cbv iota. simpl total. simpl current.
      split; auto. split. { intros [E|E]; auto. subst c. discriminate S. } split; auto.
      split. { rewrite zlen_app, Z1, (zlen_cons c). change (zlen [mkLine (k + 1) t c]) with 1. lia. }
      intros j c0 H. pose proof (idx_inv _ _ _ H) as B. rewrite zlen_cons in B.
      destruct (Z.eq_dec j 0) as [->|Nj].
      * change (Ok c = Ok c0) in H. apply Ok_inj1 in H as <-. replace (k + 0 + 1) with (k + 1) by lia. reflexivity.
      * change (c :: shown) with ([c] ++ shown) in H. rewrite idx_app_r in H by (unfold zlen; simpl; lia).
        rewrite idx_app_r by (unfold zlen; simpl; lia). change (zlen [c]) with 1 in H. change (zlen [mkLine (k + 1) t c]) with 1.
        rewrite (Z2 _ _ H). f_equal. f_equal. lia.
Qed.

Lemma silent_only q st st' : do_all e q st st' -> held st = None -> held st' = None -> Forall (eq CmdSilent) q /\ st' = st.
Proof.
  assert (Some_stays : forall q st st', do_all e q st st' -> held st <> None -> held st' <> None).
  { induction 1 as [|c l s0 s1 s2 D A IH]; auto. intros N. apply IH. destruct D; simpl in *; auto; discriminate. }
  induction 1 as [st|c l s0 s1 s2 D A IH]; intros N N'; auto.
  assert (N1 : held s1 = None). { destruct (held s1) eqn:E; auto. exfalso. apply (Some_stays _ _ _ A); [rewrite E; discriminate|auto]. }
  destruct (IH N1 N') as (F & ->).
  assert (c = CmdSilent /\ s1 = s0) as (-> & ->); auto.
  remember (ROk tt) as r. destruct D; simpl in *; auto; discriminate.
Qed.

Lemma does_missing_inv c st st' : does e c st (RErr MissingImage) st' -> silent c = false /\ opens c = false /\ held st = None /\ st' = st.
Proof. intros H. remember (RErr MissingImage) as r. destruct H; try discriminate Heqr; auto. Qed.

Lemma do_silents l st : Forall (eq CmdSilent) l -> do_all e l st st.
Proof. induction 1 as [|c l E F IH]; [constructor|]. subst c. econstructor; eauto. constructor. Qed.

Lemma missing_iff q w : (exists w', queue_run e q w = Ok (w', RErr MissingImage)) <->
  exists before c after, q = before ++ c :: after /\ Forall (eq CmdSilent) before /\ silent c = false /\ opens c = false.
Proof.
  split.
  - intros (w' & H). apply run_forward in H as (h & started & [(X & _)|(done & c & later & st1 & err & -> & _ & X & A & D)] & _); [discriminate X|].
    inversion X; subst err. apply does_missing_inv in D as (S & O & N & _).
    destruct (silent_only _ _ _ A eq_refl N) as (F & _). exists done, c, later. auto.
  - intros (before & c & after & -> & F & S & O).
    destruct (run_backward (before ++ c :: after) w (before_all w) (before ++ [c]) (RErr MissingImage)) as (w' & H & _); eauto.
    right. exists before, c, after, (before_all w), MissingImage. split; auto. split; auto. split; auto. split; [apply do_silents; auto|].
    apply does_missing; auto.
Qed.
Lemma missing_nothing q w w' : queue_run e q w = Ok (w', RErr MissingImage) -> w_fs w' = w_fs w /\ w_rng w' = w_rng w.
Proof.
  intros H. apply run_forward in H as (h & started & [(X & _)|(done & c & later & st1 & err & -> & _ & X & A & D)] & _); [discriminate X|].
  inversion X; subst err. apply does_missing_inv in D as (S & O & N & E).
  destruct (silent_only _ _ _ A eq_refl N) as (F & ->). inversion E. auto.
Qed.
End Queue.
