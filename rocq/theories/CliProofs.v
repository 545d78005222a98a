(** Proofs about names and the command line. *)
From Coq Require Import ZArith List Bool String Ascii Lia.
From Verif Require Import Base BaseLemmas F32 Color Blend Resample Kernel Ops Codec CodecSpec PathProofs Names Commands CommandsSpec Cli CliSpec.
Import ListNotations.
Open Scope Z_scope.
Local Open Scope string_scope.

(** ** Names *)
Definition flat {A} (arms : list (list string * A)) : list (string * A) :=
  flat_map (fun arm => map (fun p => (p, snd arm)) (fst arm)) arms.

Lemma match_str_in {A} s ty (arms : list (list string * A)) v : match_str s ty arms = ROk v -> In (s, v) (flat arms).
Proof.
  induction arms as [|(ps & a) arms IH]; simpl; [discriminate|]. destruct (existsb _ _) eqn:E; intros H; apply in_or_app.
  - inversion H; subst. left. apply existsb_exists in E as (p & I & E). apply String.eqb_eq in E. subst p. simpl.
    apply in_map_iff. exists s. auto.
  - right. auto.
Qed.
Lemma match_str_err {A} s ty (arms : list (list string * A)) e : match_str s ty arms = RErr e -> e = mkPEE s ty /\ forall v, ~ In (s, v) (flat arms).
Proof.
  induction arms as [|(ps & a) arms IH]; simpl.
  - intros H. inversion H. split; auto.
  - destruct (existsb _ _) eqn:E; [discriminate|]. intros H. destruct (IH H) as (-> & N). split; auto. intros v I.
    apply in_app_or in I as [I|I]; [|exact (N v I)]. simpl in I. apply in_map_iff in I as (p & Ep & I). inversion Ep; subst.
    assert (existsb (String.eqb s) ps = true); [|congruence]. apply existsb_exists. exists s. split; auto. apply String.eqb_refl.
Qed.
Lemma nodup_fst {A} (l : list (string * A)) s v w : NoDup (map fst l) -> In (s, v) l -> In (s, w) l -> v = w.
Proof.
  induction l as [|(t & a) l IH]; simpl; [tauto|]. intros N. inversion N; subst. intros [E|I] [E'|I'].
  - congruence.
  - inversion E; subst. exfalso. apply H1. apply (in_map fst) in I'. auto.
  - inversion E'; subst. exfalso. apply H1. apply (in_map fst) in I. auto.
  - auto.
Qed.
Fixpoint distinct (l : list string) : bool := match l with [] => true | s :: l => negb (existsb (String.eqb s) l) && distinct l end.
Lemma distinct_NoDup l : distinct l = true -> NoDup l.
Proof.
  induction l as [|s l IH]; simpl; [constructor|]. intros H. apply andb_prop in H as (H1 & H2). constructor; auto.
  intros I. apply negb_true_iff in H1. assert (existsb (String.eqb s) l = true); [|congruence]. apply existsb_exists. exists s. split; auto. apply String.eqb_refl.
Qed.
Lemma named_by_table {A} ty (arms : list (list string * A)) names : flat arms = names -> distinct (map fst names) = true ->
  (forall v, exists s, In (s, v) names) -> named_by (fun s => match_str s ty arms) ty names.
Proof.
  intros <- D S. apply distinct_NoDup in D. split; [|split; [|split; auto]].
  - intros s v I. destruct (match_str s ty arms) as [w|e] eqn:E.
    + apply match_str_in in E. f_equal. eapply nodup_fst; eauto.
    + apply match_str_err in E as (_ & N). destruct (N v I).
  - intros s v H. apply match_str_in in H. auto.
  - intros s N. destruct (match_str s ty arms) as [w|e] eqn:E.
    + apply match_str_in in E. destruct (N w E).
    + apply match_str_err in E as (-> & _). auto.
Qed.
Ltac by_table := match goal with |- named_by ?p _ _ => unfold p end; apply named_by_table; [reflexivity|reflexivity|];
  let v := fresh in intros v; destruct v; eexists; cbv; tauto.

Lemma intensity_named : named_by parse_intensity "Intensity" intensity_names.
Proof. by_table. Qed.

(** ** The command line *)
Section CommandLineProofs.
Context (lossy : string -> string) (number : string -> option f32).


Lemma numbers_split t v : numbers number t v <-> map number (split "," t) = map Some v.
Proof.
  split.
  - intros (parts & N & -> & F & M). change "," with (sep1 ","%char). rewrite split_concat; auto.
  - intros M. exists (split "," t). split; [apply split_nonempty|]. split; [symmetry; apply (concat_split ","%char)|].
    split; auto. apply split_lacks.
Qed.

Lemma with_parsed name p c : option_with lossy number name p c ->
  exists h, find (fun arg_info => String.eqb (fst arg_info) name) create_args = Some (name, h) /\
    forall iter, parse_arg lossy number (name, h) (p :: iter) = ROk (c, iter).
Proof.
  intros H. destruct H; (eexists; split; [reflexivity|]); intros iter; cbn [parse_arg]; auto;
    try (rewrite H; reflexivity).
  - unfold parse_intensity_arg. destruct intensity_named as (N & _). rewrite (N _ _ H). reflexivity.
  - apply numbers_split in H. destruct (split "," (lossy p)) as [|x [|y [|z [|]]]]; try discriminate H. simpl in H. inversion H as [[H1 H2 H3]].
    rewrite H1, H2, H3. reflexivity.
  - apply numbers_split in H. destruct (split "," (lossy p)) as [|x [|y [|]]]; try discriminate H. simpl in H. inversion H as [[H1 H2]].
    rewrite H1, H2. reflexivity.
Qed.
Lemma plain_parsed name c : plain_option name c ->
  find (fun arg_info => String.eqb (fst arg_info) name) create_args = Some (name, HNone c).
Proof. intros [(-> & ->)|(-> & ->)]; reflexivity. Qed.

Definition good_handler (name : string) (h : ArgHandler) : Prop :=
  (exists c, h = HNone c /\ plain_option name c) \/
  (In name names_with /\ parse_arg lossy number (name, h) [] = RErr (MissingParameter name) /\
   forall p iter, match parse_arg lossy number (name, h) (p :: iter) with
     | ROk (c, iter') => iter' = iter /\ option_with lossy number name p c
     | RErr err => forall a, lossy a = "-" ++ name -> bad_argument lossy number (a :: p :: iter) err
     end).

Lemma number_handler name (f : f32 -> Cmd) : In name names_with -> name <> "grayscale" ->
  (forall p v, number (lossy p) = Some v -> option_with lossy number name p (f v)) ->
  (forall p c, option_with lossy number name p c -> number (lossy p) <> None) ->
  good_handler name (HNumber (fun v => ROk (f v))).
Proof.
  intros I NG A B. right. split; auto. split; auto. intros p iter. cbn [parse_arg].
  destruct (number (lossy p)) eqn:E; [split; auto|]. intros a Ha. econstructor; eauto. intros c X. exact (B p c X E).
Qed.
Ltac num := apply number_handler; [cbv; tauto|discriminate|intros; constructor; auto|intros p c X; inversion X; congruence].

Lemma handlers_good : Forall (fun nh => good_handler (fst nh) (snd nh)) create_args.
Proof.
  unfold create_args. repeat (apply Forall_cons; [|]); try apply Forall_nil; cbn [fst snd]; try num.
  - left. exists CmdSilent. split; auto. left. auto.
  - right. split; [cbv; tauto|]. split; auto. intros p iter. cbn [parse_arg]. split; auto. constructor.
  - right. split; [cbv; tauto|]. split; auto. intros p iter. cbn [parse_arg]. split; auto. constructor.
  - right. split; [cbv; tauto|]. split; auto. intros p iter. cbn [parse_arg]. unfold parse_intensity_arg.
    destruct intensity_named as (_ & N1 & N2 & _). destruct (parse_intensity (lossy p)) as [i|er] eqn:E.
    + split; auto. constructor. apply N1; auto.
    + intros a Ha. assert (er = mkPEE (lossy p) "Intensity") as ->.
      { unfold parse_intensity in E. apply match_str_err in E as (E & _). exact E. }
      apply bad_intensity; auto. intros i I. destruct intensity_named as (N & _). apply N in I. rewrite I in E. discriminate E.
  - left. exists CmdInvert. split; auto. right. auto.
  - right. split; [cbv; tauto|]. split; auto. intros p iter. cbn [parse_arg].
    assert (B : forall a, lossy a = "-level" -> (forall c, ~ option_with lossy number "level" p c) ->
      bad_argument lossy number (a :: p :: iter) (BadArgument "level" (String.concat "," (split "," (lossy p))))).
    { intros a Ha N. rewrite (concat_split ","%char). apply bad_parameter; auto; [cbv; tauto|discriminate]. }
    destruct (split "," (lossy p)) as [|x [|y [|z [|u l]]]] eqn:S; cbv iota;
      try (intros a Ha; apply B; auto; intros c X; inversion X; subst;
           match goal with X : numbers _ _ _ |- _ => apply numbers_split in X; rewrite S in X; discriminate X end).
    destruct (number x) as [a1|] eqn:E1, (number y) as [a2|] eqn:E2, (number z) as [a3|] eqn:E3; cbv iota;
      try (intros a Ha; apply B; auto; intros c X; inversion X; subst;
           match goal with X : numbers _ _ _ |- _ => apply numbers_split in X; rewrite S in X; simpl in X; congruence end).
    split; auto. constructor. apply numbers_split. rewrite S. simpl. congruence.
  - right. split; [cbv; tauto|]. split; auto. intros p iter. cbn [parse_arg].
    assert (B : forall a, lossy a = "-brightness-contrast" -> (forall c, ~ option_with lossy number "brightness-contrast" p c) ->
      bad_argument lossy number (a :: p :: iter) (BadArgument "brightness-contrast" (String.concat "," (split "," (lossy p))))).
    { intros a Ha N. rewrite (concat_split ","%char). apply bad_parameter; auto; [cbv; tauto|discriminate]. }
    destruct (split "," (lossy p)) as [|x [|y [|z l]]] eqn:S; cbv iota;
      try (intros a Ha; apply B; auto; intros c X; inversion X; subst;
           match goal with X : numbers _ _ _ |- _ => apply numbers_split in X; rewrite S in X; discriminate X end).
    destruct (number x) as [a1|] eqn:E1, (number y) as [a2|] eqn:E2; cbv iota;
      try (intros a Ha; apply B; auto; intros c X; inversion X; subst;
           match goal with X : numbers _ _ _ |- _ => apply numbers_split in X; rewrite S in X; simpl in X; congruence end).
    split; auto. constructor. apply numbers_split. rewrite S. simpl. congruence.
Qed.

Lemma find_none name : find (fun arg_info : string * ArgHandler => String.eqb (fst arg_info) name) create_args = None ->
  ~ In name ("silent" :: "invert" :: names_with)%list.
Proof.
  intros H I. revert name I H. apply (proj1 (Forall_forall (fun name => find (fun arg_info : string * ArgHandler => String.eqb (fst arg_info) name) create_args = None -> False) _)). unfold names_with. repeat (apply Forall_cons; [intros H; discriminate H|]). apply Forall_nil.
Qed.

Definition loop n q it := parse_loop n lossy number create_args q it.
Lemma loop_dash n q a name it : lossy a = "-" ++ name -> loop (S n) q (a :: it) =
  match find (fun arg_info => String.eqb (fst arg_info) name) create_args with
  | Some h => match parse_arg lossy number h it with ROk (c, it) => loop n (q ++ [c]) it | RErr e => RErr e end
  | None => RErr (UnknownArgument (lossy a))
  end.
Proof. intros H. unfold loop. cbn [parse_loop]. rewrite H. reflexivity. Qed.
Lemma loop_file n q a it : file_name lossy a -> loop (S n) q (a :: it) = loop n (q ++ [if queue_is_empty q then CmdOpen a else CmdSave a]) it.
Proof.
  intros H. unfold loop. cbn [parse_loop]. destruct (lossy a) as [|ch rest] eqn:E.
  - destruct (queue_is_empty q); reflexivity.
  - assert (N : ch <> "-"%char). { intros ->. apply (H rest). exact E. }
    destruct ch as [b0 b1 b2 b3 b4 b5 b6 b7].
    destruct b0, b1, b2, b3, b4, b5, b6, b7; try (destruct (queue_is_empty q); reflexivity); destruct N; reflexivity.
Qed.
Lemma dash_or_file a : (exists name, lossy a = "-" ++ name) \/ file_name lossy a.
Proof.
  unfold file_name. destruct (lossy a) as [|ch rest]; [right; intros r; discriminate|].
  destruct (Ascii.ascii_dec ch "-"); [left; exists rest; subst; auto|right]. intros r X. inversion X. auto.
Qed.
Lemma empty_push q c : queue_is_empty (q ++ [c]) = false.
Proof. destruct q; reflexivity. Qed.

Lemma loop_prefix first good q' : command_line lossy number first good q' -> forall n q0 rest,
  first = queue_is_empty q0 -> (List.length (good ++ rest) <= n)%nat ->
  exists n', (List.length rest <= n')%nat /\ loop n q0 (good ++ rest) = loop n' (q0 ++ q') rest.
Proof.
  induction 1 as [first|first a name c args q Ha P C IH|first a name p c args q Ha P C IH|a args q F C IH|a args q F C IH];
    intros n q0 rest E Ln.
  - exists n. rewrite app_nil_r. auto.
  - destruct n as [|n]; [simpl in Ln; lia|]. simpl app. rewrite (loop_dash _ _ _ _ _ Ha), (plain_parsed _ _ P). cbn [parse_arg].
    destruct (IH n (q0 ++ [c])%list rest) as (n' & L' & X); [rewrite empty_push; auto|simpl in Ln; lia|].
    exists n'. split; auto. rewrite X, <- app_assoc. reflexivity.
  - destruct n as [|n]; [simpl in Ln; lia|]. simpl app. destruct (with_parsed _ _ _ P) as (h & Fh & Ph).
    rewrite (loop_dash _ _ _ _ _ Ha), Fh, Ph.
    destruct (IH n (q0 ++ [c])%list rest) as (n' & L' & X); [rewrite empty_push; auto|simpl in Ln; lia|].
    exists n'. split; auto. rewrite X, <- app_assoc. reflexivity.
  - destruct n as [|n]; [simpl in Ln; lia|]. simpl app. rewrite (loop_file _ _ _ _ F), <- E.
    destruct (IH n (q0 ++ [CmdOpen a])%list rest) as (n' & L' & X); [rewrite empty_push; auto|simpl in Ln; lia|].
    exists n'. split; auto. rewrite X, <- app_assoc. reflexivity.
  - destruct n as [|n]; [simpl in Ln; lia|]. simpl app. rewrite (loop_file _ _ _ _ F), <- E.
    destruct (IH n (q0 ++ [CmdSave a])%list rest) as (n' & L' & X); [rewrite empty_push; auto|simpl in Ln; lia|].
    exists n'. split; auto. rewrite X, <- app_assoc. reflexivity.
Qed.

Lemma loop_forward n : forall q0 it, (List.length it <= n)%nat ->
  match loop n q0 it with
  | ROk q => exists q', q = (q0 ++ q')%list /\ command_line lossy number (queue_is_empty q0) it q'
  | RErr err => exists good bad q', it = (good ++ bad)%list /\ command_line lossy number (queue_is_empty q0) good q' /\ bad_argument lossy number bad err
  end.
Proof.
  induction n as [|n IH]; intros q0 it Ln.
  - destruct it; [|simpl in Ln; lia]. simpl. exists []. rewrite app_nil_r. split; auto. constructor.
  - destruct it as [|a it]. { simpl. exists []. rewrite app_nil_r. split; auto. constructor. }
    simpl in Ln. destruct (dash_or_file a) as [(name & Ha)|F].
    + rewrite (loop_dash _ _ _ _ _ Ha). destruct (find _ create_args) as [(n1 & h)|] eqn:Ef.
      * apply find_some in Ef as (I & E). simpl in E. apply String.eqb_eq in E. subst n1.
        pose proof handlers_good as HG. rewrite Forall_forall in HG. specialize (HG _ I). cbn [fst snd] in HG.
        destruct HG as [(c & -> & P)|(W & M & H)].
        -- cbn [parse_arg]. specialize (IH (q0 ++ [c])%list it ltac:(lia)). rewrite empty_push in IH.
           destruct (loop n (q0 ++ [c]) it) as [q|err].
           ++ destruct IH as (q' & -> & C). exists (c :: q'). rewrite <- app_assoc. split; auto. econstructor; eauto.
           ++ destruct IH as (good & bad & q' & -> & C & B). exists (a :: good), bad, (c :: q'). split; auto. split; auto. econstructor; eauto.
        -- destruct it as [|p it].
           ++ rewrite M. exists [], [a], []. split; auto. split; [constructor|]. apply bad_missing; auto.
           ++ specialize (H p it). destruct (parse_arg _ _ _ (p :: it)) as [(c & it')|err].
              ** destruct H as (-> & O). simpl in Ln. specialize (IH (q0 ++ [c])%list it ltac:(lia)). rewrite empty_push in IH.
                 destruct (loop n (q0 ++ [c]) it) as [q|err].
                 --- destruct IH as (q' & -> & C). exists (c :: q'). rewrite <- app_assoc. split; auto. eapply cl_with; eauto.
                 --- destruct IH as (good & bad & q' & -> & C & B). exists (a :: p :: good), bad, (c :: q'). split; auto. split; auto. eapply cl_with; eauto.
              ** exists [], (a :: p :: it), []. split; auto. split; [constructor|]. apply H; auto.
      * exists [], (a :: it), []. split; auto. split; [constructor|]. eapply bad_unknown; eauto. apply find_none; auto.
    + rewrite (loop_file _ _ _ _ F). set (c := if queue_is_empty q0 then CmdOpen a else CmdSave a).
      specialize (IH (q0 ++ [c])%list it ltac:(lia)). rewrite empty_push in IH.
      assert (X : forall l q', command_line lossy number false l q' -> command_line lossy number (queue_is_empty q0) (a :: l) (c :: q')).
      { intros l q' C. unfold c. destruct (queue_is_empty q0); constructor; auto. }
      destruct (loop n (q0 ++ [c]) it) as [q|err].
      * destruct IH as (q' & -> & C). exists (c :: q'). rewrite <- app_assoc. split; auto.
      * destruct IH as (good & bad & q' & -> & C & B). exists (a :: good), bad, (c :: q'). split; auto.
Qed.

Lemma loop_bad n q0 bad err : bad_argument lossy number bad err -> (List.length bad <= n)%nat -> loop n q0 bad = RErr err.
Proof.
  intros B Ln. pose proof (loop_forward n q0 bad Ln) as H.
  assert (HG := handlers_good). rewrite Forall_forall in HG.
  assert (FS : forall name, In name ("silent" :: "invert" :: names_with)%list -> exists h, find (fun arg_info : string * ArgHandler => String.eqb (fst arg_info) name) create_args = Some (name, h) /\ good_handler name h).
  { intros name I. destruct (find (fun arg_info : string * ArgHandler => String.eqb (fst arg_info) name) create_args) as [(n1 & h)|] eqn:E.
    - pose proof E as E'. apply find_some in E as (I' & E). simpl in E. apply String.eqb_eq in E. subst n1. exists h. split; auto. apply (HG _ I').
    - apply find_none in E. tauto. }
  assert (NP : forall name c, In name names_with -> ~ plain_option name c).
  { intros name c I [(-> & _)|(-> & _)]; simpl in I; repeat destruct I as [I|I]; try discriminate I; destruct I. }
  destruct n as [|n]; [destruct B; simpl in Ln; lia|]. destruct B as [a name args Ha N|a name Ha I|a p args Ha N|a name p args Ha I NG N]; clear H.
  - rewrite (loop_dash _ _ _ _ _ Ha). destruct (find _ create_args) as [(n1 & h)|] eqn:E; auto.
    exfalso. apply N. apply find_some in E as (I & E). simpl in E. apply String.eqb_eq in E. subst n1.
    pose proof (HG _ I) as HN. cbn [fst snd] in HN. destruct HN as [(c & _ & [(-> & _)|(-> & _)])|(W & _)]; [left; auto|right; left; auto|right; right; exact W].
  - rewrite (loop_dash _ _ _ _ _ Ha). destruct (FS name) as (h & -> & [(c & _ & P)|(_ & -> & _)]); auto; [right; right; auto|]. destruct (NP _ _ I P).
  - change "-grayscale" with ("-" ++ "grayscale") in Ha. rewrite (loop_dash _ _ _ _ _ Ha).
    set (fd := find _ _). assert (Efd : fd = Some ("grayscale", HString (fun v => match parse_intensity_arg v with ROk i => ROk (CmdToGray i) | RErr e => RErr e end))) by reflexivity.
    rewrite Efd. cbn [parse_arg]. unfold parse_intensity_arg. destruct intensity_named as (_ & _ & N2 & _). rewrite (N2 _ N). reflexivity.
  - rewrite (loop_dash _ _ _ _ _ Ha). destruct (FS name) as (h & -> & [(c & _ & P)|(_ & _ & H)]); [right; right; auto|destruct (NP _ _ I P)|].
    specialize (H p args). destruct (parse_arg _ _ _ _) as [(c & it)|er].
    + destruct H as (_ & O). destruct (N _ O).
    + specialize (H a Ha). f_equal. inversion H as [a' nm ar Ha' N'| |a' p' ar Ha' N'|a' nm p' ar Ha' I' NG' N']; subst.
      * rewrite Ha in Ha'. inversion Ha'. subst nm. exfalso. apply N'. right. right. auto.
      * rewrite Ha in Ha'. inversion Ha'. subst name. congruence.
      * rewrite Ha in Ha'. inversion Ha'. subst nm. reflexivity.
Qed.

Lemma parse_iff args q : parse lossy number args = ROk q <-> command_line lossy number true (tl args) q.
Proof.
  unfold parse. change (loop (List.length (tl args)) [] (tl args) = ROk q <-> command_line lossy number true (tl args) q). split.
  - intros H. pose proof (loop_forward (List.length (tl args)) [] (tl args) (le_n _)) as X. rewrite H in X. destruct X as (q' & -> & C). auto.
  - intros C. destruct (loop_prefix _ _ _ C (List.length (tl args)) [] [] eq_refl) as (n' & _ & X); [rewrite app_nil_r; auto|].
    rewrite app_nil_r in X. rewrite X. destruct n'; reflexivity.
Qed.
Lemma parse_err_iff args err : parse lossy number args = RErr err <->
  exists good bad q, tl args = (good ++ bad)%list /\ command_line lossy number true good q /\ bad_argument lossy number bad err.
Proof.
  unfold parse. change (loop (List.length (tl args)) [] (tl args) = RErr err <-> exists good bad q, tl args = (good ++ bad)%list /\ command_line lossy number true good q /\ bad_argument lossy number bad err). split.
  - intros H. pose proof (loop_forward (List.length (tl args)) [] (tl args) (le_n _)) as X. rewrite H in X. exact X.
  - intros (good & bad & q & E & C & B). rewrite E. destruct (loop_prefix _ _ _ C (List.length (good ++ bad)) [] bad eq_refl (le_n _)) as (n' & L' & X).
    rewrite X. apply loop_bad; auto.
Qed.
End CommandLineProofs.
