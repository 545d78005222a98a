(** Proofs about file names, signatures and formats (C50-C52). *)
From Coq Require Import ZArith List Bool String Ascii Lia.
From Verif Require Import Base PixelBuffer F32 Color Codec CodecSpec.
Import ListNotations.
Open Scope Z_scope.

(** * Splitting and joining *)
Definition sep1 (c : ascii) : string := String c EmptyString.
Lemma split_nonempty c s : split c s <> [].
Proof. destruct s; cbn; [discriminate|]. destruct (Ascii.eqb a c); [discriminate|]. destruct (split c s); discriminate. Qed.
Lemma concat_cons c p ps : ps <> [] -> String.concat (sep1 c) (p :: ps) = (p ++ String c (String.concat (sep1 c) ps))%string.
Proof. destruct ps; [congruence|]. reflexivity. Qed.
Lemma concat_split c s : String.concat (sep1 c) (split c s) = s.
Proof.
  induction s as [|a s IH]; [reflexivity|]. cbn [split]. destruct (Ascii.eqb a c) eqn:E.
  - apply Ascii.eqb_eq in E. subst. rewrite concat_cons by apply split_nonempty. now rewrite IH.
  - destruct (split c s) as [|p ps] eqn:S; [destruct (split_nonempty _ _ S)|].
    destruct ps; cbn in *; rewrite <- IH; reflexivity.
Qed.
Lemma split_lacks c s : Forall (lacks c) (split c s).
Proof.
  induction s as [|a s IH]; cbn [split].
  - constructor; [intros []|constructor].
  - destruct (Ascii.eqb a c) eqn:E.
    + constructor; [intros []|auto].
    + destruct (split c s) as [|p ps]; [constructor; [|constructor]; intros [->|[]]; now rewrite Ascii.eqb_refl in E|].
      inversion IH; subst. constructor; auto. intros [->|I]; [now rewrite Ascii.eqb_refl in E|auto].
Qed.
Lemma lacks_cons c a s : lacks c (String a s) -> a <> c /\ lacks c s.
Proof. intros H. split; [intros ->; apply H; now left|intros I; apply H; now right]. Qed.
Lemma eqb_neq a c : a <> c -> Ascii.eqb a c = false.
Proof. intros H. destruct (Ascii.eqb_spec a c); congruence. Qed.
Lemma split_one c s : lacks c s -> split c s = [s].
Proof.
  induction s as [|a s IH]; intros H; [reflexivity|]. apply lacks_cons in H as [N H]. cbn [split].
  now rewrite eqb_neq, IH.
Qed.
Lemma split_app c a b : split c (a ++ String c b) = (split c a ++ split c b)%list.
Proof.
  induction a as [|x a IH]; cbn [split append].
  - now rewrite Ascii.eqb_refl.
  - destruct (Ascii.eqb x c); rewrite IH; [reflexivity|].
    destruct (split c a) eqn:S; [destruct (split_nonempty _ _ S)|]. reflexivity.
Qed.
Lemma split_concat c l : l <> [] -> Forall (lacks c) l -> split c (String.concat (sep1 c) l) = l.
Proof.
  intros N F. induction F as [|p ps H F IH]; [congruence|]. destruct ps as [|q ps].
  - now apply split_one.
  - rewrite concat_cons by discriminate. rewrite split_app, split_one, IH by (auto; discriminate). reflexivity.
Qed.

(** The last element that passes a test. *)
Lemma last_filter {A} (P : A -> bool) l x r : rev (filter P l) = x :: r ->
  exists a b, l = (a ++ x :: b)%list /\ P x = true /\ Forall (fun y => P y = false) b.
Proof.
  revert r. induction l as [|y l IH] using rev_ind; intros r; [discriminate|]. rewrite filter_app, rev_app_distr. cbn [filter].
  destruct (P y) eqn:E; cbn [rev app].
  - intros [= <- <-]. exists l, []. auto.
  - intros H. destruct (IH r H) as (a & b & -> & Px & F). exists a, (b ++ [y])%list.
    split; [now rewrite <- app_assoc|]. split; auto. apply Forall_app. auto.
Qed.
Lemma filter_last {A} (P : A -> bool) a x b : P x = true -> Forall (fun y => P y = false) b ->
  exists r, rev (filter P (a ++ x :: b)) = x :: r.
Proof.
  intros Px F. rewrite filter_app. cbn [filter]. rewrite Px.
  assert (E : filter P b = []) by (induction F as [|y b Hy F IH]; [reflexivity|]; cbn; now rewrite Hy).
  rewrite E, rev_app_distr. cbn. eauto.
Qed.

Definition trivial_part (p : string) : bool := String.eqb p "" || String.eqb p ".".
Lemma trivial_iff p : negb (trivial_part p) = false <-> p = ""%string \/ p = "."%string.
Proof.
  unfold trivial_part. rewrite negb_false_iff, orb_true_iff, !String.eqb_eq. reflexivity.
Qed.

Lemma concat_snoc c l p : l <> [] -> String.concat (sep1 c) (l ++ [p]) = (String.concat (sep1 c) l ++ String c p)%string.
Proof.
  induction l as [|q l IH]; intros H; [congruence|]. destruct l as [|q' l]; [reflexivity|].
  rewrite (concat_cons c q (q' :: l)) by discriminate. change ((q :: q' :: l) ++ [p])%list with (q :: ((q' :: l) ++ [p]))%list.
  rewrite concat_cons by discriminate. rewrite IH by discriminate.
  generalize (String.concat (sep1 c) (q' :: l)). intros s. clear. induction q; cbn; [reflexivity|]. now rewrite IHq.
Qed.

Lemma extension_iff path ext : extension path = Some ext -> exists dirs stem trailing,
    path = String.concat "/" (dirs ++ [(stem ++ "." ++ ext)%string] ++ trailing)%list /\
    Forall (lacks "/") (dirs ++ [stem; ext] ++ trailing) /\ lacks "." ext /\
    stem <> ""%string /\ Forall (fun p => p = "" \/ p = ".")%string trailing.
Proof.
  unfold extension, file_name. intros H.
  destruct (rev (filter _ (split "/" path))) as [|f r] eqn:R; [discriminate|].
  apply last_filter in R as (a & b & S & Pf & F). destruct (String.eqb f ".."); [discriminate|].
  destruct (rev (split "." f)) as [|e before] eqn:RS; [discriminate|].
  destruct before as [|q before]; [discriminate|].
  set (bef := rev (q :: before)) in *. destruct (String.eqb_spec (String.concat "." bef) "") as [|N]; [discriminate|].
  injection H as ->.
  assert (Sf : split "." f = (bef ++ [ext])%list) by (rewrite <- (rev_involutive (split "." f)), RS; reflexivity).
  assert (Ef : f = (String.concat "." bef ++ "." ++ ext)%string).
  { pose proof (concat_split "." f) as C. rewrite Sf in C. rewrite concat_snoc in C; [now symmetry|].
    unfold bef. cbn. intros X. apply app_eq_nil in X. destruct X; discriminate. }
  exists a, (String.concat "." bef), b. rewrite <- Ef.
  pose proof (split_lacks "/" path) as SL. rewrite S in SL. apply Forall_app in SL as [SL1 SL2]. apply Forall_cons_iff in SL2 as [SL3 SL4].
  split; [|split; [|split; [|split]]].
  - pose proof (concat_split "/" path) as C. rewrite S in C. now symmetry.
  - apply Forall_app. split; [auto|]. cbn [app].
    assert (Q : lacks "/" (String.concat "." bef) /\ lacks "/" ext).
    { rewrite Ef in SL3. clear -SL3. revert SL3. generalize (String.concat "." bef). intros s H. split.
      - intros I. apply H. clear H. induction s as [|x s IH]; [destruct I|]. destruct I as [->|I]; [now left|right; auto].
      - intros I. apply H. clear H. induction s as [|x s IH]; cbn; [now right|right; auto]. }
    destruct Q. repeat (constructor; auto).
  - pose proof (split_lacks "." f) as SD. rewrite Sf in SD. apply Forall_app in SD as [_ SD]. now inversion SD.
  - exact N.
  - eapply Forall_impl; [|exact F]. intros p Hp. now apply trivial_iff.
Qed.

Lemma append_inv s c t : (s ++ String c t)%string = ""%string -> False.
Proof. destruct s; discriminate. Qed.
Lemma lacks_append c a b : lacks c a -> lacks c b -> lacks c (a ++ b).
Proof.
  intros A B. induction a as [|x a IH]; [exact B|]. apply lacks_cons in A as [N A]. intros [->|I]; [congruence|]. now apply IH.
Qed.

Lemma extension_of dirs stem ext trailing : Forall (lacks "/") (dirs ++ [stem; ext] ++ trailing) -> lacks "." ext ->
  stem <> ""%string -> ext <> ""%string -> Forall (fun p => p = "" \/ p = ".")%string trailing ->
  extension (String.concat "/" (dirs ++ [(stem ++ "." ++ ext)%string] ++ trailing)%list) = Some ext.
Proof.
  intros F L N NE T. apply Forall_app in F as [F1 F2]. cbn [app] in F2. apply Forall_cons_iff in F2 as [F3 F4]. apply Forall_cons_iff in F4 as [F5 F6].
  set (f := (stem ++ "." ++ ext)%string).
  assert (Lf : lacks "/" f) by (apply lacks_append; auto; apply lacks_append; [|auto]; intros [X|[]]; discriminate).
  unfold extension, file_name. change "/"%string with (sep1 "/"). rewrite split_concat.
  2:{ destruct dirs; discriminate. }
  2:{ apply Forall_app. split; auto. constructor; auto. }
  cbn [app].
  assert (Nf : f <> ""%string /\ f <> "."%string /\ f <> ".."%string).
  { unfold f. destruct stem as [|x [|y stem]]; [congruence| |]; cbn.
    - destruct ext; [congruence|]. repeat split; try discriminate. 
    - repeat split; try discriminate; intros [= _ _ X]; now apply append_inv in X. }
  destruct Nf as (N1 & N2 & N3).
  destruct (filter_last (fun p => negb (trivial_part p)) dirs f trailing) as [r E].
  - apply negb_true_iff. destruct (trivial_part f) eqn:TF; [|reflexivity]. exfalso.
    assert (X : negb (trivial_part f) = false) by now rewrite TF. apply trivial_iff in X. intuition.
  - eapply Forall_impl; [|exact T]. intros p Hp. now apply trivial_iff.
  - unfold trivial_part in E. rewrite E. destruct (String.eqb_spec f ".."); [congruence|].
    unfold f. change ("." ++ ext)%string with (String "." ext). rewrite split_app, (split_one "." ext) by auto.
    rewrite rev_app_distr. cbn [rev app]. destruct (rev (split "." stem)) as [|q b] eqn:R.
    { apply (f_equal (@List.length string)) in R. rewrite rev_length in R. destruct (split "." stem) eqn:S; [destruct (split_nonempty _ _ S)|discriminate]. }
    rewrite <- R, rev_involutive. change "."%string with (sep1 "."). rewrite concat_split.
    destruct (String.eqb_spec stem ""); [congruence|]. reflexivity.
Qed.

Lemma format_from_path_iff path f : format_from_path path = Some f <-> has_extension path f.
Proof.
  split.
  - unfold format_from_path. destruct (extension path) as [ext|] eqn:E; [|discriminate]. intros H.
    apply extension_iff in E as (dirs & stem & trailing & A & B & C & D & T). exists dirs, stem, ext, trailing.
    repeat split; auto. revert H. generalize (lowercase ext). intros e. clear. unfold extensions.
    repeat (match goal with |- context [String.eqb ?a ?b] => destruct (String.eqb_spec a b) as [->|?] end; cbn [orb];
      try (intros [= <-]; cbn [In]; tauto)); discriminate.
  - intros (dirs & stem & ext & trailing & -> & B & C & D & T & I). unfold format_from_path. rewrite extension_of; auto.
    + revert I. generalize (lowercase ext). intros e I. unfold extensions in I. cbn [In] in I.
      repeat (destruct I as [I|I]; [injection I as <- <-; reflexivity|]). destruct I.
    + intros ->. cbn in I. intuition discriminate.
Qed.
Lemma extension_one path f g : has_extension path f -> has_extension path g -> f = g.
Proof. intros A B. apply format_from_path_iff in A, B. congruence. Qed.
Lemma no_extension path : format_from_path path = None <-> forall f, ~ has_extension path f.
Proof.
  split.
  - intros E f H. apply format_from_path_iff in H. congruence.
  - intros H. destruct (format_from_path path) as [f|] eqn:E; [|reflexivity]. apply format_from_path_iff in E. destruct (H f E).
Qed.

(** * Signatures *)
Lemma starts_iff pat : forall buf, starts pat buf = true <-> exists start rest, buf = (start ++ rest)%list /\ Forall2 fits pat start.
Proof.
  induction pat as [|p pat IH]; intros buf.
  - split; [|reflexivity]. intros _. exists [], buf. split; auto.
  - destruct buf as [|b buf].
    + split; [destruct p; discriminate|]. intros (st & rest & E & F). inversion F; subst. discriminate.
    + assert (X : starts (p :: pat) (b :: buf) = true <-> fits p b /\ starts pat buf = true).
      { destruct p as [z|]; cbn [starts]; unfold fits.
        - rewrite andb_true_iff, Z.eqb_eq. intuition congruence.
        - intuition congruence. }
      rewrite X, IH. split.
      * intros [A (st & rest & -> & F)]. exists (b :: st), rest. split; [reflexivity|]. now constructor.
      * intros (st & rest & E & F). inversion F as [|? ? ? st' A F']; subst. injection E as -> ->. split; auto. eauto.
Qed.
Lemma Forall2_len {A B} (P : A -> B -> Prop) l l' : Forall2 P l l' -> List.length l = List.length l'.
Proof. induction 1; cbn; congruence. Qed.
Lemma starts_firstn pat n buf : (List.length pat <= n)%nat -> starts pat (firstn n buf) = starts pat buf.
Proof.
  revert n buf. induction pat as [|p pat IH]; intros n buf H; [reflexivity|]. destruct n; cbn in H; [lia|].
  destruct buf as [|b buf]; [reflexivity|]. cbn [firstn starts]. destruct p; rewrite IH by lia; reflexivity.
Qed.
Definition sig_starts (contents : list Z) (f : Format) : bool :=
  existsb (fun s => (match fst s, f with
    | Jpeg, Jpeg | Png, Png | Gif, Gif | Bmp, Bmp | Ico, Ico | WebP, WebP => true | _, _ => false end) && starts (snd s) contents) signatures.
Lemma sig_starts_iff c f : sig_starts c f = true <-> has_signature c f.
Proof.
  unfold sig_starts, has_signature. rewrite existsb_exists. split.
  - intros ((g & pat) & I & H). apply andb_prop in H as [E S]. cbn [fst snd] in *. apply starts_iff in S as (st & rest & -> & F).
    exists pat, st, rest. split; [|auto]. destruct g, f; try discriminate; exact I.
  - intros (pat & st & rest & I & -> & F). exists (f, pat). split; auto. cbn [fst snd].
    replace (match f, f with Jpeg, Jpeg | Png, Png | Gif, Gif | Bmp, Bmp | Ico, Ico | WebP, WebP => true | _, _ => false end) with true by now destruct f.
    apply starts_iff. eauto.
Qed.

Lemma webp_len c : starts (bytes [82; 73; 70; 70] ++ [None; None; None; None] ++ bytes [87; 69; 66; 80]) c && (zlen (firstn 12 c) =? 12) =
  starts (bytes [82; 73; 70; 70] ++ [None; None; None; None] ++ bytes [87; 69; 66; 80]) c.
Proof.
  destruct (starts _ c) eqn:S; [|reflexivity]. cbn [andb]. apply Z.eqb_eq. apply starts_iff in S as (st & rest & -> & F).
  apply Forall2_len in F. cbn in F. unfold zlen. rewrite firstn_length, app_length. lia.
Qed.
Lemma from_reader_eq c : from_reader c =
  if starts (bytes [255; 216; 255]) c then ROk Jpeg
  else if starts (bytes [137; 80; 78; 71; 13; 10; 26; 10]) c then ROk Png
  else if starts (bytes [71; 73; 70; 56; 55; 97]) c then ROk Gif
  else if starts (bytes [71; 73; 70; 56; 57; 97]) c then ROk Gif
  else if starts (bytes [66; 77]) c then ROk Bmp
  else if starts (bytes [0; 0; 1; 0]) c then ROk Ico
  else if starts (bytes [82; 73; 70; 70] ++ [None; None; None; None] ++ bytes [87; 69; 66; 80]) c then ROk WebP
  else RErr DUnknownFormat.
Proof.
  unfold from_reader. cbv zeta. rewrite !starts_firstn by (cbn; lia). now rewrite webp_len.
Qed.
Lemma signature_one c f g : has_signature c f -> has_signature c g -> f = g.
Proof.
  intros (p & s & r & I & -> & F) (p' & s' & r' & I' & E & F'). unfold signatures in *. cbn [In] in I, I'.
  assert (X : exists a b c, s ++ r = (a :: b :: c)%list /\ hd None p = Some a /\ nth 1 p None = Some b).
  { repeat (destruct I as [I|I]; [injection I as <- <-; inversion F as [|? ? ? ? Q1 F1]; subst; inversion F1 as [|? ? ? ? Q2 F2]; subst;
      destruct Q1, Q2; try discriminate; cbn; repeat eexists; eauto|]). destruct I. }
  assert (X' : exists a b c, s' ++ r' = (a :: b :: c)%list /\ hd None p' = Some a /\ nth 1 p' None = Some b).
  { clear X. repeat (destruct I' as [I'|I']; [injection I' as <- <-; inversion F' as [|? ? ? ? Q1 F1]; subst; inversion F1 as [|? ? ? ? Q2 F2]; subst;
      destruct Q1, Q2; try discriminate; cbn; repeat eexists; eauto|]). destruct I'. }
  destruct X as (a & b & t & X1 & X2 & X3), X' as (a' & b' & t' & X1' & X2' & X3').
  rewrite X1, X1' in E. injection E as <- <- _.
  repeat (destruct I as [I|I]; [injection I as <- <-|]); try destruct I; cbn in X2, X3;
  repeat (destruct I' as [I'|I']; [injection I' as <- <-|]); try destruct I'; cbn in X2', X3'; reflexivity || congruence.
Qed.
Lemma from_reader_iff c f : from_reader c = ROk f <-> has_signature c f.
Proof.
  rewrite from_reader_eq. split.
  - intros H. apply sig_starts_iff. revert H. unfold sig_starts, signatures. cbn [existsb fst snd].
    change [Some 0xFF; Some 0xD8; Some 0xFF] with (bytes [255; 216; 255]).
    change [Some 0x89; Some 0x50; Some 0x4E; Some 0x47; Some 0x0D; Some 0x0A; Some 0x1A; Some 0x0A] with (bytes [137; 80; 78; 71; 13; 10; 26; 10]).
    change [Some 0x47; Some 0x49; Some 0x46; Some 0x38; Some 0x37; Some 0x61] with (bytes [71; 73; 70; 56; 55; 97]).
    change [Some 0x47; Some 0x49; Some 0x46; Some 0x38; Some 0x39; Some 0x61] with (bytes [71; 73; 70; 56; 57; 97]).
    change [Some 0x42; Some 0x4D] with (bytes [66; 77]).
    change [Some 0x00; Some 0x00; Some 0x01; Some 0x00] with (bytes [0; 0; 1; 0]).
    change [Some 0x52; Some 0x49; Some 0x46; Some 0x46; None; None; None; None; Some 0x57; Some 0x45; Some 0x42; Some 0x50]
      with (bytes [82; 73; 70; 70] ++ [None; None; None; None] ++ bytes [87; 69; 66; 80])%list.
    repeat match goal with |- context [starts ?p c] => destruct (starts p c) end; intros [= <-]; reflexivity.
  - intros H. pose proof H as H0. apply sig_starts_iff in H.
    assert (X : exists g, from_reader c = ROk g).
    { rewrite from_reader_eq. revert H. unfold sig_starts, signatures. cbn [existsb fst snd].
      change [Some 0xFF; Some 0xD8; Some 0xFF] with (bytes [255; 216; 255]).
      change [Some 0x89; Some 0x50; Some 0x4E; Some 0x47; Some 0x0D; Some 0x0A; Some 0x1A; Some 0x0A] with (bytes [137; 80; 78; 71; 13; 10; 26; 10]).
      change [Some 0x47; Some 0x49; Some 0x46; Some 0x38; Some 0x37; Some 0x61] with (bytes [71; 73; 70; 56; 55; 97]).
      change [Some 0x47; Some 0x49; Some 0x46; Some 0x38; Some 0x39; Some 0x61] with (bytes [71; 73; 70; 56; 57; 97]).
      change [Some 0x42; Some 0x4D] with (bytes [66; 77]).
      change [Some 0x00; Some 0x00; Some 0x01; Some 0x00] with (bytes [0; 0; 1; 0]).
      change [Some 0x52; Some 0x49; Some 0x46; Some 0x46; None; None; None; None; Some 0x57; Some 0x45; Some 0x42; Some 0x50]
        with (bytes [82; 73; 70; 70] ++ [None; None; None; None] ++ bytes [87; 69; 66; 80])%list.
      destruct f; repeat match goal with |- context [starts ?p c] => destruct (starts p c) end; cbn; try discriminate; eauto. }
    destruct X as [g E]. rewrite from_reader_eq in E.
    assert (G : has_signature c g).
    { clear H H0. apply sig_starts_iff. revert E. unfold sig_starts, signatures. cbn [existsb fst snd].
      change [Some 0xFF; Some 0xD8; Some 0xFF] with (bytes [255; 216; 255]).
      change [Some 0x89; Some 0x50; Some 0x4E; Some 0x47; Some 0x0D; Some 0x0A; Some 0x1A; Some 0x0A] with (bytes [137; 80; 78; 71; 13; 10; 26; 10]).
      change [Some 0x47; Some 0x49; Some 0x46; Some 0x38; Some 0x37; Some 0x61] with (bytes [71; 73; 70; 56; 55; 97]).
      change [Some 0x47; Some 0x49; Some 0x46; Some 0x38; Some 0x39; Some 0x61] with (bytes [71; 73; 70; 56; 57; 97]).
      change [Some 0x42; Some 0x4D] with (bytes [66; 77]).
      change [Some 0x00; Some 0x00; Some 0x01; Some 0x00] with (bytes [0; 0; 1; 0]).
      change [Some 0x52; Some 0x49; Some 0x46; Some 0x46; None; None; None; None; Some 0x57; Some 0x45; Some 0x42; Some 0x50]
        with (bytes [82; 73; 70; 70] ++ [None; None; None; None] ++ bytes [87; 69; 66; 80])%list.
      repeat match goal with |- context [starts ?p c] => destruct (starts p c) end; intros [= <-]; reflexivity. }
    rewrite E. f_equal. eapply signature_one; eauto.
Qed.
Lemma from_reader_none c : (forall f, ~ has_signature c f) -> from_reader c = RErr DUnknownFormat.
Proof.
  intros H. destruct (from_reader c) as [f|e] eqn:E; [apply from_reader_iff in E; destruct (H f E)|].
  revert E. rewrite from_reader_eq. repeat match goal with |- context [starts ?p c] => destruct (starts p c) end; congruence.
Qed.
Lemma twelve_bytes c t : 12 <= zlen c -> from_reader (c ++ t) = from_reader c.
Proof.
  intros H. unfold from_reader. rewrite firstn_app. replace (12 - List.length c)%nat with O by (unfold zlen in H; lia).
  cbn [firstn]. now rewrite app_nil_r.
Qed.

(** * decode_file and encode_to_file *)
Lemma decode_same m D D' L c f : same_decoder f D D' c -> decode m D L c f = decode m D' L c f.
Proof. destruct f; cbn [same_decoder decode]; unfold decode_jpeg, decode_png, decode_gif, decode_webp; intros ->; reflexivity. Qed.
Lemma decode_file_signature m D L s path c f : files s path = Some c -> has_signature c f -> decode_file m D L s path = decode m D L c f.
Proof. intros E H. unfold decode_file. rewrite E. apply from_reader_iff in H. now rewrite H. Qed.
Lemma decode_file_extension m D L s path c f : files s path = Some c -> (forall g, ~ has_signature c g) -> has_extension path f ->
  decode_file m D L s path = decode m D L c f.
Proof. intros E H X. unfold decode_file. rewrite E, from_reader_none by auto. apply format_from_path_iff in X. now rewrite X. Qed.
Lemma decode_file_unknown m D L s path c : files s path = Some c -> (forall g, ~ has_signature c g) -> (forall g, ~ has_extension path g) ->
  decode_file m D L s path = Ok (RErr DUnknownFormat).
Proof. intros E H X. unfold decode_file. rewrite E, from_reader_none by auto. apply no_extension in X. now rewrite X. Qed.
Lemma encode_unknown E L s path b : (forall g, ~ has_extension path g) ->
  encode_to_file E L s path b None = (s, RErr (EBadFileExtension path)).
Proof. intros X. unfold encode_to_file, encoding_from_path. apply no_extension in X. now rewrite X. Qed.
Lemma encoding_from_path_ok path f : has_extension path f -> exists e, encoding_from_path path = ROk e /\ format_of e = f.
Proof. intros X. apply format_from_path_iff in X. unfold encoding_from_path. rewrite X. destruct f; eexists; split; reflexivity. Qed.
