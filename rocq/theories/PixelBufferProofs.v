(** Lemmas about PixelBuffer.v. *)
From Coq Require Import ZArith List Bool Lia ZifyBool ZifyNat.
From Verif Require Import Base BaseLemmas PixelBuffer BufferSpec.
Import ListNotations.
Open Scope Z_scope.
Ltac Zify.zify_post_hook ::= idtac.

Lemma valid_size_bounds w h : valid_size w h ->
  0 <= w <= 1073741823 /\ 0 <= h <= 1073741823 /\ 0 <= w * h <= 1073741823 /\ (w = 0 <-> h = 0).
Proof. intros [[-> ->]|(H1 & H2 & H3)].
  - lia.
  - nia. Qed.

Lemma valid_size_pos w h : valid_size w h -> 0 < w \/ 0 < h -> 0 < w /\ 0 < h.
Proof. unfold valid_size. lia. Qed.

Lemma is_valid_spec w h : 0 <= w -> 0 <= h ->
  is_valid_buffer_size w h = true <-> valid_size w h.
Proof. intros Hw Hh. unfold is_valid_buffer_size, valid_size.
  change MAX_BUFFER_SIZE with 1073741823.
  destruct (Z.eqb_spec w 0).
  - subst. split; intros; lia.
  - destruct (Z.eqb_spec h 0); lia. Qed.

Lemma validate_size_ok w h : valid_size w h -> validate_size w h = Ok tt.
Proof. intros H. unfold validate_size. pose proof (valid_size_bounds _ _ H).
  apply is_valid_spec in H; try lia. rewrite H. auto. Qed.

Lemma validate_size_inv w h u : 0 <= w -> 0 <= h -> validate_size w h = Ok u -> valid_size w h.
Proof. unfold validate_size. intros. destruct (is_valid_buffer_size w h) eqn:E; [|discriminate].
  apply is_valid_spec; auto. Qed.

Lemma validate_size_cases w h : 0 <= w -> 0 <= h ->
  (valid_size w h /\ validate_size w h = Ok tt) \/ (~ valid_size w h /\ validate_size w h = Panic).
Proof. intros. unfold validate_size. pose proof (is_valid_spec w h).
  destruct (is_valid_buffer_size w h); simpl; intuition congruence. Qed.

Lemma valid_bounds {T} (b : PixelBuffer T) : valid b ->
  0 <= width b <= 1073741823 /\ 0 <= height b <= 1073741823 /\
  0 <= width b * height b <= 1073741823 /\ zlen (data b) = width b * height b.
Proof. intros [H L]. pose proof (valid_size_bounds _ _ H). lia. Qed.

Lemma pos_bounds w h x y : 0 <= x < w -> 0 <= y < h -> 0 <= x + y * w < w * h.
Proof. intros. assert (0 <= y * w <= (h - 1) * w) by (split; [apply Z.mul_nonneg_nonneg|apply Z.mul_le_mono_nonneg_r]; lia). lia. Qed.
Lemma pos_bounds_y w h y : 0 < w -> 0 <= y < h -> 0 <= y * w < w * h.
Proof. intros. pose proof (pos_bounds w h 0 y). lia. Qed.

Lemma pos_inj w x y x' y' : 0 <= x < w -> 0 <= x' < w -> x + y * w = x' + y' * w ->
  x = x' /\ y = y'.
Proof. intros. assert (y = y').
  { apply (f_equal (fun z => z / w)) in H1. rewrite !Z.div_add in H1 by lia.
    rewrite !Z.div_small in H1 by lia. lia. }
  subst. lia. Qed.

Lemma pos_split w i : 0 < w -> 0 <= i -> i = i mod w + (i / w) * w.
Proof. intros. pose proof (Z.div_mod i w). lia. Qed.

Lemma pos_mod w x y : 0 <= x < w -> (x + y * w) mod w = x.
Proof. intros. rewrite Z.mod_add by lia. apply Z.mod_small; lia. Qed.
Lemma pos_div w x y : 0 <= x < w -> (x + y * w) / w = y.
Proof. intros. rewrite Z.div_add by lia. rewrite Z.div_small by lia. lia. Qed.
Lemma div_bound w h i : 0 < w -> 0 <= i < w * h -> 0 <= i / w < h.
Proof. intros. split; [apply Z.div_pos; lia|]. apply Z.div_lt_upper_bound; lia. Qed.

(** ** get_pixel and put_pixel *)
Lemma get_pixel_eq {T} m (b : PixelBuffer T) x y : valid b -> inside b x y ->
  get_pixel m b x y = idx (data b) (x + y * width b).
Proof.
  intros V (Hx & Hy). pose proof (valid_bounds b V).
  pose proof (pos_bounds _ _ _ _ Hx Hy). pose proof (pos_bounds_y (width b) (height b) y).
  unfold get_pixel. rewrite !assert_true by lia. simpl.
  rewrite u32_ok by lia. simpl. rewrite u32_ok by lia. reflexivity.
Qed.

Lemma get_pixel_inside {T} m (b : PixelBuffer T) x y : valid b -> inside b x y ->
  exists c, get_pixel m b x y = Ok c.
Proof. intros V I. rewrite get_pixel_eq by auto. apply idx_ok.
  destruct I as (Hx & Hy). pose proof (pos_bounds _ _ _ _ Hx Hy). pose proof (valid_bounds b V). lia. Qed.

Lemma get_pixel_outside {T} m (b : PixelBuffer T) x y : 0 <= x -> 0 <= y -> ~ inside b x y ->
  get_pixel m b x y = Panic.
Proof. unfold inside, get_pixel. intros. destruct (x <? width b) eqn:E; simpl; auto.
  destruct (y <? height b) eqn:E2; simpl; auto. lia. Qed.

Lemma get_pixel_data {T} m (b : PixelBuffer T) i : valid b -> 0 <= i < zlen (data b) ->
  get_pixel m b (i mod width b) (i / width b) = idx (data b) i /\
  inside b (i mod width b) (i / width b).
Proof.
  intros V Hi. pose proof (valid_bounds b V). assert (0 < width b) by nia.
  assert (I : inside b (i mod width b) (i / width b)).
  { split; [apply Z.mod_pos_bound; lia|]. apply div_bound; lia. }
  split; auto. rewrite get_pixel_eq by auto. rewrite <- pos_split by lia. auto.
Qed.

Lemma buffer_ext {T} m (a b : PixelBuffer T) : valid a -> valid b ->
  width a = width b -> height a = height b ->
  (forall x y, inside a x y -> get_pixel m a x y = get_pixel m b x y) -> a = b.
Proof.
  intros Va Vb Hw Hh H. pose proof (valid_bounds a Va). pose proof (valid_bounds b Vb).
  destruct a as [wa ha da], b as [wb hb db]; simpl in *. subst wb hb. f_equal.
  apply list_ext; [lia|]. intros i Hi.
  destruct (get_pixel_data m _ i Va Hi) as (E1 & I1). simpl in *.
  assert (Hi' : 0 <= i < zlen db) by lia.
  destruct (get_pixel_data m _ i Vb Hi') as (E2 & I2). simpl in *.
  rewrite <- E1, <- E2. apply H; auto.
Qed.

Lemma put_pixel_ok {T} m (b : PixelBuffer T) x y c : valid b -> inside b x y ->
  exists b', put_pixel m b x y c = Ok b' /\ valid b' /\ width b' = width b /\ height b' = height b /\
    forall x' y', inside b x' y' ->
      get_pixel m b' x' y' = if (x' =? x) && (y' =? y) then Ok c else get_pixel m b x' y'.
Proof.
  intros V (Hx & Hy). pose proof (valid_bounds b V).
  pose proof (pos_bounds _ _ _ _ Hx Hy). pose proof (pos_bounds_y (width b) (height b) y).
  unfold put_pixel. rewrite !assert_true by lia. simpl.
  rewrite u32_ok by lia. simpl. rewrite u32_ok by lia. simpl.
  destruct (upd_ok (data b) (x + y * width b) c) as (d & Hd & Ld & Id); [lia|].
  rewrite Hd. simpl. eexists. split; [reflexivity|].
  assert (V' : valid (mkPB (width b) (height b) d)).
  { destruct V as (V1 & V2). split; simpl; auto. lia. }
  split; auto. split; auto. split; auto. intros x' y' I.
  rewrite (get_pixel_eq m _ x' y' V') by auto. simpl. rewrite (get_pixel_eq m b) by auto.
  rewrite Id. destruct I as (I1 & I2).
  destruct ((x' =? x) && (y' =? y)) eqn:E.
  - replace (x' + y' * width b =? x + y * width b) with true by nia. auto.
  - destruct (Z.eqb_spec (x' + y' * width b) (x + y * width b)); auto.
    apply pos_inj in e; lia.
Qed.

Lemma put_pixel_outside {T} m (b : PixelBuffer T) x y c : 0 <= x -> 0 <= y -> ~ inside b x y ->
  put_pixel m b x y c = Panic.
Proof. unfold inside, put_pixel. intros. destruct (x <? width b) eqn:E; simpl; auto.
  destruct (y <? height b) eqn:E2; simpl; auto. lia. Qed.

(** ** Constructors *)
Lemma new_with_color_ok {T} m w h (c : T) : valid_size w h ->
  new_with_color m w h c = Ok (mkPB w h (repeat c (Z.to_nat (w * h)))).
Proof. intros V. unfold new_with_color. rewrite validate_size_ok by auto. simpl.
  pose proof (valid_size_bounds _ _ V). rewrite u32_ok by lia. auto. Qed.

Lemma new_with_color_valid {T} w h (c : T) : valid_size w h ->
  valid (mkPB w h (repeat c (Z.to_nat (w * h)))).
Proof. intros V. pose proof (valid_size_bounds _ _ V). split; simpl; auto. rewrite zlen_repeat. lia. Qed.

Lemma new_from_raw_ok {T} w h (d : list T) : valid_size w h -> zlen d = w * h ->
  new_from_raw w h d = Ok (mkPB w h d).
Proof. intros V L. unfold new_from_raw. rewrite L, Z.eqb_refl. simpl.
  rewrite validate_size_ok by auto. auto. Qed.

Lemma new_from_raw_inv {T} w h (d : list T) b : 0 <= w -> 0 <= h ->
  new_from_raw w h d = Ok b -> valid_size w h /\ zlen d = w * h /\ b = mkPB w h d.
Proof. unfold new_from_raw. intros Hw Hh. destruct (Z.eqb_spec (w * h) (zlen d)); simpl; [|discriminate].
  intros H. apply bind_inv in H as (u & H1 & H2). apply validate_size_inv in H1; auto.
  inversion H2. auto. Qed.

(** Row-major coordinates *)
Lemma row_major_zrange w h : 0 < w -> 0 <= h ->
  row_major w h = map (fun i => (i mod w, i / w)) (zrange 0 (w * h)).
Proof.
  intros Hw Hh. unfold row_major. pattern h. apply natlike_ind; auto.
  - rewrite Z.mul_0_r. rewrite (zrange_empty 0 0) by lia. auto.
  - intros k Hk IH. replace (Z.succ k) with (k + 1) by lia.
    rewrite zrange_snoc by lia. rewrite flat_map_app, IH.
    replace (w * (k + 1)) with (w * k + w) by lia.
    rewrite (zrange_split 0 (w * k) (w * k + w)) by nia. rewrite map_app. f_equal. simpl. rewrite app_nil_r.
    replace (w * k + w) with (w + w * k) by lia.
    replace (zrange (w * k) (w + w * k)) with (zrange (0 + w * k) (w + w * k)) by (f_equal; lia).
    rewrite zrange_shift, map_map. apply map_ext_in. intros x Hx. apply zrange_In in Hx.
    rewrite (Z.mul_comm w k). rewrite pos_mod, pos_div by lia. auto.
Qed.

Lemma row_major_empty h : row_major 0 h = [].
Proof. unfold row_major. rewrite (zrange_empty 0 0) by lia. simpl.
  induction (zrange 0 h); simpl; auto. Qed.

Lemma row_major_length w h : 0 <= w -> 0 <= h -> zlen (row_major w h) = w * h.
Proof. intros. destruct (Z.eq_dec w 0).
  - subst. rewrite row_major_empty. unfold zlen. simpl. lia.
  - rewrite row_major_zrange by lia. rewrite zlen_map, zrange_zlen by nia. lia. Qed.

Lemma row_major_In w h x y : In (x, y) (row_major w h) <-> 0 <= x < w /\ 0 <= y < h.
Proof. unfold row_major. rewrite in_flat_map. split.
  - intros (y' & Hy & H). apply in_map_iff in H as (x' & E & Hx). inversion E; subst.
    apply zrange_In in Hx, Hy. lia.
  - intros (Hx & Hy). exists y. split; [apply zrange_In; lia|]. apply in_map_iff. exists x.
    split; auto. apply zrange_In; lia. Qed.

Lemma row_major_idx w h x y : 0 <= x < w -> 0 <= y < h ->
  idx (row_major w h) (x + y * w) = Ok (x, y).
Proof. intros. rewrite row_major_zrange by lia. rewrite idx_map.
  pose proof (pos_bounds w h x y). rewrite idx_zrange by lia. simpl.
  rewrite pos_mod, pos_div by lia. auto. Qed.

Lemma NoDup_map_inj {A B} (f : A -> B) l :
  (forall a b, In a l -> In b l -> f a = f b -> a = b) -> NoDup l -> NoDup (map f l).
Proof. induction l; intros Hf Hn; simpl; [constructor|]. inversion Hn; subst. constructor.
  - rewrite in_map_iff. intros (b & E & Hb). apply Hf in E; [subst; auto|right; auto|left; auto].
  - apply IHl; auto. intros. apply Hf; auto; right; auto. Qed.

Lemma row_major_NoDup w h : NoDup (row_major w h).
Proof. destruct (Z_le_gt_dec w 0).
  - unfold row_major. rewrite (zrange_empty 0 w) by lia. simpl.
    induction (zrange 0 h); simpl; [constructor|auto].
  - destruct (Z_le_gt_dec h 0).
    + unfold row_major. rewrite (zrange_empty 0 h) by lia. constructor.
    + rewrite row_major_zrange by lia. apply NoDup_map_inj; [|apply zrange_NoDup].
      intros a b Ha Hb E. apply zrange_In in Ha, Hb. inversion E.
      rewrite (pos_split w a), (pos_split w b) by lia. congruence. Qed.

(** ** Closures with state *)
Lemma map_st_runs {S A B} (f : S -> A -> res (S * B)) l s s' bs :
  map_st f l s = Ok (s', bs) <-> runs (call f) s l s' bs.
Proof.
  revert s s' bs. induction l as [|a l IH]; intros s s' bs; simpl.
  - split; intros H; inversion H; subst; [constructor|auto].
  - split; intros H.
    + apply bind_inv in H as ((s1 & b) & H1 & H). apply bind_inv in H as ((s2 & bs') & H2 & H).
      inversion H; subst. econstructor; [exact H1|]. apply IH; auto.
    + inversion H; subst. unfold call in H3. rewrite H3. simpl. apply IH in H6. rewrite H6. auto.
Qed.

Lemma try_map_st_ok {S A B E} (f : S -> A -> res (S * Result B E)) l s s' bs :
  try_map_st f l s = Ok (s', ROk bs) <-> runs (call_ok f) s l s' bs.
Proof.
  revert s s' bs. induction l as [|a l IH]; intros s s' bs; simpl.
  - split; intros H; inversion H; subst; [constructor|auto].
  - split; intros H.
    + apply bind_inv in H as ((s1 & [b|e]) & H1 & H); [|discriminate].
      apply bind_inv in H as ((s2 & [bs'|e]) & H2 & H); [|discriminate].
      inversion H; subst. econstructor; [exact H1|]. apply IH; auto.
    + inversion H; subst. unfold call_ok in H3. rewrite H3. simpl. apply IH in H6. rewrite H6. auto.
Qed.

Lemma try_map_st_err {S A B E} (f : S -> A -> res (S * Result B E)) l s s' e :
  try_map_st f l s = Ok (s', RErr e) <->
  exists pre bs p post, first_error f s l s' e pre bs p post.
Proof.
  unfold first_error. revert s s' e. induction l as [|a l IH]; intros s s' e; simpl.
  - split; [discriminate|]. intros (pre & bs & p & post & H & _). destruct pre; discriminate.
  - split; intros H.
    + apply bind_inv in H as ((s1 & [b|e']) & H1 & H).
      * apply bind_inv in H as ((s2 & [bs'|e']) & H2 & H); [discriminate|].
        inversion H; subst. apply IH in H2 as (pre & bs & p & post & -> & s3 & H3 & H4).
        exists (a :: pre), (b :: bs), p, post. split; auto. exists s3. split; auto.
        econstructor; eauto.
      * inversion H; subst. exists [], [], a, l. split; auto. exists s. split; auto. constructor.
    + destruct H as (pre & bs & p & post & H & s3 & H3 & H4). destruct pre as [|a' pre].
      * simpl in H. inversion H; subst. inversion H3; subst. rewrite H4. auto.
      * simpl in H. inversion H; subst. inversion H3; subst. unfold call_ok in H5.
        rewrite H5. simpl. replace (try_map_st f (pre ++ p :: post) s1) with (@Ok (S * Result (list B) E) (s', RErr e)); auto.
        symmetry. apply IH. exists pre, bs0, p, post. split; auto. exists s3. auto.
Qed.

Lemma try_mod_list_spec {S A T E} (f : S -> A -> res (S * Result T E)) old s l s' d r :
  try_mod_list f old s l = Ok (s', d, r) <->
  match r with
  | ROk _ => runs (call_ok f) s l s' d
  | RErr e => exists pre bs p post, first_error f s l s' e pre bs p post /\
                d = bs ++ map old (p :: post)
  end.
Proof.
  unfold first_error. revert s s' d r. induction l as [|a l IH]; intros s s' d r; simpl.
  - split; intros H.
    + inversion H; subst. constructor.
    + destruct r as [[]|e].
      * inversion H; subst. auto.
      * destruct H as (pre & bs & p & post & (H & _) & _). destruct pre; discriminate.
  - split; intros H.
    + apply bind_inv in H as ((s1 & [c|e']) & H1 & H).
      * apply bind_inv in H as (((s2 & l2) & r2) & H2 & H). inversion H; subst.
        apply IH in H2. destruct r as [[]|e].
        -- econstructor; eauto.
        -- destruct H2 as (pre & bs & p & post & (-> & s3 & H3 & H4) & ->).
           exists (a :: pre), (c :: bs), p, post. split; auto. split; auto. exists s3. split; auto.
           econstructor; eauto.
      * inversion H; subst. exists [], [], a, l. split; auto. split; auto. exists s.
        split; auto. constructor.
    + destruct r as [[]|e].
      * inversion H; subst. unfold call_ok in H3. rewrite H3. simpl.
        replace (try_mod_list f old s1 l) with (@Ok (S * list T * Result unit E) (s', bs, ROk tt)); auto.
        symmetry. apply IH. auto.
      * destruct H as (pre & bs & p & post & (H & s3 & H3 & H4) & ->). destruct pre as [|a' pre].
        -- simpl in H. inversion H; subst. inversion H3; subst. rewrite H4. auto.
        -- simpl in H. inversion H; subst. inversion H3; subst. unfold call_ok in H5.
           rewrite H5. simpl.
           replace (try_mod_list f old s1 (pre ++ p :: post)) with
             (@Ok (S * list T * Result unit E) (s', bs0 ++ map old (p :: post), RErr e)); auto.
           symmetry. apply IH. exists pre, bs0, p, post. split; auto. split; auto. exists s3. auto.
Qed.

Lemma runs_length {S A B} (step : S -> A -> S -> B -> Prop) s l s' bs :
  runs step s l s' bs -> zlen bs = zlen l.
Proof. induction 1; auto. rewrite !zlen_cons. lia. Qed.

Lemma runs_firstn {S A B} (step : S -> A -> S -> B -> Prop) s l s' bs n a :
  runs step s l s' bs -> nth_error l n = Some a ->
  exists s1 s2 b, runs step s (firstn n l) s1 (firstn n bs) /\ step s1 a s2 b /\
    nth_error bs n = Some b.
Proof. intros H. revert n. induction H; intros n Hn; destruct n; simpl in *; try discriminate.
  - inversion Hn; subst. exists s, s1, b. split; [constructor|]. auto.
  - destruct (IHruns n Hn) as (t1 & t2 & c & H1 & H2 & H3). exists t1, t2, c.
    split; auto. econstructor; eauto. Qed.

Lemma runs_det {S A B} (step : S -> A -> S -> B -> Prop)
  (D : forall s a s1 b1 s2 b2, step s a s1 b1 -> step s a s2 b2 -> s1 = s2 /\ b1 = b2) s l s1 bs1 s2 bs2 :
  runs step s l s1 bs1 -> runs step s l s2 bs2 -> s1 = s2 /\ bs1 = bs2.
Proof. intros H. revert s2 bs2. induction H as [s|s a s1' b l s' bs Hs Hr IH]; intros t2 cs2 H2;
  inversion H2 as [|? ? s3 b3 ? ? bs3 Hs3 Hr3]; subst; auto.
  destruct (D _ _ _ _ _ _ Hs Hs3); subst. destruct (IH _ _ Hr3); subst. auto. Qed.

Lemma coords_map {A} (f : Z * Z -> A) w h : valid_size w h ->
  map (fun i => f (i mod w, i / w)) (zrange 0 (w * h)) = map f (row_major w h).
Proof. intros V. destruct (Z.eq_dec w 0).
  - subst. rewrite row_major_empty. rewrite zrange_empty by lia. auto.
  - pose proof (valid_size_bounds _ _ V). rewrite row_major_zrange by lia. rewrite map_map. auto. Qed.

Lemma map_st_map {S A A' B} (f : S -> A' -> res (S * B)) (g : A -> A') l s :
  map_st (fun s a => f s (g a)) l s = map_st f (map g l) s.
Proof. revert s. induction l; intros; simpl; auto. apply bind_ext. intros (s1 & b) _.
  rewrite IHl. auto. Qed.
Lemma try_map_st_map {S A A' B E} (f : S -> A' -> res (S * Result B E)) (g : A -> A') l s :
  try_map_st (fun s a => f s (g a)) l s = try_map_st f (map g l) s.
Proof. revert s. induction l; intros; simpl; auto. apply bind_ext. intros (s1 & [b|e]) _; auto.
  rewrite IHl. auto. Qed.

Lemma new_from_func_eq {S T} m w h (f : S -> Z -> Z -> res (S * T)) s : valid_size w h ->
  new_from_func m w h f s =
  bind (map_st (fun s p => f s (fst p) (snd p)) (row_major w h) s)
       (fun '(s', d) => Ok (s', mkPB w h d)).
Proof.
  intros V. pose proof (valid_size_bounds _ _ V). unfold new_from_func.
  rewrite validate_size_ok by auto. simpl. rewrite u32_ok by lia. simpl.
  rewrite (map_st_ext _ (fun s i => (fun s p => f s (fst p) (snd p)) s (i mod w, i / w))).
  - rewrite (map_st_map (fun s p => f s (fst p) (snd p)) (fun i => (i mod w, i / w))).
    rewrite (coords_map (fun p => p)) by auto. rewrite map_id.
    apply bind_ext. intros (s' & d) _. auto.
  - intros s0 i Hi. apply zrange_In in Hi. rewrite assert_true by nia. auto.
Qed.

Lemma try_new_from_func_eq {S T E} m w h (f : S -> Z -> Z -> res (S * Result T E)) s : valid_size w h ->
  try_new_from_func m w h f s =
  bind (try_map_st (fun s p => f s (fst p) (snd p)) (row_major w h) s)
       (fun '(s', r) => Ok (s', match r with ROk d => ROk (mkPB w h d) | RErr e => RErr e end)).
Proof.
  intros V. pose proof (valid_size_bounds _ _ V). unfold try_new_from_func.
  rewrite validate_size_ok by auto. simpl. rewrite u32_ok by lia. simpl.
  rewrite (try_map_st_ext _ (fun s i => (fun s p => f s (fst p) (snd p)) s (i mod w, i / w))).
  - rewrite (try_map_st_map (fun s p => f s (fst p) (snd p)) (fun i => (i mod w, i / w))).
    rewrite (coords_map (fun p => p)) by auto. rewrite map_id.
    apply bind_ext. intros (s' & d) _. auto.
  - intros s0 i Hi. apply zrange_In in Hi. rewrite assert_true by nia. auto.
Qed.

Lemma new_from_func_invalid {S T} m w h (f : S -> Z -> Z -> res (S * T)) s : 0 <= w -> 0 <= h ->
  ~ valid_size w h -> new_from_func m w h f s = Panic.
Proof. intros. unfold new_from_func. destruct (validate_size_cases w h) as [(V & _)|(_ & E)]; auto.
  - contradiction.
  - rewrite E. auto. Qed.
Lemma try_new_from_func_invalid {S T E} m w h (f : S -> Z -> Z -> res (S * Result T E)) s : 0 <= w -> 0 <= h ->
  ~ valid_size w h -> try_new_from_func m w h f s = Panic.
Proof. intros. unfold try_new_from_func. destruct (validate_size_cases w h) as [(V & _)|(_ & E')]; auto.
  - contradiction.
  - rewrite E'. auto. Qed.

Lemma new_from_fn_eq {T} m w h (f : Z -> Z -> res T) : valid_size w h ->
  new_from_fn m w h f =
  bind (map_res (fun p => f (fst p) (snd p)) (row_major w h)) (fun d => Ok (mkPB w h d)).
Proof.
  intros V. unfold new_from_fn. rewrite new_from_func_eq by auto.
  rewrite (map_st_unit (fun p => f (fst p) (snd p))). destruct (map_res _ _); auto.
Qed.

(** Pixels of a buffer given by its row-major data. *)
Lemma row_major_buffer {T} w h (d : list T) : valid_size w h -> zlen d = w * h -> valid (mkPB w h d).
Proof. split; auto. Qed.

Lemma get_pixel_row_major {T} m w h (f : Z * Z -> res T) d : valid_size w h ->
  map_res f (row_major w h) = Ok d ->
  valid (mkPB w h d) /\
  forall x y, 0 <= x < w -> 0 <= y < h -> get_pixel m (mkPB w h d) x y = f (x, y).
Proof.
  intros V H. pose proof (valid_size_bounds _ _ V).
  assert (V' : valid (mkPB w h d)).
  { split; simpl; auto. apply map_res_length in H. pose proof (row_major_length w h). unfold zlen in *. lia. }
  split; auto. intros x y Hx Hy. rewrite get_pixel_eq by (auto; split; simpl; lia). simpl.
  pose proof (row_major_idx w h x y Hx Hy) as R. unfold idx in R. unfold idx.
  destruct (x + y * w <? 0) eqn:E; [discriminate|].
  destruct (nth_error (row_major w h) (Z.to_nat (x + y * w))) eqn:E2; [|discriminate].
  inversion R; subst. eapply map_res_nth in E2; [|exact H]. destruct E2 as (b & -> & <-). auto.
Qed.

Lemma new_from_fn_ok {T} m w h (f : Z -> Z -> res T) : valid_size w h ->
  (forall x y, 0 <= x < w -> 0 <= y < h -> exists c, f x y = Ok c) ->
  exists b, new_from_fn m w h f = Ok b /\ valid b /\ width b = w /\ height b = h /\
    forall m' x y, inside b x y -> get_pixel m' b x y = f x y.
Proof.
  intros V H. rewrite new_from_fn_eq by auto.
  destruct (map_res_total (fun p => f (fst p) (snd p)) (row_major w h)) as (d & Hd).
  { intros (x & y) I. apply row_major_In in I. simpl. apply H; lia. }
  rewrite Hd. simpl. eexists. split; [reflexivity|].
  split; [eapply (get_pixel_row_major Checked); eauto|].
  split; auto. split; auto. intros m' x y (I1 & I2).
  destruct (get_pixel_row_major m' _ _ _ _ V Hd) as (_ & G). simpl in *. rewrite G by auto. auto.
Qed.

Lemma new_from_fn_inv {T} m w h (f : Z -> Z -> res T) b : valid_size w h ->
  new_from_fn m w h f = Ok b ->
  valid b /\ width b = w /\ height b = h /\
  forall m' x y, inside b x y -> get_pixel m' b x y = f x y.
Proof.
  intros V H. rewrite new_from_fn_eq in H by auto.
  apply bind_inv in H as (d & Hd & H). inversion H; subst b.
  split; [eapply (get_pixel_row_major Checked); eauto|].
  split; auto. split; auto. intros m' x y (I1 & I2).
  destruct (get_pixel_row_major m' _ _ _ _ V Hd) as (_ & G). simpl in *. rewrite G by auto. auto.
Qed.

Lemma new_from_fn_ext {T} m m' w h (f g : Z -> Z -> res T) : 0 <= w -> 0 <= h ->
  (forall x y, 0 <= x < w -> 0 <= y < h -> f x y = g x y) ->
  new_from_fn m w h f = new_from_fn m' w h g.
Proof.
  intros Hw Hh H. destruct (validate_size_cases w h) as [(V & _)|(V & _)]; auto.
  - rewrite !new_from_fn_eq by auto. f_equal. apply map_res_ext. intros (x & y) I.
    apply row_major_In in I. apply H; simpl; lia.
  - unfold new_from_fn. rewrite !new_from_func_invalid by auto. auto.
Qed.

(** ** enumerate *)
Lemma enumerate_from_ok {T} w (l : list T) i : 0 < w -> 0 <= i -> i + zlen l <= 4294967296 ->
  exists r, enumerate_from w i l = Ok r /\ map snd r = l /\
    map fst r = map (fun k => (k mod w, k / w)) (zrange i (i + zlen l)).
Proof.
  intros Hw. revert i. induction l as [|v l IH]; intros i Hi Hb.
  - simpl. exists []. rewrite zrange_empty by (unfold zlen; simpl; lia). auto.
  - rewrite zlen_cons in *. simpl. rewrite assert_true by lia. simpl.
    pose proof (zlen_nonneg l).
    destruct (IH (i + 1)) as (r & Hr & H1 & H2); [lia|lia|]. rewrite Hr. simpl.
    eexists. split; [reflexivity|]. simpl. rewrite H1, H2. split; auto.
    rewrite (zrange_cons i) by lia. simpl. rewrite as_u32_id by lia.
    replace (i + 1 + zlen l) with (i + (zlen l + 1)) by lia. auto.
Qed.

Lemma enumerate_ok {T} (b : PixelBuffer T) : valid b ->
  exists items, enumerate b = Ok items /\ map snd items = data b /\
    map fst items = row_major (width b) (height b).
Proof.
  intros V. pose proof (valid_bounds b V). unfold enumerate.
  destruct (Z.eq_dec (width b) 0).
  - assert (data b = []) by (destruct (data b); auto; rewrite zlen_cons in *; pose proof (zlen_nonneg l); nia).
    rewrite H0. exists []. simpl. rewrite e, row_major_empty. auto.
  - destruct (enumerate_from_ok (width b) (data b) 0) as (r & H1 & H2 & H3); try lia.
    exists r. split; auto. split; auto. rewrite H3. rewrite row_major_zrange by lia.
    do 2 f_equal. lia.
Qed.

Lemma combine_fst_snd {A B} (l : list (A * B)) : l = combine (map fst l) (map snd l).
Proof. induction l as [|(a & b) l IH]; simpl; auto. f_equal. auto. Qed.

Lemma enumerate_eq {T} (b : PixelBuffer T) : valid b ->
  enumerate b = Ok (combine (row_major (width b) (height b)) (data b)).
Proof. intros V. destruct (enumerate_ok b V) as (items & H1 & H2 & H3).
  rewrite H1. f_equal. rewrite (combine_fst_snd items). congruence. Qed.

Lemma enumerate_In {T} m (b : PixelBuffer T) x y c : valid b ->
  In (x, y, c) (combine (row_major (width b) (height b)) (data b)) <->
  inside b x y /\ get_pixel m b x y = Ok c.
Proof.
  intros V. pose proof (valid_bounds b V).
  pose proof (row_major_length (width b) (height b)) as L.
  assert (Lc : length (row_major (width b) (height b)) = length (data b)) by (unfold zlen in *; lia).
  split.
  - intros H0. apply In_nth_error in H0 as (n & Hn).
    assert (n < length (data b))%nat.
    { assert (n < length (combine (row_major (width b) (height b)) (data b)))%nat
        by (apply nth_error_Some; congruence). rewrite combine_length in H0. lia. }
    assert (I : inside b (Z.of_nat n mod width b) (Z.of_nat n / width b) /\
                get_pixel m b (Z.of_nat n mod width b) (Z.of_nat n / width b) = idx (data b) (Z.of_nat n)).
    { apply and_comm. apply get_pixel_data; auto. unfold zlen. lia. }
    destruct I as (I & G).
    assert (E1 : nth_error (row_major (width b) (height b)) n = Some (Z.of_nat n mod width b, Z.of_nat n / width b)).
    { apply idx_nat. rewrite <- (row_major_idx (width b) (height b)) by apply I. f_equal.
      unfold inside in I. apply pos_split; lia. }
    assert (E2 : exists v, nth_error (data b) n = Some v).
    { destruct (nth_error (data b) n) eqn:E; eauto. apply nth_error_None in E. lia. }
    destruct E2 as (v & E2).
    assert (nth_error (combine (row_major (width b) (height b)) (data b)) n
            = Some (Z.of_nat n mod width b, Z.of_nat n / width b, v)).
    { clear - E1 E2. revert n E1 E2. generalize (row_major (width b) (height b)) (data b).
      intros l l0 n. generalize (Z.of_nat n mod width b, Z.of_nat n / width b). intros p.
      revert l0 n. induction l; intros [|v0 l0] [|n] H1 H2; simpl in *; try discriminate.
      - inversion H1; inversion H2; auto.
      - apply IHl; auto. }
    rewrite H1 in Hn. inversion Hn; subst. split; auto. rewrite G. apply idx_nat. auto.
  - intros (I & G). rewrite get_pixel_eq in G by auto. destruct I as (I1 & I2).
    pose proof (row_major_idx _ _ _ _ I1 I2) as R.
    pose proof (pos_bounds _ _ _ _ I1 I2).
    rewrite idx_nth in R by lia. rewrite idx_nth in G by lia.
    destruct (nth_error (row_major (width b) (height b)) (Z.to_nat (x + y * width b))) eqn:E1; [|discriminate].
    destruct (nth_error (data b) (Z.to_nat (x + y * width b))) eqn:E2; [|discriminate].
    inversion R; inversion G; subst.
    apply (nth_error_In _ (Z.to_nat (x + y * width b))).
    revert E1 E2. generalize (Z.to_nat (x + y * width b)) (row_major (width b) (height b)) (data b).
    intros n l. revert n. induction l; intros [|n] [|v0 l0] H1' H2'; simpl in *; try discriminate.
    + inversion H1'; inversion H2'; auto.
    + apply IHl; auto.
Qed.

Lemma map_res_combine {A B C} (f : A -> res B) (l : list A) (d : list C) :
  length l = length d -> map_res (fun '(a, _) => f a) (combine l d) = map_res f l.
Proof. revert d. induction l; intros [|c d] H; simpl in *; try discriminate; auto.
  rewrite IHl by lia. auto. Qed.

Lemma map_colors_enumerated_ok {T} (b : PixelBuffer T) (f : Z -> Z -> T -> res T) : valid b ->
  (forall m x y c, inside b x y -> get_pixel m b x y = Ok c -> exists c', f x y c = Ok c') ->
  exists b', map_colors_enumerated f b = Ok b' /\ valid b' /\ width b' = width b /\ height b' = height b /\
    forall m x y, inside b x y -> get_pixel m b' x y = bind (get_pixel m b x y) (f x y).
Proof.
  intros V H. pose proof (valid_bounds b V). unfold map_colors_enumerated.
  rewrite enumerate_eq by auto. simpl.
  set (l := combine (row_major (width b) (height b)) (data b)).
  destruct (map_res_total (fun '(x, y, c) => f x y c) l) as (d & Hd).
  { intros ((x & y) & c) I. apply (enumerate_In Checked) in I; auto. eapply H; apply I. }
  rewrite Hd. simpl. eexists. split; [reflexivity|].
  assert (L : length (row_major (width b) (height b)) = length (data b)).
  { pose proof (row_major_length (width b) (height b)). unfold zlen in *. lia. }
  assert (Ld : zlen d = width b * height b).
  { apply map_res_length in Hd. unfold l in Hd. rewrite combine_length in Hd. unfold zlen in *. lia. }
  assert (V' : valid (mkPB (width b) (height b) d)).
  { destruct V. split; simpl; auto. }
  split; auto. split; auto. split; auto. intros m x y I.
  destruct (get_pixel_inside m b x y V I) as (c & Hc). rewrite Hc. simpl.
  rewrite get_pixel_eq by auto. simpl.
  pose proof Hc as Hc'. rewrite get_pixel_eq in Hc' by auto.
  pose proof (row_major_idx _ _ x y (proj1 I) (proj2 I)) as R.
  pose proof (pos_bounds _ _ _ _ (proj1 I) (proj2 I)).
  rewrite idx_nth in R by lia. rewrite idx_nth in Hc' by lia. rewrite idx_nth by lia.
  destruct (nth_error (row_major (width b) (height b)) (Z.to_nat (x + y * width b))) eqn:E1; [|discriminate].
  destruct (nth_error (data b) (Z.to_nat (x + y * width b))) eqn:E2; [|discriminate].
  inversion R; inversion Hc'; subst.
  assert (N : nth_error l (Z.to_nat (x + y * width b)) = Some (x, y, c)).
  { unfold l. revert E1 E2. generalize (Z.to_nat (x + y * width b)) (row_major (width b) (height b)) (data b).
    intros n l0. revert n. induction l0; intros [|n] [|v0 l1] H1' H2'; simpl in *; try discriminate.
    + inversion H1'; inversion H2'; auto.
    + apply IHl0; auto. }
  eapply map_res_nth in N; [|exact Hd]. destruct N as (v & -> & ->). auto.
Qed.

(** ** Clamped and optional reads *)
Definition clampZ (z n : Z) : Z := Z.max 0 (Z.min z (n - 1)).

Lemma clampZ_range z n : 0 < n -> 0 <= clampZ z n < n.
Proof. unfold clampZ. lia. Qed.
Lemma clampZ_id z n : 0 <= z < n -> clampZ z n = z.
Proof. unfold clampZ. lia. Qed.

Lemma get_pixel_clamped_eq {T} m (b : PixelBuffer T) x y : valid b -> nonempty b ->
  get_pixel_clamped m b x y = get_pixel m b (clampZ x (width b)) (clampZ y (height b)).
Proof.
  intros V (Nw & Nh). pose proof (valid_bounds b V). unfold get_pixel_clamped.
  rewrite u32_ok by lia. simpl. rewrite as_i32_id by lia. unfold clamp_int.
  replace (width b - 1 <? 0) with false by lia. simpl.
  rewrite u32_ok by lia. simpl. rewrite as_i32_id by lia.
  replace (height b - 1 <? 0) with false by lia. simpl.
  replace (if x <? 0 then 0 else if width b - 1 <? x then width b - 1 else x) with (clampZ x (width b))
    by (unfold clampZ; destruct (x <? 0) eqn:?; destruct (width b - 1 <? x) eqn:?; lia).
  replace (if y <? 0 then 0 else if height b - 1 <? y then height b - 1 else y) with (clampZ y (height b))
    by (unfold clampZ; destruct (y <? 0) eqn:?; destruct (height b - 1 <? y) eqn:?; lia).
  pose proof (clampZ_range x (width b) Nw). pose proof (clampZ_range y (height b) Nh).
  rewrite !as_u32_id by lia. auto.
Qed.

Lemma get_pixel_clamped_empty {T} m (b : PixelBuffer T) x y : width b = 0 ->
  get_pixel_clamped m b x y = Panic.
Proof. intros H. unfold get_pixel_clamped. rewrite H. destruct m; reflexivity. Qed.

Lemma get_pixel_clamped_total {T} m (b : PixelBuffer T) x y : valid b -> nonempty b ->
  exists c, get_pixel_clamped m b x y = Ok c.
Proof. intros V N. rewrite get_pixel_clamped_eq by auto. apply get_pixel_inside; auto.
  destruct N. split; apply clampZ_range; auto. Qed.

Lemma is_in_image_spec {T} (b : PixelBuffer T) x y : valid b -> is_in_image b x y = true <-> inside b x y.
Proof. intros V. pose proof (valid_bounds b V). unfold is_in_image, inside.
  rewrite !as_i32_id by lia. lia. Qed.

Lemma get_pixel_optional_in {T} m (b : PixelBuffer T) x y : valid b -> inside b x y ->
  get_pixel_optional m b x y = bind (get_pixel m b x y) (fun c => Ok (Some c)).
Proof.
  intros V I. unfold get_pixel_optional. rewrite (proj2 (is_in_image_spec b x y V)) by auto.
  destruct I as (Hx & Hy). pose proof (valid_bounds b V).
  pose proof (pos_bounds _ _ _ _ Hx Hy). pose proof (pos_bounds_y (width b) (height b) y).
  rewrite !as_u32_id by lia. rewrite u32_ok by lia. simpl. rewrite u32_ok by lia. simpl.
  rewrite get_pixel_eq by (auto; split; auto). auto.
Qed.

Lemma get_pixel_optional_out {T} m (b : PixelBuffer T) x y : valid b -> ~ inside b x y ->
  get_pixel_optional m b x y = Ok None.
Proof. intros V I. unfold get_pixel_optional. destruct (is_in_image b x y) eqn:E; auto.
  apply is_in_image_spec in E; auto. contradiction. Qed.

(** ** Neighbourhoods *)
Definition kernel_spec {T} m (b : PixelBuffer T) N x y : res (list (list T)) :=
  map_res (fun ty => map_res (fun tx =>
    get_pixel_clamped m b (x - N / 2 + tx) (y - N / 2 + ty)) (zrange 0 N)) (zrange 0 N).

Lemma get_kernel_eq {T} m m' (b : PixelBuffer T) N x y : valid b -> nonempty b ->
  0 <= N -> -2147483648 <= x - N / 2 -> x + N <= 2147483648 ->
  -2147483648 <= y - N / 2 -> y + N <= 2147483648 -> N < 2147483648 ->
  -2147483648 <= x < 2147483648 -> -2147483648 <= y < 2147483648 ->
  get_kernel m b N x y = kernel_spec m' b N x y.
Proof.
  intros V NE HN Hx1 Hx2 Hy1 Hy2 HN2 Bx By. pose proof (valid_bounds b V).
  assert (HN3 : 0 <= N / 2 <= N) by (split; [apply Z.div_pos; lia | apply Z.div_le_upper_bound; lia]).
  assert (HN4 : N <= 2 * (N / 2) + 1) by (pose proof (Z.div_mod N 2); pose proof (Z.mod_pos_bound N 2); lia).
  assert (HN5 : 0 < N -> N / 2 < N) by (intros; apply Z.div_lt; lia).
  unfold get_kernel. rewrite as_i32_id by lia. rewrite Z.quot_div_nonneg by lia.
  set (o := N / 2) in *.
  rewrite (i32_ok m (x - o)) by lia. cbn [bind]. rewrite (i32_ok m (y - o)) by lia. cbn [bind].
  assert (Slow : map_res (fun ty => map_res (fun tx =>
        a <- i32 m (as_i32 tx + x); px <- i32 m (a - o);
        c <- i32 m (as_i32 ty + y); py <- i32 m (c - o);
        get_pixel_clamped m b px py) (zrange 0 N)) (zrange 0 N) = kernel_spec m' b N x y).
  { unfold kernel_spec. apply map_res_ext. intros ty Hty. apply map_res_ext. intros tx Htx.
    apply zrange_In in Hty, Htx. rewrite !as_i32_id by lia.
    rewrite (i32_ok m (tx + x)) by lia. cbn [bind]. rewrite (i32_ok m (tx + x - o)) by lia. cbn [bind].
    rewrite (i32_ok m (ty + y)) by lia. cbn [bind]. rewrite (i32_ok m (ty + y - o)) by lia. cbn [bind].
    rewrite !get_pixel_clamped_eq by auto. fold o.
    destruct NE as (N1 & N2).
    rewrite !get_pixel_eq by (auto; split; apply clampZ_range; auto).
    do 2 f_equal; [|f_equal]; f_equal; lia. }
  destruct (is_in_image b (x - o) (y - o)) eqn:E1.
  - apply is_in_image_spec in E1; auto. destruct E1 as (E1 & E2). simpl in E1, E2.
    destruct (Z.eq_dec N 0) as [->|HN6].
    + unfold o in *. simpl. rewrite (i32_ok m (x + 0 / 2)) by lia. simpl.
      rewrite (i32_ok m (y + 0 / 2)) by lia. simpl. unfold kernel_spec. simpl.
      destruct (is_in_image b _ _); auto.
    + rewrite (i32_ok m (x + o)) by lia. cbn [bind]. rewrite (i32_ok m (y + o)) by lia. cbn [bind].
      destruct (is_in_image b (x + o) (y + o)) eqn:E3; [|exact Slow].
      apply is_in_image_spec in E3; auto. destruct E3 as (E3 & E4).
      unfold kernel_spec. apply map_res_ext. intros ty Hty. apply zrange_In in Hty.
      assert (Hr : 0 <= width b * (ty + (y - o)) + (x - o) /\ width b * (ty + (y - o)) + (x - o) + N <= zlen (data b)).
      { assert (0 <= width b * (ty + (y - o)) <= width b * (height b - 1)) by (split; [|apply Z.mul_le_mono_nonneg_l]; nia).
        lia. }
      destruct (slice_ok (data b) (width b * (ty + (y - o)) + (x - o)) N) as (r & Hs & Lr & Ir); try lia.
      rewrite Hs. symmetry. apply map_res_Forall2.
      assert (Lz : length (zrange 0 N) = length r) by (rewrite zrange_length; unfold zlen in Lr; lia).
      assert (G : forall i a c, nth_error (zrange 0 N) i = Some a -> nth_error r i = Some c ->
         get_pixel_clamped m' b (x - N / 2 + a) (y - N / 2 + ty) = Ok c).
      { intros i a c Ha Hc.
        assert (i < Z.to_nat (N - 0))%nat by (rewrite <- zrange_length; apply nth_error_Some; congruence).
        rewrite zrange_nth in Ha by auto. inversion Ha; subst a.
        apply idx_nat in Hc. rewrite Ir in Hc by lia.
        rewrite get_pixel_clamped_eq by auto. fold o.
        rewrite !clampZ_id by lia. rewrite get_pixel_eq by (auto; split; lia).
        rewrite <- Hc. f_equal. lia. }
      clear - Lz G. revert r Lz G. generalize (zrange 0 N). induction l; intros [|c r] L G; simpl in *; try discriminate; constructor.
      * apply (G O); auto.
      * apply IHl; [lia|]. intros i. apply (G (Datatypes.S i)).
  - cbn [bind]. exact Slow.
Qed.

Lemma get_kernel_dyn_same {T} m (b : PixelBuffer T) N x y :
  get_kernel_dyn m b x y N = get_kernel m b N x y.
Proof. reflexivity. Qed.

Lemma kernel_spec_idx {T} m (b : PixelBuffer T) N x y : valid b -> nonempty b ->
  exists k, kernel_spec m b N x y = Ok k /\ zlen k = Z.max 0 N /\
    forall ty, 0 <= ty < N -> exists row, idx k ty = Ok row /\ zlen row = N /\
      forall tx, 0 <= tx < N -> idx row tx = get_pixel_clamped m b (x - N / 2 + tx) (y - N / 2 + ty).
Proof.
  intros V NE. unfold kernel_spec.
  set (g := fun ty tx => get_pixel_clamped m b (x - N / 2 + tx) (y - N / 2 + ty)).
  assert (R : forall ty, exists row, map_res (g ty) (zrange 0 N) = Ok row).
  { intros. apply map_res_total. intros. apply get_pixel_clamped_total; auto. }
  destruct (map_res_total (fun ty => map_res (g ty) (zrange 0 N)) (zrange 0 N)) as (k & Hk); [auto|].
  exists k. split; [exact Hk|]. split.
  { apply map_res_length in Hk. unfold zlen. rewrite Hk, zrange_length. lia. }
  intros ty Hty.
  assert (Ht : nth_error (zrange 0 N) (Z.to_nat ty) = Some ty) by (rewrite zrange_nth by lia; f_equal; lia).
  eapply map_res_nth in Ht; [|exact Hk]. destruct Ht as (row & Hr & Hm).
  exists row. split; [rewrite idx_nth by lia; rewrite Hr; auto|]. split.
  { apply map_res_length in Hm. unfold zlen. rewrite Hm, zrange_length. lia. }
  intros tx Htx.
  assert (Hx : nth_error (zrange 0 N) (Z.to_nat tx) = Some tx) by (rewrite zrange_nth by lia; f_equal; lia).
  eapply map_res_nth in Hx; [|exact Hm]. destruct Hx as (c & Hc & E).
  rewrite idx_nth by lia. rewrite Hc. symmetry. exact E.
Qed.
