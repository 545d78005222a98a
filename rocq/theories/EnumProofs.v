(** Lemmas about the enumerated maps and about reachable buffers. *)
From Coq Require Import ZArith List Bool Lia ZifyBool ZifyNat.
From Verif Require Import Base BaseLemmas PixelBuffer BufferSpec PixelBufferProofs Geometry
  GeometryProofs Reachable.
Import ListNotations.
Open Scope Z_scope.

Definition items {T} (b : PixelBuffer T) : list (Z * Z * T) :=
  combine (row_major (width b) (height b)) (data b).

Lemma items_length {T} (b : PixelBuffer T) : valid b -> zlen (items b) = width b * height b.
Proof. intros V. pose proof (valid_bounds b V). pose proof (row_major_length (width b) (height b)).
  unfold items, zlen in *. rewrite combine_length. lia. Qed.

Lemma combine_nth_error {A B} (l : list A) (l' : list B) n :
  nth_error (combine l l') n =
  match nth_error l n, nth_error l' n with Some a, Some b => Some (a, b) | _, _ => None end.
Proof. revert l' n. induction l; intros [|b l'] [|n]; simpl; auto.
  destruct (nth_error l n); auto. Qed.

Lemma items_idx {T} m (b : PixelBuffer T) x y : valid b -> inside b x y ->
  idx (items b) (x + y * width b) = bind (get_pixel m b x y) (fun c => Ok (x, y, c)).
Proof.
  intros V I. rewrite get_pixel_eq by auto. pose proof (pos_bounds _ _ _ _ (proj1 I) (proj2 I)).
  pose proof (row_major_idx _ _ _ _ (proj1 I) (proj2 I)) as R.
  unfold idx, items in *. destruct (x + y * width b <? 0) eqn:E; auto.
  rewrite combine_nth_error.
  destruct (nth_error (row_major (width b) (height b)) (Z.to_nat (x + y * width b))); [|discriminate].
  inversion R; subst. destruct (nth_error (data b) (Z.to_nat (x + y * width b))); auto.
Qed.

Lemma items_nth {T} m (b : PixelBuffer T) n x y c : valid b ->
  nth_error (items b) n = Some (x, y, c) ->
  inside b x y /\ Z.of_nat n = x + y * width b /\ get_pixel m b x y = Ok c.
Proof.
  intros V H. assert (L : (n < length (items b))%nat) by (apply nth_error_Some; congruence).
  pose proof (items_length b V) as IL. pose proof (valid_bounds b V).
  destruct (get_pixel_data m b (Z.of_nat n) V) as (G & I); [unfold zlen in *; lia|].
  pose proof (items_idx m b _ _ V I) as II.
  assert (W : 0 < width b) by (unfold inside in I; lia).
  rewrite <- pos_split in II by lia. rewrite idx_nth in II by lia. rewrite Nat2Z.id, H in II.
  destruct (get_pixel m b (Z.of_nat n mod width b) (Z.of_nat n / width b)) as [v|] eqn:Gv; [|discriminate].
  cbn [bind] in II. inversion II; subst. split; auto. split; auto. apply pos_split; lia.
Qed.

Lemma inside_order {T} (b : PixelBuffer T) x y x' y' : inside b x y -> inside b x' y' ->
  (x' + y' * width b < x + y * width b <-> (y' < y \/ y' = y /\ x' < x)).
Proof.
  unfold inside. intros I I'. split.
  - intros H. destruct (Z_lt_ge_dec y' y); auto. right.
    assert (y' <= y). { destruct (Z_le_gt_dec y' y); auto.
      assert ((y + 1) * width b <= y' * width b) by (apply Z.mul_le_mono_nonneg_r; lia). lia. }
    assert (y' = y) by lia. subst. lia.
  - intros [H|(-> & H)]; [|lia].
    assert ((y' + 1) * width b <= y * width b) by (apply Z.mul_le_mono_nonneg_r; lia). lia.
Qed.

Lemma runs_unit_Forall2 {A B E} (g : A -> res (Result B E)) l s s' bs :
  runs (call_ok (fun (_ : unit) a => r <- g a; Ok (tt, r))) s l s' bs ->
  Forall2 (fun a b => g a = Ok (ROk b)) l bs.
Proof. induction 1 as [|s a s1 b l s' bs H R IH]; constructor; auto.
  unfold call_ok in H. apply bind_inv in H as (r & H1 & H2). inversion H2; subst. auto. Qed.

Lemma try_map_enumerated_lemma {T E} m (f : Z -> Z -> T -> res (Result T E)) b r : valid b ->
  try_map_colors_enumerated f b = Ok r ->
  match r with
  | ROk b' => width b' = width b /\ height b' = height b /\ valid b' /\
      forall x y c, inside b x y -> get_pixel m b x y = Ok c ->
        exists c', f x y c = Ok (ROk c') /\ get_pixel m b' x y = Ok c'
  | RErr e => exists x y c, inside b x y /\ get_pixel m b x y = Ok c /\ f x y c = Ok (RErr e) /\
      forall x' y' c', inside b x' y' -> y' < y \/ y' = y /\ x' < x -> get_pixel m b x' y' = Ok c' ->
        exists v, f x' y' c' = Ok (ROk v)
  end.
Proof.
  intros V H. unfold try_map_colors_enumerated in H. rewrite enumerate_eq in H by auto.
  cbn [bind] in H. fold (items b) in H.
  set (g := fun p : Z * Z * T => let '(x, y, c) := p in f x y c).
  rewrite (try_map_st_ext _ (fun (_ : unit) a => r <- g a; Ok (tt, r))) in H
    by (intros ? ((? & ?) & ?) _; reflexivity).
  apply bind_inv in H as ((s1 & [d|e]) & H1 & H); inversion H; subst r; clear H.
  - apply try_map_st_ok in H1. pose proof (runs_length _ _ _ _ _ H1) as L.
    rewrite items_length in L by auto. apply runs_unit_Forall2 in H1.
    assert (V' : valid (mkPB (width b) (height b) d)) by (destruct V; split; auto).
    split; auto. split; auto. split; auto. intros x y c I Hc.
    pose proof (items_idx m b x y V I) as II. rewrite Hc in II. cbn [bind] in II.
    pose proof (idx_inv _ _ _ II) as Ri. rewrite idx_nth in II by lia.
    destruct (nth_error (items b) (Z.to_nat (x + y * width b))) as [p|] eqn:Ep; [|discriminate].
    inversion II; subst p.
    destruct (Forall2_nth_error _ _ _ _ _ H1 Ep) as (c' & Hn & Hf). exists c'. split; auto.
    rewrite get_pixel_eq by auto. simpl. rewrite idx_nth by lia. rewrite Hn. auto.
  - apply try_map_st_err in H1 as (pre & bs & p & post & Hl & s2 & R & F).
    destruct p as ((x & y) & c).
    assert (Hn : nth_error (items b) (length pre) = Some (x, y, c)).
    { rewrite Hl. rewrite nth_error_app2 by lia. rewrite Nat.sub_diag. auto. }
    destruct (items_nth m b _ x y c V Hn) as (I & Po & G).
    apply bind_inv in F as (r & F1 & F2). inversion F2; subst.
    exists x, y, c. split; auto. split; auto. split; auto.
    intros x' y' c' I' O G'. apply runs_unit_Forall2 in R.
    apply (inside_order b x y x' y' I I') in O.
    pose proof (items_idx m b x' y' V I') as II. rewrite G' in II. cbn [bind] in II.
    pose proof (pos_bounds _ _ _ _ (proj1 I') (proj2 I')).
    rewrite idx_nth in II by lia. rewrite Hl in II. rewrite nth_error_app1 in II by lia.
    destruct (nth_error pre (Z.to_nat (x' + y' * width b))) as [p|] eqn:Ep; [|discriminate].
    inversion II; subst p. destruct (Forall2_nth_error _ _ _ _ _ R Ep) as (v & _ & Hv). eauto.
Qed.

Lemma try_mod_enumerated_err_lemma {T E} m (f : Z -> Z -> T -> res (Result T E)) b b' e :
  valid b -> try_mod_colors_enumerated f b = Ok (b', RErr e) ->
  width b' = width b /\ height b' = height b /\ valid b' /\
  exists x y c, inside b x y /\ get_pixel m b x y = Ok c /\ f x y c = Ok (RErr e) /\
    forall x' y' c', inside b x' y' -> get_pixel m b x' y' = Ok c' ->
      (y' < y \/ y' = y /\ x' < x ->
         exists v, f x' y' c' = Ok (ROk v) /\ get_pixel m b' x' y' = Ok v) /\
      (y < y' \/ y' = y /\ x <= x' -> get_pixel m b' x' y' = Ok c').
Proof.
  intros V H. unfold try_mod_colors_enumerated in H. rewrite enumerate_eq in H by auto.
  cbn [bind] in H. fold (items b) in H.
  apply bind_inv in H as (((s1 & d) & r) & H1 & H). inversion H; subst b' r; clear H.
  apply try_mod_list_spec in H1 as (pre & bs & p & post & (Hl & s2 & R & F) & Hd).
  destruct p as ((x & y) & c).
  assert (Hn : nth_error (items b) (length pre) = Some (x, y, c)).
  { rewrite Hl. rewrite nth_error_app2 by lia. rewrite Nat.sub_diag. auto. }
  destruct (items_nth m b _ x y c V Hn) as (I & Po & G).
  apply bind_inv in F as (r & F1 & F2). inversion F2; subst r.
  pose proof (runs_length _ _ _ _ _ R) as Lp.
  set (g := fun p : Z * Z * T => let '(x, y, c) := p in f x y c).
  assert (RF : Forall2 (fun a b => g a = Ok (ROk b)) pre bs).
  { clear - R. induction R as [|s a s1 b0 l s' bs H R IH]; constructor; auto.
    unfold call_ok in H. destruct a as ((x & y) & c). apply bind_inv in H as (r & H1 & H2). inversion H2; subst. auto. }
  assert (L : zlen d = width b * height b).
  { rewrite <- (items_length b V), Hl, Hd, !zlen_app, zlen_map. lia. }
  assert (V' : valid (mkPB (width b) (height b) d)) by (destruct V; split; auto).
  split; auto. split; auto. split; auto.
  exists x, y, c. split; auto. split; auto. split; auto.
  intros x' y' c' I' G'. 
  pose proof (items_idx m b x' y' V I') as II. rewrite G' in II. cbn [bind] in II.
  pose proof (pos_bounds _ _ _ _ (proj1 I') (proj2 I')).
  rewrite (get_pixel_eq m (mkPB (width b) (height b) d)) by auto. simpl.
  rewrite Hl in II. unfold zlen in Lp. split.
  - intros O. apply (inside_order b x y x' y' I I') in O.
    rewrite idx_app_l in II by (unfold zlen; lia). rewrite idx_nth in II by lia.
    destruct (nth_error pre (Z.to_nat (x' + y' * width b))) as [p|] eqn:Ep; [|discriminate].
    inversion II; subst p. destruct (Forall2_nth_error _ _ _ _ _ RF Ep) as (v & Hv & Hf).
    exists v. split; [exact Hf|]. rewrite Hd. rewrite idx_app_l by (unfold zlen; lia).
    rewrite idx_nth by lia. rewrite Hv. auto.
  - intros O. assert (O' : x + y * width b <= x' + y' * width b).
    { destruct (Z_le_gt_dec (x + y * width b) (x' + y' * width b)) as [|C]; auto.
      assert (C' : x' + y' * width b < x + y * width b) by lia.
      apply (inside_order b x y x' y' I I') in C'. lia. }
    rewrite idx_app_r in II by (unfold zlen; lia).
    rewrite Hd. rewrite idx_app_r by (unfold zlen; lia).
    replace (zlen bs) with (zlen pre) by (unfold zlen; lia). rewrite idx_map, II. auto.
Qed.

Lemma try_mod_enumerated_valid {T E} (f : Z -> Z -> T -> res (Result T E)) b b' r :
  valid b -> try_mod_colors_enumerated f b = Ok (b', r) -> valid b'.
Proof.
  intros V H. unfold try_mod_colors_enumerated in H. rewrite enumerate_eq in H by auto.
  cbn [bind] in H. fold (items b) in H.
  apply bind_inv in H as (((s1 & d) & r') & H1 & H). inversion H; subst b' r; clear H.
  apply try_mod_list_spec in H1.
  assert (L : zlen d = width b * height b).
  { rewrite <- (items_length b V). destruct r' as [[]|e].
    - eapply runs_length; eauto.
    - destruct H1 as (pre & bs & p & post & (Hl & s2 & R & F) & Hd).
      rewrite Hl, Hd, !zlen_app, zlen_map. apply runs_length in R. lia. }
  destruct V; split; auto.
Qed.

Lemma interlace_valid {T} m (b : PixelBuffer T) o b' : valid b -> interlace m b o = Ok b' -> valid b'.
Proof.
  intros V H. unfold interlace in H. apply new_from_fn_inv in H; [apply H|apply V].
Qed.

Lemma new_from_func_valid {S T} m w h (f : S -> Z -> Z -> res (S * T)) s s' b :
  0 <= w -> 0 <= h -> new_from_func m w h f s = Ok (s', b) -> valid b.
Proof.
  intros Hw Hh H. destruct (validate_size_cases w h) as [(V & E)|(V & E)]; auto.
  - rewrite new_from_func_eq in H by auto. apply bind_inv in H as ((s1 & d) & H1 & H).
    inversion H; subst. split; auto. simpl. apply map_st_length in H1.
    pose proof (row_major_length w h). unfold zlen in *. lia.
  - rewrite new_from_func_invalid in H by auto. discriminate.
Qed.
Lemma try_new_from_func_valid {S T E} m w h (f : S -> Z -> Z -> res (S * Result T E)) s s' b :
  0 <= w -> 0 <= h -> try_new_from_func m w h f s = Ok (s', ROk b) -> valid b.
Proof.
  intros Hw Hh H. destruct (validate_size_cases w h) as [(V & E1)|(V & E1)]; auto.
  - rewrite try_new_from_func_eq in H by auto. apply bind_inv in H as ((s1 & [d|e]) & H1 & H);
    inversion H; subst. split; auto. simpl. apply try_map_st_length in H1.
    pose proof (row_major_length w h). unfold zlen in *. lia.
  - rewrite try_new_from_func_invalid in H by auto. discriminate.
Qed.

Lemma max_list_nonneg l w : (forall a, In a l -> 0 <= a) -> max_list l = Ok w -> 0 <= w.
Proof. intros H Hw. destruct l as [|a l]; [discriminate|].
  destruct (max_list_ok (a :: l)) as (z & Hz & I & _); [congruence|].
  rewrite Hw in Hz. inversion Hz; subst. auto. Qed.

Lemma reachable_is_valid : forall T (b : PixelBuffer T), reachable T b -> valid b.
Proof.
  assert (Z0 : forall w, is_u32 w -> 0 <= w) by (unfold is_u32; lia).
  fix IH 3. intros T b H. destruct H.
  - unfold new, new_with_color in H1. destruct (validate_size_cases w h) as [(V & E)|(V & E)]; auto.
    + pose proof (new_with_color_ok m w h d V) as Hn. unfold new_with_color in Hn. rewrite H1 in Hn.
      inversion Hn. apply new_with_color_valid; auto.
    + rewrite E in H1. discriminate.
  - destruct (validate_size_cases w h) as [(V & E)|(V & E)]; auto.
    + rewrite new_with_color_ok in H1 by auto. inversion H1. apply new_with_color_valid; auto.
    + unfold new_with_color in H1. rewrite E in H1. discriminate.
  - apply new_from_raw_inv in H1 as (V & L & ->); auto. split; auto.
  - eapply new_from_func_valid; [| |exact H1]; auto.
  - eapply try_new_from_func_valid; [| |exact H1]; auto.
  - apply IH in H. destruct H as (V & L). split; auto. simpl. unfold zlen in *. rewrite H0. auto.
  - apply IH in H. unfold is_u32 in *.
    assert (D : inside b x y \/ ~ inside b x y) by (unfold inside; lia). destruct D as [D|D].
    + destruct (put_pixel_ok m b x y c H D) as (b2 & E & V & _). rewrite H2 in E. inversion E; subst; auto.
    + rewrite put_pixel_outside in H2 by (auto; lia). discriminate.
  - apply IH in H. destruct H as (V & L). unfold mod_colors in H0.
    apply bind_inv in H0 as ((s1 & d) & H1 & H0). inversion H0; subst. split; auto. simpl.
    apply map_st_length in H1. unfold zlen in *. lia.
  - apply IH in H. destruct H as (V & L). unfold try_mod_colors in H0.
    apply bind_inv in H0 as (((s1 & d) & r1) & H1 & H0). inversion H0; subst. split; auto. simpl.
    apply try_mod_list_spec in H1. rewrite <- L. destruct r as [[]|e].
    + eapply runs_length; eauto.
    + destruct H1 as (pre & bs & p & post & (Hl & s2 & R & F) & Hd).
      rewrite Hl, Hd, !zlen_app, zlen_map. apply runs_length in R. lia.
  - apply IH in H. unfold mod_colors_enumerated in H0. rewrite enumerate_eq in H0 by auto.
    cbn [bind] in H0. apply bind_inv in H0 as (d & H1 & H0). inversion H0; subst.
    pose proof (items_length b H) as L. destruct H as (V & _). split; auto. simpl.
    apply map_res_length in H1. unfold zlen, items in *. lia.
  - apply IH in H. eapply try_mod_enumerated_valid; eauto.
  - apply IH in H. destruct H as (V & L). unfold map_colors in H0.
    apply bind_inv in H0 as ((s1 & d) & H1 & H0). inversion H0; subst. split; auto. simpl.
    apply map_st_length in H1. unfold zlen in *. lia.
  - apply IH in H. destruct H as (V & L). unfold try_map_colors in H0.
    apply bind_inv in H0 as ((s1 & [d|e]) & H1 & H0); inversion H0; subst. split; auto. simpl.
    apply try_map_st_length in H1. unfold zlen in *. lia.
  - apply IH in H. unfold map_colors_enumerated in H0. rewrite enumerate_eq in H0 by auto.
    cbn [bind] in H0. apply bind_inv in H0 as (d & H1 & H0). inversion H0; subst.
    pose proof (items_length b H) as L. destruct H as (V & _). split; auto. simpl.
    apply map_res_length in H1. unfold zlen, items in *. lia.
  - apply IH in H. apply (try_map_enumerated_lemma Checked) in H0; auto. apply H0.
  - apply IH in H. destruct H as (V & L). split; auto. simpl. rewrite zlen_map. auto.
  - apply IH in H. destruct (rotate90_ok m d b H) as (b2 & E & V & _). rewrite H0 in E. inversion E; subst; auto.
  - apply IH in H. destruct (rotate180_ok m d b H) as (b2 & E & V & _). rewrite H0 in E. inversion E; subst; auto.
  - apply IH in H. destruct (rotate270_ok m d b H) as (b2 & E & V & _). rewrite H0 in E. inversion E; subst; auto.
  - apply IH in H. destruct (flip_horizontal_ok m d b H) as (b2 & E & V & _). rewrite H0 in E. inversion E; subst; auto.
  - apply IH in H. destruct (flip_vertical_ok m d b H) as (b2 & E & V & _). rewrite H0 in E. inversion E; subst; auto.
  - apply IH in H. destruct (crop_spec m d b ox oy w h H) as (b2 & E & V & _); auto. rewrite H4 in E. inversion E; subst; auto.
  - apply IH in H. eapply interlace_valid; eauto.
  - assert (Vs : forall b, In b bs -> valid b) by (intros b0 Hb0; apply (IH T b0 (H b0 Hb0))). clear IH.
    destruct (list_eq_dec Nat.eq_dec (map (fun _ => O) bs) []) as [E0|E0].
    + destruct bs; [|discriminate]. simpl in H0. discriminate.
    + assert (NE : bs <> []) by (destruct bs; simpl in *; congruence).
      destruct (try_compose_eq m bs d f s NE) as (w & h & Hw & Hh & E1). rewrite E1 in H0.
      eapply try_new_from_func_valid; [| |exact H0].
      * eapply max_list_nonneg; [|exact Hw]. intros a Ha. apply in_map_iff in Ha as (b0 & <- & Hb0).
        apply Vs in Hb0. pose proof (valid_bounds b0 Hb0). lia.
      * eapply max_list_nonneg; [|exact Hh]. intros a Ha. apply in_map_iff in Ha as (b0 & <- & Hb0).
        apply Vs in Hb0. pose proof (valid_bounds b0 Hb0). lia.
  - assert (Vs : forall b, In b bs -> valid b) by (intros b0 Hb0; apply (IH T b0 (H b0 Hb0))). clear IH.
    destruct (list_eq_dec Nat.eq_dec (map (fun _ => O) bs) []) as [E0|E0].
    + destruct bs; [|discriminate]. simpl in H0. discriminate.
    + assert (NE : bs <> []) by (destruct bs; simpl in *; congruence).
      destruct (compose_try m bs d f s NE) as (w & h & Hw & Hh & _ & _ & _ & E1). rewrite E1 in H0.
      eapply new_from_func_valid; [| |exact H0].
      * eapply max_list_nonneg; [|exact Hw]. intros a Ha. apply in_map_iff in Ha as (b0 & <- & Hb0).
        apply Vs in Hb0. pose proof (valid_bounds b0 Hb0). lia.
      * eapply max_list_nonneg; [|exact Hh]. intros a Ha. apply in_map_iff in Ha as (b0 & <- & Hb0).
        apply Vs in Hb0. pose proof (valid_bounds b0 Hb0). lia.
Qed.
