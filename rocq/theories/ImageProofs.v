(** Proofs about images: every call keeps the size it documents and gives a
    well-formed image. *)
From Coq Require Import Reals.
From Coq Require Import ZArith List Bool Lia String.
From Verif Require Import Base BaseLemmas PixelBuffer BufferSpec PixelBufferProofs EnumProofs Geometry GeometryProofs F32 F32Lemmas Color ColorSpec ColorProofs.
From Verif Require Import Blend Resample ResampleProofs Kernel Ops Codec CodecSpec DecodeProofs CodecThm Gauss2Proofs Commands CommandsProofs Image ImageSpec Kernel.
Import ListNotations.
Open Scope Z_scope.

Definition sized {T} (w h : Z) (b : PixelBuffer T) : Prop := valid b /\ width b = w /\ height b = h.
Definition made {T} (w h : Z) (r : res (PixelBuffer T)) : Prop := forall b, r = Ok b -> sized w h b.
Definition made_st {S T} (w h : Z) (r : res (S * PixelBuffer T)) : Prop := forall s b, r = Ok (s, b) -> sized w h b.

Lemma made_any {A T} w h (e : res A) (k : A -> res (PixelBuffer T)) : (forall a, made w h (k a)) -> made w h (bind e k).
Proof. intros H b E. apply bind_inv in E as (a & _ & E). exact (H a b E). Qed.
Lemma made_bind {T U} w h w' h' (e : res (PixelBuffer T)) (k : PixelBuffer T -> res (PixelBuffer U)) :
  made w h e -> (forall b, sized w h b -> made w' h' (k b)) -> made w' h' (bind e k).
Proof. intros H K b E. apply bind_inv in E as (a & E1 & E). exact (K a (H a E1) b E). Qed.
Lemma made_ok {T} w h (b : PixelBuffer T) : sized w h b -> made w h (Ok b).
Proof. intros H b' E. inversion E; subst; auto. Qed.
Lemma made_snd {S T} w h (r : res (S * PixelBuffer T)) : made_st w h r -> made w h ('(_, b) <- r; Ok b).
Proof. intros H b E. apply bind_inv in E as ((s & b1) & E1 & E). inversion E; subst. eapply H; eauto. Qed.
Lemma made_if {T} w h (c : bool) (a b : res (PixelBuffer T)) : made w h a -> made w h b -> made w h (if c then a else b).
Proof. destruct c; auto. Qed.

Lemma with_data {T U} w h (b : PixelBuffer T) (d : list U) : sized w h b -> List.length d = List.length (data b) ->
  sized w h (mkPB (width b) (height b) d).
Proof.
  intros ((V & Z0) & Hw & Hh) E. split; [split|split]; simpl; auto. unfold zlen in *. lia.
Qed.
Lemma map_colors_made {S T U} w h (f : S -> T -> res (S * U)) s (b : PixelBuffer T) : sized w h b -> made_st w h (map_colors f s b).
Proof.
  intros H s' b' E. apply bind_inv in E as ((s1 & d) & E1 & E). inversion E; subst. apply with_data; auto.
  eapply map_st_length; eauto.
Qed.
Lemma mod_colors_made {S T} w h (f : S -> T -> res (S * T)) s (b : PixelBuffer T) : sized w h b -> made_st w h (mod_colors f s b).
Proof.
  intros H s' b' E. apply bind_inv in E as ((s1 & d) & E1 & E). inversion E; subst. apply with_data; auto.
  eapply map_st_length; eauto.
Qed.
Lemma map_pure_made w h f b : sized w h b -> made w h (map_pure f b).
Proof. intros H. apply made_snd, map_colors_made; auto. Qed.
Lemma map_enumerated_made {T} w h (f : Z -> Z -> T -> res T) b : sized w h b -> made w h (map_colors_enumerated f b).
Proof.
  intros H b' E. unfold map_colors_enumerated in E. rewrite enumerate_eq in E by apply H.
  cbn [bind] in E. apply bind_inv in E as (d & E1 & E). inversion E; subst. apply with_data; auto.
  apply map_res_length in E1. pose proof (items_length b (proj1 H)). pose proof (proj2 (proj1 H)). unfold zlen, items in *. lia.
Qed.
Lemma convert_sized {T U} w h (f : T -> U) b : sized w h b -> sized w h (convert f b).
Proof. intros H. unfold convert. apply with_data; auto. apply map_length. Qed.
Lemma from_fn_made {T} w h m (f : Z -> Z -> res T) : 0 <= w -> 0 <= h -> made w h (new_from_fn m w h f).
Proof.
  intros Hw Hh b E. destruct (validate_size_cases w h) as [(V & E0)|(V & E0)]; auto.
  - apply new_from_fn_inv in E; auto. repeat split; try apply E; apply E.
  - unfold new_from_fn, new_from_func in E. rewrite E0 in E. discriminate.
Qed.
Lemma try_from_func_made {S T E} w h m (f : S -> Z -> Z -> res (S * Result T E)) s s' b : 0 <= w -> 0 <= h ->
  try_new_from_func m w h f s = Ok (s', ROk b) -> sized w h b.
Proof.
  intros Hw Hh E1. split; [exact (try_new_from_func_valid m w h f s s' b Hw Hh E1)|].
  unfold try_new_from_func in E1. apply bind_inv in E1 as (? & _ & E1). apply bind_inv in E1 as (? & _ & E1).
  apply bind_inv in E1 as ((s1 & [d|e]) & _ & E1); inversion E1; subst; auto.
Qed.

Lemma max_list_fold l w : (forall a, In a l -> 0 <= a) -> max_list l = Ok w -> w = fold_right Z.max 0 l.
Proof.
  revert w. induction l as [|a [|b l] IH]; intros w P E.
  - discriminate.
  - simpl in *. inversion E; subst. specialize (P w (or_introl eq_refl)). lia.
  - change (max_list (a :: b :: l)) with (r <- max_list (b :: l); Ok (Z.max a r)) in E.
    apply bind_inv in E as (r & E1 & E). inversion E; subst.
    rewrite (IH r) by (auto; intros; apply P; right; auto). reflexivity.
Qed.
Lemma max_pos l : 0 <= fold_right Z.max 0 l.
Proof. induction l; simpl; lia. Qed.
Section compose.
Context {T : Type} (m : build) (bs : list (PixelBuffer T)) (V : forall b, In b bs -> valid b).
Let W := fold_right Z.max 0 (map width bs).
Let H := fold_right Z.max 0 (map height bs).
Lemma max_width w : max_list (map width bs) = Ok w -> w = W.
Proof. apply max_list_fold. intros a Ha. apply in_map_iff in Ha as (b & <- & Hb). apply V in Hb. pose proof (valid_bounds b Hb). lia. Qed.
Lemma max_height h : max_list (map height bs) = Ok h -> h = H.
Proof. apply max_list_fold. intros a Ha. apply in_map_iff in Ha as (b & <- & Hb). apply V in Hb. pose proof (valid_bounds b Hb). lia. Qed.
Lemma try_compose_sized {S E} d (f : S -> Z -> Z -> list T -> res (S * Result T E)) s s' b :
  try_compose m bs d f s = Ok (s', ROk b) -> sized W H b.
Proof.
  intros E1. unfold try_compose in E1. apply bind_inv in E1 as (? & _ & E1). apply bind_inv in E1 as (w & E2 & E1).
  apply bind_inv in E1 as (h & E3 & E1). apply max_width in E2. apply max_height in E3. subst w h.
  eapply try_from_func_made; [apply max_pos|apply max_pos|exact E1].
Qed.
Lemma try_compose_slice_sized {S E} d (f : S -> Z -> Z -> list T -> res (S * Result T E)) s s' b :
  try_compose_slice m bs d f s = Ok (s', ROk b) -> sized W H b.
Proof.
  intros E1. unfold try_compose_slice in E1. apply bind_inv in E1 as (? & _ & E1). apply bind_inv in E1 as (w & E2 & E1).
  apply bind_inv in E1 as (h & E3 & E1). apply max_width in E2. apply max_height in E3. subst w h.
  eapply try_from_func_made; [apply max_pos|apply max_pos|exact E1].
Qed.
Lemma compose_sized {S} d (f : S -> Z -> Z -> list T -> res (S * T)) s s' b :
  compose m bs d f s = Ok (s', b) -> sized W H b.
Proof.
  intros E1. unfold compose in E1. apply bind_inv in E1 as ((s1 & [r|e]) & E2 & E1); inversion E1; subst.
  eapply try_compose_sized; eauto.
Qed.
Lemma compose_slice_sized {S} d (f : S -> Z -> Z -> list T -> res (S * T)) s s' b :
  compose_slice m bs d f s = Ok (s', b) -> sized W H b.
Proof.
  intros E1. unfold compose_slice in E1. apply bind_inv in E1 as ((s1 & [r|e]) & E2 & E1); inversion E1; subst.
  eapply try_compose_slice_sized; eauto.
Qed.
End compose.

Lemma compose2_made w h m b1 b2 d f : sized w h b1 -> sized w h b2 -> made w h (compose2 m b1 b2 d f).
Proof.
  intros (V1 & W1 & H1) (V2 & W2 & H2). apply made_snd. intros s b E. apply compose_sized in E.
  - simpl in E. rewrite W1, W2, H1, H2 in E. pose proof (valid_bounds b1 V1).
    replace (Z.max w (Z.max w 0)) with w in E by lia. replace (Z.max h (Z.max h 0)) with h in E by lia. exact E.
  - intros x [<-|[<-|[]]]; auto.
Qed.

Ltac mk := repeat first
  [ eassumption
  | apply made_ok
  | apply made_if
  | apply map_pure_made
  | apply compose2_made
  | apply map_enumerated_made
  | apply made_snd, map_colors_made
  | apply made_snd, mod_colors_made
  | apply convert_sized ].

Section ops.
Context (L : libm) (m : build) (w h : Z).
Lemma gaussian_blur_made b r s : sized w h b -> made w h (gaussian_blur L m b r s).
Proof.
  intros H. unfold gaussian_blur. apply made_any. intros k. cbv zeta.
  repeat apply made_if; apply made_any; intros kk; apply map_enumerated_made; auto.
Qed.
Lemma unsharp_made b r f s : sized w h b -> made w h (unsharp L m b r f s).
Proof.
  intros H. unfold unsharp. apply made_any. intros k. cbv zeta. apply made_any. intros kk. apply map_enumerated_made; auto.
Qed.
Lemma edge_detection_made b mode : sized w h b -> made w h (edge_detection m b mode).
Proof.
  intros H. destruct mode; unfold edge_detection.
  - eapply made_bind; [apply map_enumerated_made; eauto|]. intros b1 H1.
    eapply made_bind; [apply map_enumerated_made; eauto|]. intros b2 H2. apply compose2_made; auto.
  - eapply made_bind; [apply map_enumerated_made; eauto|]. intros b1 H1. apply map_pure_made; auto.
Qed.
Lemma despeckle_made b t a : sized w h b -> made w h (despeckle m b t a).
Proof. intros H. apply map_enumerated_made; auto. Qed.
Lemma snn_made b r c : sized w h b -> made w h (symmetric_nearest_neighbor m b r c).
Proof.
  intros (V & <- & <-). pose proof (valid_bounds b V). apply from_fn_made; lia.
Qed.
Lemma merge_color_reduced_made d b : sized w h d -> sized w h b -> made w h (merge_color_reduced L m d b).
Proof.
  intros Hd Hb. unfold merge_color_reduced.
  eapply made_bind; [apply map_pure_made; eauto|]. intros b1 H1.
  eapply made_bind; [apply gaussian_blur_made; eauto|]. intros b2 H2.
  eapply made_bind; [apply compose2_made; eauto|]. intros b3 H3.
  eapply made_bind; [apply gaussian_blur_made; eauto|]. intros b4 H4.
  eapply made_bind; [apply compose2_made; eauto|]. intros b5 H5.
  eapply made_bind; [apply gaussian_blur_made; eauto|]. intros b6 H6.
  eapply made_bind; [apply compose2_made; eauto|]. intros b7 H7.
  eapply made_bind; [apply unsharp_made; eauto|]. intros b8 H8.
  apply map_pure_made; auto.
Qed.
Lemma drawing_made b r mode : sized w h b -> made w h (drawing L m b r mode).
Proof.
  intros H. unfold drawing.
  eapply made_bind; [apply map_pure_made; eauto|]. intros b1 H1.
  eapply made_bind; [apply gaussian_blur_made; eauto|]. intros b2 H2.
  eapply made_bind; [apply unsharp_made; eauto|]. intros b3 H3.
  eapply made_bind; [apply map_pure_made; eauto|]. intros b4 H4.
  eapply made_bind; [apply gaussian_blur_made; eauto|]. intros b5 H5.
  eapply made_bind; [apply map_pure_made; eauto|]. intros b6 H6.
  eapply made_bind; [apply compose2_made; eauto|]. intros b7 H7.
  eapply made_bind; [apply unsharp_made; eauto|]. intros b8 H8.
  eapply made_bind; [apply despeckle_made; eauto|]. intros b9 H9.
  destruct mode; [apply made_ok; auto|apply compose2_made; auto|apply merge_color_reduced_made; auto].
Qed.
Lemma stretch_contrast_made b t : sized w h b -> made w h (stretch_contrast L b t).
Proof.
  intros H. unfold stretch_contrast. apply made_any. intros v. cbv zeta.
  apply made_if; [apply map_pure_made; auto|apply made_ok; auto].
Qed.
Lemma balance_made b mode t : sized w h b -> made w h (balance L b mode t).
Proof.
  intros H. unfold balance. destruct mode; unfold balance_buffer; cbv zeta; apply made_any; intros v;
    apply made_snd, map_colors_made; auto.
Qed.
Lemma equalize_made b mode : sized w h b -> made w h (equalize L m b mode).
Proof.
  intros H. destruct mode; unfold equalize, equalize_colors, equalize_hsl; cbv zeta;
    repeat first [apply made_snd, map_colors_made; first [exact H|apply convert_sized; exact H]|apply made_any; intro].
Qed.
Lemma apply_palette_made b p : sized w h b -> made w h (apply_palette L KRgb b p).
Proof. intros H. apply map_pure_made; auto. Qed.
Lemma apply_palette_in_place_made b p : sized w h b -> made w h (apply_palette_in_place L KRgb b p).
Proof. intros H. apply made_snd, mod_colors_made; auto. Qed.
Lemma optimize_lightness_made b f : sized w h b -> made w h (optimize_lightness L b f).
Proof. intros H. apply map_pure_made; auto. Qed.
Lemma optimize_saturation_made b f mode : sized w h b -> made w h (optimize_saturation L b f mode).
Proof. intros H. apply map_pure_made; auto. Qed.
Lemma change_temperature_made b o n t : sized w h b -> made w h (change_color_temperature L b o n t).
Proof.
  intros H. unfold change_color_temperature. apply made_any. intros ((k0 & k1) & k2). cbv zeta.
  eapply made_bind; [apply made_if; apply map_pure_made; eauto|]. intros b1 H1.
  eapply made_bind; [apply made_if; [apply map_pure_made; eauto|apply made_ok; eauto]|]. intros b2 H2.
  apply made_if; [apply map_pure_made; auto|apply made_ok; auto].
Qed.
Lemma optimize_temperature_made b f t : sized w h b -> made w h (optimize_color_temperature L b f t).
Proof. intros H. apply change_temperature_made; auto. Qed.
Lemma rotate_made b a c f : sized w h b -> made w h (rotate L m b a c f).
Proof.
  intros H. assert (R : forall func, made w h (rotate_with_fn L m b a c func)).
  { intros func. unfold rotate_with_fn. cbv zeta. apply made_any. intros w1. apply made_any. intros h1.
    destruct H as (V & <- & <-). pose proof (valid_bounds b V). apply from_fn_made; lia. }
  unfold rotate. apply made_if; [apply made_ok; auto|]. destruct f; apply R.
Qed.
Lemma interlace_made {T} (b : PixelBuffer T) o : sized w h b -> made w h (interlace m b o).
Proof.
  intros (V & <- & <-). pose proof (valid_bounds b V). unfold interlace. cbv zeta. apply from_fn_made; lia.
Qed.
End ops.

Lemma resize_made L m b w h f : valid b -> 0 <= w -> 0 <= h -> made w h (resize L m b w h f).
Proof.
  intros V Hw Hh. assert (R : forall func, made w h (resize_with_fn m b w h func)).
  { intros func. unfold resize_with_fn. cbv zeta. apply from_fn_made; lia. }
  unfold resize. destruct ((width b =? w) && (height b =? h)) eqn:E.
  - apply andb_prop in E as (E1 & E2). apply Z.eqb_eq in E1, E2. apply made_ok. split; auto.
  - destruct f; try apply R. destruct ((width b <=? w) || (height b <=? h)); [apply R|].
    unfold resize_auto. cbv zeta. repeat apply made_if; try apply R; apply from_fn_made; lia.
Qed.

Lemma with_meta_inv i r i' : with_meta i r = Ok i' -> exists b, r = Ok b /\ i' = mkImage b (bg_color i).
Proof. intros E. apply bind_inv in E as (b & E1 & E). exists b. split; auto. inversion E; auto. Qed.
Lemma in_place_inv i r i' : in_place i r = Ok i' -> exists b, r = Ok b /\ i' = mkImage b (bg_color i).
Proof. intros E. apply bind_inv in E as (b & E1 & E). exists b. split; auto. inversion E; auto. Qed.
Lemma with_meta_st_inv {S} i r (s : S) i' : with_meta_st i r = Ok (s, i') -> exists b, r = Ok (s, b) /\ i' = mkImage b (bg_color i).
Proof. intros E. apply bind_inv in E as ((s1 & b) & E1 & E). exists b. inversion E; subst; auto. Qed.
Lemma in_place_st_inv {S} i r (s : S) i' : in_place_st i r = Ok (s, i') -> exists b, r = Ok (s, b) /\ i' = mkImage b (bg_color i).
Proof. intros E. apply bind_inv in E as ((s1 & b) & E1 & E). exists b. inversion E; subst; auto. Qed.

(** What a call guarantees. *)
Definition outcome (i i' : Image) (size : option (Z * Z)) : Prop :=
  bg_color i' = bg_color i /\ valid (buffer i') /\
  forall w h, size = Some (w, h) -> width (buffer i') = w /\ height (buffer i') = h.
Lemma outcome_sized i b w h : sized w h b -> outcome i (mkImage b (bg_color i)) (Some (w, h)).
Proof. intros (V & W & H). split; [|split]; auto. intros w' h' E. inversion E; subst; auto. Qed.
Lemma outcome_valid i b : valid b -> outcome i (mkImage b (bg_color i)) None.
Proof. intros V. split; [|split]; auto. discriminate. Qed.

Lemma meta_made i r i' w h : made w h r -> with_meta i r = Ok i' -> outcome i i' (Some (w, h)).
Proof. intros M E. apply with_meta_inv in E as (b & E & ->). apply outcome_sized; auto. Qed.
Lemma place_made i r i' w h : made w h r -> in_place i r = Ok i' -> outcome i i' (Some (w, h)).
Proof. intros M E. apply in_place_inv in E as (b & E & ->). apply outcome_sized; auto. Qed.
Lemma meta_st_made {S} i r (s : S) i' w h : made_st w h r -> with_meta_st i r = Ok (s, i') -> outcome i i' (Some (w, h)).
Proof. intros M E. apply with_meta_st_inv in E as (b & E & ->). apply outcome_sized. exact (M _ _ E). Qed.
Lemma place_st_made {S} i r (s : S) i' w h : made_st w h r -> in_place_st i r = Ok (s, i') -> outcome i i' (Some (w, h)).
Proof. intros M E. apply in_place_st_inv in E as (b & E & ->). apply outcome_sized. exact (M _ _ E). Qed.

Lemma jpeg_quality_valid m E D L b q a b' : good_decoders D -> jpeg_quality m E D L b q a = Ok b' -> valid b'.
Proof.
  intros G H. unfold jpeg_quality in H. destruct (encode E L vec_writer [] b (jpeg_with_quality q)) as (temp & r).
  apply bind_inv in H as (? & _ & H). apply bind_inv in H as (r' & H1 & H). apply bind_inv in H as (out & H2 & H).
  destruct r' as [o|e]; [|discriminate]. inversion H2; subst o; clear H2.
  assert (V : valid out).
  { unfold decode_buffer in H1. destruct (from_reader temp); [|discriminate]. eapply decode_gives_valid; eauto. }
  destruct a; inversion H; subst; auto. destruct V as (V & Z0). split; auto. simpl.
  unfold zlen in *. rewrite app_length, map_length, combine_length, skipn_length. lia.
Qed.

Lemma call_outcome {R} (e : env R) i others i' size : good_decoders (e_dec e) ->
  valid (buffer i) -> (forall o, In o others -> valid (buffer o)) -> call_on e i others i' size -> outcome i i' size.
Proof.
  intros G V VO C. assert (S0 : sized (width (buffer i)) (height (buffer i)) (buffer i)) by (split; auto).
  pose proof (valid_bounds _ V) as BB.
  destruct C as
   [ d Hd | b Hb | x y c i' Hx Hy H | f i' H | E f i' r H | f i' H | E f i' r H | S f s s' i' H | S E f s s' i' H | f i' H | E f i' H
   | ox oy w h i' H1 H2 H3 H4 H | i' H | i' H | i' H | i' H | i' H | a f i' H | w h f i' H1 H2 H | p f i' H | o i' H1 H
   | S images d f s s' i' H | S E images d f s s' i' H | S images d f s s' i' H | S E images d f s s' i' H
   | other op strength i' H | palette i' H | palette i' H
   | mode i' H | r s i' H | r f s i' H | r mode i' H | t a i' H | r c i' H
   | t i' H | mode t i' H | t i' H | o mode i' H | a b t i' H | f t i' H | f i' H | mode i' H | q a i' H
   | v s s' i' H | v s s' i' H | v s s' i' H | v s s' i' H | v s s' i' H | v s s' i' H | v s s' i' H | v s s' i' H ].
  - apply outcome_sized, with_data; auto. unfold zlen in Hd. lia.
  - apply outcome_valid; auto.
  - apply in_place_inv in H as (b & H & ->). apply outcome_sized.
    unfold put_pixel in H. repeat (apply bind_inv in H as (? & ? & H)). inversion H; subst. apply with_data; auto.
    match goal with U : upd _ _ _ = Ok _ |- _ => apply upd_Ok_inv in U as (_ & U); unfold zlen in *; lia end.
  - apply bind_inv in H as ((s & r) & H & H0). inversion H0; subst. eapply place_st_made; [|exact H]. apply mod_colors_made; auto.
  - apply bind_inv in H as (((s & b) & r1) & H & H0). inversion H0; subst. apply outcome_sized.
    unfold try_mod_colors in H. apply bind_inv in H as (((s1 & d) & r2) & H1 & H). inversion H; subst. apply with_data; auto.
    apply try_mod_list_spec in H1. enough (zlen d = zlen (data (buffer i))) by (unfold zlen in *; lia).
    destruct r as [[]|er].
    + eapply runs_length; eauto.
    + destruct H1 as (pre & bs & p & post & (Hl & s2 & R1 & F) & Hd).
      rewrite Hl, Hd, !zlen_app, zlen_map. apply runs_length in R1. lia.
  - eapply place_made; [|exact H]. apply map_enumerated_made; auto.
  - apply bind_inv in H as ((b & r1) & H & H0). inversion H0; subst. apply outcome_sized.
    split; [eapply try_mod_enumerated_valid; eauto|].
    unfold try_mod_colors_enumerated in H. apply bind_inv in H as (? & _ & H). apply bind_inv in H as (((s1 & d) & r2) & _ & H). inversion H; subst; auto.
  - eapply meta_st_made; [|exact H]. apply map_colors_made; auto.
  - apply bind_inv in H as ((s1 & [b|err]) & H & H0); inversion H0; subst. apply outcome_sized.
    apply bind_inv in H as ((s2 & [d|err]) & H & H1); inversion H1; subst. apply with_data; auto. eapply try_map_st_length; eauto.
  - eapply meta_made; [|exact H]. apply map_enumerated_made; auto.
  - apply bind_inv in H as ([b|err] & H & H0); inversion H0; subst. apply outcome_sized.
    split; [apply (try_map_enumerated_lemma Checked) in H; auto; apply H|].
    unfold try_map_colors_enumerated in H. apply bind_inv in H as (? & _ & H). apply bind_inv in H as ((s1 & [d|err]) & _ & H); inversion H; subst; auto.
  - apply with_meta_inv in H as (b & H & ->). apply outcome_valid.
    destruct (crop_spec (e_build e) RGB_NONE (buffer i) ox oy w h V) as (b2 & E & Vb & _); try (unfold is_u32 in *; lia).
    rewrite H in E. inversion E; subst; auto.
  - apply with_meta_inv in H as (b & H & ->). apply outcome_sized.
    destruct (flip_horizontal_ok (e_build e) RGB_NONE (buffer i) V) as (b2 & E & Vb & Wb & Hb & _). rewrite H in E. inversion E; subst; split; auto.
  - apply with_meta_inv in H as (b & H & ->). apply outcome_sized.
    destruct (flip_vertical_ok (e_build e) RGB_NONE (buffer i) V) as (b2 & E & Vb & Wb & Hb & _). rewrite H in E. inversion E; subst; split; auto.
  - apply with_meta_inv in H as (b & H & ->). apply outcome_sized.
    destruct (rotate90_ok (e_build e) RGB_NONE (buffer i) V) as (b2 & E & Vb & Wb & Hb & _). rewrite H in E. inversion E; subst; split; auto.
  - apply with_meta_inv in H as (b & H & ->). apply outcome_sized.
    destruct (rotate180_ok (e_build e) RGB_NONE (buffer i) V) as (b2 & E & Vb & Wb & Hb & _). rewrite H in E. inversion E; subst; split; auto.
  - apply with_meta_inv in H as (b & H & ->). apply outcome_sized.
    destruct (rotate270_ok (e_build e) RGB_NONE (buffer i) V) as (b2 & E & Vb & Wb & Hb & _). rewrite H in E. inversion E; subst; split; auto.
  - eapply meta_made; [|exact H]. apply rotate_made; auto.
  - eapply meta_made; [|exact H]. apply resize_made; auto; unfold is_u32 in *; lia.
  - unfold image_resize_pct, image_resize in H. cbv zeta in H. apply with_meta_inv in H as (b & H & ->). apply outcome_valid.
    eapply resize_made; [| | |exact H]; auto; lia.
  - eapply meta_made; [|exact H]. apply interlace_made; auto.
  - unfold image_compose in H. apply bind_inv in H as ((s1 & b) & H & H0). apply bind_inv in H0 as (first & H1 & H0).
    inversion H0; subst. change (Ok i = Ok first) in H1. apply Ok_inj1 in H1. subst first.
    apply outcome_sized. apply compose_sized in H; [rewrite !map_map in H; exact H|].
    intros x Hx. apply in_map_iff in Hx as (j & <- & [<-|Hj]); auto.
  - unfold image_try_compose in H. apply bind_inv in H as ((s1 & [b|err]) & H & H0); [|discriminate]. apply bind_inv in H0 as (first & H1 & H0).
    inversion H0; subst. change (Ok i = Ok first) in H1. apply Ok_inj1 in H1. subst first.
    apply outcome_sized. apply try_compose_sized in H; [rewrite !map_map in H; exact H|].
    intros x Hx. apply in_map_iff in Hx as (j & <- & [<-|Hj]); auto.
  - unfold image_compose_slice in H. apply bind_inv in H as ((s1 & b) & H & H0). apply bind_inv in H0 as (first & H1 & H0).
    inversion H0; subst. change (Ok i = Ok first) in H1. apply Ok_inj1 in H1. subst first.
    apply outcome_sized. apply compose_slice_sized in H; [rewrite !map_map in H; exact H|].
    intros x Hx. apply in_map_iff in Hx as (j & <- & [<-|Hj]); auto.
  - unfold image_try_compose_slice in H. apply bind_inv in H as ((s1 & [b|err]) & H & H0); [|discriminate]. apply bind_inv in H0 as (first & H1 & H0).
    inversion H0; subst. change (Ok i = Ok first) in H1. apply Ok_inj1 in H1. subst first.
    apply outcome_sized. apply try_compose_slice_sized in H; [rewrite !map_map in H; exact H|].
    intros x Hx. apply in_map_iff in Hx as (j & <- & [<-|Hj]); auto.
  - assert (V2 : valid (buffer other)) by (apply VO; left; auto). pose proof (valid_bounds _ V2).
    eapply meta_made; [|exact H]. unfold blend_image, blend_image_with_func. cbv zeta. simpl fold_right.
    rewrite (Z.max_l (width (buffer other)) 0), (Z.max_l (height (buffer other)) 0) by lia. apply from_fn_made; lia.
  - eapply meta_made; [|exact H]. apply apply_palette_made; auto.
  - eapply place_made; [|exact H]. apply apply_palette_in_place_made; auto.
  - eapply meta_made; [|exact H]. apply edge_detection_made; auto.
  - eapply meta_made; [|exact H]. apply gaussian_blur_made; auto.
  - eapply meta_made; [|exact H]. apply unsharp_made; auto.
  - eapply meta_made; [|exact H]. apply drawing_made; auto.
  - eapply meta_made; [|exact H]. apply despeckle_made; auto.
  - eapply meta_made; [|exact H]. apply snn_made; auto.
  - eapply meta_made; [|exact H]. apply balance_made; auto.
  - eapply meta_made; [|exact H]. apply balance_made; auto.
  - eapply meta_made; [|exact H]. apply stretch_contrast_made; auto.
  - eapply meta_made; [|exact H]. apply optimize_saturation_made; auto.
  - eapply meta_made; [|exact H]. apply change_temperature_made; auto.
  - eapply meta_made; [|exact H]. apply optimize_temperature_made; auto.
  - eapply meta_made; [|exact H]. apply optimize_lightness_made; auto.
  - eapply meta_made; [|exact H]. apply equalize_made; auto.
  - apply with_meta_inv in H as (b & H & ->). apply outcome_valid. eapply jpeg_quality_valid; eauto.
  - eapply meta_st_made; [|exact H]. apply map_colors_made; auto.
  - eapply place_st_made; [|exact H]. apply mod_colors_made; auto.
  - eapply meta_st_made; [|exact H]. apply map_colors_made; auto.
  - eapply place_st_made; [|exact H]. apply mod_colors_made; auto.
  - eapply meta_st_made; [|exact H]. apply map_colors_made; auto.
  - eapply place_st_made; [|exact H]. apply mod_colors_made; auto.
  - eapply meta_st_made; [|exact H]. apply map_colors_made; auto.
  - eapply place_st_made; [|exact H]. apply mod_colors_made; auto.
Qed.
