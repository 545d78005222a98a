(** More lemmas about the geometric operations: pixel sets and compose. *)
From Coq Require Import ZArith List Bool Lia ZifyBool ZifyNat.
From Verif Require Import Base BaseLemmas PixelBuffer BufferSpec PixelBufferProofs Geometry
  GeometryProofs EnumProofs.
Import ListNotations.
Open Scope Z_scope.

Lemma data_In {T} m (b : PixelBuffer T) c : valid b ->
  In c (data b) <-> exists x y, inside b x y /\ get_pixel m b x y = Ok c.
Proof.
  intros V. split.
  - intros H. apply In_idx in H as (i & Ri & Hi).
    destruct (get_pixel_data m b i V Ri) as (G & I). exists (i mod width b), (i / width b).
    split; auto. congruence.
  - intros (x & y & I & G). rewrite get_pixel_eq in G by auto. eapply idx_In; eauto.
Qed.

Lemma turn_pixels {T} (t : turn T) (S : turn_spec t)
  (surj : forall m d b b', valid b -> t_op T t m d b = Ok b' -> forall x y, inside b x y ->
     exists x' y', inside b' x' y' /\ get_pixel m b' x' y' = get_pixel m b x y)
  m d b b' : valid b -> t_op T t m d b = Ok b' ->
  zlen (data b') = zlen (data b) -> forall c, In c (data b') <-> In c (data b).
Proof.
  intros V H L c. destruct (S m d b V) as (b2 & H2 & V2 & W & Hh & G). rewrite H in H2.
  inversion H2; subst b2. rewrite !(data_In m) by auto. split.
  - intros (x & y & I & E). destruct (G m x y I) as (I' & E'). rewrite E' in E. eauto.
  - intros (x & y & I & E). destruct (surj m d b b' V H x y I) as (x' & y' & I' & E').
    exists x', y'. split; auto. congruence.
Qed.

Lemma turns_pixels {T} m (d : T) b b' : valid b ->
  rotate90 m d b = Ok b' \/ rotate180 m d b = Ok b' \/ rotate270 m d b = Ok b' \/
  flip_horizontal m d b = Ok b' \/ flip_vertical m d b = Ok b' ->
  zlen (data b') = zlen (data b) /\ forall c, In c (data b') <-> In c (data b).
Proof.
  intros V H.
  assert (G : exists t, turn_spec t /\ t_op T t m d b = Ok b' /\
    (forall m d b b', valid b -> t_op T t m d b = Ok b' ->
      width b' * height b' = width b * height b /\
      forall x y, inside b x y ->
      exists x' y', inside b' x' y' /\ get_pixel m b' x' y' = get_pixel m b x y)).
  { destruct H as [H|[H|[H|[H|H]]]].
    - exists (T90 T). split; [apply T90_spec|]. split; auto. simpl. intros m0 d0 a a' Va Ha.
      destruct (rotate90_ok m0 d0 a Va) as (a2 & Ha2 & _ & W & Hh & G). rewrite Ha in Ha2. inversion Ha2; subst a2.
      split; [rewrite W, Hh; lia|]. intros x y I. destruct (G m0 x y I). eauto.
    - exists (T180 T). split; [apply T180_spec|]. split; auto. simpl. intros m0 d0 a a' Va Ha.
      destruct (rotate180_ok m0 d0 a Va) as (a2 & Ha2 & _ & W & Hh & G). rewrite Ha in Ha2. inversion Ha2; subst a2.
      split; [rewrite W, Hh; lia|]. intros x y I. destruct (G m0 x y I). eauto.
    - exists (T270 T). split; [apply T270_spec|]. split; auto. simpl. intros m0 d0 a a' Va Ha.
      destruct (rotate270_ok m0 d0 a Va) as (a2 & Ha2 & _ & W & Hh & G). rewrite Ha in Ha2. inversion Ha2; subst a2.
      split; [rewrite W, Hh; lia|]. intros x y I. destruct (G m0 x y I). eauto.
    - exists (TH T). split; [apply TH_spec|]. split; auto. simpl. intros m0 d0 a a' Va Ha.
      destruct (flip_horizontal_ok m0 d0 a Va) as (a2 & Ha2 & _ & W & Hh & G). rewrite Ha in Ha2. inversion Ha2; subst a2.
      split; [rewrite W, Hh; lia|]. intros x y I. destruct (G m0 x y I). eauto.
    - exists (TV T). split; [apply TV_spec|]. split; auto. simpl. intros m0 d0 a a' Va Ha.
      destruct (flip_vertical_ok m0 d0 a Va) as (a2 & Ha2 & _ & W & Hh & G). rewrite Ha in Ha2. inversion Ha2; subst a2.
      split; [rewrite W, Hh; lia|]. intros x y I. destruct (G m0 x y I). eauto. }
  destruct G as (t & St & Ht & Su).
  assert (L : zlen (data b') = zlen (data b)).
  { destruct (St m d b V) as (b2 & H2 & V2 & _). rewrite Ht in H2. inversion H2; subst b2.
    destruct (Su m d b b' V Ht) as (E & _). pose proof (valid_bounds b V). pose proof (valid_bounds b' V2). lia. }
  split; auto. eapply turn_pixels; eauto. intros. eapply Su; eauto.
Qed.

(** compose *)
Lemma pixels_fun {T} m (bs : list (PixelBuffer T)) d w h : Forall valid bs ->
  w <= 1073741824 -> h <= 1073741824 ->
  exists ps : Z -> Z -> list T, forall x y, 0 <= x < w -> 0 <= y < h ->
    pixels_at m bs d x y = Ok (ps x y) /\
    Forall2 (fun a c => (inside a x y -> get_pixel m a x y = Ok c) /\ (~ inside a x y -> c = d)) bs (ps x y).
Proof.
  intros Vs Hw Hh. exists (fun x y => match pixels_at m bs d x y with Ok l => l | Panic => [] end).
  intros x y Hx Hy. destruct (pixels_at_eq m m bs d x y Vs) as (l & H & F); try lia.
  rewrite H. auto.
Qed.

Lemma max_dims {T} (bs : list (PixelBuffer T)) : Forall valid bs -> bs <> [] ->
  exists w h, max_list (map width bs) = Ok w /\ max_list (map height bs) = Ok h /\
    0 <= w <= 1073741823 /\ 0 <= h <= 1073741823 /\
    (forall a, In a bs -> width a <= w /\ height a <= h) /\
    (exists a, In a bs /\ width a = w) /\ (exists a, In a bs /\ height a = h).
Proof.
  intros Vs NE. rewrite Forall_forall in Vs.
  destruct (max_list_ok (map width bs)) as (w & Hw & Iw & Mw); [destruct bs; simpl; congruence|].
  destruct (max_list_ok (map height bs)) as (h & Hh & Ih & Mh); [destruct bs; simpl; congruence|].
  apply in_map_iff in Iw as (a1 & E1 & I1). apply in_map_iff in Ih as (a2 & E2 & I2).
  pose proof (valid_bounds a1 (Vs a1 I1)). pose proof (valid_bounds a2 (Vs a2 I2)).
  exists w, h. split; auto. split; auto. split; [lia|]. split; [lia|]. split.
  - intros a Ha. split; [apply Mw|apply Mh]; apply in_map; auto.
  - split; eauto.
Qed.

Lemma compose_nil {S T} m d (f : S -> Z -> Z -> list T -> res (S * T)) s : compose m [] d f s = Panic.
Proof. reflexivity. Qed.

Lemma compose_lemma {S T} m (bs : list (PixelBuffer T)) d
  (f : S -> Z -> Z -> list T -> res (S * T)) s s' b : Forall valid bs ->
  compose m bs d f s = Ok (s', b) ->
  valid b /\
  (forall a, In a bs -> width a <= width b /\ height a <= height b) /\
  (exists a, In a bs /\ width a = width b) /\ (exists a, In a bs /\ height a = height b) /\
  exists ps : Z -> Z -> list T,
    (forall x y, inside b x y ->
      Forall2 (fun a c => (inside a x y -> get_pixel m a x y = Ok c) /\ (~ inside a x y -> c = d)) bs (ps x y)) /\
    runs (call (fun s p => f s (fst p) (snd p) (ps (fst p) (snd p)))) s
         (row_major (width b) (height b)) s' (data b).
Proof.
  intros Vs H. destruct (list_eq_dec Nat.eq_dec (map (fun _ => O) bs) []) as [E0|E0].
  { destruct bs; [|discriminate]. rewrite compose_nil in H. discriminate. }
  assert (NE : bs <> []) by (destruct bs; simpl in *; congruence).
  destruct (max_dims bs Vs NE) as (w & h & Hw & Hh & Bw & Bh & M & E1 & E2).
  destruct (compose_try m bs d f s NE) as (w' & h' & Hw' & Hh' & _ & _ & _ & Hc).
  rewrite Hw in Hw'. rewrite Hh in Hh'. inversion Hw'; inversion Hh'; subst w' h'.
  rewrite Hc in H. clear Hc Hw' Hh'.
  pose proof (new_from_func_valid m w h _ s s' b (proj1 Bw) (proj1 Bh) H) as V.
  destruct (pixels_fun m bs d w h Vs) as (ps & Hps); try lia.
  assert (VS : valid_size w h).
  { destruct (validate_size_cases w h) as [(VS & E)|(VS & E)]; try lia; auto.
    rewrite new_from_func_invalid in H by (auto; lia). discriminate. }
  rewrite new_from_func_eq in H by auto. apply bind_inv in H as ((s1 & dd) & H1 & H). inversion H; subst s1 b.
  split; auto. simpl. split; auto. split; auto. split; auto. exists ps. split.
  - intros x y (Ix & Iy). simpl in Ix, Iy. apply Hps; auto.
  - apply map_st_runs. rewrite <- H1. apply map_st_ext. intros s0 (x & y) I. apply row_major_In in I.
    simpl. destruct (Hps x y) as (-> & _); try lia. auto.
Qed.

Lemma try_compose_err_lemma {S T E} m (bs : list (PixelBuffer T)) d
  (f : S -> Z -> Z -> list T -> res (S * Result T E)) s s' e : Forall valid bs ->
  try_compose m bs d f s = Ok (s', RErr e) ->
  exists w h (ps : Z -> Z -> list T) pre vs p post,
    (forall a, In a bs -> width a <= w /\ height a <= h) /\
    (exists a, In a bs /\ width a = w) /\ (exists a, In a bs /\ height a = h) /\
    (forall x y, 0 <= x < w -> 0 <= y < h ->
      Forall2 (fun a c => (inside a x y -> get_pixel m a x y = Ok c) /\ (~ inside a x y -> c = d)) bs (ps x y)) /\
    first_error (fun s p => f s (fst p) (snd p) (ps (fst p) (snd p))) s (row_major w h) s' e pre vs p post.
Proof.
  intros Vs H. destruct (list_eq_dec Nat.eq_dec (map (fun _ => O) bs) []) as [E0|E0].
  { destruct bs; [|discriminate]. discriminate. }
  assert (NE : bs <> []) by (destruct bs; simpl in *; congruence).
  destruct (max_dims bs Vs NE) as (w & h & Hw & Hh & Bw & Bh & M & E1 & E2).
  destruct (try_compose_eq m bs d f s NE) as (w' & h' & Hw' & Hh' & Hc).
  rewrite Hw in Hw'. rewrite Hh in Hh'. inversion Hw'; inversion Hh'; subst w' h'.
  rewrite Hc in H. clear Hc Hw' Hh'.
  destruct (pixels_fun m bs d w h Vs) as (ps & Hps); try lia.
  assert (VS : valid_size w h).
  { destruct (validate_size_cases w h) as [(VS & E3)|(VS & E3)]; try lia; auto.
    rewrite try_new_from_func_invalid in H by (auto; lia). discriminate. }
  rewrite try_new_from_func_eq in H by auto. apply bind_inv in H as ((s1 & [dd|e']) & H1 & H); inversion H; subst s1 e'.
  rewrite (try_map_st_ext _ (fun s p => f s (fst p) (snd p) (ps (fst p) (snd p)))) in H1.
  - apply try_map_st_err in H1 as (pre & vs & p & post & F). exists w, h, ps, pre, vs, p, post.
    split; auto. split; auto. split; auto. split; auto. intros x y Hx Hy. apply Hps; auto.
  - intros s0 (x & y) I. apply row_major_In in I. simpl. destruct (Hps x y) as (-> & _); try lia. auto.
Qed.

Lemma compose_panics_lemma {S T} m (bs : list (PixelBuffer T)) d
  (f : S -> Z -> Z -> list T -> res (S * T)) s : Forall valid bs ->
  (forall s x y l, exists r, f s x y l = Ok r) ->
  ((exists r, compose m bs d f s = Ok r) <->
   exists w h, valid_size w h /\
    (forall a, In a bs -> width a <= w /\ height a <= h) /\
    (exists a, In a bs /\ width a = w) /\ (exists a, In a bs /\ height a = h)).
Proof.
  intros Vs Hf. split.
  - intros ((s' & b) & H). apply compose_lemma in H as (V & M & E1 & E2 & _); auto.
    exists (width b), (height b). split; [apply V|]. auto.
  - intros (w & h & VS & M & (a1 & I1 & E1) & (a2 & I2 & E2)).
    assert (NE : bs <> []) by (destruct bs; simpl in *; congruence).
    destruct (max_dims bs Vs NE) as (w2 & h2 & Hw2 & Hh2 & Bw & Bh & M2 & (b1 & J1 & F1) & (b2 & J2 & F2)).
    assert (w2 = w) by (pose proof (M _ J1); pose proof (M2 _ I1); lia).
    assert (h2 = h) by (pose proof (M _ J2); pose proof (M2 _ I2); lia). clear F1 F2. subst w2 h2.
    destruct (compose_try m bs d f s NE) as (w' & h' & Hw' & Hh' & _ & _ & _ & Hc).
    rewrite Hw2 in Hw'. rewrite Hh2 in Hh'. inversion Hw'; inversion Hh'; subst w' h'.
    rewrite Hc. rewrite new_from_func_eq by auto.
    assert (G : forall l s, (forall p, In p l -> 0 <= fst p < w /\ 0 <= snd p < h) ->
      exists s' dd, map_st (fun s p => ps <- pixels_at m bs d (fst p) (snd p); f s (fst p) (snd p) ps) l s = Ok (s', dd)).
    { induction l as [|p l IH]; intros t Hl; simpl; eauto.
      destruct (pixels_at_eq m m bs d (fst p) (snd p) Vs) as (q & -> & _);
        [specialize (Hl p (or_introl eq_refl)); lia|specialize (Hl p (or_introl eq_refl)); lia|].
      simpl. destruct (Hf t (fst p) (snd p) q) as ((t1 & c) & ->). simpl.
      destruct (IH t1) as (s' & dd & ->); [intros; apply Hl; right; auto|]. simpl. eauto. }
    destruct (G (row_major w h) s) as (s' & dd & Hm).
    { intros (x & y) I. apply row_major_In in I. auto. }
    exists (s', mkPB w h dd). rewrite Hm. auto.
Qed.

Lemma compose_total_refuted_lemma : exists a b : PixelBuffer Z, valid a /\ valid b /\
  forall m d, compose m [a; b] d (fun (s : unit) x y l => Ok (s, d)) tt = Panic.
Proof.
  assert (V1 : valid_size 1073741823 1) by (unfold valid_size; lia).
  assert (V2 : valid_size 1 1073741823) by (unfold valid_size; lia).
  pose proof (new_with_color_valid 1073741823 1 0 V1) as Va.
  pose proof (new_with_color_valid 1 1073741823 0 V2) as Vb.
  set (a := mkPB 1073741823 1 _) in Va. set (b := mkPB 1 1073741823 _) in Vb.
  exists a, b. split; [exact Va|]. split; [exact Vb|]. intros m d.
  reflexivity.
Qed.

(** The size arithmetic of two successive crops. *)
Lemma crop_len W ox w ox2 w2 : 0 <= W -> 0 <= ox -> 0 <= w -> 0 <= ox2 -> 0 <= w2 ->
  Z.max 0 (Z.min (Z.max 0 (Z.min w2 (w - ox2))) (W - (ox + ox2))) =
  Z.max 0 (Z.min w2 (Z.max 0 (Z.min w (W - ox)) - ox2)).
Proof. lia. Qed.

Lemma crop_dims W ox w ox2 w2 H oy h oy2 h2 a1 c1 a2 c2 a3 c3 :
  0 <= W -> 0 <= ox -> 0 <= w -> 0 <= ox2 -> 0 <= w2 -> 0 <= H -> 0 <= oy -> 0 <= h -> 0 <= oy2 -> 0 <= h2 ->
  let P l1 l2 a c := (l1 = 0 \/ l2 = 0) /\ a = 0 /\ c = 0 \/ 0 < l1 /\ 0 < l2 /\ a = l1 /\ c = l2 in
  P (Z.max 0 (Z.min w (W - ox))) (Z.max 0 (Z.min h (H - oy))) a1 c1 ->
  P (Z.max 0 (Z.min w2 (a1 - ox2))) (Z.max 0 (Z.min h2 (c1 - oy2))) a2 c2 ->
  P (Z.max 0 (Z.min (Z.max 0 (Z.min w2 (w - ox2))) (W - (ox + ox2))))
    (Z.max 0 (Z.min (Z.max 0 (Z.min h2 (h - oy2))) (H - (oy + oy2)))) a3 c3 ->
  a2 = a3 /\ c2 = c3.
Proof.
  intros A1 A2 A3 A4 A5 A6 A7 A8 A9 A10 P. rewrite (crop_len W), (crop_len H) by auto.
  subst P. cbv beta.
  set (u := Z.max 0 (Z.min w (W - ox))). set (v := Z.max 0 (Z.min h (H - oy))).
  assert (0 <= u) by lia. assert (0 <= v) by lia. clearbody u v.
  intros [(D1 & -> & ->)|(D1 & D1' & -> & ->)] D2 D3.
  - assert (Z.max 0 (Z.min w2 (0 - ox2)) = 0) by lia.
    assert (Z.max 0 (Z.min w2 (u - ox2)) = 0 \/ Z.max 0 (Z.min h2 (v - oy2)) = 0) by lia. lia.
  - lia.
Qed.
