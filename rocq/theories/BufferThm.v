(** Properties of pixel buffers (C01-C11). *)
From Coq Require Import ZArith List Bool Lia.
From Verif Require Import Base PixelBuffer BufferSpec Geometry Reachable.
Import ListNotations.
Open Scope Z_scope.
(* PROPERTIES *)
From Coq Require Import ZifyBool ZifyNat.
From Verif Require Import BaseLemmas PixelBufferProofs GeometryProofs EnumProofs.

(** C01: every buffer that any sequence of operations can produce is
    well-formed. *)
Lemma reachable_valid : forall T (b : PixelBuffer T), reachable T b ->
  zlen (data b) = width b * height b /\
  (width b = 0 <-> height b = 0) /\
  0 <= width b * height b <= 1073741823.
Proof.
  intros T b H. apply reachable_is_valid in H. pose proof (valid_bounds b H).
  pose proof (valid_size_bounds _ _ (proj1 H)). lia.
Qed.

Example reachable_some : exists b : PixelBuffer Z, reachable Z b /\
  width b = 2 /\ height b = 3 /\ data b = [5; 1; 6; 9; 7; 3].
Proof.
  assert (H : exists b0, new_from_raw 3 2 [1; 9; 3; 5; 6; 7] = Ok b0) by (eexists; vm_compute; reflexivity).
  destruct H as (b0 & H0). pose proof (reach_raw Z 3 2 _ b0 ltac:(red; lia) ltac:(red; lia) H0) as R0.
  vm_compute in H0. inversion H0; subst b0. clear H0.
  eexists. split.
  - eapply (reach_rotate90 _ Checked 0); [exact R0|]. vm_compute. reflexivity.
  - repeat split.
Qed.

(** C02: [new_with_color] (hence [new]) succeeds exactly on valid sizes; the
    result has that size and only that colour. *)
Lemma new_with_color_iff : forall T m w h (c : T), is_u32 w -> is_u32 h ->
  (valid_size w h /\
   exists b, new_with_color m w h c = Ok b /\ width b = w /\ height b = h /\
     zlen (data b) = w * h /\ Forall (eq c) (data b)) \/
  (~ valid_size w h /\ new_with_color m w h c = Panic).
Proof.
  intros T m w h c Hw Hh. unfold is_u32 in *.
  destruct (validate_size_cases w h) as [(V & E)|(V & E)]; try lia.
  - left. split; auto. rewrite new_with_color_ok by auto. eexists. split; [reflexivity|].
    simpl. split; auto. split; auto. split; [apply (new_with_color_valid w h c V)|].
    apply Forall_forall. intros x Hx. apply repeat_spec in Hx. auto.
  - right. split; auto. unfold new_with_color. rewrite E. auto.
Qed.

(** C02: [is_valid_buffer_size] decides validity. *)
Lemma is_valid_buffer_size_iff : forall w h, is_u32 w -> is_u32 h ->
  is_valid_buffer_size w h = true <-> valid_size w h.
Proof. intros w h Hw Hh. unfold is_u32 in *. apply is_valid_spec; lia. Qed.

(** C02: [new_from_raw] succeeds exactly when size and length fit and keeps the
    data. *)
Lemma new_from_raw_iff : forall T w h (d : list T), is_u32 w -> is_u32 h ->
  (valid_size w h /\ zlen d = w * h /\ new_from_raw w h d = Ok (mkPB w h d)) \/
  (~ (valid_size w h /\ zlen d = w * h) /\ new_from_raw w h d = Panic).
Proof.
  intros T w h d Hw Hh. unfold is_u32 in *.
  destruct (new_from_raw w h d) as [b|] eqn:E.
  - left. apply new_from_raw_inv in E; try lia. destruct E as (V & L & ->). auto.
  - right. split; auto. intros (V & L). rewrite new_from_raw_ok in E by auto. discriminate.
Qed.

(** C02: [new_from_func] panics on invalid sizes before calling the closure
    and, for a closure that never panics, succeeds on valid ones. *)
Lemma new_from_func_iff : forall S T m w h (f : S -> Z -> Z -> res (S * T)) s,
  is_u32 w -> is_u32 h ->
  (forall s x y, exists r, f s x y = Ok r) ->
  ((exists r, new_from_func m w h f s = Ok r) <-> valid_size w h).
Proof.
  intros S T m w h f s Hw Hh Hf. unfold is_u32 in *. split.
  - intros (r & Hr). destruct (validate_size_cases w h) as [(V & E)|(V & E)]; try lia; auto.
    rewrite new_from_func_invalid in Hr by (auto; lia). discriminate.
  - intros V. rewrite new_from_func_eq by auto.
    assert (G : forall l s, exists s' d, map_st (fun s p => f s (fst p) (snd p)) l s = Ok (s', d)).
    { induction l as [|p l IH]; intros t; simpl; eauto.
      destruct (Hf t (fst p) (snd p)) as ((t1 & c) & ->). simpl.
      destruct (IH t1) as (s' & d & ->). simpl. eauto. }
    destruct (G (row_major w h) s) as (s' & d & ->). simpl. eauto.
Qed.

Example valid_sizes_differ : valid_size 0 0 /\ valid_size 32767 32767 /\
  ~ valid_size 0 1 /\ ~ valid_size 65536 65536 /\ ~ valid_size 1 1073741824.
Proof. unfold valid_size. lia. Qed.

(** C03: write then read, with the frame condition. *)
Lemma put_get : forall T m (b : PixelBuffer T) x y c, valid b -> inside b x y ->
  exists b', put_pixel m b x y c = Ok b' /\
    width b' = width b /\ height b' = height b /\ valid b' /\
    get_pixel m b' x y = Ok c /\
    forall x' y', is_u32 x' -> is_u32 y' -> (x', y') <> (x, y) ->
      get_pixel m b' x' y' = get_pixel m b x' y'.
Proof.
  intros T m b x y c V I. destruct (put_pixel_ok m b x y c V I) as (b' & H & V' & W & Hh & G).
  exists b'. split; auto. split; auto. split; auto. split; auto. split.
  - rewrite G by auto. rewrite !Z.eqb_refl. auto.
  - intros x' y' Hx Hy N. unfold is_u32 in *.
    assert (D : inside b x' y' \/ ~ inside b x' y') by (unfold inside; lia). destruct D as [D|D].
    + rewrite G by auto. destruct (Z.eqb_spec x' x); destruct (Z.eqb_spec y' y); simpl; auto.
      subst. congruence.
    + rewrite !get_pixel_outside; auto; try lia. unfold inside in *. lia.
Qed.

(** C03: reads and writes succeed exactly inside the image. *)
Lemma access_panics_outside : forall T m (b : PixelBuffer T) x y c, valid b ->
  is_u32 x -> is_u32 y ->
  ((exists v, get_pixel m b x y = Ok v) <-> inside b x y) /\
  ((exists b', put_pixel m b x y c = Ok b') <-> inside b x y).
Proof.
  intros T m b x y c V Hx Hy. unfold is_u32 in *.
  assert (D : inside b x y \/ ~ inside b x y) by (unfold inside; lia). destruct D as [D|D].
  - split; split; auto.
    + intros _. apply get_pixel_inside; auto.
    + intros _. destruct (put_pixel_ok m b x y c V D) as (b' & H & _). eauto.
  - rewrite get_pixel_outside, put_pixel_outside by (auto; lia).
    split; split; try contradiction; intros (? & ?); discriminate.
Qed.

(** C03: writing back what is there changes nothing, and the last write wins. *)
Lemma put_laws : forall T m (b : PixelBuffer T) x y c c', valid b -> inside b x y ->
  (get_pixel m b x y = Ok c -> put_pixel m b x y c = Ok b) /\
  (forall b1, put_pixel m b x y c = Ok b1 -> put_pixel m b1 x y c' = put_pixel m b x y c').
Proof.
  intros T m b x y c c' V I. split.
  - intros Hg. destruct (put_pixel_ok m b x y c V I) as (b' & -> & V' & W & Hh & G). f_equal.
    symmetry. apply (buffer_ext m); auto. intros x' y' I'. rewrite G by auto.
    destruct (Z.eqb_spec x' x); destruct (Z.eqb_spec y' y); simpl; auto. subst; auto.
  - intros b1 Hb1. destruct (put_pixel_ok m b x y c V I) as (b' & H & V' & W & Hh & G).
    rewrite Hb1 in H. inversion H; subst b'.
    assert (I1 : inside b1 x y) by (unfold inside in *; lia).
    destruct (put_pixel_ok m b1 x y c' V' I1) as (b2 & -> & V2 & W2 & Hh2 & G2).
    destruct (put_pixel_ok m b x y c' V I) as (b3 & -> & V3 & W3 & Hh3 & G3). f_equal.
    apply (buffer_ext m); auto; try lia. intros x' y' I'.
    rewrite G2, G3, G by (unfold inside in *; lia).
    destruct ((x' =? x) && (y' =? y)); auto.
Qed.

Example put_get_example :
  valid (mkPB 3 2 [1; 2; 3; 4; 5; 6]) /\ inside (mkPB 3 2 [1; 2; 3; 4; 5; 6]) 1 1 /\
  put_pixel Checked (mkPB 3 2 [1; 2; 3; 4; 5; 6]) 1 1 9 = Ok (mkPB 3 2 [1; 2; 3; 4; 9; 6]).
Proof. unfold valid, valid_size, inside; cbn. repeat split; lia. Qed.

(** C04: [new_from_func] feeds the coordinates in row-major order, each once,
    to the closure, and stores what it returns. *)
Lemma new_from_func_runs : forall S T m w h (f : S -> Z -> Z -> res (S * T)) s s' b,
  is_u32 w -> is_u32 h ->
  (new_from_func m w h f s = Ok (s', b) <->
   valid_size w h /\ width b = w /\ height b = h /\
   runs (call (fun s p => f s (fst p) (snd p))) s (row_major w h) s' (data b)).
Proof.
  intros S T m w h f s s' b Hw Hh. unfold is_u32 in *. split.
  - intros H. destruct (validate_size_cases w h) as [(V & E)|(V & E)]; try lia.
    + split; auto. rewrite new_from_func_eq in H by auto.
      apply bind_inv in H as ((s1 & d) & H1 & H). inversion H; subst. simpl. split; auto. split; auto.
      apply map_st_runs. auto.
    + rewrite new_from_func_invalid in H by (auto; lia). discriminate.
  - intros (V & W & Hh' & R). rewrite new_from_func_eq by auto. apply map_st_runs in R.
    rewrite R. simpl. destruct b; simpl in *; subst; auto.
Qed.

(** C04: the pixel at (x,y) is what the call for (x,y) returned, made in the
    state left by the calls for all earlier coordinates. *)
Lemma new_from_func_pixel : forall S T m w h (f : S -> Z -> Z -> res (S * T)) s s' b x y,
  is_u32 w -> is_u32 h -> new_from_func m w h f s = Ok (s', b) ->
  0 <= x < w -> 0 <= y < h ->
  exists s1 s2 c vs,
    runs (call (fun s p => f s (fst p) (snd p))) s
         (firstn (Z.to_nat (x + y * w)) (row_major w h)) s1 vs /\
    f s1 x y = Ok (s2, c) /\ get_pixel m b x y = Ok c.
Proof.
  intros S T m w h f s s' b x y Hw Hh H Hx Hy.
  apply new_from_func_runs in H; auto. destruct H as (V & W & Hh' & R).
  pose proof (row_major_idx w h x y Hx Hy) as Ri. pose proof (pos_bounds w h x y Hx Hy).
  rewrite idx_nth in Ri by lia.
  destruct (nth_error (row_major w h) (Z.to_nat (x + y * w))) as [p|] eqn:E; [|discriminate].
  inversion Ri; subst p.
  assert (Vb : valid b).
  { split; [subst; auto|]. apply runs_length in R. rewrite R, row_major_length by lia. subst; auto. }
  destruct (runs_firstn _ _ _ _ _ _ _ R E) as (s1 & s2 & c & R1 & R2 & R3).
  exists s1, s2, c, (firstn (Z.to_nat (x + y * w)) (data b)). split; auto. split; [exact R2|].
  rewrite get_pixel_eq by (auto; unfold inside; lia). rewrite W. rewrite idx_nth by lia. rewrite R3. auto.
Qed.

(** C04: [row_major] is what its name says: every coordinate exactly once,
    ordered by row, then by column. *)
Lemma row_major_spec : forall w h, 0 <= w -> 0 <= h ->
  NoDup (row_major w h) /\
  (forall x y, In (x, y) (row_major w h) <-> 0 <= x < w /\ 0 <= y < h) /\
  (forall x y, 0 <= x < w -> 0 <= y < h -> idx (row_major w h) (x + y * w) = Ok (x, y)).
Proof. intros w h Hw Hh. split; [apply row_major_NoDup|]. split.
  - intros. apply row_major_In.
  - intros. apply row_major_idx; auto. Qed.

Example new_from_func_example :
  new_from_func Checked 3 2 (fun s x y => Ok (s ++ [(x, y)], zlen s * 10 + x)) [] =
  Ok ([(0, 0); (1, 0); (2, 0); (0, 1); (1, 1); (2, 1)], mkPB 3 2 [0; 11; 22; 30; 41; 52]).
Proof. vm_compute. reflexivity. Qed.

(** C05: [try_new_from_func] returns Ok exactly when every call does. *)
Lemma try_new_from_func_ok : forall S T E m w h (f : S -> Z -> Z -> res (S * Result T E)) s s' b,
  is_u32 w -> is_u32 h ->
  (try_new_from_func m w h f s = Ok (s', ROk b) <->
   valid_size w h /\ width b = w /\ height b = h /\
   runs (call_ok (fun s p => f s (fst p) (snd p))) s (row_major w h) s' (data b)).
Proof.
  intros S T E m w h f s s' b Hw Hh. unfold is_u32 in *. split.
  - intros H. destruct (validate_size_cases w h) as [(V & E1)|(V & E1)]; try lia.
    + split; auto. rewrite try_new_from_func_eq in H by auto.
      apply bind_inv in H as ((s1 & [d|e]) & H1 & H); inversion H; subst. simpl. split; auto. split; auto.
      apply try_map_st_ok. auto.
    + rewrite try_new_from_func_invalid in H by (auto; lia). discriminate.
  - intros (V & W & Hh' & R). rewrite try_new_from_func_eq by auto. apply try_map_st_ok in R.
    rewrite R. simpl. destruct b; simpl in *; subst; auto.
Qed.

(** C05: and otherwise the error of the first failing coordinate in row-major
    order; the closure state is the one left by that call. *)
Lemma try_new_from_func_err : forall S T E m w h (f : S -> Z -> Z -> res (S * Result T E)) s s' e,
  is_u32 w -> is_u32 h ->
  (try_new_from_func m w h f s = Ok (s', RErr e) <->
   valid_size w h /\ exists pre bs p post,
     first_error (fun s p => f s (fst p) (snd p)) s (row_major w h) s' e pre bs p post).
Proof.
  intros S T E m w h f s s' e Hw Hh. unfold is_u32 in *. split.
  - intros H. destruct (validate_size_cases w h) as [(V & E1)|(V & E1)]; try lia.
    + split; auto. rewrite try_new_from_func_eq in H by auto.
      apply bind_inv in H as ((s1 & [d|e1]) & H1 & H); inversion H; subst.
      apply try_map_st_err in H1. auto.
    + rewrite try_new_from_func_invalid in H by (auto; lia). discriminate.
  - intros (V & R). rewrite try_new_from_func_eq by auto. apply try_map_st_err in R. rewrite R. auto.
Qed.

(** C05: [try_map_colors] likewise, over the pixels in storage order. *)
Lemma try_map_colors_ok : forall S T R E (f : S -> T -> res (S * Result R E)) s b s' b',
  try_map_colors f s b = Ok (s', ROk b') <->
  width b' = width b /\ height b' = height b /\ runs (call_ok f) s (data b) s' (data b').
Proof.
  intros S T R E f s b s' b'. unfold try_map_colors. split.
  - intros H. apply bind_inv in H as ((s1 & [d|e]) & H1 & H); inversion H; subst. simpl.
    split; auto. split; auto. apply try_map_st_ok. auto.
  - intros (W & Hh & H). apply try_map_st_ok in H. rewrite H. simpl. destruct b'; simpl in *; subst; auto.
Qed.

Lemma try_map_colors_err : forall S T R E (f : S -> T -> res (S * Result R E)) s b s' e,
  try_map_colors f s b = Ok (s', RErr e) <->
  exists pre bs p post, first_error f s (data b) s' e pre bs p post.
Proof.
  intros S T R E f s b s' e. unfold try_map_colors. split.
  - intros H. apply bind_inv in H as ((s1 & [d|e1]) & H1 & H); inversion H; subst.
    apply try_map_st_err in H1. auto.
  - intros H. apply try_map_st_err in H. rewrite H. auto.
Qed.

(** C05: [try_map_colors_enumerated] gives the closure each pixel with its
    coordinates and returns the first error. *)
Lemma try_map_enumerated : forall T E m (f : Z -> Z -> T -> res (Result T E)) b r, valid b ->
  try_map_colors_enumerated f b = Ok r ->
  match r with
  | ROk b' => width b' = width b /\ height b' = height b /\ valid b' /\
      forall x y c, inside b x y -> get_pixel m b x y = Ok c ->
        exists c', f x y c = Ok (ROk c') /\ get_pixel m b' x y = Ok c'
  | RErr e => exists x y c, inside b x y /\ get_pixel m b x y = Ok c /\ f x y c = Ok (RErr e) /\
      forall x' y' c', inside b x' y' -> y' < y \/ y' = y /\ x' < x -> get_pixel m b x' y' = Ok c' ->
        exists v, f x' y' c' = Ok (ROk v)
  end.
Proof.
  intros T E m f b r V H. exact (try_map_enumerated_lemma m f b r V H).
Qed.

Example try_example :
  try_new_from_func Checked 2 2 (fun s x y => Ok (s + 1, if y =? 1 then RErr (x, y) else ROk x)) 0
  = Ok (3, RErr (0, 1)) /\
  try_map_colors (fun s c => Ok (s + c, if c =? 3 then RErr tt else ROk (c * 2))) 0 (mkPB 2 2 [1; 2; 3; 4])
  = Ok (6, RErr tt).
Proof. vm_compute. auto. Qed.

(** C06: on error exactly the prefix has been replaced. *)
Lemma try_mod_colors_spec : forall S T E (f : S -> T -> res (S * Result T E)) s b s' b' r,
  try_mod_colors f s b = Ok (s', b', r) <->
  width b' = width b /\ height b' = height b /\
  match r with
  | ROk _ => runs (call_ok f) s (data b) s' (data b')
  | RErr e => exists pre bs p post, first_error f s (data b) s' e pre bs p post /\
                data b' = bs ++ p :: post
  end.
Proof.
  intros S T E f s b s' b' r. unfold try_mod_colors. split.
  - intros H. apply bind_inv in H as (((s1 & d) & r1) & H1 & H). inversion H; subst. simpl.
    split; auto. split; auto. apply try_mod_list_spec in H1. destruct r; auto.
    destruct H1 as (pre & bs & p & post & F & ->). exists pre, bs, p, post. split; auto.
    rewrite map_id. auto.
  - intros (W & Hh & H). replace (try_mod_list f (fun p => p) s (data b)) with (@Ok _ (s', data b', r)).
    + simpl. destruct b'; simpl in *; subst; auto.
    + symmetry. apply try_mod_list_spec. destruct r; auto.
      destruct H as (pre & bs & p & post & F & E1). exists pre, bs, p, post. split; auto.
      rewrite map_id. auto.
Qed.

(** C06: in a w x h buffer that means: pixels before the failing one, in
    row-major order, hold results of the closure; the others are unchanged. *)
Lemma try_mod_colors_enumerated_err : forall T E m (f : Z -> Z -> T -> res (Result T E)) b b' e,
  valid b -> try_mod_colors_enumerated f b = Ok (b', RErr e) ->
  width b' = width b /\ height b' = height b /\ valid b' /\
  exists x y c, inside b x y /\ get_pixel m b x y = Ok c /\ f x y c = Ok (RErr e) /\
    forall x' y' c', inside b x' y' -> get_pixel m b x' y' = Ok c' ->
      (y' < y \/ y' = y /\ x' < x ->
         exists v, f x' y' c' = Ok (ROk v) /\ get_pixel m b' x' y' = Ok v) /\
      (y < y' \/ y' = y /\ x <= x' -> get_pixel m b' x' y' = Ok c').
Proof. intros T E m f b b' e V H. exact (try_mod_enumerated_err_lemma m f b b' e V H). Qed.

(** C06: it is not atomic: an error can leave a changed buffer. *)
Lemma try_mod_colors_atomic_refuted : exists (f : unit -> Z -> res (unit * Result Z unit)) b s' b',
  try_mod_colors f tt b = Ok (s', b', RErr tt) /\ valid b /\ data b' <> data b.
Proof.
  exists (fun _ c => Ok (tt, if c =? 2 then RErr tt else ROk (c + 10))), (mkPB 2 1 [1; 2]), tt, (mkPB 2 1 [11; 2]).
  split; [reflexivity|]. split; [|discriminate]. unfold valid, valid_size, zlen; simpl. lia.
Qed.

(** C07: [enumerate] yields the coordinates in row-major order, each with its
    own pixel. *)
Lemma enumerate_spec : forall T m (b : PixelBuffer T), valid b ->
  exists items, enumerate b = Ok items /\
    map fst items = row_major (width b) (height b) /\
    (forall x y c, In (x, y, c) items <-> inside b x y /\ get_pixel m b x y = Ok c).
Proof.
  intros T m b V. destruct (enumerate_ok b V) as (items & H & H1 & H2).
  exists items. split; auto. split; auto. intros x y c.
  rewrite <- (enumerate_In m b x y c V). rewrite enumerate_eq in H by auto. inversion H. reflexivity.
Qed.

(** C07: the enumerated maps give each closure call the pixel's own
    coordinates and value and store its result there. *)
Lemma map_colors_enumerated_spec : forall T (b : PixelBuffer T) (f : Z -> Z -> T -> res T), valid b ->
  (forall x y c, inside b x y -> exists c', f x y c = Ok c') ->
  exists b', map_colors_enumerated f b = Ok b' /\ mod_colors_enumerated f b = Ok b' /\
    valid b' /\ width b' = width b /\ height b' = height b /\
    forall m x y, inside b x y -> get_pixel m b' x y = bind (get_pixel m b x y) (f x y).
Proof.
  intros T b f V H. destruct (map_colors_enumerated_ok b f V) as (b' & H1 & H2); [eauto|].
  exists b'. split; auto.
Qed.

Example enumerate_example :
  enumerate (mkPB 2 2 [7; 8; 9; 10]) = Ok [(0, 0, 7); (1, 0, 8); (0, 1, 9); (1, 1, 10)].
Proof. vm_compute. reflexivity. Qed.

(** C08: clamped reads return a nearest pixel, for every i32 pair. *)
Lemma clamped_nearest : forall T m (b : PixelBuffer T) x y, valid b -> nonempty b ->
  is_i32 x -> is_i32 y ->
  exists cx cy, inside b cx cy /\ get_pixel_clamped m b x y = get_pixel m b cx cy /\
    (exists c, get_pixel m b cx cy = Ok c) /\
    forall x' y', inside b x' y' -> Z.abs (x - cx) <= Z.abs (x - x') /\ Z.abs (y - cy) <= Z.abs (y - y').
Proof.
  intros T m b x y V N Hx Hy. exists (clampZ x (width b)), (clampZ y (height b)).
  destruct N as (N1 & N2).
  assert (I : inside b (clampZ x (width b)) (clampZ y (height b))) by (split; apply clampZ_range; auto).
  split; auto. split; [apply get_pixel_clamped_eq; auto; split; auto|].
  split; [apply get_pixel_inside; auto|]. unfold inside, clampZ. lia.
Qed.

(** C08: on pixels of the image they are plain reads; on an empty image they
    panic in both build modes. *)
Lemma clamped_inside_and_empty : forall T m (b : PixelBuffer T) x y, valid b ->
  (inside b x y -> get_pixel_clamped m b x y = get_pixel m b x y) /\
  (width b = 0 -> get_pixel_clamped m b x y = Panic).
Proof.
  intros T m b x y V. split.
  - intros I. unfold inside in I. rewrite get_pixel_clamped_eq by (auto; unfold nonempty; lia).
    rewrite !clampZ_id by lia. auto.
  - apply get_pixel_clamped_empty.
Qed.

Example clamped_example :
  get_pixel_clamped Wrapping (mkPB 2 2 [7; 8; 9; 10]) 2147483647 (-2147483648) = Ok 8.
Proof. vm_compute. reflexivity. Qed.

(** C09: optional reads *)
Lemma optional_spec : forall T m (b : PixelBuffer T) x y, valid b -> is_i32 x -> is_i32 y ->
  (is_in_image b x y = true <-> inside b x y) /\
  (inside b x y -> exists c, get_pixel m b x y = Ok c /\ get_pixel_optional m b x y = Ok (Some c)) /\
  (~ inside b x y -> get_pixel_optional m b x y = Ok None).
Proof.
  intros T m b x y V Hx Hy. split; [apply is_in_image_spec; auto|]. split.
  - intros I. destruct (get_pixel_inside m b x y V I) as (c & Hc). exists c. split; auto.
    rewrite get_pixel_optional_in by auto. rewrite Hc. auto.
  - apply get_pixel_optional_out. auto.
Qed.

Example optional_example :
  get_pixel_optional Checked (mkPB 2 2 [7; 8; 9; 10]) 1 1 = Ok (Some 10) /\
  get_pixel_optional Checked (mkPB 2 2 [7; 8; 9; 10]) 2 0 = Ok None.
Proof. vm_compute. auto. Qed.

(** C10: both neighbourhood functions return the N x N matrix of clamped reads
    around (x,y), whichever path they take. *)
Lemma kernel_is_clamped : forall T m m' (b : PixelBuffer T) N x y, valid b -> nonempty b ->
  0 <= N < 2147483648 -> is_i32 x -> is_i32 y ->
  is_i32 (x - N / 2) -> is_i32 (y - N / 2) -> is_i32 (x + N - 1) -> is_i32 (y + N - 1) ->
  get_kernel m b N x y = get_kernel_dyn m b x y N /\
  exists k, get_kernel m b N x y = Ok k /\ zlen k = N /\
    forall ty, 0 <= ty < N -> exists row, idx k ty = Ok row /\ zlen row = N /\
      forall tx, 0 <= tx < N ->
        idx row tx = get_pixel_clamped m' b (x - N / 2 + tx) (y - N / 2 + ty).
Proof.
  intros T m m' b N x y V NE HN Hx Hy H1 H2 H3 H4. unfold is_i32 in *. split; [reflexivity|].
  rewrite (get_kernel_eq m m') by (auto; lia).
  destruct (kernel_spec_idx m' b N x y V NE) as (k & H & L & G). exists k. split; auto. split; [lia|]. auto.
Qed.

Example kernel_example :
  get_kernel Checked (mkPB 3 3 [1; 2; 3; 4; 5; 6; 7; 8; 9]) 3 1 1 = Ok [[1; 2; 3]; [4; 5; 6]; [7; 8; 9]] /\
  get_kernel Checked (mkPB 3 3 [1; 2; 3; 4; 5; 6; 7; 8; 9]) 3 0 2 = Ok [[4; 4; 5]; [7; 7; 8]; [7; 7; 8]] /\
  get_kernel_dyn Checked (mkPB 3 3 [1; 2; 3; 4; 5; 6; 7; 8; 9]) 1 1 2 = Ok [[1; 2]; [4; 5]].
Proof. vm_compute. auto. Qed.

(** C11: with and without overflow checks every operation gives the same
    result, panics included. *)
Lemma builds_agree_access : forall T (b : PixelBuffer T) x y c, valid b ->
  (is_u32 x -> is_u32 y ->
     get_pixel Checked b x y = get_pixel Wrapping b x y /\
     put_pixel Checked b x y c = put_pixel Wrapping b x y c) /\
  (is_i32 x -> is_i32 y ->
     get_pixel_clamped Checked b x y = get_pixel_clamped Wrapping b x y /\
     get_pixel_optional Checked b x y = get_pixel_optional Wrapping b x y).
Proof.
  intros T b x y c V.
  assert (G : forall x y, is_u32 x -> is_u32 y -> get_pixel Checked b x y = get_pixel Wrapping b x y).
  { intros x0 y0 Hx Hy. unfold is_u32 in *.
    assert (D : inside b x0 y0 \/ ~ inside b x0 y0) by (unfold inside; lia). destruct D as [D|D].
    - rewrite !get_pixel_eq by auto. auto.
    - rewrite !get_pixel_outside by (auto; lia). auto. }
  split; intros Hx Hy; split; auto.
  - unfold is_u32 in *. assert (D : inside b x y \/ ~ inside b x y) by (unfold inside; lia). destruct D as [D|D].
    + destruct (put_pixel_ok Checked b x y c V D) as (b1 & -> & V1 & W1 & Hh1 & G1).
      destruct (put_pixel_ok Wrapping b x y c V D) as (b2 & -> & V2 & W2 & Hh2 & G2). f_equal.
      apply (buffer_ext Checked); auto; try lia. intros x' y' I'.
      assert (I1 : inside b x' y') by (unfold inside in *; lia).
      rewrite G1 by auto. assert (I2 : inside b2 x' y') by (unfold inside in *; lia).
      transitivity (get_pixel Wrapping b2 x' y'); [|rewrite !get_pixel_eq by auto; auto].
      rewrite G2 by auto. rewrite !get_pixel_eq by auto. auto.
    + rewrite !put_pixel_outside by (auto; lia). auto.
  - destruct (Z.eq_dec (width b) 0).
    + rewrite !get_pixel_clamped_empty by auto. auto.
    + assert (NE : nonempty b) by (destruct V as ([V|V] & _); unfold nonempty; lia).
      rewrite !get_pixel_clamped_eq by auto. apply G; unfold is_u32; pose proof (valid_bounds b V);
      destruct NE; [pose proof (clampZ_range x (width b))|pose proof (clampZ_range y (height b))]; lia.
  - assert (D : inside b x y \/ ~ inside b x y) by (unfold inside; lia). destruct D as [D|D].
    + rewrite !get_pixel_optional_in by auto. rewrite G; auto; unfold inside, is_u32 in *; pose proof (valid_bounds b V); lia.
    + rewrite !get_pixel_optional_out by auto. auto.
Qed.

(** C11: constructors agree for all u32 sizes, whatever the closure. *)
Lemma builds_agree_new : forall S T E w h (c : T) (f : S -> Z -> Z -> res (S * T))
  (g : S -> Z -> Z -> res (S * Result T E)) s, is_u32 w -> is_u32 h ->
  new_with_color Checked w h c = new_with_color Wrapping w h c /\
  new_from_func Checked w h f s = new_from_func Wrapping w h f s /\
  try_new_from_func Checked w h g s = try_new_from_func Wrapping w h g s.
Proof.
  intros S T E w h c f g s Hw Hh. unfold is_u32 in *.
  destruct (validate_size_cases w h) as [(V & E1)|(V & E1)]; try lia.
  - rewrite !new_with_color_ok, !new_from_func_eq, !try_new_from_func_eq by auto. auto.
  - unfold new_with_color, new_from_func, try_new_from_func. rewrite E1. auto.
Qed.

(** C11: and so do the geometric operations on valid buffers. *)
Lemma builds_agree_geometry : forall T (d : T) b ox oy w h o, valid b ->
  is_u32 ox -> is_u32 oy -> is_u32 w -> is_u32 h -> 0 <= o < 1073741824 ->
  rotate90 Checked d b = rotate90 Wrapping d b /\ rotate180 Checked d b = rotate180 Wrapping d b /\
  rotate270 Checked d b = rotate270 Wrapping d b /\
  flip_horizontal Checked d b = flip_horizontal Wrapping d b /\
  flip_vertical Checked d b = flip_vertical Wrapping d b /\
  crop Checked d b ox oy w h = crop Wrapping d b ox oy w h /\
  interlace Checked b o = interlace Wrapping b o.
Proof.
  intros T d b ox oy w h o V Hox Hoy Hw Hh Ho. unfold is_u32 in *.
  split; [apply (turn_eq (T90 T) (T90 T)); auto using T90_spec|].
  split; [apply (turn_eq (T180 T) (T180 T)); auto using T180_spec|].
  split; [apply (turn_eq (T270 T) (T270 T)); auto using T270_spec|].
  split; [apply (turn_eq (TH T) (TH T)); auto using TH_spec|].
  split; [apply (turn_eq (TV T) (TV T)); auto using TV_spec|].
  split.
  - destruct (crop_spec Checked d b ox oy w h) as (b1 & -> & V1 & D1 & G1); try lia; auto.
    destruct (crop_spec Wrapping d b ox oy w h) as (b2 & -> & V2 & D2 & G2); try lia; auto. f_equal.
    apply (buffer_ext Checked); auto; try lia. intros x y I.
    rewrite (proj2 (G1 Checked _ _ I)). symmetry. apply G2. unfold inside in *. lia.
  - destruct (interlace_ok Checked b o) as (b1 & -> & V1 & W1 & Hh1 & G1); auto.
    destruct (interlace_ok Wrapping b o) as (b2 & -> & V2 & W2 & Hh2 & G2); auto. f_equal.
    apply (buffer_ext Checked); auto; try lia. intros x y I.
    rewrite G1, G2 by (unfold inside in *; lia). auto.
Qed.

Example builds_agree_example : is_u32 4294967295 /\ valid (mkPB 2 1 [1; 2]) /\
  crop Checked 0 (mkPB 2 1 [1; 2]) 1 0 4294967295 4294967295 = Ok (mkPB 1 1 [2]).
Proof. unfold is_u32, valid, valid_size, zlen. simpl. repeat split; lia. Qed.
