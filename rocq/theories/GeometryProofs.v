(** Lemmas about Geometry.v. *)
From Coq Require Import ZArith List Bool Lia ZifyBool ZifyNat.
From Verif Require Import Base BaseLemmas PixelBuffer BufferSpec PixelBufferProofs Geometry.
Import ListNotations.
Open Scope Z_scope.
Ltac Zify.zify_post_hook ::= idtac.

Lemma for_nested {A B S} (l1 : list A) (l2 : list B) (f : A -> B -> S -> res S) s :
  for_ l1 (fun a s => for_ l2 (fun b s => f a b s) s) s
  = for_ (flat_map (fun a => map (fun b => (a, b)) l2) l1) (fun '(a, b) s => f a b s) s.
Proof.
  assert (G : forall a (l : list B) s, for_ l (fun b s => f a b s) s
              = for_ (map (fun b => (a, b)) l) (fun '(a, b) s => f a b s) s).
  { intros a. induction l; intros t; simpl; auto. apply bind_ext. intros. apply IHl. }
  revert s. induction l1; intros s; simpl; auto. rewrite for_app, <- G. apply bind_ext.
  intros. apply IHl1.
Qed.

Lemma flat_pairs_In {A B} (l1 : list A) (l2 : list B) a b :
  In (a, b) (flat_map (fun a => map (fun b => (a, b)) l2) l1) <-> In a l1 /\ In b l2.
Proof. rewrite in_flat_map. split.
  - intros (a' & Ha & H). apply in_map_iff in H as (b' & E & Hb). inversion E; subst; auto.
  - intros (Ha & Hb). exists a. split; auto. apply in_map_iff. eauto. Qed.

Lemma copy_loop_ok {T} m (dst : Z -> Z -> res Z) (D : Z -> Z -> Z) (b : PixelBuffer T) r0 :
  valid b -> zlen r0 = zlen (data b) ->
  (forall x y, inside b x y -> dst x y = Ok (D x y) /\ 0 <= D x y < zlen r0) ->
  (forall x y x' y', inside b x y -> inside b x' y' -> D x y = D x' y' -> x = x' /\ y = y') ->
  exists r, copy_loop m dst b r0 = Ok r /\ zlen r = zlen r0 /\
    forall x y, inside b x y -> idx r (D x y) = idx (data b) (x + y * width b).
Proof.
  intros V L HD HI. pose proof (valid_bounds b V). unfold copy_loop. rewrite for_nested.
  set (ps := flat_map (fun a => map (fun b0 => (a, b0)) (zrange 0 (height b))) (zrange 0 (width b))).
  assert (Hin : forall x y, In (x, y) ps <-> inside b x y).
  { intros. unfold ps. rewrite flat_pairs_In, !zrange_In. reflexivity. }
  match goal with |- context [for_ ps ?f r0] =>
    destruct (for_inv ps f (fun done r => zlen r = zlen r0 /\
      forall x y, In (x, y) done -> idx r (D x y) = idx (data b) (x + y * width b)) r0)
      as (r & Hr & Lr & Ir) end.
  - split; auto. intros x y [].
  - intros done (x & y) rest r Hl (Lr & Ir).
    assert (I : inside b x y) by (apply Hin; rewrite Hl; apply in_or_app; right; left; auto).
    destruct (HD x y I) as (Hd & Rd). rewrite Hd. cbn [bind].
    pose proof (pos_bounds _ _ _ _ (proj1 I) (proj2 I)).
    pose proof (pos_bounds_y (width b) (height b) y).
    destruct I as (I1 & I2).
    rewrite u32_ok by lia. cbn [bind]. rewrite u32_ok by lia. cbn [bind].
    destruct (idx_ok (data b) (x + y * width b)) as (v & Hv); [lia|]. rewrite Hv. cbn [bind].
    destruct (upd_ok r (D x y) v) as (r' & Hr' & Lr' & Ir'); [lia|].
    exists r'. split; auto. split; [lia|].
    intros x' y' Hin'. apply in_app_or in Hin' as [Hd'|[E|[]]].
    + rewrite Ir'. destruct (Z.eqb_spec (D x' y') (D x y)) as [E|E]; [|auto].
      assert (I' : inside b x' y') by (apply Hin; rewrite Hl; apply in_or_app; auto).
      apply HI in E; auto; [|split; auto]. destruct E; subst. auto.
    + inversion E; subst. rewrite Ir', Z.eqb_refl. auto.
  - exists r. split; auto. split; auto. intros. apply Ir. apply Hin. auto.
Qed.

Lemma placement_ok {T} m (dst : Z -> Z -> res Z) (X Y : Z -> Z -> Z) w' h' (b : PixelBuffer T) (dflt : T) :
  valid b -> valid_size w' h' -> w' * h' = width b * height b ->
  (forall x y, inside b x y -> 0 <= X x y < w' /\ 0 <= Y x y < h' /\ dst x y = Ok (X x y + Y x y * w')) ->
  (forall x y x' y', inside b x y -> inside b x' y' -> X x y = X x' y' -> Y x y = Y x' y' -> x = x' /\ y = y') ->
  exists b', bind (copy_loop m dst b (repeat dflt (length (data b)))) (new_from_raw w' h') = Ok b' /\
    valid b' /\ width b' = w' /\ height b' = h' /\
    forall m' x y, inside b x y -> inside b' (X x y) (Y x y) /\
       get_pixel m' b' (X x y) (Y x y) = get_pixel m' b x y.
Proof.
  intros V V' E HD HI. pose proof (valid_bounds b V).
  destruct (copy_loop_ok m dst (fun x y => X x y + Y x y * w') b (repeat dflt (length (data b))))
    as (r & Hr & Lr & Ir); auto.
  - rewrite zlen_repeat. auto.
  - intros x y I. destruct (HD x y I) as (H1 & H2 & H3). split; auto.
    rewrite zlen_repeat. pose proof (pos_bounds _ _ _ _ H1 H2). unfold zlen in *. lia.
  - intros x y x' y' I I' Eq. destruct (HD x y I) as (H1 & H2 & H3).
    destruct (HD x' y' I') as (H1' & H2' & H3'). apply pos_inj in Eq as (E1 & E2); auto.
  - rewrite Hr. cbn [bind]. rewrite zlen_repeat in Lr.
    rewrite new_from_raw_ok by (auto; unfold zlen in *; lia).
    eexists. split; [reflexivity|].
    assert (Vb : valid (mkPB w' h' r)) by (split; auto; simpl; unfold zlen in *; lia).
    split; auto. split; auto. split; auto.
    intros m' x y I. destruct (HD x y I) as (H1 & H2 & H3).
    split; [split; auto|]. rewrite !get_pixel_eq by (auto; split; auto). simpl. auto.
Qed.

Ltac step32 := rewrite u32_ok by lia; cbn [bind].

Lemma rotate90_ok {T} m (dflt : T) b : valid b ->
  exists b', rotate90 m dflt b = Ok b' /\ valid b' /\ width b' = height b /\ height b' = width b /\
    forall m' x y, inside b x y -> inside b' (height b - 1 - y) x /\
      get_pixel m' b' (height b - 1 - y) x = get_pixel m' b x y.
Proof.
  intros V. pose proof (valid_bounds b V). unfold rotate90.
  apply (placement_ok m _ (fun x y => height b - 1 - y) (fun x y => x)); auto; try lia.
  - destruct V as (V & _). unfold valid_size in *. lia.
  - intros x y (Hx & Hy). split; [lia|]. split; [lia|].
    pose proof (pos_bounds (height b) (width b) (height b - 1 - y) x).
    pose proof (pos_bounds_y (height b) (width b) x).
    step32. step32. step32. rewrite u32_ok by lia. f_equal. lia.
Qed.

Lemma rotate270_ok {T} m (dflt : T) b : valid b ->
  exists b', rotate270 m dflt b = Ok b' /\ valid b' /\ width b' = height b /\ height b' = width b /\
    forall m' x y, inside b x y -> inside b' y (width b - 1 - x) /\
      get_pixel m' b' y (width b - 1 - x) = get_pixel m' b x y.
Proof.
  intros V. pose proof (valid_bounds b V). unfold rotate270.
  apply (placement_ok m _ (fun x y => y) (fun x y => width b - 1 - x)); auto; try lia.
  - destruct V as (V & _). unfold valid_size in *. lia.
  - intros x y (Hx & Hy). split; [lia|]. split; [lia|].
    pose proof (pos_bounds (height b) (width b) y (width b - 1 - x)).
    pose proof (pos_bounds_y (height b) (width b) (width b - 1 - x)).
    replace (width b - x - 1) with (width b - 1 - x) by lia.
    step32. step32. step32. rewrite u32_ok by lia. f_equal. lia.
Qed.

Lemma rotate180_ok {T} m (dflt : T) b : valid b ->
  exists b', rotate180 m dflt b = Ok b' /\ valid b' /\ width b' = width b /\ height b' = height b /\
    forall m' x y, inside b x y -> inside b' (width b - 1 - x) (height b - 1 - y) /\
      get_pixel m' b' (width b - 1 - x) (height b - 1 - y) = get_pixel m' b x y.
Proof.
  intros V. pose proof (valid_bounds b V). unfold rotate180.
  apply (placement_ok m _ (fun x y => width b - 1 - x) (fun x y => height b - 1 - y)); auto; try lia.
  - apply V.
  - intros x y (Hx & Hy). split; [lia|]. split; [lia|].
    pose proof (pos_bounds (width b) (height b) (width b - 1 - x) (height b - 1 - y)).
    pose proof (pos_bounds_y (width b) (height b) (height b - 1 - y)).
    replace (height b - y - 1) with (height b - 1 - y) by lia.
    step32. step32. step32. step32. step32. rewrite u32_ok by lia. f_equal. lia.
Qed.

Lemma flip_horizontal_ok {T} m (dflt : T) b : valid b ->
  exists b', flip_horizontal m dflt b = Ok b' /\ valid b' /\ width b' = width b /\ height b' = height b /\
    forall m' x y, inside b x y -> inside b' (width b - 1 - x) y /\
      get_pixel m' b' (width b - 1 - x) y = get_pixel m' b x y.
Proof.
  intros V. pose proof (valid_bounds b V). unfold flip_horizontal.
  apply (placement_ok m _ (fun x y => width b - 1 - x) (fun x y => y)); auto; try lia.
  - apply V.
  - intros x y (Hx & Hy). split; [lia|]. split; [lia|].
    pose proof (pos_bounds (width b) (height b) (width b - 1 - x) y).
    pose proof (pos_bounds_y (width b) (height b) y).
    step32. step32. step32. rewrite u32_ok by lia. f_equal. lia.
Qed.

Lemma flip_vertical_ok {T} m (dflt : T) b : valid b ->
  exists b', flip_vertical m dflt b = Ok b' /\ valid b' /\ width b' = width b /\ height b' = height b /\
    forall m' x y, inside b x y -> inside b' x (height b - 1 - y) /\
      get_pixel m' b' x (height b - 1 - y) = get_pixel m' b x y.
Proof.
  intros V. pose proof (valid_bounds b V). unfold flip_vertical.
  apply (placement_ok m _ (fun x y => x) (fun x y => height b - 1 - y)); auto; try lia.
  - apply V.
  - intros x y (Hx & Hy). split; [lia|]. split; [lia|].
    pose proof (pos_bounds (width b) (height b) x (height b - 1 - y)).
    pose proof (pos_bounds_y (width b) (height b) (height b - 1 - y)).
    replace (height b - y - 1) with (height b - 1 - y) by lia.
    step32. step32. step32. rewrite u32_ok by lia. f_equal. lia.
Qed.

(** Pull-back forms: the pixel at a destination. *)
Lemma rotate90_at {T} m (dflt : T) b b' : valid b -> rotate90 m dflt b = Ok b' ->
  valid b' /\ width b' = height b /\ height b' = width b /\
  forall m' x y, inside b' x y -> inside b y (height b - 1 - x) /\
    get_pixel m' b' x y = get_pixel m' b y (height b - 1 - x).
Proof.
  intros V H. destruct (rotate90_ok m dflt b V) as (b2 & H2 & V2 & W & Hh & G).
  rewrite H in H2. inversion H2; subst b2. split; auto. split; auto. split; auto.
  intros m' x y I. assert (I' : inside b y (height b - 1 - x)) by (unfold inside in *; lia).
  split; auto. rewrite <- (proj2 (G m' _ _ I')). f_equal. lia.
Qed.
Lemma rotate270_at {T} m (dflt : T) b b' : valid b -> rotate270 m dflt b = Ok b' ->
  valid b' /\ width b' = height b /\ height b' = width b /\
  forall m' x y, inside b' x y -> inside b (width b - 1 - y) x /\
    get_pixel m' b' x y = get_pixel m' b (width b - 1 - y) x.
Proof.
  intros V H. destruct (rotate270_ok m dflt b V) as (b2 & H2 & V2 & W & Hh & G).
  rewrite H in H2. inversion H2; subst b2. split; auto. split; auto. split; auto.
  intros m' x y I. assert (I' : inside b (width b - 1 - y) x) by (unfold inside in *; lia).
  split; auto. rewrite <- (proj2 (G m' _ _ I')). f_equal. lia.
Qed.
Lemma rotate180_at {T} m (dflt : T) b b' : valid b -> rotate180 m dflt b = Ok b' ->
  valid b' /\ width b' = width b /\ height b' = height b /\
  forall m' x y, inside b' x y -> inside b (width b - 1 - x) (height b - 1 - y) /\
    get_pixel m' b' x y = get_pixel m' b (width b - 1 - x) (height b - 1 - y).
Proof.
  intros V H. destruct (rotate180_ok m dflt b V) as (b2 & H2 & V2 & W & Hh & G).
  rewrite H in H2. inversion H2; subst b2. split; auto. split; auto. split; auto.
  intros m' x y I. assert (I' : inside b (width b - 1 - x) (height b - 1 - y)) by (unfold inside in *; lia).
  split; auto. rewrite <- (proj2 (G m' _ _ I')). f_equal; lia.
Qed.
Lemma flip_horizontal_at {T} m (dflt : T) b b' : valid b -> flip_horizontal m dflt b = Ok b' ->
  valid b' /\ width b' = width b /\ height b' = height b /\
  forall m' x y, inside b' x y -> inside b (width b - 1 - x) y /\
    get_pixel m' b' x y = get_pixel m' b (width b - 1 - x) y.
Proof.
  intros V H. destruct (flip_horizontal_ok m dflt b V) as (b2 & H2 & V2 & W & Hh & G).
  rewrite H in H2. inversion H2; subst b2. split; auto. split; auto. split; auto.
  intros m' x y I. assert (I' : inside b (width b - 1 - x) y) by (unfold inside in *; lia).
  split; auto. rewrite <- (proj2 (G m' _ _ I')). f_equal; lia.
Qed.
Lemma flip_vertical_at {T} m (dflt : T) b b' : valid b -> flip_vertical m dflt b = Ok b' ->
  valid b' /\ width b' = width b /\ height b' = height b /\
  forall m' x y, inside b' x y -> inside b x (height b - 1 - y) /\
    get_pixel m' b' x y = get_pixel m' b x (height b - 1 - y).
Proof.
  intros V H. destruct (flip_vertical_ok m dflt b V) as (b2 & H2 & V2 & W & Hh & G).
  rewrite H in H2. inversion H2; subst b2. split; auto. split; auto. split; auto.
  intros m' x y I. assert (I' : inside b x (height b - 1 - y)) by (unfold inside in *; lia).
  split; auto. rewrite <- (proj2 (G m' _ _ I')). f_equal; lia.
Qed.

(** A uniform description of the five operations: a coordinate pull-back. *)
Record turn T := mkTurn {
  t_op : build -> T -> PixelBuffer T -> res (PixelBuffer T);
  t_w : Z -> Z -> Z; t_h : Z -> Z -> Z;
  t_x : Z -> Z -> Z -> Z -> Z; t_y : Z -> Z -> Z -> Z -> Z }.
Definition turn_spec {T} (t : turn T) : Prop :=
  forall m dflt b, valid b ->
  exists b', t_op T t m dflt b = Ok b' /\ valid b' /\
    width b' = t_w T t (width b) (height b) /\ height b' = t_h T t (width b) (height b) /\
    forall m' x y, inside b' x y ->
      inside b (t_x T t (width b) (height b) x y) (t_y T t (width b) (height b) x y) /\
      get_pixel m' b' x y =
      get_pixel m' b (t_x T t (width b) (height b) x y) (t_y T t (width b) (height b) x y).

Definition T90 T := mkTurn T rotate90 (fun w h => h) (fun w h => w) (fun w h x y => y) (fun w h x y => h - 1 - x).
Definition T180 T := mkTurn T rotate180 (fun w h => w) (fun w h => h) (fun w h x y => w - 1 - x) (fun w h x y => h - 1 - y).
Definition T270 T := mkTurn T rotate270 (fun w h => h) (fun w h => w) (fun w h x y => w - 1 - y) (fun w h x y => x).
Definition TH T := mkTurn T flip_horizontal (fun w h => w) (fun w h => h) (fun w h x y => w - 1 - x) (fun w h x y => y).
Definition TV T := mkTurn T flip_vertical (fun w h => w) (fun w h => h) (fun w h x y => x) (fun w h x y => h - 1 - y).
Definition TI T := mkTurn T (fun _ _ b => Ok b) (fun w h => w) (fun w h => h) (fun w h x y => x) (fun w h x y => y).

Lemma T90_spec T : turn_spec (T90 T).
Proof. intros m d b V. destruct (rotate90_ok m d b V) as (b' & H & _). exists b'.
  split; auto. apply (rotate90_at m d); auto. Qed.
Lemma T180_spec T : turn_spec (T180 T).
Proof. intros m d b V. destruct (rotate180_ok m d b V) as (b' & H & _). exists b'.
  split; auto. apply (rotate180_at m d); auto. Qed.
Lemma T270_spec T : turn_spec (T270 T).
Proof. intros m d b V. destruct (rotate270_ok m d b V) as (b' & H & _). exists b'.
  split; auto. apply (rotate270_at m d); auto. Qed.
Lemma TH_spec T : turn_spec (TH T).
Proof. intros m d b V. destruct (flip_horizontal_ok m d b V) as (b' & H & _). exists b'.
  split; auto. apply (flip_horizontal_at m d); auto. Qed.
Lemma TV_spec T : turn_spec (TV T).
Proof. intros m d b V. destruct (flip_vertical_ok m d b V) as (b' & H & _). exists b'.
  split; auto. apply (flip_vertical_at m d); auto. Qed.
Lemma TI_spec T : turn_spec (TI T).
Proof. intros m d b V. exists b. split; auto. Qed.

Definition comp {T} (t2 t1 : turn T) : turn T :=
  mkTurn T (fun m d b => bind (t_op T t1 m d b) (t_op T t2 m d))
    (fun w h => t_w T t2 (t_w T t1 w h) (t_h T t1 w h))
    (fun w h => t_h T t2 (t_w T t1 w h) (t_h T t1 w h))
    (fun w h x y => t_x T t1 w h (t_x T t2 (t_w T t1 w h) (t_h T t1 w h) x y)
                                 (t_y T t2 (t_w T t1 w h) (t_h T t1 w h) x y))
    (fun w h x y => t_y T t1 w h (t_x T t2 (t_w T t1 w h) (t_h T t1 w h) x y)
                                 (t_y T t2 (t_w T t1 w h) (t_h T t1 w h) x y)).
Lemma comp_spec {T} (t2 t1 : turn T) : turn_spec t2 -> turn_spec t1 -> turn_spec (comp t2 t1).
Proof.
  intros S2 S1 m d b V. destruct (S1 m d b V) as (b1 & H1 & V1 & W1 & Hh1 & G1).
  destruct (S2 m d b1 V1) as (b2 & H2 & V2 & W2 & Hh2 & G2).
  exists b2. simpl. rewrite H1. simpl. split; auto. split; auto. rewrite <- W1, <- Hh1.
  split; auto. split; auto. intros m' x y I. destruct (G2 m' x y I) as (I1 & E1).
  destruct (G1 m' _ _ I1) as (I2 & E2). rewrite E1. split; auto.
Qed.
Lemma turn_eq {T} (t t' : turn T) m m0 dflt d0 b : turn_spec t -> turn_spec t' -> valid b ->
  t_w T t (width b) (height b) = t_w T t' (width b) (height b) ->
  t_h T t (width b) (height b) = t_h T t' (width b) (height b) ->
  (forall x y, t_x T t (width b) (height b) x y = t_x T t' (width b) (height b) x y /\
     t_y T t (width b) (height b) x y = t_y T t' (width b) (height b) x y) ->
  t_op T t m dflt b = t_op T t' m0 d0 b.
Proof.
  intros St St' V Hw Hh Hxy. destruct (St m dflt b V) as (b1 & -> & V1 & W1 & Hh1 & G1).
  destruct (St' m0 d0 b V) as (b2 & -> & V2 & W2 & Hh2 & G2). f_equal.
  apply (buffer_ext Checked); auto; try congruence. intros x y I.
  assert (I2 : inside b2 x y) by (unfold inside in *; lia).
  destruct (G1 Checked _ _ I) as (_ & ->). destruct (G2 Checked _ _ I2) as (_ & ->).
  destruct (Hxy x y) as (-> & ->). auto.
Qed.

(** ** crop *)
Definition crop_w {T} (b : PixelBuffer T) ox w := Z.max 0 (Z.min w (width b - ox)).
Definition crop_h {T} (b : PixelBuffer T) oy h := Z.max 0 (Z.min h (height b - oy)).

Lemma crop_spec {T} m (dflt : T) b ox oy w h :
  valid b -> 0 <= ox -> 0 <= oy -> 0 <= w -> 0 <= h ->
  exists b', crop m dflt b ox oy w h = Ok b' /\ valid b' /\
    ((crop_w b ox w = 0 \/ crop_h b oy h = 0) /\ width b' = 0 /\ height b' = 0 \/
     0 < crop_w b ox w /\ 0 < crop_h b oy h /\ width b' = crop_w b ox w /\ height b' = crop_h b oy h) /\
    forall m' x y, inside b' x y -> inside b (ox + x) (oy + y) /\
      get_pixel m' b' x y = get_pixel m' b (ox + x) (oy + y).
Proof.
  intros V Hox Hoy Hw Hh. pose proof (valid_bounds b V) as B.
  unfold crop, crop_w, crop_h, is_empty.
  destruct (Z.eqb_spec (width b) 0) as [E0|E0].
  { assert (height b = 0) by (destruct V as ([V|V] & _); lia). rewrite H, Z.eqb_refl. cbn [andb].
    exists b. split; auto. split; auto. split; [left; lia|]. intros m' x y I. unfold inside in *. lia. }
  assert (0 < width b /\ 0 < height b) by (destruct V as ([V|V] & _); lia).
  cbn [andb]. rewrite u32_ok by lia. cbn [bind]. rewrite u32_ok by lia. cbn [bind].
  set (w' := Z.min w (width b - Z.min ox (width b))).
  set (h' := Z.min h (height b - Z.min oy (height b))).
  destruct ((w' =? 0) || (h' =? 0)) eqn:E.
  - unfold new. rewrite new_with_color_ok by (left; auto). eexists. split; [reflexivity|].
    split; [apply new_with_color_valid; left; auto|]. simpl. split; [left; lia|].
    intros m' x y I. unfold inside in I. simpl in I. lia.
  - assert (P : 0 < w' /\ 0 < h' /\ ox + w' <= width b /\ oy + h' <= height b /\ ox < width b /\ oy < height b) by lia.
    assert (W' : w' * h' <= width b * height b) by (apply Z.mul_le_mono_nonneg; lia).
    rewrite u32_ok by lia. cbn [bind].
    rewrite !Z.min_l by lia.
    match goal with |- context [for_ (zrange 0 h') ?f []] =>
      destruct (for_inv (zrange 0 h') f (fun done d => zlen d = w' * zlen done /\
        forall x y, 0 <= x < w' -> 0 <= y < zlen done ->
           idx d (x + y * w') = idx (data b) (ox + x + (oy + y) * width b)) [])
        as (d & Hd & Ld & Id) end.
    + unfold zlen. simpl. split; [lia|]. intros; lia.
    + intros done y rest d Hl (Ld & Id).
      assert (y = zlen done /\ 0 <= y < h').
      { assert (idx (zrange 0 h') (zlen done) = Ok y).
        { rewrite Hl. rewrite idx_app_r by lia. rewrite Z.sub_diag. reflexivity. }
        pose proof (idx_inv _ _ _ H0) as R. rewrite zrange_zlen in R by lia.
        rewrite idx_zrange in H0 by lia. inversion H0. lia. }
      destruct H0 as (Ey & Ry).
      assert (R1 : 0 <= (oy + y) * width b) by nia.
      assert (R2 : (oy + y) * width b + ox + w' <= width b * height b).
      { assert ((oy + y) * width b <= (height b - 1) * width b) by (apply Z.mul_le_mono_nonneg_r; lia). lia. }
      rewrite u32_ok by lia. cbn [bind]. rewrite u32_ok by lia. cbn [bind]. rewrite u32_ok by lia. cbn [bind].
      destruct (slice_ok (data b) ((oy + y) * width b + ox) w') as (row & Hs & Lrow & Irow); try lia.
      rewrite Hs. cbn [bind]. eexists. split; [reflexivity|].
      rewrite !zlen_app. replace (zlen [y]) with 1 by reflexivity. split; [lia|].
      intros x y' Rx Ry'. destruct (Z_lt_ge_dec y' (zlen done)).
      * rewrite idx_app_l; [apply Id; lia|]. rewrite Ld. pose proof (pos_bounds w' (zlen done) x y'). lia.
      * assert (y' = y) by lia. subst y'.
        rewrite idx_app_r by (rewrite Ld; subst y; lia). rewrite Ld.
        replace (x + y * w' - w' * zlen done) with x by (subst y; lia).
        rewrite Irow by lia. f_equal. lia.
    + rewrite Hd. cbn [bind]. rewrite zrange_zlen in Ld, Id by lia.
      assert (V' : valid_size w' h') by (right; lia).
      rewrite new_from_raw_ok by (auto; lia). eexists. split; [reflexivity|].
      assert (Vb : valid (mkPB w' h' d)) by (split; auto; simpl; lia).
      split; auto. simpl. split; [right; lia|].
      intros m' x y I. assert (I' : inside b (ox + x) (oy + y)) by (unfold inside in *; simpl in *; lia).
      split; auto. rewrite !get_pixel_eq by auto. simpl. apply Id; unfold inside in I; simpl in I; lia.
Qed.

(** ** interlace *)
Lemma interlace_ok {T} m (b : PixelBuffer T) o : valid b -> 0 <= o < 1073741824 ->
  exists b', interlace m b o = Ok b' /\ valid b' /\ width b' = width b /\ height b' = height b /\
    forall m' x y, inside b x y ->
      get_pixel m' b' x y =
      get_pixel m' b (clampZ (if Z.even y then x - o else x + o) (width b)) y.
Proof.
  intros V Ho. pose proof (valid_bounds b V). unfold interlace. rewrite (as_i32_id o) by lia.
  set (f := fun x y => if y mod 2 =? 0 then _ else _).
  assert (F : forall m' x y, inside b x y ->
      f x y = get_pixel m' b (clampZ (if Z.even y then x - o else x + o) (width b)) y).
  { intros m' x y I. unfold f, inside in *. rewrite !as_i32_id by lia. rewrite Zmod_even.
    assert (NE : nonempty b) by (unfold nonempty; lia).
    assert (forall z, get_pixel m b (clampZ z (width b)) (clampZ y (height b))
                 = get_pixel m' b (clampZ z (width b)) y).
    { intros z. rewrite (clampZ_id y) by lia. pose proof (clampZ_range z (width b)).
      rewrite !get_pixel_eq by (auto; unfold inside; lia). auto. }
    destruct (Z.even y); cbn [Z.eqb]; rewrite i32_ok by lia; cbn [bind];
      rewrite get_pixel_clamped_eq by auto; auto. }
  destruct (new_from_fn_ok m (width b) (height b) f) as (b' & Hb & V' & W & Hh & G).
  - apply V.
  - intros x y Hx Hy. rewrite (F Checked) by (split; auto). apply get_pixel_inside; auto.
    split; auto. apply clampZ_range; lia.
  - exists b'. split; auto. split; auto. split; auto. split; auto. intros m' x y I.
    rewrite G by (unfold inside in *; lia). apply F; auto.
Qed.

(** ** compose *)
Lemma max_list_ok l : l <> [] -> exists z, max_list l = Ok z /\ In z l /\ forall a, In a l -> a <= z.
Proof.
  induction l as [|a l IH]; [congruence|]. intros _. destruct l as [|a2 l].
  - exists a. simpl. split; auto. split; auto. intros ? [->|[]]; lia.
  - destruct IH as (z & Hz & Hin & Hmax); [congruence|].
    exists (Z.max a z). split.
    + change (max_list (a :: a2 :: l)) with (bind (max_list (a2 :: l)) (fun r => Ok (Z.max a r))). rewrite Hz. auto.
    + split.
      * destruct (Z.max_spec a z) as [(_ & ->)|(_ & ->)]; [right|left]; auto.
      * intros x [->|Hx]; [lia|]. apply Hmax in Hx. lia.
Qed.

Definition pixels_at {T} m (buffers : list (PixelBuffer T)) (default : T) x y : res (list T) :=
  map_res (fun b => o <- get_pixel_optional m b (as_i32 x) (as_i32 y);
      Ok (match o with Some c => c | None => default end)) buffers.

Lemma pixels_at_eq {T} m m' (buffers : list (PixelBuffer T)) default x y :
  Forall valid buffers -> 0 <= x < 2147483648 -> 0 <= y < 2147483648 ->
  exists ps, pixels_at m buffers default x y = Ok ps /\
    Forall2 (fun b c => (inside b x y -> get_pixel m' b x y = Ok c) /\ (~ inside b x y -> c = default)) buffers ps.
Proof.
  intros Vs Hx Hy. unfold pixels_at. induction Vs as [|b bs V Vs IH].
  - exists []. split; auto.
  - destruct IH as (ps & Hps & F). simpl. rewrite !as_i32_id in * by lia.
    assert (D : inside b x y \/ ~ inside b x y) by (unfold inside; lia). destruct D as [I|I].
    + destruct (get_pixel_inside m' b x y V I) as (c & Hc).
      rewrite get_pixel_optional_in by auto.
      replace (get_pixel m b x y) with (@Ok T c) by (rewrite <- Hc, !get_pixel_eq by auto; auto). cbn [bind].
      rewrite Hps. cbn [bind]. eexists. split; [reflexivity|]. constructor; auto; split; intros; auto; contradiction.
    + rewrite get_pixel_optional_out by auto. cbn [bind]. rewrite Hps. cbn [bind].
      eexists. split; [reflexivity|]. constructor; auto; split; intros; auto; contradiction.
Qed.

Lemma pixels_at_mode {T} m m' (buffers : list (PixelBuffer T)) default x y :
  Forall valid buffers -> 0 <= x < 2147483648 -> 0 <= y < 2147483648 ->
  pixels_at m buffers default x y = pixels_at m' buffers default x y.
Proof.
  intros Vs Hx Hy. unfold pixels_at. apply map_res_ext. intros b Hb.
  assert (V : valid b) by (rewrite Forall_forall in Vs; auto). rewrite !as_i32_id by lia.
  assert (D : inside b x y \/ ~ inside b x y) by (unfold inside; lia). destruct D as [I|I].
  - rewrite !get_pixel_optional_in, !get_pixel_eq by auto. auto.
  - rewrite !get_pixel_optional_out by auto. auto.
Qed.

Lemma try_compose_eq {S T E} m (buffers : list (PixelBuffer T)) default
  (f : S -> Z -> Z -> list T -> res (S * Result T E)) s :
  buffers <> [] ->
  exists w h, max_list (map width buffers) = Ok w /\ max_list (map height buffers) = Ok h /\
  try_compose m buffers default f s =
  try_new_from_func m w h (fun s x y => ps <- pixels_at m buffers default x y; f s x y ps) s.
Proof.
  intros NE. destruct (max_list_ok (map width buffers)) as (w & Hw & _); [destruct buffers; simpl; congruence|].
  destruct (max_list_ok (map height buffers)) as (h & Hh & _); [destruct buffers; simpl; congruence|].
  exists w, h. split; auto. split; auto. unfold try_compose.
  rewrite assert_true by (destruct buffers; [congruence|rewrite zlen_cons; pose proof (zlen_nonneg buffers); lia]).
  rewrite Hw, Hh. reflexivity.
Qed.

Lemma compose_try {S T} m (buffers : list (PixelBuffer T)) default
  (f : S -> Z -> Z -> list T -> res (S * T)) s : buffers <> [] ->
  exists w h, max_list (map width buffers) = Ok w /\ max_list (map height buffers) = Ok h /\
  (forall a, In a buffers -> width a <= w /\ height a <= h) /\
  (exists a, In a buffers /\ width a = w) /\ (exists a, In a buffers /\ height a = h) /\
  compose m buffers default f s =
  new_from_func m w h (fun s x y => ps <- pixels_at m buffers default x y; f s x y ps) s.
Proof.
  intros NE. destruct (max_list_ok (map width buffers)) as (w & Hw & Iw & Mw); [destruct buffers; simpl; congruence|].
  destruct (max_list_ok (map height buffers)) as (h & Hh & Ih & Mh); [destruct buffers; simpl; congruence|].
  exists w, h. split; auto. split; auto. split.
  { intros a Ha. split; [apply Mw|apply Mh]; apply in_map; auto. }
  split; [apply in_map_iff in Iw as (a & ? & ?); eauto|].
  split; [apply in_map_iff in Ih as (a & ? & ?); eauto|].
  unfold compose.
  destruct (try_compose_eq m buffers default (fun s x y colors => '(s1, c) <- f s x y colors; Ok (s1, @ROk T unit c)) s NE)
    as (w2 & h2 & Hw2 & Hh2 & ->).
  rewrite Hw in Hw2. rewrite Hh in Hh2. inversion Hw2; inversion Hh2; subst w2 h2.
  unfold try_new_from_func, new_from_func. destruct (validate_size w h); auto. simpl.
  destruct (u32 m (w * h)); auto. simpl.
  rewrite (try_map_st_ext _ (fun s i => '(s1, c) <- (_ <- assert_ (negb (w =? 0));
      ps <- pixels_at m buffers default (i mod w) (i / w); f s (i mod w) (i / w) ps); Ok (s1, @ROk T unit c))).
  - rewrite map_st_try. destruct (map_st _ _ _) as [(s' & d)|]; auto.
  - intros s0 i _. destruct (assert_ (negb (w =? 0))); auto. simpl.
    destruct (pixels_at m buffers default (i mod w) (i / w)); auto.
Qed.

Lemma try_compose_slice_same {S T E} m (buffers : list (PixelBuffer T)) default
  (f : S -> Z -> Z -> list T -> res (S * Result T E)) s :
  try_compose_slice m buffers default f s = try_compose m buffers default f s.
Proof. unfold try_compose_slice, try_compose.
  destruct buffers; reflexivity. Qed.

Lemma compose_slice_same {S T} m (buffers : list (PixelBuffer T)) default
  (f : S -> Z -> Z -> list T -> res (S * T)) s :
  compose_slice m buffers default f s = compose m buffers default f s.
Proof. unfold compose_slice, compose. rewrite try_compose_slice_same. auto. Qed.
