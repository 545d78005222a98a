(** Lemmas for C122. *)
From Coq Require Import ZArith List Bool Lia Permutation FinFun.
From Verif Require Import Base BaseLemmas PixelBuffer BufferSpec PixelBufferProofs Geometry GeometryProofs F32 Color Blend Resample Kernel Ops OpsSpec OpsProofs BalanceProofs
  EqualizeProofs BlendProofs Image StepsSpec.
Import ListNotations.
Open Scope Z_scope.

(** ** Turns *)
Definition op_of (t : turning) {T} : build -> T -> PixelBuffer T -> res (PixelBuffer T) :=
  match t with Quarter => rotate90 | Half => rotate180 | ThreeQuarters => rotate270 | LeftRight => flip_horizontal | UpsideDown => flip_vertical end.
Definition swaps (t : turning) : bool := match t with Quarter | ThreeQuarters => true | _ => false end.
Definition from_x (t : turning) (w h x y : Z) : Z :=
  match t with Quarter => y | Half => w - 1 - x | ThreeQuarters => w - 1 - y | LeftRight => w - 1 - x | UpsideDown => x end.
Definition from_y (t : turning) (w h x y : Z) : Z :=
  match t with Quarter => h - 1 - x | Half => h - 1 - y | ThreeQuarters => x | LeftRight => y | UpsideDown => h - 1 - y end.
Definition width_of (t : turning) (w h : Z) : Z := if swaps t then h else w.
Definition height_of (t : turning) (w h : Z) : Z := if swaps t then w else h.

Lemma op_spec t {T} m (d : T) b : valid b -> exists b', op_of t m d b = Ok b' /\ valid b' /\ width b' = width_of t (width b) (height b) /\ height b' = height_of t (width b) (height b) /\
  forall m' x y, inside b' x y -> inside b (from_x t (width b) (height b) x y) (from_y t (width b) (height b) x y) /\
    get_pixel m' b' x y = get_pixel m' b (from_x t (width b) (height b) x y) (from_y t (width b) (height b) x y).
Proof.
  intros V. destruct t.
  - exact (T90_spec T m d b V).
  - exact (T180_spec T m d b V).
  - exact (T270_spec T m d b V).
  - exact (TH_spec T m d b V).
  - exact (TV_spec T m d b V).
Qed.

Lemma pixels_of {T} m (b : PixelBuffer T) : valid b -> map (fun p => get_pixel m b (fst p) (snd p)) (row_major (width b) (height b)) = map Ok (data b).
Proof.
  intros V. pose proof (valid_bounds b V) as (B1 & B2 & _ & EN). apply list_ext.
  - rewrite !zlen_map, row_major_length by lia. lia.
  - intros i Hi. rewrite zlen_map, row_major_length in Hi by lia.
    destruct (Z.eq_dec (width b) 0) as [E|E]; [rewrite E in Hi; lia|]. assert (W : 0 < width b) by lia.
    pose proof (Z.mod_pos_bound i (width b) W). pose proof (Z.div_mod i (width b) ltac:(lia)).
    assert (D : 0 <= i / width b < height b) by (split; [apply Z.div_pos; lia|apply Z.div_lt_upper_bound; lia]).
    rewrite !idx_map. replace i with (i mod width b + (i / width b) * width b) by lia. rewrite row_major_idx by lia. cbn [bind fst snd].
    rewrite get_pixel_eq by (auto; split; lia). replace (i mod width b + i / width b * width b) with i by lia.
    destruct (idx_ok (data b) i) as [c Hc]; [lia|]. rewrite Hc. reflexivity.
Qed.

Lemma perm_ok {A} (l l' : list A) : Permutation (map (@Ok A) l) (map Ok l') -> Permutation l l'.
Proof.
  intros P. destruct l as [|a l]; [apply Permutation_nil in P; destruct l'; [auto|discriminate]|].
  apply (Permutation_map (fun r => match r with Ok x => x | Panic => a end)) in P. rewrite !map_map, !map_id in P. exact P.
Qed.

Lemma turn_perm t {T} m (d : T) b b' : valid b -> op_of t m d b = Ok b' -> Permutation (data b') (data b).
Proof.
  intros V H. destruct (op_spec t m d b V) as (b2 & H2 & V2 & W2 & E2 & P). rewrite H in H2. inversion H2; subst b2. clear H2.
  pose proof (valid_bounds b V) as (B1 & B2 & _ & EN). pose proof (valid_bounds b' V2) as (C1 & C2 & _ & EN2).
  apply perm_ok. rewrite <- (pixels_of m b V), <- (pixels_of m b' V2).
  set (s := fun p : Z * Z => (from_x t (width b) (height b) (fst p) (snd p), from_y t (width b) (height b) (fst p) (snd p))).
  rewrite (map_ext_in _ (fun p => get_pixel m b (fst (s p)) (snd (s p)))).
  - rewrite <- (map_map s (fun p => get_pixel m b (fst p) (snd p))). apply Permutation_map. apply NoDup_Permutation_bis.
    + apply Injective_map_NoDup; [|apply row_major_NoDup]. intros [x y] [x2 y2] I. inversion I as [[I1 I2]]. destruct t; cbn in I1, I2; f_equal; lia.
    + rewrite map_length. pose proof (row_major_length (width b) (height b)). pose proof (row_major_length (width b') (height b')). unfold zlen in *.
      assert (K : width b' * height b' = width b * height b) by (rewrite W2, E2; unfold width_of, height_of; destruct (swaps t); lia). lia.
    + intros p Hp. apply in_map_iff in Hp. destruct Hp as [[x y] [<- Hp]]. apply row_major_In in Hp. destruct (P m x y) as [I _]; [exact Hp|]. apply row_major_In. exact I.
  - intros [x y] Hp. apply row_major_In in Hp. exact (proj2 (P m x y Hp)).
Qed.

(** ** Recolouring *)
Definition recolour {A B} (f : A -> res B) (b : PixelBuffer A) : res (PixelBuffer B) := d <- map_res f (data b); Ok (mkPB (width b) (height b) d).
Lemma recolour_ok {A B} (f : A -> res B) b c : valid b -> recolour f b = Ok c ->
  valid c /\ width c = width b /\ height c = height b /\ forall m x y, inside b x y -> get_pixel m c x y = bind (get_pixel m b x y) f.
Proof.
  intros V H. unfold recolour in H. destruct (map_res f (data b)) as [d|] eqn:E; [|discriminate]. inversion H; subst. cbn [width height].
  assert (V2 : valid (mkPB (width b) (height b) d)). { destruct V as [V1 V2]. split; [exact V1|]. cbn [width height data]. apply map_res_length in E. unfold zlen in *. lia. }
  split; [exact V2|]. split; [reflexivity|]. split; [reflexivity|]. intros m x y I. rewrite !get_pixel_eq by auto. cbn [width data].
  unfold idx. destruct (x + y * width b <? 0) eqn:L.
  - destruct I. apply Z.ltb_lt in L. nia.
  - destruct (nth_error (data b) (Z.to_nat (x + y * width b))) as [a|] eqn:N.
    + destruct (map_res_nth _ _ _ _ _ E N) as (v & -> & <-). reflexivity.
    + apply nth_error_None in N. pose proof (map_res_length _ _ _ E). destruct (nth_error d _) eqn:N2; [|reflexivity]. assert (N3 : nth_error d (Z.to_nat (x + y * width b)) <> None) by (rewrite N2; discriminate). apply nth_error_Some in N3. lia.
Qed.
Lemma turn_recolour t {A B} m (da : A) (db : B) (f : A -> res B) b : valid b ->
  bind (recolour f b) (op_of t m db) = bind (op_of t m da b) (recolour f).
Proof.
  intros V. destruct (op_spec t m da b V) as (b1 & H1 & V1 & W1 & E1 & P1). rewrite H1. cbn [bind]. pose proof (turn_perm t m da b b1 V H1) as PM.
  destruct (recolour f b) as [c|] eqn:R; cbn [bind].
  - destruct (recolour_ok _ _ _ V R) as (Vc & Wc & Ec & Pc). destruct (op_spec t m db c Vc) as (c1 & -> & V2 & W2 & E2 & P2).
    destruct (recolour f b1) as [c2|] eqn:R2.
    + destruct (recolour_ok _ _ _ V1 R2) as (V3 & W3 & E3 & P3). f_equal. rewrite Wc, Ec in *. apply (buffer_ext m); auto; try congruence.
      intros x y I. destruct (P2 m x y I) as [I2 ->]. assert (I1 : inside b1 x y) by (unfold inside in *; rewrite W1, E1, <- W2, <- E2; exact I).
      destruct (P1 m x y I1) as [I0 Q]. rewrite (Pc m _ _ I0), (P3 m x y I1), Q. reflexivity.
    + exfalso. unfold recolour in R, R2. destruct (map_res f (data b)) as [d|] eqn:M; [|discriminate]. destruct (map_res f (data b1)) as [d1|] eqn:M1; [discriminate|].
      destruct (map_res_total f (data b1)) as [bs Hbs]; [|rewrite M1 in Hbs; discriminate]. intros a Ha. apply (Permutation_in _ PM) in Ha. apply In_nth_error in Ha. destruct Ha as [n Hn].
      destruct (map_res_nth _ _ _ _ _ M Hn) as (v & _ & Hv). eauto.
  - destruct (recolour f b1) as [c2|] eqn:R2; [|reflexivity]. exfalso. unfold recolour in R, R2. destruct (map_res f (data b)) as [d|] eqn:M; [discriminate|].
    destruct (map_res f (data b1)) as [d1|] eqn:M1; [|discriminate]. destruct (map_res_total f (data b)) as [bs Hbs]; [|rewrite M in Hbs; discriminate].
    intros a Ha. apply (Permutation_in _ (Permutation_sym PM)) in Ha. apply In_nth_error in Ha. destruct Ha as [n Hn]. destruct (map_res_nth _ _ _ _ _ M1 Hn) as (v & _ & Hv). eauto.
Qed.

(** ** What only counts pixels *)
Lemma count_perm {A} (p : A -> bool) l l' : Permutation l l' -> count p l = count p l'.
Proof. intros P. unfold count, zlen. f_equal. apply Permutation_length. induction P; cbn [filter]; auto. - destruct (p x); auto. - destruct (p x), (p y); auto. constructor. - eapply perm_trans; eauto. Qed.
Lemma shares_perm {A} (f : A -> Z) l l' : Permutation l l' -> shares f l = shares f l'.
Proof. intros P. unfold shares. apply map_ext. intros k. rewrite (count_perm _ _ _ P). unfold zlen. rewrite (Permutation_length P). reflexivity. Qed.
Lemma counts_perm {A} (f : A -> Z) l l' : Permutation l l' -> counts f l = counts f l'.
Proof. intros P. unfold counts. apply map_ext. intros k. rewrite (count_perm _ _ _ P). reflexivity. Qed.

Lemma map_st_any {A B} (F : unit -> A -> res (unit * B)) l : map_st F l tt = bind (map_res (fun a => '(_, r) <- F tt a; Ok r) l) (fun d => Ok (tt, d)).
Proof.
  induction l as [|a l IH]; [reflexivity|]. cbn [map_st map_res]. destruct (F tt a) as [[[] r]|]; [|reflexivity]. cbn [bind]. rewrite IH.
  destruct (map_res _ l); reflexivity.
Qed.
Lemma map_colors_recolour {A B} (F : unit -> A -> res (unit * B)) b : (r <- map_colors F tt b; let '(_, r) := r in Ok r) = recolour (fun a => '(_, r) <- F tt a; Ok r) b.
Proof. unfold map_colors, recolour. rewrite map_st_any. destruct (map_res _ (data b)); reflexivity. Qed.

(** An operation that recolours with a function found by counting. *)
Definition counting {A B} (op : PixelBuffer A -> res (PixelBuffer B)) : Prop :=
  forall b, valid b -> exists f, forall b', valid b' -> Permutation (data b') (data b) -> width b' * height b' = width b * height b -> op b' = recolour f b'.
Lemma counting_turn {A B} (op : PixelBuffer A -> res (PixelBuffer B)) t m (da : A) (db : B) b : counting op -> valid b ->
  bind (op b) (op_of t m db) = bind (op_of t m da b) op.
Proof.
  intros C V. destruct (C b V) as [f F]. rewrite (F b V (Permutation_refl _) eq_refl). rewrite (turn_recolour t m da db f b V).
  destruct (op_spec t m da b V) as (b1 & H1 & V1 & W1 & E1 & _). rewrite H1. cbn [bind]. symmetry. apply F; [exact V1|exact (turn_perm _ _ _ _ _ V H1)|].
  rewrite W1, E1. unfold width_of, height_of. destruct (swaps t); lia.
Qed.
Lemma counting_convert {A B C} (g : A -> B) (op : PixelBuffer B -> res (PixelBuffer C)) : counting op -> counting (fun b => op (convert g b)).
Proof.
  intros K b V. assert (VC : forall c, valid c -> valid (convert g c)). { intros c [V1 V2]. split; [exact V1|]. cbn [convert width height data]. rewrite zlen_map. exact V2. }
  destruct (K (convert g b) (VC b V)) as [f F]. exists (fun a => f (g a)). intros b' V' P E. rewrite F; [|apply VC; exact V'|cbn [convert data]; apply Permutation_map; exact P|exact E].
  unfold recolour. cbn [convert data width height]. rewrite map_res_map. reflexivity.
Qed.

Lemma recolour_id (b : PixelBuffer Rgb) : recolour (fun c => Ok c) b = Ok b.
Proof. unfold recolour. replace (map_res (fun c : Rgb => Ok c) (data b)) with (Ok (data b)); [destruct b; reflexivity|]. induction (data b) as [|a l IH]; [reflexivity|]. cbn [map_res bind]. rewrite <- IH. reflexivity. Qed.
Lemma counting_contrast L t : counting (fun b => stretch_contrast L b t).
Proof.
  intros b V. set (v := shares brightness_bin (data b)). set (th := fdiv t (ofZ 1000)).
  exists (if flt f0 (get_min_value v th) || flt (get_max_value v th) f1 then fun c => Ok (with_level L (get_min_value v th) (get_max_value v th) f1 c) else fun c => Ok c).
  intros b' V' P E. unfold stretch_contrast. rewrite get_color_values_eq. cbn [bind]. cbv zeta. rewrite (shares_perm _ _ _ P). fold v. fold th.
  destruct (flt f0 (get_min_value v th) || flt (get_max_value v th) f1).
  - unfold map_pure. rewrite map_colors_recolour. reflexivity.
  - symmetry. apply recolour_id.
Qed.
Lemma counting_balance_buffer L k s n t : 0 <= s -> 0 <= n -> s + n <= 4 -> counting (fun b => balance_buffer L k s n b t).
Proof.
  intros H0 H1 H2 b V. eexists. intros b' V' P E. unfold balance_buffer. rewrite channel_values_eq by lia. cbn [bind]. cbv zeta.
  rewrite map_colors_recolour.
  rewrite (map_ext (fun i => shares (fun c => channel_bin (chan_of (convert_color L KRgb k c) (s + i))) (data b'))
    (fun i => shares (fun c => channel_bin (chan_of (convert_color L KRgb k c) (s + i))) (data b))) by (intros i; apply shares_perm; exact P).
  reflexivity.
Qed.
Lemma counting_balance L mode t : counting (fun b => balance L b mode t).
Proof. destruct mode; cbn [balance]; apply counting_balance_buffer; lia. Qed.
Lemma table_perm m (b b' : PixelBuffer col) ch pick : (forall c, chan c ch = Ok (pick c)) -> Permutation (data b') (data b) -> width b' * height b' = width b * height b ->
  channel_table m b' ch = channel_table m b ch.
Proof. intros K P E. unfold channel_table. rewrite !(count_channel_eq _ ch pick K), (counts_perm _ _ _ P), E. reflexivity. Qed.
Lemma table_total m (b : PixelBuffer col) ch pick : valid b -> (forall c, chan c ch = Ok (pick c)) -> exists t, channel_table m b ch = Ok t.
Proof.
  intros V K. pose proof (valid_bounds b V) as (_ & _ & BN & EN). unfold channel_table. rewrite (count_channel_eq _ ch pick K). cbn [bind]. rewrite u32_ok by lia. cbn [bind]. eauto.
Qed.
Lemma counting_colors m back : counting (fun b => equalize_colors m back b).
Proof.
  intros b V. assert (C0 : forall c, chan c 0 = Ok (d0 c)) by reflexivity. assert (C1 : forall c, chan c 1 = Ok (d1 c)) by reflexivity. assert (C2 : forall c, chan c 2 = Ok (d2 c)) by reflexivity.
  destruct (table_total m b 0 d0 V C0) as [t0 T0]. destruct (table_total m b 1 d1 V C1) as [t1 T1]. destruct (table_total m b 2 d2 V C2) as [t2 T2].
  eexists. intros b' V' P E. unfold equalize_colors. rewrite (table_perm m b b' 0 d0 C0 P E), (table_perm m b b' 1 d1 C1 P E), (table_perm m b b' 2 d2 C2 P E), T0, T1, T2. cbn [bind].
  rewrite map_colors_recolour. reflexivity.
Qed.
Definition hsl_part (m : build) (saturation lightness : bool) (b : PixelBuffer col) : res (PixelBuffer Rgb) :=
  hs <- (if saturation then channel_table m b 1 else Ok []);
  hl <- (if lightness then channel_table m b 2 else Ok []);
  '(_, r) <- map_colors (fun (_ : unit) c =>
    s <- (if saturation then pick_value hs (d1 c) else Ok (d1 c));
    l <- (if lightness then pick_value hl (d2 c) else Ok (d2 c));
    Ok (tt, hsl_to_rgb (raw_new_with_alpha (d0 c) s l (alpha c)))) tt b;
  Ok r.
Lemma counting_hsl_part m s l : counting (hsl_part m s l).
Proof.
  intros b V. assert (C1 : forall c, chan c 1 = Ok (d1 c)) by reflexivity. assert (C2 : forall c, chan c 2 = Ok (d2 c)) by reflexivity.
  destruct (table_total m b 1 d1 V C1) as [t1 T1]. destruct (table_total m b 2 d2 V C2) as [t2 T2].
  eexists. intros b' V' P E. unfold hsl_part. rewrite (table_perm m b b' 1 d1 C1 P E), (table_perm m b b' 2 d2 C2 P E), T1, T2.
  instantiate (1 := fun c => s0 <- (if s then pick_value (if s then t1 else []) (d1 c) else Ok (d1 c)); l0 <- (if l then pick_value (if l then t2 else []) (d2 c) else Ok (d2 c)); Ok (hsl_to_rgb (raw_new_with_alpha (d0 c) s0 l0 (alpha c)))).
  replace (if s then Ok t1 else Ok []) with (Ok (if s then t1 else [])) by (destruct s; reflexivity). replace (if l then Ok t2 else Ok []) with (Ok (if l then t2 else [])) by (destruct l; reflexivity).
  cbn [bind]. rewrite map_colors_recolour. unfold recolour. f_equal. generalize (data b'). intros q. induction q as [|a q IH]; [reflexivity|]. cbn [map_res]. rewrite IH. f_equal.
  generalize (if s then t1 else []) (if l then t2 else []). intros u v. destruct (if s then pick_value u (d1 a) else Ok (d1 a)); [|reflexivity]. cbn [bind]. destruct (if l then pick_value v (d2 a) else Ok (d2 a)); reflexivity.
Qed.
Lemma counting_equalize L m mode : counting (fun b => equalize L m b mode).
Proof.
  destruct mode; cbn [equalize].
  - apply counting_colors.
  - apply (counting_convert (to_srgb L KRgb) (fun b => equalize_colors m (srgb_to_rgb L) b)). apply counting_colors.
  - exact (counting_convert (to_hsl L KRgb) (hsl_part m true false) (counting_hsl_part m true false)).
  - exact (counting_convert (to_hsl L KRgb) (hsl_part m false true) (counting_hsl_part m false true)).
  - exact (counting_convert (to_hsl L KRgb) (hsl_part m true true) (counting_hsl_part m true true)).
Qed.

(** ** Images *)
Lemma turned_eq m t i : turned m t i = with_meta i (op_of t m RGB_NONE (buffer i)).
Proof. destruct t; reflexivity. Qed.
Lemma meta_turn m t (op : PixelBuffer Rgb -> res (PixelBuffer Rgb)) i : counting op -> valid (buffer i) ->
  then_ (fun j => with_meta j (op (buffer j))) (turned m t) i = then_ (turned m t) (fun j => with_meta j (op (buffer j))) i.
Proof.
  intros C V. unfold then_. rewrite turned_eq. unfold with_meta. pose proof (counting_turn op t m RGB_NONE RGB_NONE (buffer i) C V) as H.
  destruct (op (buffer i)) as [b|]; cbn [bind] in *.
  - rewrite turned_eq. unfold with_meta. cbn [buffer new_from_buffer_with_meta]. rewrite H. destruct (op_of t m RGB_NONE (buffer i)) as [c|]; cbn [bind]; [|reflexivity].
    cbn [buffer new_from_buffer_with_meta bg_color]. destruct (op c); reflexivity.
  - destruct (op_of t m RGB_NONE (buffer i)) as [c|]; cbn [bind] in *; [|reflexivity]. cbn [buffer new_from_buffer_with_meta]. rewrite <- H. reflexivity.
Qed.
Lemma statistic_turn L m s t i : valid (buffer i) -> then_ (applied L m s) (turned m t) i = then_ (turned m t) (applied L m s) i.
Proof.
  intros V. destruct s.
  - apply (meta_turn m t (fun b => stretch_contrast L b threshold)); [apply counting_contrast|exact V].
  - apply (meta_turn m t (fun b => balance L b mode threshold)); [apply counting_balance|exact V].
  - apply (meta_turn m t (fun b => balance L b BRgb threshold)); [apply counting_balance|exact V].
  - apply (meta_turn m t (fun b => equalize L m b mode)); [apply counting_equalize|exact V].
Qed.
Lemma mod_is_meta f i : image_mod_colors f i = with_meta i (recolour f (buffer i)).
Proof. unfold image_mod_colors, in_place_st, mod_colors, with_meta, recolour. rewrite map_st_unit. destruct (map_res f (data (buffer i))); reflexivity. Qed.
Lemma colours_turn m f t i : valid (buffer i) -> then_ (image_mod_colors f) (turned m t) i = then_ (turned m t) (image_mod_colors f) i.
Proof.
  intros V. assert (C : counting (recolour f)) by (intros b _; exists f; reflexivity). pose proof (meta_turn m t (recolour f) i C V) as H. unfold then_ in *. rewrite mod_is_meta.
  rewrite H. destruct (turned m t i); [|reflexivity]. cbn [bind]. symmetry. apply mod_is_meta.
Qed.

(** ** Parts of an image *)
Notation lift f := (fun a => Ok (f a)).
Lemma idx_conv {A B} (f : A -> B) (l : list A) i : idx (map f l) i = bind (idx l i) (lift f).
Proof. apply idx_map. Qed.
Lemma get_conv {A B} (f : A -> B) m b x y : get_pixel m (convert f b) x y = bind (get_pixel m b x y) (lift f).
Proof.
  unfold get_pixel. cbn [convert width height data]. destruct (assert_ (x <? width b)); [|reflexivity]. cbn [bind]. destruct (assert_ (y <? height b)); [|reflexivity]. cbn [bind].
  destruct (u32 m (y * width b)) as [yw|]; [|reflexivity]. cbn [bind]. destruct (u32 m (x + yw)) as [i|]; [|reflexivity]. cbn [bind]. apply idx_conv.
Qed.
Lemma clamped_conv {A B} (f : A -> B) m b x y : get_pixel_clamped m (convert f b) x y = bind (get_pixel_clamped m b x y) (lift f).
Proof.
  unfold get_pixel_clamped. cbn [convert width height]. destruct (u32 m (width b - 1)) as [w1|]; [|reflexivity]. cbn [bind]. destruct (clamp_int x 0 (as_i32 w1)) as [cx|]; [|reflexivity]. cbn [bind].
  destruct (u32 m (height b - 1)) as [h1|]; [|reflexivity]. cbn [bind]. destruct (clamp_int y 0 (as_i32 h1)) as [cy|]; [|reflexivity]. cbn [bind]. apply (get_conv f m b).
Qed.
Lemma map_res_conv {I A B} (f : A -> B) (F : I -> res A) (G : I -> res B) l : (forall i, G i = bind (F i) (lift f)) -> map_res G l = bind (map_res F l) (lift (map f)).
Proof. intros H. induction l as [|i l IH]; [reflexivity|]. cbn [map_res]. rewrite H. destruct (F i); [|reflexivity]. cbn [bind]. rewrite IH. destruct (map_res F l); reflexivity. Qed.
Lemma new_conv {A B} (f : A -> B) m w h F G : (forall x y, G x y = bind (F x y) (lift f)) -> new_from_fn m w h G = bind (new_from_fn m w h F) (lift (convert f)).
Proof.
  intros H. unfold new_from_fn, new_from_func. destruct (validate_size w h); [|reflexivity]. cbn [bind]. destruct (u32 m (w * h)) as [n|]; [|reflexivity]. cbn [bind].
  rewrite !map_st_any.
  rewrite (map_res_conv f (fun i => '(_, r) <- (_ <- assert_ (negb (w =? 0)); c <- F (i mod w) (i / w); Ok (tt, c)); Ok r)).
  - destruct (map_res _ (zrange 0 n)); reflexivity.
  - intros i. destruct (assert_ (negb (w =? 0))); [|reflexivity]. cbn [bind]. rewrite H. destruct (F (i mod w) (i / w)); reflexivity.
Qed.
Lemma interlace_conv {A B} (f : A -> B) m b o : interlace m (convert f b) o = bind (interlace m b o) (lift (convert f)).
Proof.
  unfold interlace. cbn [convert width height]. apply new_conv. intros x y. fold (convert f b).
  destruct (y mod 2 =? 0).
  - destruct (i32 m (as_i32 x - as_i32 o)); [|reflexivity]. cbn [bind]. apply clamped_conv.
  - destruct (i32 m (as_i32 x + as_i32 o)); [|reflexivity]. cbn [bind]. apply clamped_conv.
Qed.
Lemma nearest_conv (f : Rgb -> Rgb) L m b w h : resize L m (convert f b) w h Nearest = bind (resize L m b w h Nearest) (lift (convert f)).
Proof.
  unfold resize. cbn [convert width height]. destruct ((width b =? w) && (height b =? h)); [reflexivity|]. unfold resize_with_fn. cbn [width height]. apply new_conv. intros x y. apply (clamped_conv f m b).
Qed.
Lemma slice_conv {A B} (f : A -> B) l a b : slice (map f l) a b = bind (slice l a b) (lift (map f)).
Proof. unfold slice. rewrite zlen_map. destruct (_ && _); [|reflexivity]. cbn [bind]. rewrite <- firstn_map, <- skipn_map. reflexivity. Qed.
Lemma crop_conv {A B} (f : A -> B) m da db b ox oy w h : crop m db (convert f b) ox oy w h = bind (crop m da b ox oy w h) (lift (convert f)).
Proof.
  unfold crop. change (is_empty (convert f b)) with ((width b =? 0) && (height b =? 0)). change (is_empty b) with ((width b =? 0) && (height b =? 0)).
  destruct ((width b =? 0) && (height b =? 0)); [reflexivity|]. cbv zeta. change (width (convert f b)) with (width b). change (height (convert f b)) with (height b).
  destruct (u32 m (width b - Z.min ox (width b))) as [rw|]; [|reflexivity]. cbn [bind]. destruct (u32 m (height b - Z.min oy (height b))) as [rh|]; [|reflexivity]. cbn [bind].
  destruct ((Z.min w rw =? 0) || (Z.min h rh =? 0)).
  - reflexivity.
  - destruct (u32 m (Z.min w rw * Z.min h rh)); [|reflexivity]. cbn [bind].
    assert (F : forall l d, for_ l (fun y d => a <- u32 m (Z.min oy (height b) + y); p <- u32 m (a * width b); offset <- u32 m (p + Z.min ox (width b));
        row <- slice (data (convert f b)) offset (offset + Z.min w rw); Ok (d ++ row)) (map f d) =
      bind (for_ l (fun y d => a <- u32 m (Z.min oy (height b) + y); p <- u32 m (a * width b); offset <- u32 m (p + Z.min ox (width b));
        row <- slice (data b) offset (offset + Z.min w rw); Ok (d ++ row)) d) (lift (map f))).
    { induction l as [|y l IH]; intros d; [reflexivity|]. cbn [for_]. destruct (u32 m (Z.min oy (height b) + y)) as [a1|]; [|reflexivity]. cbn [bind]. destruct (u32 m (a1 * width b)) as [p|]; [|reflexivity].
      cbn [bind]. destruct (u32 m (p + Z.min ox (width b))) as [o|]; [|reflexivity]. cbn [bind]. change (slice (data (convert f b)) o (o + Z.min w rw)) with (slice (map f (data b)) o (o + Z.min w rw)). rewrite slice_conv.
      destruct (slice (data b) o (o + Z.min w rw)); [|reflexivity]. cbn [bind]. rewrite <- IH, map_app. reflexivity. }
    specialize (F (zrange 0 (Z.min h rh)) []). cbn [map] in F. rewrite F. clear F. destruct (for_ _ _ []) as [d|]; [|reflexivity]. cbn [bind]. unfold new_from_raw. rewrite zlen_map.
    destruct (negb _); [reflexivity|]. destruct (validate_size _ _); reflexivity.
Qed.
Lemma mod_is_convert f i : image_mod_colors (lift f) i = Ok (new_from_buffer_with_meta i (convert f (buffer i))).
Proof. rewrite mod_is_meta. unfold recolour, with_meta. rewrite (map_res_conv f (lift (fun c => c)) (lift f)) by reflexivity. replace (map_res _ (data (buffer i))) with (Ok (data (buffer i))); [reflexivity|]. induction (data (buffer i)) as [|a l IH]; [reflexivity|]. cbn [map_res bind]. rewrite <- IH. reflexivity. Qed.
Lemma part_conv (f : Rgb -> Rgb) (op : PixelBuffer Rgb -> res (PixelBuffer Rgb)) i : (forall b, op (convert f b) = bind (op b) (lift (convert f))) ->
  then_ (image_mod_colors (lift f)) (fun j => with_meta j (op (buffer j))) i = then_ (fun j => with_meta j (op (buffer j))) (image_mod_colors (lift f)) i.
Proof.
  intros H. unfold then_. rewrite mod_is_convert. cbn [bind]. unfold with_meta. cbn [buffer new_from_buffer_with_meta]. rewrite H. destruct (op (buffer i)); [|reflexivity]. cbn [bind].
  rewrite mod_is_convert. reflexivity.
Qed.

(** ** Two images *)
Lemma blend_turn L m op s t i j i1 j1 : valid (buffer i) -> valid (buffer j) -> width (buffer i) = width (buffer j) -> height (buffer i) = height (buffer j) ->
  turned m t i = Ok i1 -> turned m t j = Ok j1 -> then_ (image_blend L m j op s) (turned m t) i = image_blend L m j1 op s i1.
Proof.
  destruct i as [a ga], j as [b gb]. cbn [buffer]. intros Va Vb W H. rewrite !turned_eq. unfold with_meta. cbn [buffer].
  destruct (op_spec t m RGB_NONE a Va) as (a1 & E1 & V1 & W1 & H1 & P1). destruct (op_spec t m RGB_NONE b Vb) as (b1 & E2 & V2 & W2 & H2 & P2). rewrite E1, E2. cbn [bind].
  intros X Y. inversion X; subst i1. inversion Y; subst j1. clear X Y. unfold then_, image_blend, with_meta, blend_image. cbn [buffer new_from_buffer_with_meta bg_color].
  destruct (blend_with_ok m a b s (blend_func L op) Va Vb) as (r & -> & Vr & Wr & Hr & Pr); [rewrite <- W, <- H, !Z.max_id; apply Va|]. rewrite <- W, <- H, !Z.max_id in *. cbn [bind].
  assert (WW : width a1 = width b1) by congruence. assert (HH : height a1 = height b1) by congruence.
  destruct (blend_with_ok m a1 b1 s (blend_func L op) V1 V2) as (q & -> & Vq & Wq & Hq & Pq); [rewrite <- WW, <- HH, !Z.max_id; apply V1|]. rewrite <- WW, <- HH, !Z.max_id in *. cbn [bind].
  rewrite turned_eq. unfold with_meta. cbn [buffer new_from_buffer_with_meta bg_color]. destruct (op_spec t m RGB_NONE r Vr) as (r1 & -> & V3 & W3 & H3 & P3). cbn [bind]. unfold new_from_buffer_with_meta. cbn [bg_color].
  f_equal. f_equal. rewrite Wr, Hr in *. apply (buffer_ext m); auto; try congruence. intros x y I.
  assert (IA : inside a1 x y) by (unfold inside in *; rewrite W1, H1, <- W3, <- H3; exact I). assert (IB : inside b1 x y) by (unfold inside in *; rewrite <- WW, <- HH; exact IA).
  destruct (P1 m x y IA) as [JA QA]. destruct (P2 m x y IB) as [JB QB]. destruct (P3 m x y I) as [JR ->]. rewrite <- ?W, <- ?H in JB, QB.
  destruct (get_pixel_inside m a _ _ Va JA) as [c1 G1]. destruct (get_pixel_inside m b _ _ Vb JB) as [c2 G2].
  rewrite (proj1 (Pr _ _ JR) c1 c2 JA JB G1 G2). assert (IQ : inside q x y) by (unfold inside in *; rewrite Wq, Hq; exact IA). symmetry.
  apply (proj1 (Pq x y IQ) c1 c2 IA IB); congruence.
Qed.
