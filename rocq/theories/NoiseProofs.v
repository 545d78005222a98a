(** Proofs about palettes, noise and colour temperature (C46-C49, C77). *)
From Coq Require Import ZArith Reals List Bool Lia Lra.
From Flocq Require Import Core IEEE754.BinarySingleNaN.
From Verif Require Import Base BaseLemmas PixelBuffer BufferSpec PixelBufferProofs F32 F32Lemmas Color ColorSpec ColorProofs.
From Verif Require Import Kernel KernelSpec GaussProofs Gauss2Proofs FilterProofs ResampleProofs Ops OpsSpec OpsProofs EqualizeProofs HistogramProofs BalanceProofs.
Import ListNotations.
Open Scope Z_scope.

(** ** balance *)
Lemma count_map {A B} (f : A -> B) p l : count p (map f l) = count (fun a => p (f a)) l.
Proof. induction l; [reflexivity|]. cbn [map]. rewrite !count_cons, IHl. reflexivity. Qed.
Lemma shares_map {A B} (f : A -> B) key l : shares (fun a => key (f a)) l = shares key (map f l).
Proof. unfold shares. apply map_ext. intros k. rewrite zlen_map, count_map. reflexivity. Qed.
Lemma balanced_ok L t pick conv l v : balanced L t pick (map conv l) v
  (soft_level L (get_min_value (shares (fun c : Rgb => channel_bin (pick (conv c))) l) t)
                (get_max_value (shares (fun c => channel_bin (pick (conv c))) l) t) v).
Proof.
  rewrite (shares_map conv (fun c => channel_bin (pick c))). unfold balanced.
  eexists. eexists. split; [apply black_point_ok|]. split; [apply white_point_ok, shares_zlen|]. reflexivity.
Qed.
Lemma balance_spec_l L (b : PixelBuffer Rgb) mode threshold k e0 e1 e2 : valid b -> balance_space mode = (k, e0, e1, e2) ->
  exists r, balance L b mode threshold = Ok r /\ valid r /\ width r = width b /\ height r = height b /\
    forall m x y, inside b x y -> exists c s, get_pixel m b x y = Ok c /\ get_pixel m r x y = Ok (to_rgb L k s) /\
      let all := map (convert_color L KRgb k) (data b) in
      let old := convert_color L KRgb k c in
      let t := fdiv threshold (ofZ 1000) in
      (if e0 then balanced L t d0 all (d0 old) (d0 s) else d0 s = d0 old) /\
      (if e1 then balanced L t d1 all (d1 old) (d1 s) else d1 s = d1 old) /\
      (if e2 then balanced L t d2 all (d2 old) (d2 s) else d2 s = d2 old) /\ alpha s = alpha old.
Proof.
  intros V M.
  assert (K : exists g, balance L b mode threshold = Ok (convert (fun c => to_rgb L k (g c)) b) /\ forall c,
     let all := map (convert_color L KRgb k) (data b) in let s := g c in
      let old := convert_color L KRgb k c in
      let t := fdiv threshold (ofZ 1000) in
      (if e0 then balanced L t d0 all (d0 old) (d0 s) else d0 s = d0 old) /\
      (if e1 then balanced L t d1 all (d1 old) (d1 s) else d1 s = d1 old) /\
      (if e2 then balanced L t d2 all (d2 old) (d2 s) else d2 s = d2 old) /\ alpha s = alpha old).
  { destruct mode; cbn [balance balance_space] in *; inversion M; subst; clear M.
    all: rewrite ?balance3, ?balance02, ?balance12.
    all: cbv zeta.
    all: eexists; split; [reflexivity|]; intros c; cbv zeta; cbn [d0 d1 d2 d3 alpha].
    all: split; [|split; [|split]]; try reflexivity; apply balanced_ok. }
  destruct K as (g & E & P). eexists. split; [exact E|].
  destruct (convert_ok (fun c => to_rgb L k (g c)) b V) as (A & B & C & _). split; [auto|]. split; [auto|]. split; [auto|].
  intros m x y I. destruct (get_pixel_inside m b x y V I) as [c Hc]. exists c, (g c). split; [exact Hc|].
  split; [exact (convert_pixel _ b m x y c V I Hc)|]. apply P.
Qed.

(** ** Palettes *)
Lemma fle_flt_trans x y z : fle x y = true -> flt y z = true -> flt x z = true.
Proof.
  intros A B. destruct (is_finite x) eqn:Fx; [destruct (is_finite y) eqn:Fy; [destruct (is_finite z) eqn:Fz|]|].
  - apply fle_R in A; auto. apply flt_R in B; auto. apply flt_R; auto. lra.
  - destruct z as [|[|]| |]; try discriminate; destruct x as [|[|]| |]; try discriminate; destruct y as [|[|]| |];
      try discriminate; reflexivity.
  - destruct y as [|[|]| |]; try discriminate; destruct x as [|[|]| |]; try discriminate; destruct z as [|[|]| |];
      try discriminate; reflexivity.
  - destruct x as [|[|]| |]; try discriminate; destruct y as [|[|]| |]; try discriminate; destruct z as [|[|]| |];
      try discriminate; reflexivity.
Qed.
Lemma flt_fle_ x y : flt x y = true -> fle x y = true.
Proof.
  intros H. destruct (is_finite x) eqn:Fx; [destruct (is_finite y) eqn:Fy|].
  - apply flt_R in H; auto. apply fle_R; auto. lra.
  - destruct y as [|[|]| |]; try discriminate; destruct x; try discriminate; reflexivity.
  - destruct x as [|[|]| |]; try discriminate; destruct y as [|[|]| |]; try discriminate; reflexivity.
Qed.

Definition scan (f : Lab -> f32) (l : list Lab) (st : option Lab * f32) : option Lab * f32 :=
  fold_left (fun '(result, min_diff) pal_c =>
      let diff := f pal_c in if flt diff min_diff then (Some pal_c, diff) else (result, min_diff)) l st.
Definition scanned (f : Lab -> f32) (l : list Lab) (st : option Lab * f32) : Prop :=
  match fst st with
  | None => snd st = f32_MAX /\ forall q, In q l -> flt (f q) f32_MAX = false
  | Some p => snd st = f p /\ flt (f p) f32_MAX = true /\ exists i, idx l i = Ok p /\
      (forall q, In q l -> flt (f q) (f p) = false) /\ (forall j q, j < i -> idx l j = Ok q -> fle (f q) (f p) = false)
  end.
Lemma scan_ok f : forall l2 l1 st, scanned f l1 st -> scanned f (l1 ++ l2) (scan f l2 st).
Proof.
  induction l2 as [|q l2 IH]; intros l1 [r md] H; [now rewrite app_nil_r|].
  unfold scan. cbn [fold_left]. cbv zeta. fold (scan f l2).
  replace (l1 ++ q :: l2) with ((l1 ++ [q]) ++ l2) by (rewrite <- app_assoc; reflexivity).
  apply IH. clear IH. unfold scanned in *. cbn [fst snd] in *.
  assert (IQ : idx (l1 ++ [q]) (zlen l1) = Ok q) by (rewrite idx_app_r by lia; rewrite Z.sub_diag; reflexivity).
  assert (IL : forall j p, j < zlen l1 -> idx (l1 ++ [q]) j = Ok p -> idx l1 j = Ok p) by (intros; now rewrite idx_app_l in * by auto).
  assert (NR : flt (f q) (f q) = false).
  { destruct (flt (f q) (f q)) eqn:E; [|reflexivity]. destruct (is_finite (f q)) eqn:F; [apply flt_R in E; auto; lra|].
    destruct (f q) as [|[|]| |]; discriminate. }
  destruct (flt (f q) md) eqn:T; cbn [fst snd].
  - split; [reflexivity|]. destruct r as [p|].
    + destruct H as (-> & HM & i & Hi & H1 & H2).
      split. { apply (fle_flt_trans _ (f p)); auto using flt_fle_. }
      exists (zlen l1). split; [exact IQ|].
      assert (N : forall c, In c l1 -> fle (f c) (f q) = false).
      { intros c Ic. destruct (fle (f c) (f q)) eqn:E; [|reflexivity]. rewrite <- (H1 c Ic). symmetry. apply (fle_flt_trans _ (f q)); auto. }
      split.
      * intros c Ic. apply in_app_or in Ic. destruct Ic as [Ic|[<-|[]]]; [|exact NR].
        destruct (flt (f c) (f q)) eqn:E; [|reflexivity]. apply flt_fle_ in E. rewrite (N c Ic) in E. discriminate.
      * intros j c Hj Ej. apply N. apply (idx_In _ j). auto.
    + destruct H as (-> & H1). split; [exact T|]. exists (zlen l1). split; [exact IQ|].
      assert (N : forall c, In c l1 -> fle (f c) (f q) = false).
      { intros c Ic. destruct (fle (f c) (f q)) eqn:E; [|reflexivity]. rewrite <- (H1 c Ic). symmetry. apply (fle_flt_trans _ (f q)); auto. }
      split.
      * intros c Ic. apply in_app_or in Ic. destruct Ic as [Ic|[<-|[]]]; [|exact NR].
        destruct (flt (f c) (f q)) eqn:E; [|reflexivity]. apply flt_fle_ in E. rewrite (N c Ic) in E. discriminate.
      * intros j c Hj Ej. apply N. apply (idx_In _ j). auto.
  - destruct r as [p|].
    + destruct H as (-> & HM & i & Hi & H1 & H2). split; [reflexivity|]. split; [exact HM|]. exists i.
      pose proof (idx_inv _ _ _ Hi) as Bi.
      split; [rewrite idx_app_l by lia; exact Hi|]. split.
      * intros c Ic. apply in_app_or in Ic. destruct Ic as [Ic|[<-|[]]]; auto.
      * intros j c Hj Ej. apply (H2 j); auto. apply IL; auto. lia.
    + destruct H as (-> & H1). split; [reflexivity|]. intros c Ic. apply in_app_or in Ic. destruct Ic as [Ic|[<-|[]]]; auto.
Qed.

Lemma lab_distance_eq : lab_distance = delta_e.
Proof. unfold lab_distance, delta_e. cbv zeta. reflexivity. Qed.
Lemma from_palette_ok L (p : PixelBuffer Lab) c :
  closest_entry (to_lab L D65 O2 KRgb c) (data p)
    (match fst (scan (delta_e (to_lab L D65 O2 KRgb c)) (data p) (None, f32_MAX)) with Some q => q | None => RGB_NONE end) /\
  get_color_from_palette L p c = to_rgb L (KLab D65 O2)
    (match fst (scan (delta_e (to_lab L D65 O2 KRgb c)) (data p) (None, f32_MAX)) with Some q => q | None => RGB_NONE end).
Proof.
  split.
  - pose proof (scan_ok (delta_e (to_lab L D65 O2 KRgb c)) (data p) [] (None, f32_MAX)) as H.
    cbn [app] in H. specialize (H ltac:(split; [reflexivity|intros ? []])).
    destruct (scan _ (data p) (None, f32_MAX)) as [[q|] md]; cbn [fst snd] in *.
    + destruct H as (_ & HM & i & Hi & H1 & H2). left. exists i. auto.
    + destruct H as (_ & H1). right. auto.
  - unfold get_color_from_palette. rewrite lab_distance_eq. cbv zeta. unfold scan. destruct (fold_left _ (data p) (None, f32_MAX)) as [r md]. reflexivity.
Qed.
Lemma apply_palette_l L k (b : PixelBuffer Rgb) (palette : PixelBuffer col) : valid b ->
  exists r, apply_palette L k b palette = Ok r /\ apply_palette_in_place L k b palette = Ok r /\
    valid r /\ width r = width b /\ height r = height b /\
    forall m x y, inside b x y -> exists c p, get_pixel m b x y = Ok c /\
      closest_entry (to_lab L D65 O2 KRgb c) (map (to_lab L D65 O2 k) (data palette)) p /\
      get_pixel m r x y = Ok (to_rgb L (KLab D65 O2) p).
Proof.
  intros V. set (pal := convert (to_lab L D65 O2 k) palette).
  exists (convert (get_color_from_palette L pal) b).
  split. { unfold apply_palette, map_pure. fold pal. rewrite (map_total _ (get_color_from_palette L pal)); reflexivity. }
  split. { unfold apply_palette_in_place. fold pal. pose proof (map_total (fun (_ : unit) c => Ok (tt, get_color_from_palette L pal c)) (get_color_from_palette L pal) tt b) as M.
    unfold map_colors in M. unfold mod_colors. rewrite M; reflexivity. }
  destruct (convert_ok (get_color_from_palette L pal) b V) as (A & B & C & _). split; [auto|]. split; [auto|]. split; [auto|].
  intros m x y I. destruct (get_pixel_inside m b x y V I) as [c Hc]. exists c.
  destruct (from_palette_ok L pal c) as [P1 P2]. eexists. split; [exact Hc|]. split; [exact P1|]. 
  exact (eq_trans (convert_pixel _ b m x y c V I Hc) (f_equal Ok P2)).
Qed.

(** ** Noise *)
Lemma map_colors_rel {S T} (func : S -> T -> res (S * T)) (P : T -> T -> Prop) s (b : PixelBuffer T) : valid b ->
  (forall s c, In c (data b) -> exists s' c', func s c = Ok (s', c') /\ P c c') ->
  exists s' r, map_colors func s b = Ok (s', r) /\ mod_colors func s b = Ok (s', r) /\
    valid r /\ width r = width b /\ height r = height b /\
    forall m x y, inside b x y -> exists c c', get_pixel m b x y = Ok c /\ get_pixel m r x y = Ok c' /\ P c c'.
Proof.
  intros V H.
  assert (E : exists s' l', map_st func (data b) s = Ok (s', l') /\ Forall2 P (data b) l').
  { clear V. revert s. induction (data b) as [|c l IH]; intros s; [exists s, []; auto|].
    destruct (H s c (or_introl eq_refl)) as (s1 & c' & E1 & P1).
    destruct (IH (fun s c Ic => H s c (or_intror Ic)) s1) as (s2 & l' & E2 & P2).
    exists s2, (c' :: l'). cbn [map_st]. rewrite E1. cbn [bind]. rewrite E2. auto. }
  destruct E as (s' & l' & E & F). exists s', (mkPB (width b) (height b) l').
  unfold map_colors, mod_colors. rewrite E. split; [reflexivity|]. split; [reflexivity|].
  assert (ZL : zlen l' = zlen (data b)) by (clear -F; induction F; [reflexivity|]; rewrite !zlen_cons; lia).
  assert (V' : valid (mkPB (width b) (height b) l')).
  { destruct V as [V1 V2]. split; [exact V1|]. cbn [width height data]. congruence. }
  split; [exact V'|]. split; [reflexivity|]. split; [reflexivity|].
  intros m x y I. rewrite !get_pixel_eq by auto. cbn [width data].
  destruct (get_pixel_inside m b x y V I) as [c Hc]. rewrite get_pixel_eq in Hc by auto. exists c. rewrite Hc.
  pose proof (idx_inv _ _ _ Hc) as Bi. destruct (idx_ok l' (x + y * width b)) as [c' Hc']; [lia|]. exists c'.
  split; [reflexivity|]. split; [exact Hc'|].
  rewrite idx_nth in Hc, Hc' by lia. clear -F Hc Hc'. revert Hc Hc'. generalize (Z.to_nat (x + y * width b)). 
  induction F; intros [|n]; cbn; intros; try discriminate.
  - apply Ok_inj in Hc. apply Ok_inj in Hc'. now subst.
  - eauto.
Qed.

Lemma salt_l {R} (g : rng R) s (b : PixelBuffer Rgb) threshold : valid b ->
  exists s' r, salt_n_pepper_noise g s b threshold = Ok (s', r) /\ add_salt_n_pepper_noise g s b threshold = Ok (s', r) /\
    valid r /\ width r = width b /\ height r = height b /\
    forall m x y, inside b x y -> exists c c' draw, get_pixel m b x y = Ok c /\ get_pixel m r x y = Ok c' /\
      (exists s0, draw = snd (gen_unit g s0)) /\
      c' = if flt draw threshold then RGB_BLACK else if flt (fsub f1 threshold) draw then RGB_WHITE else c.
Proof.
  intros V. unfold salt_n_pepper_noise, add_salt_n_pepper_noise.
  destruct (map_colors_rel (salt_n_pepper g threshold) (fun c c' => exists draw, (exists s0, draw = snd (gen_unit g s0)) /\
      c' = if flt draw threshold then RGB_BLACK else if flt (fsub f1 threshold) draw then RGB_WHITE else c) s b V)
    as (s' & r & E1 & E2 & A & B & C & P).
  - intros s0 c _. unfold salt_n_pepper. destruct (gen_unit g s0) as [s1 v] eqn:E. eexists. eexists. split; [reflexivity|].
    exists v. split; [exists s0; rewrite E; reflexivity|reflexivity].
  - exists s', r. split; [auto|]. split; [auto|]. split; [auto|]. split; [auto|]. split; [auto|].
    intros m x y I. destruct (P m x y I) as (c & c' & H1 & H2 & d & H3 & H4). exists c, c', d. auto.
Qed.
Lemma rgb_noise_l {R} (g : rng R) s (b : PixelBuffer Rgb) threshold : valid b ->
  exists s' r, rgb_noise g s b threshold = Ok (s', r) /\ add_rgb_noise g s b threshold = Ok (s', r) /\
    valid r /\ width r = width b /\ height r = height b /\
    forall m x y, inside b x y -> exists c c' draw, get_pixel m b x y = Ok c /\ get_pixel m r x y = Ok c' /\
      (exists s0, draw = snd (gen_unit g s0)) /\
      if flt draw threshold
      then c' = mkC f1 (d1 c) (d2 c) (d3 c) \/ c' = mkC (d0 c) f1 (d2 c) (d3 c) \/ c' = mkC (d0 c) (d1 c) f1 (d3 c)
      else c' = c.
Proof.
  intros V. unfold rgb_noise, add_rgb_noise.
  destruct (map_colors_rel (rgb_noise_for_pixel g threshold) (fun c c' => exists draw, (exists s0, draw = snd (gen_unit g s0)) /\
      if flt draw threshold
      then c' = mkC f1 (d1 c) (d2 c) (d3 c) \/ c' = mkC (d0 c) f1 (d2 c) (d3 c) \/ c' = mkC (d0 c) (d1 c) f1 (d3 c)
      else c' = c) s b V)
    as (s' & r & E1 & E2 & A & B & C & P).
  - intros s0 c _. unfold rgb_noise_for_pixel. destruct (gen_unit g s0) as [s1 v] eqn:E.
    destruct (flt v threshold) eqn:T.
    + destruct (gen_three g s1) as [s2 i]. eexists. eexists. split; [reflexivity|]. exists v. split; [exists s0; rewrite E; reflexivity|].
      rewrite T. destruct (i =? 0); [left; reflexivity|]. destruct (i =? 1); [right; left; reflexivity|right; right; reflexivity].
    + eexists. eexists. split; [reflexivity|]. exists v. split; [exists s0; rewrite E; reflexivity|]. rewrite T. reflexivity.
  - exists s', r. split; [auto|]. split; [auto|]. split; [auto|]. split; [auto|]. split; [auto|].
    intros m x y I. destruct (P m x y I) as (c & c' & H1 & H2 & d & H3 & H4). exists c, c', d. auto.
Qed.

Lemma map_colors_id {S T} (func : S -> T -> res (S * T)) s (b : PixelBuffer T) :
  (forall s c, exists s', func s c = Ok (s', c)) -> exists s', map_colors func s b = Ok (s', b).
Proof.
  intros H. unfold map_colors.
  assert (E : exists s', map_st func (data b) s = Ok (s', data b)).
  { revert s. induction (data b) as [|c l IH]; intros s; [exists s; reflexivity|].
    destruct (H s c) as (s1 & E1). destruct (IH s1) as (s2 & E2). exists s2. cbn [map_st]. rewrite E1. cbn [bind]. rewrite E2. reflexivity. }
  destruct E as (s' & E). exists s'. rewrite E. cbn [bind]. destruct b; reflexivity.
Qed.
Lemma threshold_0 (v : f32) : in01 v -> flt v f0 = false /\ flt (fsub f1 f0) v = false.
Proof.
  intros H. apply in01_num in H. destruct H as [F R]. split; [apply flt_Rf; auto with fin; rewrite f0_R; lra|].
  assert (E : fin (fsub f1 f0) /\ B2R (fsub f1 f0) = 1%R).
  { destruct (fsub_exact f1 f0) as [A B]; auto with fin; rewrite f1_R, f0_R in *; rewrite ?Rminus_0_r in *; auto with fmt. }
  apply flt_Rf; auto; [apply E|]. destruct E as [_ ->]. lra.
Qed.
Lemma noise_0_l {R} (g : rng R) s (b : PixelBuffer Rgb) : (forall s, in01 (snd (gen_unit g s))) ->
  (exists s', salt_n_pepper_noise g s b f0 = Ok (s', b)) /\ (exists s', rgb_noise g s b f0 = Ok (s', b)).
Proof.
  intros H. split; apply map_colors_id; intros s0 c.
  - unfold salt_n_pepper. specialize (H s0). destruct (gen_unit g s0) as [s1 v]. cbn [snd] in H.
    destruct (threshold_0 v H) as [-> ->]. eauto.
  - unfold rgb_noise_for_pixel. specialize (H s0). destruct (gen_unit g s0) as [s1 v]. cbn [snd] in H.
    destruct (threshold_0 v H) as [-> _]. eauto.
Qed.
