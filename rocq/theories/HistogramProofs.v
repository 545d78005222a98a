(** Proofs about whole-image histogram operations (C43-C45, C77). *)
From Coq Require Import ZArith Reals List Bool Lia Lra.
From Flocq Require Import Core IEEE754.BinarySingleNaN.
From Verif Require Import Base BaseLemmas PixelBuffer BufferSpec PixelBufferProofs F32 F32Lemmas Color ColorSpec ColorProofs.
From Verif Require Import Kernel KernelSpec Kernel2Proofs GaussProofs Gauss2Proofs FilterProofs DrawingProofs ResampleProofs Ops OpsSpec OpsProofs EqualizeProofs.
Import ListNotations.
Open Scope Z_scope.

(** ** equalize *)
Definition val (t : list f32) (v : f32) : f32 := match pick_value t v with Ok w => w | Panic => f0 end.

Lemma table_total m (b : PixelBuffer col) ch pick : valid b -> (forall c, chan c ch = Ok (pick c)) ->
  exists t, channel_table m b ch = Ok t /\ forall v, pick_value t v = Ok (val t v).
Proof.
  intros V P. destruct (valid_bounds b V) as (_ & _ & BN & EN).
  unfold channel_table. rewrite (count_channel_eq b ch pick P). cbn [bind]. rewrite u32_ok by lia. cbn [bind].
  eexists. split; [reflexivity|]. intros v. unfold val.
  destruct (pick_value _ v) eqn:E; [reflexivity|]. exfalso. unfold pick_value in E.
  assert (Z : forall h, zlen (normalise_table h) = zlen h).
  { intros h. unfold normalise_table. cbv zeta. destruct (flt _ _); apply zlen_map. }
  match type of E with idx ?l ?i = _ => destruct (idx_ok l i) as [w Hw]; [|rewrite Hw in E; discriminate E] end.
  rewrite Z, cumulate_zlen, counts_zlen. pose proof (level_range v). unfold level in *. lia.
Qed.

Lemma equalize_colors_ok m back (b : PixelBuffer col) : valid b ->
  exists t0 t1 t2, channel_table m b 0 = Ok t0 /\ channel_table m b 1 = Ok t1 /\ channel_table m b 2 = Ok t2 /\
    equalize_colors m back b =
    Ok (convert (fun c => back (rgb_new_with_alpha (val t0 (d0 c)) (val t1 (d1 c)) (val t2 (d2 c)) (alpha c))) b).
Proof.
  intros V. destruct (table_total m b 0 d0 V) as (t0 & E0 & P0); [reflexivity|].
  destruct (table_total m b 1 d1 V) as (t1 & E1 & P1); [reflexivity|].
  destruct (table_total m b 2 d2 V) as (t2 & E2 & P2); [reflexivity|].
  exists t0, t1, t2. split; [auto|]. split; [auto|]. split; [auto|].
  unfold equalize_colors. rewrite E0, E1, E2. cbn [bind].
  rewrite (map_total _ (fun c => back (rgb_new_with_alpha (val t0 (d0 c)) (val t1 (d1 c)) (val t2 (d2 c)) (alpha c)))); [reflexivity|].
  intros c _. rewrite P0, P1, P2. reflexivity.
Qed.
Lemma equalize_hsl_ok L m sat lig (b : PixelBuffer Rgb) : valid b ->
  exists t1 t2, channel_table m (convert (to_hsl L KRgb) b) 1 = Ok t1 /\ channel_table m (convert (to_hsl L KRgb) b) 2 = Ok t2 /\
    equalize_hsl L m sat lig b =
    Ok (convert (fun c => hsl_to_rgb (mkC (d0 c) (if sat then val t1 (d1 c) else d1 c)
                                              (if lig then val t2 (d2 c) else d2 c) (alpha c))) (convert (to_hsl L KRgb) b)).
Proof.
  intros V. destruct (convert_ok (to_hsl L KRgb) b V) as (V' & _).
  destruct (table_total m _ 1 d1 V') as (t1 & E1 & P1); [reflexivity|].
  destruct (table_total m _ 2 d2 V') as (t2 & E2 & P2); [reflexivity|].
  exists t1, t2. split; [auto|]. split; [auto|].
  unfold equalize_hsl. cbv zeta. rewrite E1, E2.
  destruct sat, lig; cbn [bind].
  all: match goal with |- context [convert ?g (convert ?f ?bb)] => rewrite (map_total _ g) end; [reflexivity|].
  all: intros c _; rewrite ?P1, ?P2; reflexivity.
Qed.

Lemma same_dims_convert {T R} (g : T -> R) (b : PixelBuffer T) : valid b ->
  valid (convert g b) /\ width (convert g b) = width b /\ height (convert g b) = height b.
Proof. intros V. destruct (convert_ok g b V) as (A & B & C & _). auto. Qed.

Lemma convert_pixel {T R} (g : T -> R) (b : PixelBuffer T) m x y c : valid b -> inside b x y ->
  get_pixel m b x y = Ok c -> get_pixel m (convert g b) x y = Ok (g c).
Proof. intros V I H. destruct (convert_ok g b V) as (_ & _ & _ & P). rewrite P, H by auto. reflexivity. Qed.

(** C44 *)
Lemma equalize_total L m (b : PixelBuffer Rgb) mode : valid b ->
  exists r, equalize L m b mode = Ok r /\ valid r /\ width r = width b /\ height r = height b.
Proof.
  intros V. destruct mode; cbn [equalize].
  - destruct (equalize_colors_ok m (fun c => c) b V) as (? & ? & ? & _ & _ & _ & E). eexists. split; [exact E|]. now apply same_dims_convert.
  - destruct (convert_ok (to_srgb L KRgb) b V) as (V' & _).
    destruct (equalize_colors_ok m (srgb_to_rgb L) _ V') as (? & ? & ? & _ & _ & _ & E). eexists. split; [exact E|].
    now apply (same_dims_convert _ (convert (to_srgb L KRgb) b)).
  - destruct (equalize_hsl_ok L m true false b V) as (? & ? & _ & _ & E). eexists. split; [exact E|].
    destruct (convert_ok (to_hsl L KRgb) b V) as (V' & _). now apply (same_dims_convert _ (convert (to_hsl L KRgb) b)).
  - destruct (equalize_hsl_ok L m false true b V) as (? & ? & _ & _ & E). eexists. split; [exact E|].
    destruct (convert_ok (to_hsl L KRgb) b V) as (V' & _). now apply (same_dims_convert _ (convert (to_hsl L KRgb) b)).
  - destruct (equalize_hsl_ok L m true true b V) as (? & ? & _ & _ & E). eexists. split; [exact E|].
    destruct (convert_ok (to_hsl L KRgb) b V) as (V' & _). now apply (same_dims_convert _ (convert (to_hsl L KRgb) b)).
Qed.

Lemma nonempty_zlen {T} (b : PixelBuffer T) : valid b -> nonempty b -> 0 < zlen (data b).
Proof. intros V [A B]. destruct V as [_ ->]. nia. Qed.

Lemma val_ok m (b : PixelBuffer col) ch pick t : valid b -> nonempty b -> (forall c, chan c ch = Ok (pick c)) ->
  channel_table m b ch = Ok t ->
  exists f, (forall v, in01 (val t v) /\ B2R (val t v) = f (level v)) /\
    (forall i j, 0 <= i <= j -> j <= 255 -> (f i <= f j)%R) /\
    (zlen (data b) < 16777216 -> forall v, f (level v) = equalized pick (data b) v).
Proof.
  intros V NE P E. destruct (channel_table_ok m b ch pick V (nonempty_zlen b V NE) P) as (t' & f & E' & A & B & C).
  rewrite E in E'. apply Ok_inj in E'. subst t'. exists f. split; [|auto].
  intros v. destruct (A v) as (w & Ew & W). unfold val. rewrite Ew. exact W.
Qed.
Lemma val_spec m (b : PixelBuffer col) ch pick t v : valid b -> nonempty b -> (forall c, chan c ch = Ok (pick c)) ->
  channel_table m b ch = Ok t -> equalized_to pick (data b) v (val t v).
Proof.
  intros V NE P E. destruct (val_ok m b ch pick t V NE P E) as (f & A & _ & C). destruct (A v) as [A1 A2].
  split; [exact A1|]. intros S. rewrite A2. apply C. exact S.
Qed.

Lemma get_pixel_data {T} m (b : PixelBuffer T) x y : valid b -> inside b x y -> exists c, get_pixel m b x y = Ok c.
Proof. intros V I. destruct (get_pixel_inside m b x y V I) as [c H]. eauto. Qed.

(** C43 *)
Lemma equalize_rgb_spec_l L m (b : PixelBuffer Rgb) : valid b -> nonempty b ->
  exists r, equalize L m b ERgb = Ok r /\ valid r /\ width r = width b /\ height r = height b /\
    forall x y, inside b x y -> exists c c', get_pixel m b x y = Ok c /\ get_pixel m r x y = Ok c' /\
      equalized_to d0 (data b) (d0 c) (d0 c') /\ equalized_to d1 (data b) (d1 c) (d1 c') /\
      equalized_to d2 (data b) (d2 c) (d2 c') /\ alpha c' = clamp (alpha c).
Proof.
  intros V NE. cbn [equalize]. destruct (equalize_colors_ok m (fun c => c) b V) as (t0 & t1 & t2 & E0 & E1 & E2 & E).
  eexists. split; [exact E|]. match goal with |- context [convert ?g b] => destruct (convert_ok g b V) as (A & B & C & P) end.
  split; [auto|]. split; [auto|]. split; [auto|]. intros x y I. destruct (get_pixel_data m b x y V I) as [c Hc].
  exists c. eexists. split; [exact Hc|]. split; [exact (convert_pixel _ b m x y c V I Hc)|].
  unfold rgb_new_with_alpha. cbn [d0 d1 d2 d3 alpha].
  pose proof (val_spec m b 0 d0 t0 (d0 c) V NE ltac:(reflexivity) E0) as S0.
  pose proof (val_spec m b 1 d1 t1 (d1 c) V NE ltac:(reflexivity) E1) as S1.
  pose proof (val_spec m b 2 d2 t2 (d2 c) V NE ltac:(reflexivity) E2) as S2.
  rewrite !clamp_id by (apply S0 || apply S1 || apply S2). auto.
Qed.
Lemma equalize_srgb_spec_l L m (b : PixelBuffer Rgb) : valid b -> nonempty b ->
  exists r, equalize L m b ESrgb = Ok r /\ valid r /\ width r = width b /\ height r = height b /\
    forall x y, inside b x y -> exists c s, get_pixel m b x y = Ok c /\ get_pixel m r x y = Ok (srgb_to_rgb L s) /\
      let all := map (rgb_to_srgb L) (data b) in let old := rgb_to_srgb L c in
      equalized_to d0 all (d0 old) (d0 s) /\ equalized_to d1 all (d1 old) (d1 s) /\
      equalized_to d2 all (d2 old) (d2 s) /\ alpha s = clamp (alpha old).
Proof.
  intros V NE. cbn [equalize]. destruct (convert_ok (to_srgb L KRgb) b V) as (V' & W' & H' & P').
  assert (NE' : nonempty (convert (to_srgb L KRgb) b)) by exact NE.
  destruct (equalize_colors_ok m (srgb_to_rgb L) _ V') as (t0 & t1 & t2 & E0 & E1 & E2 & E).
  eexists. split; [exact E|]. match goal with |- context [convert ?g (convert ?f b)] => destruct (convert_ok g (convert f b) V') as (A & B & C & P) end.
  split; [auto|]. split; [auto|]. split; [auto|]. intros x y I. destruct (get_pixel_data m b x y V I) as [c Hc].
  exists c. eexists. split; [exact Hc|]. split; [refine (convert_pixel _ _ m x y _ V' I _); exact (convert_pixel _ b m x y c V I Hc)|]. cbv zeta.
  change (map (rgb_to_srgb L) (data b)) with (data (convert (to_srgb L KRgb) b)). change (to_srgb L KRgb c) with (rgb_to_srgb L c).
  set (s := rgb_to_srgb L c).
  unfold rgb_new_with_alpha. cbn [d0 d1 d2 d3 alpha].
  pose proof (val_spec m _ 0 d0 t0 (d0 s) V' NE' ltac:(reflexivity) E0) as S0.
  pose proof (val_spec m _ 1 d1 t1 (d1 s) V' NE' ltac:(reflexivity) E1) as S1.
  pose proof (val_spec m _ 2 d2 t2 (d2 s) V' NE' ltac:(reflexivity) E2) as S2.
  rewrite !clamp_id by (apply S0 || apply S1 || apply S2). auto.
Qed.
Lemma equalize_hsl_spec_l L m (b : PixelBuffer Rgb) mode sat lig : valid b -> nonempty b ->
  (mode, sat, lig) = (ESaturation, true, false) \/ (mode, sat, lig) = (ELightness, false, true) \/
  (mode, sat, lig) = (ESaturationLightness, true, true) ->
  exists r, equalize L m b mode = Ok r /\ valid r /\ width r = width b /\ height r = height b /\
    forall x y, inside b x y -> exists c s, get_pixel m b x y = Ok c /\ get_pixel m r x y = Ok (hsl_to_rgb s) /\
      let all := map rgb_to_hsl (data b) in let old := rgb_to_hsl c in
      d0 s = d0 old /\ alpha s = alpha old /\
      (if sat then equalized_to d1 all (d1 old) (d1 s) else d1 s = d1 old) /\
      (if lig then equalized_to d2 all (d2 old) (d2 s) else d2 s = d2 old).
Proof.
  intros V NE M. replace (equalize L m b mode) with (equalize_hsl L m sat lig b) by (destruct M as [M|[M|M]]; inversion M; reflexivity).
  clear M. destruct (convert_ok (to_hsl L KRgb) b V) as (V' & W' & H' & P').
  assert (NE' : nonempty (convert (to_hsl L KRgb) b)) by exact NE.
  destruct (equalize_hsl_ok L m sat lig b V) as (t1 & t2 & E1 & E2 & E).
  eexists. split; [exact E|]. match goal with |- context [convert ?g (convert ?f b)] => destruct (convert_ok g (convert f b) V') as (A & B & C & P) end.
  split; [auto|]. split; [auto|]. split; [auto|]. intros x y I. destruct (get_pixel_data m b x y V I) as [c Hc].
  exists c. eexists. split; [exact Hc|]. split; [refine (convert_pixel _ _ m x y _ V' I _); exact (convert_pixel _ b m x y c V I Hc)|]. cbv zeta.
  change (map rgb_to_hsl (data b)) with (data (convert (to_hsl L KRgb) b)). change (to_hsl L KRgb c) with (rgb_to_hsl c).
  set (s := rgb_to_hsl c). cbn [d0 d1 d2 d3 alpha].
  pose proof (val_spec m _ 1 d1 t1 (d1 s) V' NE' ltac:(reflexivity) E1) as S1.
  pose proof (val_spec m _ 2 d2 t2 (d2 s) V' NE' ltac:(reflexivity) E2) as S2.
  split; [auto|]. split; [auto|]. destruct sat, lig; auto.
Qed.
Lemma equalize_order_l L m (b : PixelBuffer Rgb) r pick x y x' y' c1 c2 c1' c2' : valid b ->
  equalize L m b ERgb = Ok r -> pick = d0 \/ pick = d1 \/ pick = d2 -> inside b x y -> inside b x' y' ->
  get_pixel m b x y = Ok c1 -> get_pixel m b x' y' = Ok c2 -> get_pixel m r x y = Ok c1' -> get_pixel m r x' y' = Ok c2' ->
  in01 (pick c1) -> in01 (pick c2) -> fle (pick c1) (pick c2) = true -> fle (pick c1') (pick c2') = true.
Proof.
  intros V E PK I I' G1 G2 G1' G2' O1 O2 LE. cbn [equalize] in E.
  assert (NE : nonempty b) by (unfold inside in I; unfold nonempty; lia).
  destruct (equalize_colors_ok m (fun c => c) b V) as (t0 & t1 & t2 & E0 & E1 & E2 & E'). rewrite E' in E. apply Ok_inj in E.
  rewrite <- E in G1', G2'.
  pose proof (eq_trans (eq_sym G1') (convert_pixel _ b m x y c1 V I G1)) as X1. apply Ok_inj in X1.
  pose proof (eq_trans (eq_sym G2') (convert_pixel _ b m x' y' c2 V I' G2)) as X2. apply Ok_inj in X2. clear G1' G2' E E'.
  destruct (val_ok m b 0 d0 t0 V NE ltac:(reflexivity) E0) as (f0_ & A0 & M0 & _).
  destruct (val_ok m b 1 d1 t1 V NE ltac:(reflexivity) E1) as (f1_ & A1 & M1 & _).
  destruct (val_ok m b 2 d2 t2 V NE ltac:(reflexivity) E2) as (f2_ & A2 & M2 & _).
  assert (ML : level (pick c1) <= level (pick c2)).
  { apply level_mono; auto. apply in01_num in O1. apply in01_num in O2. apply fle_R; auto; [apply O1|apply O2]. }
  pose proof (level_range (pick c1)). pose proof (level_range (pick c2)).
  assert (K : forall t f v w, (forall v, in01 (val t v) /\ B2R (val t v) = f (level v)) ->
     (forall i j, 0 <= i <= j -> j <= 255 -> (f i <= f j)%R) -> level v <= level w -> fle (clamp (val t v)) (clamp (val t w)) = true).
  { intros t f v w A M Lv. destruct (A v) as [B1 C1]. destruct (A w) as [B2 C2]. rewrite !clamp_id by auto.
    apply in01_num in B1. apply in01_num in B2. apply fle_R; [apply B1|apply B2|]. rewrite C1, C2.
    pose proof (level_range v). pose proof (level_range w). apply M; lia. }
  subst c1' c2'. unfold rgb_new_with_alpha.
  destruct PK as [-> | [-> | ->]]; cbn [d0 d1 d2]; [apply (K t0 f0_)|apply (K t1 f1_)|apply (K t2 f2_)]; auto.
Qed.

(** ** stretch_contrast *)
Lemma shares_zlen {A} (key : A -> Z) l : zlen (shares key l) = 256.
Proof. unfold shares. rewrite zlen_map, zrange_zlen; lia. Qed.
Lemma stretch_spec_l L (b : PixelBuffer Rgb) threshold : valid b ->
  exists r lo hi, stretch_contrast L b threshold = Ok r /\ valid r /\ width r = width b /\ height r = height b /\
    black_point (fdiv threshold (ofZ 1000)) (shares brightness_bin (data b)) lo /\
    white_point (fdiv threshold (ofZ 1000)) (shares brightness_bin (data b)) hi /\
    if flt f0 lo || flt hi f1
    then forall m x y, inside b x y -> get_pixel m r x y = bind (get_pixel m b x y) (fun c => Ok (with_level L lo hi f1 c))
    else r = b.
Proof.
  intros V. unfold stretch_contrast. cbv zeta. rewrite get_color_values_eq. cbn [bind].
  pose proof (black_point_ok (fdiv threshold (ofZ 1000)) (shares brightness_bin (data b))) as B.
  pose proof (white_point_ok (fdiv threshold (ofZ 1000)) (shares brightness_bin (data b)) (shares_zlen _ _)) as W.
  revert B W. generalize (get_min_value (shares brightness_bin (data b)) (fdiv threshold (ofZ 1000))).
  generalize (get_max_value (shares brightness_bin (data b)) (fdiv threshold (ofZ 1000))). intros hi lo B W.
  destruct (flt f0 lo || flt hi f1) eqn:T.
  - destruct (map_pure_ok (with_level L lo hi f1) b V) as (r & E & _ & A & C & D & P). exists r, lo, hi. rewrite T. auto 10.
  - exists b, lo, hi. rewrite T. auto 10.
Qed.

Lemma flt_add0 t s : flt t (fadd f0 s) = flt t s.
Proof. destruct s as [s|s| |s m e H]; try destruct s; try reflexivity; destruct t as [t|t| |t m e H]; try destruct t; reflexivity. Qed.
Lemma shares_idx {A} (key : A -> Z) l i : 0 <= i < 256 ->
  idx (shares key l) i = Ok (share (count (fun a => key a =? i) l) (zlen l)).
Proof. intros. unfold shares. rewrite idx_map, idx_zrange by lia. reflexivity. Qed.
Lemma sum_to_0 l v : idx l 0 = Ok v -> sum_to 0 l = fadd f0 v.
Proof. destruct l; [discriminate|]. intros H. unfold idx in H. cbn in H. apply Ok_inj in H. subst. reflexivity. Qed.
Lemma first_is_0 t l k : first_exceeding t l k -> flt t (sum_to 0 l) = true -> k = 0.
Proof. intros (A & B & C) H. destruct (Z.eq_dec k 0); auto. rewrite C in H by lia. discriminate. Qed.
Lemma idx_rev_0 {A} (l : list A) v : zlen l = 256 -> idx l 255 = Ok v -> idx (rev l) 0 = Ok v.
Proof.
  intros L H. rewrite idx_nth in * by lia. unfold zlen in L. rewrite nth_error_rev_ by lia.
  replace (length l - S (Z.to_nat 0))%nat with (Z.to_nat 255) by lia. exact H.
Qed.
Lemma q0 : fdiv (ofZ 0) (ofZ 255) = f0. Proof. reflexivity. Qed.
Lemma q255 : flt (fdiv (ofZ 255) (ofZ 255)) f1 = false. Proof. reflexivity. Qed.

Lemma stretch_unchanged_l L (b : PixelBuffer Rgb) threshold : valid b ->
  let dark := count (fun c => brightness_bin c =? 0) (data b) in
  let bright := count (fun c => brightness_bin c =? 255) (data b) in
  let t := fdiv threshold (ofZ 1000) in
  flt t (share dark (zlen (data b))) = true -> flt t (share bright (zlen (data b))) = true ->
  stretch_contrast L b threshold = Ok b.
Proof.
  intros V dark bright t D B. destruct (stretch_spec_l L b threshold V) as (r & lo & hi & E & _ & _ & _ & BP & WP & R).
  assert (lo = f0).
  { assert (S0 : flt t (sum_to 0 (shares brightness_bin (data b))) = true).
    { rewrite (sum_to_0 _ _ (shares_idx _ _ 0 ltac:(lia))), flt_add0. exact D. }
    destruct BP as [(k & K & ->)|[N _]].
    - rewrite (first_is_0 _ _ _ K S0). apply q0.
    - fold t in N. rewrite N in S0 by (rewrite shares_zlen; lia). discriminate. }
  assert (HH : flt hi f1 = false).
  { pose proof (shares_zlen brightness_bin (data b)) as ZL.
    assert (RZ : zlen (rev (shares brightness_bin (data b))) = 256) by (unfold zlen in *; rewrite rev_length; exact ZL).
    assert (S0 : flt t (sum_to 0 (rev (shares brightness_bin (data b)))) = true).
    { rewrite (sum_to_0 _ (share bright (zlen (data b)))); [rewrite flt_add0; exact B|].
      apply idx_rev_0; [exact ZL|]. apply shares_idx. lia. }
    destruct WP as [(k & K & ->)|[N _]].
    - rewrite (first_is_0 _ _ _ K S0). apply q255.
    - fold t in N. rewrite N in S0 by (rewrite RZ; lia). discriminate. }
  subst lo. rewrite HH in R. cbn in R. subst r. exact E.
Qed.

Lemma share_pos n len : 1 <= n -> 1 <= len <= 1073741823 -> num 0 16777216 (share n len) /\ (0 < B2R (share n len))%R.
Proof.
  intros Hn Hl. unfold share. destruct (ofZ_big len ltac:(lia)) as [F R].
  assert (B : (1 <= IZR len <= 1073741823)%R) by (split; apply IZR_le; lia).
  assert (P : (1 <= B2R (ofZ len))%R).
  { destruct (Z_lt_ge_dec len 16777216).
    - destruct (ofZ_val len ltac:(lia)) as [_ ->]. lra.
    - assert (16777216 <= IZR len)%R by (apply IZR_le; lia). unfold ee in R. nra. }
  destruct (fdiv_num f1 (ofZ len) (bpow radix2 (-40)) 1) as [D _]; auto with fin fmt.
  { lra. } { rewrite <- (Rmult_1_l (bpow radix2 (-40))). change 1%R with (IZR 1). apply fmt_F2R; lia. }
  { rewrite f1_R. split.
    - apply le_div; [lra|]. replace (bpow radix2 (-40)) with (/ 1099511627776)%R by (simpl; lra). unfold ee in R. nra.
    - apply div_le; lra. }
  assert (BP : (0 < bpow radix2 (-40))%R) by apply bpow_gt_0.
  assert (D1 : num 0 1 (fdiv f1 (ofZ len))) by (apply (num_weak _ _ _ _ _ D); lra).
  replace (Z.to_nat n) with (S (Z.to_nat (n - 1))) by lia. generalize (Z.to_nat (n - 1)) as k. intros k.
  assert (I : num 0 16777216 (Nat.iter k (fun s => fadd s (fdiv f1 (ofZ len))) f0)).
  { induction k; [split; [reflexivity|]; cbn; lra|]. rewrite iter_S. apply bump; auto. }
  rewrite iter_S. destruct (bump _ _ I D1) as (A1 & _ & _ & A2). split; [exact A1|]. destruct D as [_ D]. lra.
Qed.
Lemma stretch_zero_l L (b : PixelBuffer Rgb) threshold : valid b -> fle threshold f0 = true ->
  (exists c, In c (data b) /\ brightness_bin c = 0) -> (exists c, In c (data b) /\ brightness_bin c = 255) ->
  stretch_contrast L b threshold = Ok b.
Proof.
  intros V T (c0 & I0 & B0) (c1 & I1 & B1).
  assert (CP : forall k c, In c (data b) -> brightness_bin c = k -> 1 <= count (fun c => brightness_bin c =? k) (data b)).
  { intros k c I E. unfold count. assert (J : In c (filter (fun c => brightness_bin c =? k) (data b))).
    { apply filter_In. split; [auto|]. now apply Z.eqb_eq. }
    destruct (filter (fun c => brightness_bin c =? k) (data b)); [destruct J|]. rewrite zlen_cons. pose proof (zlen_nonneg l). lia. }
  pose proof (CP 0 c0 I0 B0) as C0. pose proof (CP 255 c1 I1 B1) as C1.
  pose proof (valid_bounds b V) as BV. pose proof (count_le_len (fun c => brightness_bin c =? 0) (data b)) as LL.
  assert (K : forall n, 1 <= n -> flt (fdiv threshold (ofZ 1000)) (share n (zlen (data b))) = true).
  { intros n Hn. destruct (share_pos n (zlen (data b)) Hn ltac:(lia)) as [[F _] P].
    destruct (is_finite threshold) eqn:FT.
    - assert (R : (B2R threshold <= 0)%R) by (rewrite <- f0_R; apply fle_R; auto with fin).
      destruct (ofZ_val 1000 ltac:(lia)) as [F3 R3].
      destruct (fdiv_num threshold (ofZ 1000) (B2R threshold) 0) as [[A B] _]; auto with fmt.
      + lra.
      + rewrite R3. lra.
      + apply flt_R; auto. lra.
    - destruct threshold as [|[|]| |]; try discriminate.
      change (fdiv (B754_infinity true) (ofZ 1000)) with (@B754_infinity 24 128 true).
      destruct (share n (zlen (data b))); try discriminate F; reflexivity. }
  apply stretch_unchanged_l; auto.
Qed.
