(** Proofs for C42, C47, C48 and C75: the order of the draws, and the averages and
    mixtures as formulas. *)
From Coq Require Import ZArith Reals List Bool Lia Lra.
From Flocq Require Import Core IEEE754.BinarySingleNaN.
From Verif Require Import Base BaseLemmas PixelBuffer BufferSpec PixelBufferProofs F32 F32Lemmas Color ColorSpec ColorProofs.
From Verif Require Import Kernel KernelSpec ComposeProofs KernelProofs Kernel2Proofs GaussProofs Gauss2Proofs FilterProofs Filter3Proofs ResampleProofs Ops OpsSpec OpsProofs NoiseProofs TemperatureProofs.
From Verif Require Import MeaningSpec Approx OpMeaningProofs EnhanceSpec Enhance NoiseSpec.
Import ListNotations.
Open Scope Z_scope.

Lemma map_st_order {S A} (f : S -> A -> res (S * A)) (step : S -> A -> S -> A -> Prop) :
  (forall s a, exists s' a', f s a = Ok (s', a') /\ step s a s' a') ->
  forall l s, exists s' l', map_st f l s = Ok (s', l') /\ runs step s l s' l'.
Proof.
  intros H. induction l as [|a l IH]; intros s; [exists s, []; split; [reflexivity|constructor]|].
  destruct (H s a) as (s1 & a' & E1 & P1). destruct (IH s1) as (s2 & l' & E2 & P2).
  exists s2, (a' :: l'). cbn [map_st]. rewrite E1. cbn [bind]. rewrite E2. cbn [bind]. split; [reflexivity|]. econstructor; eauto.
Qed.
Lemma colors_order {S} (f : S -> Rgb -> res (S * Rgb)) (step : S -> Rgb -> S -> Rgb -> Prop) s (b : PixelBuffer Rgb) :
  (forall s a, exists s' a', f s a = Ok (s', a') /\ step s a s' a') ->
  exists s' l', map_colors f s b = Ok (s', mkPB (width b) (height b) l') /\ mod_colors f s b = Ok (s', mkPB (width b) (height b) l') /\
    runs step s (data b) s' l'.
Proof.
  intros H. destruct (map_st_order f step H (data b) s) as (s' & l' & E & P). exists s', l'.
  unfold map_colors, mod_colors. rewrite E. cbn [bind]. auto.
Qed.
Lemma salt_order {S} (g : rng S) threshold s (b : PixelBuffer Rgb) :
  exists s' l', salt_n_pepper_noise g s b threshold = Ok (s', mkPB (width b) (height b) l') /\
    add_salt_n_pepper_noise g s b threshold = Ok (s', mkPB (width b) (height b) l') /\ runs (salted g threshold) s (data b) s' l'.
Proof.
  apply colors_order. intros s0 c. unfold salt_n_pepper, salted. destruct (gen_unit g s0) as [s1 u]. eexists. eexists. split; [reflexivity|]. eauto.
Qed.
Lemma rgb_order {S} (g : rng S) threshold s (b : PixelBuffer Rgb) :
  exists s' l', rgb_noise g s b threshold = Ok (s', mkPB (width b) (height b) l') /\
    add_rgb_noise g s b threshold = Ok (s', mkPB (width b) (height b) l') /\ runs (speckled g threshold) s (data b) s' l'.
Proof.
  apply colors_order. intros s0 c. unfold rgb_noise_for_pixel, speckled. destruct (gen_unit g s0) as [s1 u] eqn:E.
  destruct (flt u threshold) eqn:T.
  - destruct (gen_three g s1) as [s2 i] eqn:E2. eexists. eexists. split; [reflexivity|]. exists s1, u. split; [reflexivity|]. rewrite T. exists i. split; [exact E2|].
    split; [intros ->; reflexivity|]. split; [intros ->; reflexivity|intros ->; reflexivity].
  - eexists. eexists. split; [reflexivity|]. exists s1, u. rewrite T. auto.
Qed.
Lemma mixed_step {S} (gen : S -> S * f32) k strength s c : exists s' c',
  map_color_channels k (fun s v => let '(s, noise) := gen s in Ok (s, mix_noise strength noise v)) s c = Ok (s', c') /\ mixed gen k strength s c s' c'.
Proof.
  destruct (gen s) as [s1 n0] eqn:E0. destruct (gen s1) as [s2 n1] eqn:E1. destruct (gen s2) as [s3 n2] eqn:E2.
  eexists. eexists. split.
  - unfold map_color_channels, try_map_color_channels. rewrite E0. cbn [bind]. rewrite E1. cbn [bind]. rewrite E2. cbn [bind]. reflexivity.
  - exists s1, s2, n0, n1, n2. rewrite new_with_alpha_eq. auto.
Qed.
Lemma mixed_order {S} (g : rng S) k strength s (b : PixelBuffer col) :
  (exists s' l', random_noise g k s b strength = Ok (s', mkPB (width b) (height b) l') /\
    add_random_noise g k s b strength = Ok (s', mkPB (width b) (height b) l') /\ runs (mixed (gen_signed g) k strength) s (data b) s' l') /\
  (exists s' l', gaussian_noise g k s b strength = Ok (s', mkPB (width b) (height b) l') /\
    add_gaussian_noise g k s b strength = Ok (s', mkPB (width b) (height b) l') /\ runs (mixed (gen_normal g) k strength) s (data b) s' l').
Proof. split; apply colors_order; intros; apply mixed_step. Qed.

Open Scope R_scope.
Lemma mix_close n s v : fin n -> Rabs (B2R n) <= 8 -> num 0 1 s -> num 0 1 v ->
  close (/ 524288) (limited (B2R n * B2R s + (1 - B2R s) * B2R v)) (clamp (fadd (fmul n s) (fmul (fsub f1 s) v))).
Proof.
  intros Fn Bn [Fs Rs] [Fv Rv]. apply close_clamp.
  pose proof (close_mul 8 _ 8 1 _ _ _ _ _ _ uo_8 (close_0 n Fn) (close_0 s Fs) Bn ltac:(rewrite Rabs_right; lra) ltac:(lra)) as A.
  assert (K : close 0 1 f1) by (split; [exact f1_fin|rewrite f1_R; apply Rabs_le_iff; lra]).
  pose proof (close_sub 1 _ _ _ _ _ _ _ uo_1 K (close_0 s Fs) ltac:(rewrite Rabs_right; lra)) as B.
  pose proof (close_mul 2 _ 1 1 _ _ _ _ _ _ uo_2 B (close_0 v Fv) ltac:(rewrite Rabs_right; lra) ltac:(rewrite Rabs_right; lra) ltac:(lra)) as C.
  assert (Q : Rabs (B2R n * B2R s + (1 - B2R s) * B2R v) <= 9).
  { assert (Rabs (B2R n * B2R s) <= 8 * 1) by (apply abs_mul_le; [exact Bn|rewrite Rabs_right; lra]).
    assert (Rabs ((1 - B2R s) * B2R v) <= 1 * 1) by (apply abs_mul_le; rewrite Rabs_right; lra).
    eapply Rle_trans; [apply Rabs_triang|lra]. }
  pose proof (close_add 16 _ _ _ _ _ _ _ uo_16 A C ltac:(lra)) as D.
  eapply close_weak; [exact D|lra].
Qed.
Lemma fold_map_fadd {A} (t : A -> f32) l s : fold_left fadd (map t l) s = fold_left (fun s a => fadd s (t a)) l s.
Proof. revert s; induction l as [|a l IH]; intros s; [reflexivity|]. cbn [map fold_left]. apply IH. Qed.
Lemma clamped_mean {A} (t : A -> f32) (l : list A) : l <> nil -> (zlen l <= 4194304)%Z -> Forall (fun a => in01 (t a)) l ->
  let v := clamp (fdiv (fold_left fadd (map t l) f0) (ofZ (zlen l))) in
  in01 v /\ Rabs (B2R v - mean (fun a => B2R (t a)) l) <= (IZR (zlen l) + 1) / 8388608.
Proof.
  intros N L F. cbv zeta. rewrite fold_map_fadd.
  assert (F' : Forall (fun a => num 0 1 (t a)) l) by (eapply Forall_impl; [|exact F]; intros a; apply in01_num).
  destruct (mean32 t 1 l (or_introl eq_refl) N ltac:(lia) F') as [P Q]. specialize (Q L).
  rewrite clamp_id by (apply in01_num; exact P). split; [apply in01_num; exact P|]. eapply Rle_trans; [exact Q|]. lra.
Qed.

Lemma mean_color_close (l : list Rgb) : l <> nil -> (zlen l <= 4194304)%Z -> Forall in_gamut l ->
  in_gamut (mean_color l) /\
  forall pick : Rgb -> f32, pick = d0 \/ pick = d1 \/ pick = d2 \/ pick = d3 ->
    Rabs (B2R (pick (mean_color l)) - mean (fun c => B2R (pick c)) l) <= (IZR (zlen l) + 1) / 8388608.
Proof.
  intros N L F.
  assert (G : forall pick : Rgb -> f32, pick = d0 \/ pick = d1 \/ pick = d2 \/ pick = d3 -> Forall (fun c => in01 (pick c)) l).
  { intros pick H. eapply Forall_impl; [|exact F]. intros c (a & b & d & e). destruct H as [->|[->|[->| ->]]]; assumption. }
  pose proof (clamped_mean d0 l N L (G d0 ltac:(auto))) as [A0 B0].
  pose proof (clamped_mean d1 l N L (G d1 ltac:(auto))) as [A1 B1].
  pose proof (clamped_mean d2 l N L (G d2 ltac:(auto))) as [A2 B2].
  pose proof (clamped_mean d3 l N L (G d3 ltac:(auto))) as [A3 B3].
  split; [exact (conj A0 (conj A1 (conj A2 A3)))|]. intros pick H. destruct H as [->|[->|[->| ->]]]; assumption.
Qed.
Lemma snn_mean m (b : PixelBuffer Rgb) radius with_center : valid b -> (0 <= radius <= 1000000)%Z -> ((0 < radius)%Z \/ with_center = true) ->
  (forall c, In c (data b) -> in_gamut c) ->
  exists out, symmetric_nearest_neighbor m b radius with_center = Ok out /\ valid out /\ width out = width b /\ height out = height b /\
    forall x y, inside b x y -> exists center chosen c, get_pixel m b x y = Ok center /\
      Forall2 (nearer_of_pair m b x y center) (half_star radius) chosen /\ get_pixel m out x y = Ok c /\
      let taken := if with_center then center :: chosen else chosen in
      zlen taken = (if with_center then 4 * radius + 1 else 4 * radius)%Z /\
      forall pick : Rgb -> f32, pick = d0 \/ pick = d1 \/ pick = d2 \/ pick = d3 ->
        Rabs (B2R (pick c) - mean (fun q => B2R (pick q)) taken) <= (IZR (zlen taken) + 1) / 8388608.
Proof.
  intros V Hr Hc G. destruct (snn_lemma m b radius with_center V ltac:(lia)) as (out & E & V' & W & H & P).
  exists out. repeat (split; [assumption|]). intros x y I. destruct (P x y I) as (center & chosen & Ec & Fc & Eo).
  exists center, chosen, (mean_color (if with_center then center :: chosen else chosen)). do 3 (split; [assumption|]). cbv zeta.
  assert (L : zlen chosen = (4 * radius)%Z) by (rewrite <- (Forall2_zlen _ _ _ Fc); apply half_star_zlen; lia).
  assert (L2 : zlen (if with_center then center :: chosen else chosen) = (if with_center then 4 * radius + 1 else 4 * radius)%Z)
    by (destruct with_center; rewrite ?zlen_cons; lia).
  split; [exact L2|]. apply mean_color_close.
  - intros Z0. rewrite Z0 in L2. change (zlen (@nil Rgb)) with 0%Z in L2. destruct with_center; [lia|]. destruct Hc; [lia|discriminate].
  - rewrite L2. destruct with_center; lia.
  - assert (Fa : forall c, In c (center :: chosen) -> in_gamut c).
    { intros c [<-|Hin]; apply G; [eapply data_In; eauto|]. eapply chosen_In; eauto. destruct I; unfold nonempty; lia. }
    apply Forall_forall. intros c Hin. apply Fa. destruct with_center; [exact Hin|right; exact Hin].
Qed.
Lemma despeckle_mean m (b : PixelBuffer Rgb) threshold amount : valid b ->
  (forall c, In c (data b) -> in_gamut c) -> is_nan threshold = false -> (amount <= 8)%Z ->
  exists out, despeckle m b threshold amount = Ok out /\ valid out /\ width out = width b /\ height out = height b /\
    forall x y c, inside b x y -> get_pixel m b x y = Ok c -> exists ps c', neighbourhood m b 3 3 x y = Ok ps /\
      get_pixel m out x y = Ok c' /\
      let light := filter (fun q => negb (darker threshold q)) ps in
      if darker threshold c && (9 - zlen light <=? amount)%Z
      then d3 c' = d3 c /\ forall pick : Rgb -> f32, pick = d0 \/ pick = d1 \/ pick = d2 ->
             Rabs (B2R (pick c') - mean (fun q => B2R (pick q)) light) <= / 800000
      else c' = c.
Proof.
  intros V G Nt Ha. destruct (despeckle_lemma m b threshold amount V) as [out [E [Vo [W [H P]]]]].
  exists out. repeat (split; [assumption|]). intros x y c I Ec. destruct (P x y c I Ec) as [ps [Hps Hr]]. cbv zeta in Hr.
  assert (G0 : in_gamut c) by (apply G; apply (data_In m); eauto).
  assert (Gp : forall c, In c ps -> in_gamut c) by (intros q Hq; apply G; eapply neighbourhood_In; eauto).
  assert (B : forall q, In q ps -> bright threshold q = negb (dark threshold q)).
  { intros q Hq. apply flt_fle_compl; [|auto]. apply in01_not_nan. apply average_in01. auto. }
  pose proof (filter_compl (dark threshold) (bright threshold) ps B) as C.
  pose proof (nb_zlen m b 3 3 x y ps ltac:(lia) ltac:(lia) Hps) as L9. pose proof (zlen_nonneg (filter (dark threshold) ps)).
  assert (EB : filter (fun q => negb (darker threshold q)) ps = filter (bright threshold) ps).
  { apply filter_ext_in. intros q Hq. rewrite (B q Hq). reflexivity. }
  eexists ps, _. split; [exact Hps|]. split; [exact Hr|]. cbv zeta. rewrite EB. change (darker threshold c) with (dark threshold c).
  replace (9 - zlen (filter (bright threshold) ps))%Z with (zlen (filter (dark threshold) ps)) by lia.
  destruct (dark threshold c && _) eqn:D; [|reflexivity]. apply andb_true_iff in D. destruct D as [_ D]. apply Z.leb_le in D.
  set (light := filter (bright threshold) ps) in *.
  replace (9 - zlen (filter (dark threshold) ps))%Z with (zlen light) by lia.
  assert (N : light <> nil) by (intros Z0; rewrite Z0 in C; change (zlen (@nil Rgb)) with 0%Z in C; lia).
  assert (Gl : Forall in_gamut light) by (apply Forall_forall; intros q Hq; apply filter_In in Hq; apply Gp; apply Hq).
  assert (L : (zlen light <= 9)%Z) by lia. assert (L' : IZR (zlen light) <= 9) by (apply IZR_le; exact L).
  split; [cbn [d3]; apply clamp_id; apply G0|].
  assert (Q : forall pick : Rgb -> f32, Forall (fun c => in01 (pick c)) light ->
     Rabs (B2R (clamp (fdiv (fold_left fadd (map pick light) f0) (ofZ (zlen light)))) - mean (fun q => B2R (pick q)) light) <= / 800000).
  { intros pick Fp. destruct (clamped_mean pick light N ltac:(lia) Fp) as [_ Q]. eapply Rle_trans; [exact Q|]. lra. }
  intros pick K. destruct K as [->|[->| ->]]; cbn [d0 d1 d2]; apply Q; (eapply Forall_impl; [|exact Gl]); intros q (a1 & a2 & a3 & a4); assumption.
Qed.
Lemma mixed_formula {S} (gen : S -> S * f32) k strength s c s' c' : k = KRgb \/ k = KSrgb ->
  (forall s, fin (snd (gen s)) /\ Rabs (B2R (snd (gen s))) <= 8) -> num 0 1 strength -> in_gamut c -> mixed gen k strength s c s' c' ->
  let s1 := fst (gen s) in let s2 := fst (gen s1) in
  let noised n v := limited (B2R n * B2R strength + (1 - B2R strength) * B2R v) in
  s' = fst (gen s2) /\ d3 c' = d3 c /\ close (/ 524288) (noised (snd (gen s)) (d0 c)) (d0 c') /\
  close (/ 524288) (noised (snd (gen s1)) (d1 c)) (d1 c') /\ close (/ 524288) (noised (snd (gen s2)) (d2 c)) (d2 c').
Proof.
  intros K D N (G0 & G1 & G2 & G3) M. cbv zeta. destruct M as (s1 & s2 & n0 & n1 & n2 & E0 & E1 & E2 & ->).
  pose proof (D s) as [F0 B0]. rewrite E0 in *. cbn [fst snd] in *. pose proof (D s1) as [F1 B1]. rewrite E1 in *. cbn [fst snd] in *.
  pose proof (D s2) as [F2 B2]. rewrite E2 in *. cbn [fst snd d0 d1 d2 d3] in *.
  assert (St : forall v, stored k v = clamp v) by (intros v; destruct K as [->| ->]; reflexivity). rewrite !St.
  split; [reflexivity|]. split; [apply clamp_id; exact G3|].
  split; [apply mix_close; auto; apply in01_num; exact G0|]. split; [apply mix_close; auto; apply in01_num; exact G1|apply mix_close; auto; apply in01_num; exact G2].
Qed.
