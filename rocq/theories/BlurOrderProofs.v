(** Blurs with a given sigma keep the order of images (C124). *)
From Coq Require Import Reals Lra Lia ZArith List Bool String.
From Flocq Require Import Core.Core IEEE754.BinarySingleNaN.
From Verif Require Import Base PixelBuffer BufferSpec F32 Color ColorSpec Codec CodecSpec Image Commands CommandsSpec Cli CliSpec Ops OpsSpec Kernel KernelSpec
  MeaningSpec IdealPowf StretchSpec ReopenSpec ResaveSpec EndSpec OrderSpec PixelBufferProofs F32Lemmas ColorProofs Approx OpMeaningProofs OpsProofs QuantProofs StretchProofs
  HslOps CommandsProofs BaseLemmas HistogramProofs GaussProofs Gauss2Proofs SrgbMeaning ReopenProofs EndProofs OrderFloat OrderProofs ComposeProofs.
Import ListNotations.
Open Scope R_scope.

Lemma fmt_pow k : (0 <= k <= 100)%Z -> fmt (bpow radix2 k).
Proof. intros H. replace (bpow radix2 k) with (IZR 1 * bpow radix2 k) by lra. apply fmt_F2R; lia. Qed.
Lemma big_fmt : fmt 549755813888 /\ fmt 9223372036854775808 /\ fmt 18446744073709551616.
Proof.
  split; [|split].
  - replace 549755813888 with (bpow radix2 39) by reflexivity. apply fmt_pow. lia.
  - replace 9223372036854775808 with (bpow radix2 63) by reflexivity. apply fmt_pow. lia.
  - replace 18446744073709551616 with (bpow radix2 64) by reflexivity. apply fmt_pow. lia.
Qed.
Lemma big_sat : rnd (9223372036854775808 + 549755813888) = 9223372036854775808.
Proof.
  destruct big_fmt as (F1 & F2 & F3).
  assert (H : B2R (ofZ 9223372036854775808) = 9223372036854775808) by (fval (ofZ 9223372036854775808) H; rewrite H; lra).
  assert (K : B2R (ofZ 549755813888) = 549755813888) by (fval (ofZ 549755813888) K; rewrite K; lra).
  destruct (fadd_num (ofZ 9223372036854775808) (ofZ 549755813888) 0 18446744073709551616) as [_ E]; auto with fmt.
  { reflexivity. } { reflexivity. } { rewrite H, K. lra. }
  rewrite H, K in E. rewrite <- E. fval (fadd (ofZ 9223372036854775808) (ofZ 549755813888)) H2. rewrite H2. lra.
Qed.
Lemma any_coefficients L r sigma : exp_ok L -> (0 <= r <= 32767)%Z -> sigma_ok r sigma ->
  let vals := gauss_vals L (2 * r + 1) (sigma_or_default sigma (2 * r + 1)) in
  forall k, In k (map (fun v => fdiv v (fold_left fadd vals f0)) vals) -> num 0 1 k.
Proof.
  intros X Hr Hs vals k Hk. destruct (sigma_ok_range r sigma Hr Hs) as [Fs Rs]. destruct (gaussian_s_range _ Fs Rs) as [Fg [Rg _]].
  destruct (gauss_vals_range L r _ X Hr Fg Rg) as [Vm [V1 [V2 V3]]]. fold vals in V1, V2. unfold s_lo, s_hi in Rg.
  assert (P5 : 0 < / (5 * B2R (gaussian_s (sigma_or_default sigma (2 * r + 1))))) by (apply Rinv_0_lt_compat; lra).
  assert (P2 : / (2 * B2R (gaussian_s (sigma_or_default sigma (2 * r + 1)))) <= / (2 * / 1099511627776)) by (apply Rinv_le_contravar; lra).
  destruct big_fmt as (F1 & F2 & F3).
  destruct (fold_sum_ge vals f0 549755813888) as [F [B C]]; auto using f0_fin.
  { rewrite f0_R. lra. } { intros v Hv. destruct (V1 v Hv) as [A D]. split; [exact A|]. lra. } { lra. } { rewrite f0_R. lra. }
  { replace (549755813888 * 16777216) with 9223372036854775808 by lra. exact F2. }
  { intros q Hq. replace (549755813888 * 16777216) with 9223372036854775808 in * by lra. apply Rle_trans with (rnd (9223372036854775808 + 549755813888)); [apply rnd_le; lra|]. rewrite big_sat. lra. }
  { right. replace (549755813888 * 33554432) with 18446744073709551616 by lra. exact F3. }
  apply in_map_iff in Hk. destruct Hk as [v [<- Hv]]. destruct V2 as [v0 [I0 E0]]. pose proof (C v0 I0). pose proof (C v Hv). destruct (V1 v Hv) as [Fv Rv].
  apply div_by_sum; [split; [exact Fv|lra]|exact F|lra].
Qed.
Lemma blur_order_any L m (b b' : PixelBuffer Rgb) r sigma : exp_ok L -> valid b -> valid b' -> (0 <= r <= 32767)%Z -> sigma_ok r sigma ->
  (forall c, In c (data b) -> in_gamut c) -> (forall c, In c (data b') -> in_gamut c) -> image_not_brighter m b b' ->
  exists o o', gaussian_blur L m b r sigma = Ok o /\ gaussian_blur L m b' r sigma = Ok o' /\ image_not_brighter m o o'.
Proof.
  intros X V V' Hr Sg G G' (W & H & P).
  destruct (blur_conv L m b r sigma V ltac:(lia)) as (o & E & Vo & Wo & Ho & Po). destruct (blur_conv L m b' r sigma V' ltac:(lia)) as (o' & E' & Vo' & Wo' & Ho' & Po').
  exists o, o'. split; [exact E|]. split; [exact E'|]. split; [lia|]. split; [lia|]. intros x y I.
  assert (Ib : inside b x y) by (unfold inside in *; rewrite <- Wo, <- Ho; exact I). assert (Ib' : inside b' x y) by (unfold inside in *; rewrite <- W, <- H; exact Ib).
  destruct (Po x y Ib) as (ps & N & Q). destruct (Po' x y Ib') as (ps' & N' & Q'). do 2 eexists. split; [exact Q|]. split; [exact Q'|].
  pose proof (neighbourhood_In m b _ _ x y ps V Ib N) as IN. pose proof (neighbourhood_In m b' _ _ x y ps' V' Ib' N') as IN'.
  assert (F : Forall2 (fun c c' => In c ps /\ In c' ps' /\ not_brighter c c') ps ps').
  { assert (F : Forall2 not_brighter ps ps').
    { unfold neighbourhood in N, N'. apply map_res_inv in N, N'. revert N'. clear IN IN' Q Q'. revert ps'. induction N as [|[tx ty] c l ps A N IH]; intros ps' N'; inversion N' as [|? c' ? ps'' A' N'']; subst; constructor.
      - rewrite <- W, <- H in A'. match type of A with get_pixel _ _ ?px ?py = _ => destruct (P px py) as (k & k' & K & K' & NB) end.
        { unfold inside in *. lia. } rewrite K in A. rewrite K' in A'. apply Ok_inj in A, A'. subst. exact NB.
      - apply IH, N''. }
    clear - F. induction F as [|c c' ps ps' NB F IH]; constructor; [cbn; auto|]. revert IH. apply Forall2_impl'. cbn. tauto. }
  assert (PK : forall pick, channel pick -> (forall c c', not_brighter c c' -> fle (pick c) (pick c') = true) ->
    Forall2 (fun c c' => num 0 1 (pick c) /\ num 0 1 (pick c') /\ fle (pick c) (pick c') = true) ps ps').
  { intros pick Ch Hp. revert F. apply Forall2_impl'. intros c c' (A & A' & NB). split; [apply gamut_channel; auto|]. split; [apply gamut_channel; auto|]. auto. }
  pose proof (any_coefficients L r sigma X Hr Sg) as DC.
  split; [|split]; unfold weighted_sum; cbn [d0 d1 d2]; apply weighted_le; auto; apply PK; unfold channel; auto; intros c c' (B0 & B1 & B2); auto.
Qed.


Lemma tone_images (up : bool) f m b b' r r' : tone_curve up f -> valid b -> valid b' -> (forall c, In c (data b) -> in_gamut c) -> (forall c, In c (data b') -> in_gamut c) ->
  recolored f b r -> recolored f b' r' -> image_not_brighter m b b' -> if up then image_not_brighter m r r' else image_not_brighter m r' r.
Proof.
  intros (h & H1 & H2 & H3) V V' G G' (Vr & W & H & P) (Vr' & W' & H' & P') (Wb & Hb & Q).
  assert (K : forall x y, inside b x y -> exists c c', get_pixel m r x y = Ok (f c) /\ get_pixel m r' x y = Ok (f c') /\ in_gamut c /\ in_gamut c' /\ not_brighter c c').
  { intros x y I. destruct (Q x y I) as (c & c' & E & E' & N). exists c, c'.
    assert (I' : inside b' x y) by (unfold inside, Rgb in *; lia).
    split; [now apply P|]. split; [now apply P'|]. split; [|split; [|exact N]].
    - apply G. apply (data_In m); auto. now exists x, y.
    - apply G'. apply (data_In m); auto. now exists x, y. }
  assert (N : forall c c', in_gamut c -> in_gamut c' -> not_brighter c c' -> if up then not_brighter (f c) (f c') else not_brighter (f c') (f c)).
  { intros c c' C C' (N0 & N1 & N2). rewrite (H3 c C), (H3 c' C'). destruct C as (C0 & C1 & C2 & _), C' as (C0' & C1' & C2' & _).
    pose proof (H2 _ _ C0 C0' N0). pose proof (H2 _ _ C1 C1' N1). pose proof (H2 _ _ C2 C2' N2). unfold not_brighter. cbn [d0 d1 d2]. destruct up; auto. }
  destruct up.
  - split; [unfold Rgb in *; lia|]. split; [unfold Rgb in *; lia|]. intros x y I. assert (I' : inside b x y) by (unfold inside, Rgb in *; lia).
    destruct (K x y I') as (c & c' & E & E' & C & C' & NB). exists (f c), (f c'). auto.
  - split; [unfold Rgb in *; lia|]. split; [unfold Rgb in *; lia|]. intros x y I. assert (I' : inside b x y) by (unfold inside, Rgb in *; lia).
    destruct (K x y I') as (c & c' & E & E' & C & C' & NB). exists (f c'), (f c). auto.
Qed.
Lemma tone_gamut (up : bool) f b r : tone_curve up f -> valid b -> (forall c, In c (data b) -> in_gamut c) -> recolored f b r -> forall c, In c (data r) -> in_gamut c.
Proof.
  intros T V G (Vr & W & H & P) c I. apply (data_In Checked) in I; auto. destruct I as (x & y & I & E). assert (I' : inside b x y) by (unfold inside, Rgb in *; lia).
  destruct (get_pixel_inside Checked b x y V I') as (k & K). rewrite (P Checked x y k I' K) in E. apply Ok_inj in E. subst c.
  apply (curve_gamut up f k T). apply G. apply (data_In Checked); auto. now exists x, y.
Qed.
Lemma tone_then_blur L (up : bool) f m b b' r r' k sigma : exp_ok L -> tone_curve up f -> valid b -> valid b' -> (forall c, In c (data b) -> in_gamut c) -> (forall c, In c (data b') -> in_gamut c) ->
  recolored f b r -> recolored f b' r' -> (0 <= k <= 32767)%Z -> sigma_ok k sigma -> image_not_brighter m b b' ->
  exists o o', gaussian_blur L m r k sigma = Ok o /\ gaussian_blur L m r' k sigma = Ok o' /\ if up then image_not_brighter m o o' else image_not_brighter m o' o.
Proof.
  intros X T V V' G G' R R' Hk Sg N. pose proof (tone_images up f m b b' r r' T V V' G G' R R' N) as M.
  pose proof (tone_gamut up f b r T V G R) as A. pose proof (tone_gamut up f b' r' T V' G' R') as A'. destruct R as [Vr _], R' as [Vr' _].
  destruct up; [apply (blur_order_any L m r r'); auto|].
  destruct (blur_order_any L m r' r k sigma) as (o & o' & E & E' & Q); auto. exists o', o. auto.
Qed.
