(** Proofs about noise strength and colour temperature (C48, C49). *)
From Coq Require Import ZArith Reals List Bool Lia Lra.
From Flocq Require Import Core IEEE754.BinarySingleNaN.
From Verif Require Import Base BaseLemmas PixelBuffer BufferSpec PixelBufferProofs F32 F32Lemmas Color ColorSpec ColorProofs.
From Verif Require Import Kernel KernelSpec GaussProofs Gauss2Proofs FilterProofs ResampleProofs Ops OpsSpec OpsProofs EqualizeProofs HistogramProofs BalanceProofs NoiseProofs.
Import ListNotations.
Open Scope Z_scope.

(** ** Noise (C48) *)
Lemma new_with_alpha_eq k a b c d : new_with_alpha k a b c d = mkC (stored k a) (stored k b) (stored k c) (stored k d).
Proof. destruct k; reflexivity. Qed.

Lemma channel_noise_l {R} (gen : R -> R * f32) k s (b : PixelBuffer col) strength : valid b ->
  let f := map_color_channels k (fun s v => let '(s, noise) := gen s in Ok (s, mix_noise strength noise v)) in
  exists s' r, map_colors f s b = Ok (s', r) /\ mod_colors f s b = Ok (s', r) /\
    valid r /\ width r = width b /\ height r = height b /\
    forall m x y, inside b x y -> exists c c', get_pixel m b x y = Ok c /\ get_pixel m r x y = Ok c' /\
      noisy gen k strength c c'.
Proof.
  intros V f. apply map_colors_rel; [exact V|]. intros s0 c _.
  destruct (gen s0) as [s1 n0] eqn:E0. destruct (gen s1) as [s2 n1] eqn:E1. destruct (gen s2) as [s3 n2] eqn:E2.
  eexists. eexists. split.
  - unfold f, map_color_channels, try_map_color_channels. rewrite E0. cbn [bind]. rewrite E1. cbn [bind]. rewrite E2. cbn [bind]. reflexivity.
  - exists n0, n1, n2. rewrite new_with_alpha_eq.
    split; [exists s0; now rewrite E0|]. split; [exists s1; now rewrite E1|]. split; [exists s2; now rewrite E2|]. reflexivity.
Qed.

Lemma mix_not_nan strength n v : num (-1000000) 1000000 strength -> num (-65536) 65536 n -> in01 v ->
  is_nan (mix_noise strength n v) = false.
Proof.
  intros [Fs Rs] [Fn Rn] Hv. apply in01_num in Hv. destruct Hv as [Fv Rv]. unfold mix_noise.
  assert (FM : fmt (IZR 8192 * 16777216)) by (apply fmt24; lia).
  destruct (fmul_ok n strength (IZR 8192 * 16777216)) as [A _]; auto.
  { rewrite Rabs_mult. assert (Rabs (B2R n) <= 65536)%R by (apply Rabs_le; lra).
    assert (Rabs (B2R strength) <= 1000000)%R by (apply Rabs_le; lra).
    pose proof (Rabs_pos (B2R n)). pose proof (Rabs_pos (B2R strength)). nra. }
  destruct (fsub_ok f1 strength (IZR 8192 * 16777216)) as [B _]; auto with fin.
  { rewrite f1_R. apply Rabs_le. lra. }
  apply fadd_not_nan; [exact A|]. now apply fmul_not_nan.
Qed.
Lemma mix_0 n v : fin n -> in01 v -> fin (mix_noise f0 n v) /\ B2R (mix_noise f0 n v) = B2R v.
Proof.
  intros Fn Hv. apply in01_num in Hv. destruct Hv as [Fv Rv]. unfold mix_noise.
  destruct (fmul_0_r n f0 Fn f0_fin f0_R) as [A1 A2].
  assert (E : fsub f1 f0 = f1) by reflexivity. rewrite E.
  destruct (fmul_1_l v Fv) as [B1 B2]. destruct (fadd_0_l _ _ A1 B1 A2) as [C1 C2]. split; [auto|]. now rewrite C2, B2.
Qed.
Lemma stored_same k x v : fin x -> B2R x = B2R v -> in01 v -> same (stored k x) v.
Proof.
  intros F E Hv. assert (I : in01 x). { apply in01_num in Hv. apply in01_num. split; [auto|]. rewrite E. apply Hv. }
  apply in01_num in Hv. destruct Hv as [Fv _].
  destruct k; cbn [stored]; rewrite ?clamp_id by auto; now apply same_R.
Qed.
Lemma noisy_0 {R} (gen : R -> R * f32) k c c' : (forall s, is_finite (snd (gen s)) = true) -> in_gamut c ->
  noisy gen k f0 c c' -> same_color c' c.
Proof.
  intros G (G0 & G1 & G2 & G3) (n0 & n1 & n2 & (s0 & ->) & (s1 & ->) & (s2 & ->) & ->).
  repeat split; cbn [d0 d1 d2 d3].
  - destruct (mix_0 _ _ (G s0) G0). now apply stored_same.
  - destruct (mix_0 _ _ (G s1) G1). now apply stored_same.
  - destruct (mix_0 _ _ (G s2) G2). now apply stored_same.
  - apply stored_same; auto. apply in01_num in G3. apply G3.
Qed.
Lemma noisy_alpha {R} (gen : R -> R * f32) k st c c' : in01 (alpha c) -> noisy gen k st c c' -> alpha c' = alpha c.
Proof. intros A (n0 & n1 & n2 & _ & _ & _ & ->). unfold alpha in *. cbn [d3]. destruct k; cbn [stored]; rewrite ?clamp_id by auto; auto. Qed.

Lemma bounded_num b v x : fin b -> B2R b = v -> fle (fabs x) b = true -> num (- v) v x.
Proof.
  intros Fb <- H. assert (Fx : fin x).
  { unfold fin. destruct x as [|[|]| |]; try reflexivity; destruct b; try discriminate. }
  assert (FA : fin (fabs x)) by (unfold fin, fabs; now rewrite is_finite_Babs).
  apply fle_R in H; auto. rewrite fabs_R in H. split; [auto|]. apply Rabs_le_inv in H. lra.
Qed.
Lemma noisy_gamut {R} (gen : R -> R * f32) k st c c' : k = KRgb \/ k = KSrgb -> small_draws gen -> small_strength st ->
  in_gamut c -> noisy gen k st c c' -> in_gamut c'.
Proof.
  intros K G S (G0 & G1 & G2 & G3) (n0 & n1 & n2 & (s0 & ->) & (s1 & ->) & (s2 & ->) & ->).
  assert (NS : num (-1000000) 1000000 st).
  { destruct (ofZ_val 1000000 ltac:(lia)) as [F R']. apply (bounded_num (ofZ 1000000)); auto. }
  assert (ND : forall s, num (-65536) 65536 (snd (gen s))).
  { intros s. destruct (ofZ_val 65536 ltac:(lia)) as [F R']. apply (bounded_num (ofZ 65536)); auto. }
  assert (SK : forall x, is_nan x = false -> in01 (stored k x)) by (intros x N; destruct K as [-> | ->]; now apply clamp_in01).
  repeat split; cbn [d0 d1 d2 d3]; apply SK.
  all: try (apply mix_not_nan; auto; fail).
  all: now apply in01_not_nan.
Qed.

(** ** Temperature (C49) *)
Lemma kelvin_range t : 1000 <= kelvin t <= 12000.
Proof. unfold kelvin. lia. Qed.
Lemma usize_pos v : 0 <= f_as_usize v.
Proof. apply fcast_range. lia. Qed.
Lemma clamp_kelvin t : clamp_int (f_as_usize t) 1000 12000 = Ok (kelvin t).
Proof.
  unfold clamp_int, kelvin. replace (12000 <? 1000) with false by reflexivity. f_equal.
  destruct (Z.ltb_spec (f_as_usize t) 1000), (Z.ltb_spec 12000 (f_as_usize t)); lia.
Qed.
Lemma kelvin_ofZ T : 1000 <= T <= 12000 -> kelvin (ofZ T) = T.
Proof.
  intros H. destruct (ofZ_val T ltac:(lia)) as [F R']. unfold kelvin, f_as_usize. rewrite (cast_int _ _ _ T F R'). lia.
Qed.
Lemma kelvin_only t t' : kelvin t = kelvin t' -> convert_kelvin_to_rgb t = convert_kelvin_to_rgb t'.
Proof. intros E. unfold convert_kelvin_to_rgb. cbv zeta. rewrite !clamp_kelvin, E. reflexivity. Qed.
Lemma table_zlen : zlen TEMPERATURE_TABLE = 12. Proof. reflexivity. Qed.

Lemma kelvin_total t : exists c, convert_kelvin_to_rgb t = Ok c.
Proof.
  unfold convert_kelvin_to_rgb. cbv zeta. rewrite clamp_kelvin. cbn [bind].
  pose proof (kelvin_range t) as Hr. set (T := kelvin t) in *.
  assert (D : 1 <= T / 1000 <= 12).
  { split; [apply Z.div_le_lower_bound; lia|]. apply Z.div_le_upper_bound; lia. }
  destruct (idx_ok TEMPERATURE_TABLE (T / 1000 - 1)) as [[x y] E1]; [rewrite table_zlen; lia|]. rewrite E1. cbn [bind].
  destruct (dlt _ _) eqn:Q; [|cbn [bind]; eauto].
  destruct (Z.eq_dec T 12000) as [E12|N].
  - rewrite E12 in Q. exfalso. revert Q. vm_compute. discriminate.
  - assert (T / 1000 <= 11). { assert (T / 1000 < 12); [|lia]. apply Z.div_lt_upper_bound; lia. }
    destruct (idx_ok TEMPERATURE_TABLE (T / 1000)) as [[x2 y2] E2]; [rewrite table_zlen; lia|]. rewrite E2. cbn [bind]. eauto.
Qed.

Lemma map_pure_conv f (b : PixelBuffer Rgb) : map_pure f b = Ok (convert f b).
Proof. unfold map_pure. rewrite (map_total _ f); reflexivity. Qed.

Lemma temperature_total_l L (b : PixelBuffer Rgb) t t' tint : valid b ->
  exists r, change_color_temperature L b t t' tint = Ok r /\ valid r /\ width r = width b /\ height r = height b.
Proof.
  intros V. unfold change_color_temperature, calculate_factors.
  destruct (kelvin_total t) as [c ->]. destruct (kelvin_total t') as [c' ->]. cbn [bind]. cbv zeta.
  match goal with |- context [if flt f0 ?x then _ else _] => generalize x end. intros tp.
  match goal with |- context [with_0 _ (powf L _ ?x)] => generalize x end. intros rp.
  match goal with |- context [with_2 _ (powf L _ ?x)] => generalize x end. intros bp.
  rewrite !map_pure_conv.
  match goal with |- context [if flt f0 tp then Ok (convert ?f b) else Ok (convert ?g b)] =>
    assert (E : exists h, (if flt f0 tp then Ok (convert f b) else Ok (convert g b)) = Ok (convert h b)) by (destruct (flt f0 tp); eauto) end.
  destruct E as [h ->]. cbn [bind]. destruct (same_dims_convert h b V) as (V1 & W1 & H1).
  set (r1 := convert h b) in *. clearbody r1.
  assert (E : exists r2, (if flt f0 rp then map_pure (fun c => with_0 c (powf L (d0 c) rp)) r1 else Ok r1) = Ok r2 /\ valid r2 /\
     width r2 = width b /\ height r2 = height b).
  { destruct (flt f0 rp); [|exists r1; auto]. rewrite map_pure_conv. eexists. split; [reflexivity|].
    destruct (same_dims_convert (fun c => with_0 c (powf L (d0 c) rp)) r1 V1) as (A & B & C).
    split; [auto|]. split; [exact (eq_trans B W1)|exact (eq_trans C H1)]. }
  destruct E as (r2 & -> & V2 & W2 & H2). cbn [bind].
  destruct (flt f0 bp); [|exists r2; auto]. rewrite map_pure_conv. eexists. split; [reflexivity|].
  destruct (same_dims_convert (fun c => with_2 c (powf L (d2 c) bp)) r2 V2) as (A & B & C).
  split; [auto|]. split; [exact (eq_trans B W2)|exact (eq_trans C H2)].
Qed.

(** Without tint correction every channel is multiplied by a ratio of the two
    reference colours. *)
Lemma temperature_0 L (b : PixelBuffer Rgb) t t' tint c c' : fle tint f0 = true ->
  convert_kelvin_to_rgb t = Ok c -> convert_kelvin_to_rgb t' = Ok c' ->
  change_color_temperature L b t t' tint = Ok (convert (fun p => rgb_new_with_alpha (fmul (d0 p) (fdiv (d0 c) (d0 c')))
     (fmul (d1 p) (fdiv (d1 c) (d1 c'))) (fmul (d2 p) (fdiv (d2 c) (d2 c'))) (alpha p)) b).
Proof.
  intros T E E'. unfold change_color_temperature, calculate_factors. rewrite E, E'. cbn [bind]. cbv zeta.
  replace (flt f0 tint) with false.
  2:{ symmetry. destruct (flt f0 tint) eqn:Q; [|reflexivity]. pose proof (fle_flt_trans _ _ _ T Q) as X.
      destruct (is_finite tint) eqn:F; [apply flt_R in X; auto; lra|destruct tint as [|[|]| |]; discriminate]. }
  change (flt f0 f0) with false. cbv iota. rewrite map_pure_conv. cbn [bind].
  unfold get_red_tint_pow, get_blue_tint_pow, tint_pow. rewrite T. change (flt f0 f0) with false. reflexivity.
Qed.

Lemma div_self x : fin x -> (0 < B2R x)%R -> fin (fdiv x x) /\ B2R (fdiv x x) = 1%R.
Proof.
  intros F P. destruct (fdiv_num x x 1 1) as [[A B] _]; auto with fmt; [lra| |split; [auto|lra]].
  unfold Rdiv. rewrite Rinv_r by lra. lra.
Qed.
Lemma keep_channel v k : in01 v -> fin k -> B2R k = 1%R -> same (clamp (fmul v k)) v.
Proof.
  intros I F E. apply in01_num in I. destruct I as [Fv Rv].
  destruct (fmul_exact v k) as [A B]; auto; rewrite E, Rmult_1_r in *; auto with fmt.
  destruct (clamp_val (fmul v k) (B2R v) A B Rv) as [C D]. now apply same_R.
Qed.
