(** Proofs for C76: drawing in reduced colours stays in gamut, although the
    hues it works with may be NaN. *)
From Coq Require Import Reals Lra Lia ZArith Bool List.
From Flocq Require Import Core.Core IEEE754.BinarySingleNaN.
From Verif Require Import Base PixelBuffer BaseLemmas BufferSpec PixelBufferProofs F32 Color F32Lemmas ColorSpec ColorProofs Kernel KernelSpec ComposeProofs Gauss2Proofs FilterProofs Filter2Proofs MeaningSpec DrawingProofs.
Open Scope R_scope.

Lemma fmax_nan_r a x : is_nan x = true -> is_nan a = false -> fmax a x = a.
Proof. intros N A. unfold fmax. rewrite A, N. reflexivity. Qed.
Lemma fmin_nan_r a x : is_nan x = true -> is_nan a = false -> fmin a x = a.
Proof. intros N A. unfold fmin. rewrite A, N. reflexivity. Qed.
Lemma fmax_or a x : num 0 1 a -> in01_or_nan x -> num 0 1 (fmax a x) /\ B2R a <= B2R (fmax a x) /\ (is_nan x = false -> B2R x <= B2R (fmax a x)).
Proof.
  intros A [N|I]. { rewrite fmax_nan_r; eauto using num_not_nan. split; [exact A|]. split; [lra|]. rewrite N. discriminate. }
  apply in01_num in I. destruct A as [Fa Ra]. destruct I as [Fx Rx]. destruct (fmax_val a x Fa Fx) as [F E]. split; [split; [exact F|]|]; rewrite E; unfold Rmax; destruct Rle_dec; repeat split; intros; lra.
Qed.
Lemma fmin_or a x : num 0 1 a -> in01_or_nan x -> num 0 1 (fmin a x) /\ B2R (fmin a x) <= B2R a /\ (is_nan x = false -> B2R (fmin a x) <= B2R x).
Proof.
  intros A [N|I]. { rewrite fmin_nan_r; eauto using num_not_nan. split; [exact A|]. split; [lra|]. rewrite N. discriminate. }
  apply in01_num in I. destruct A as [Fa Ra]. destruct I as [Fx Rx]. destruct (fmin_val a x Fa Fx) as [F E]. split; [split; [exact F|]|]; rewrite E; unfold Rmin; destruct Rle_dec; repeat split; intros; lra.
Qed.
Definition tame (c : Rgb) : Prop := in01 (d0 c) /\ in01 (d1 c) /\ in01 (d2 c).
Definition wild (c : Rgb) : Prop := in01_or_nan (d0 c) /\ in01_or_nan (d1 c) /\ in01_or_nan (d2 c).
Lemma max_wild c : wild c -> num 0 1 (rgb_max c).
Proof.
  intros (A & B & C). unfold rgb_max. destruct (fmax_or f0 (d0 c)) as [X _]; auto. { split; [auto with fin|rewrite f0_R; lra]. }
  destruct (fmax_or _ (d1 c) X B) as [Y _]. destruct (fmax_or _ (d2 c) Y C) as [Z _]. exact Z.
Qed.
Lemma min_wild c : wild c -> num 0 1 (rgb_min c).
Proof.
  intros (A & B & C). unfold rgb_min. destruct (fmin_or f1 (d0 c)) as [X _]; auto. { split; [auto with fin|rewrite f1_R; lra]. }
  destruct (fmin_or _ (d1 c) X B) as [Y _]. destruct (fmin_or _ (d2 c) Y C) as [Z _]. exact Z.
Qed.

Definition loose (x : f32) : Prop := is_nan x = true \/ num (-8388608) 8388608 x.
Lemma sub_nan_l x y : is_nan x = true -> is_nan (fsub x y) = true.
Proof. destruct x; try discriminate. reflexivity. Qed.
Lemma sub_nan_r x y : is_nan y = true -> is_nan (fsub x y) = true.
Proof. destruct y; try discriminate. destruct x; reflexivity. Qed.
Lemma add_nan_l x y : is_nan x = true -> is_nan (fadd x y) = true.
Proof. destruct x; try discriminate. reflexivity. Qed.
Lemma div_nan_l x y : is_nan x = true -> is_nan (fdiv x y) = true.
Proof. destruct x; try discriminate. reflexivity. Qed.
Lemma hue_part x y d k : in01_or_nan x -> in01_or_nan y -> fin d -> / 32768 <= B2R d -> num 0 6 k -> loose (fdiv (fadd (fdiv (fsub x y) d) k) (ofZ 6)).
Proof.
  intros X Y Fd Rd [Fk Rk]. destruct X as [N|X]. { left. apply div_nan_l, add_nan_l, div_nan_l, sub_nan_l, N. }
  destruct Y as [N|Y]. { left. apply div_nan_l, add_nan_l, div_nan_l, sub_nan_r, N. }
  right. apply in01_num in X, Y. destruct X as [Fx Rx]. destruct Y as [Fy Ry].
  destruct (fsub_num x y (-1) 1) as [[F1 R1] _]; auto; try (apply fmt_k; lia). { lra. }
  assert (Q : -32768 <= B2R (fsub x y) / B2R d <= 32768).
  { assert (P : 0 < B2R d) by lra. split.
    - apply Rmult_le_reg_r with (B2R d); [exact P|]. unfold Rdiv. rewrite Rmult_assoc, Rinv_l by lra. lra.
    - apply Rmult_le_reg_r with (B2R d); [exact P|]. unfold Rdiv. rewrite Rmult_assoc, Rinv_l by lra. lra. }
  destruct (fdiv_num (fsub x y) d (-32768) 32768) as [[F2 R2] _]; auto; try (apply fmt_k; lia). { lra. }
  destruct (fadd_num (fdiv (fsub x y) d) k (-32768) 32774) as [[F3 R3] _]; auto; try (apply fmt_k; lia). { lra. }
  destruct (fdiv_num (fadd (fdiv (fsub x y) d) k) (ofZ 6) (-8388608) 8388608) as [N _]; auto; try (apply fmt_k; lia).
  - apply ofZ_fin. lia.
  - rewrite ofZ_R by lia. lra.
  - rewrite ofZ_R by lia. lra.
Qed.
Lemma num_f0_06 : num 0 6 f0. Proof. split; [auto with fin|rewrite f0_R; lra]. Qed.
Lemma num_k k : (0 <= k <= 6)%Z -> num 0 6 (ofZ k).
Proof. intros H. split; [apply ofZ_fin; lia|]. rewrite ofZ_R by lia. split; [apply (IZR_le 0)|apply (IZR_le _ 6)]; lia. Qed.

Lemma hsl_wild c : wild c -> let h := rgb_to_hsl c in loose (d0 h) /\ num 0 1 (d1 h) /\ in01 (d2 h).
Proof.
  intros W. cbv zeta. pose proof (max_wild c W) as [FM RM]. pose proof (min_wild c W) as [Fm Rm]. destruct W as (W0 & W1 & W2).
  unfold rgb_to_hsl. set (mx := rgb_max c) in *. set (mn := rgb_min c) in *. clearbody mx mn.
  destruct (fadd_num mx mn 0 2) as [[FS RS] ES]; auto; try (apply fmt_k; lia). { lra. }
  assert (L : num 0 1 (fdiv (fadd mx mn) f2)).
  { apply fdiv_num; auto with fin; try (apply fmt_k; lia); rewrite f2_R; lra. }
  destruct (fsub_num mx mn (-1) 1) as [[FD RD] ED]; auto; try (apply fmt_k; lia). { lra. }
  destruct (flt (fsub mx mn) EPSILON) eqn:Hd; cbn [d0 d1 d2].
  { split; [right; split; [auto with fin|rewrite f0_R; lra]|]. split; [split; [auto with fin|rewrite f0_R; lra]|]. apply in01_num. exact L. }
  apply flt_Rf in Hd; auto using EPS_fin. rewrite EPS_R in Hd.
  split; [|split; [|apply in01_num; exact L]].
  - destruct (flt (fabs (fsub mx (d0 c))) EPSILON).
    + apply hue_part; auto. destruct (flt (d1 c) (d2 c)); [apply num_k; lia|apply num_f0_06].
    + destruct (flt (fabs (fsub mx (d1 c))) EPSILON); apply hue_part; auto; [apply (num_k 2)|apply (num_k 4)]; lia.
  - destruct (flt (dec 1 2) (fdiv (fadd mx mn) f2)).
    + destruct (fsub_num f2 mx 1 2) as [[FA NA] EA]; auto with fin; try (apply fmt_k; lia). { rewrite f2_R. lra. }
      destruct (fsub_num (fsub f2 mx) mn 0 2) as [[FB NB] EB]; auto; try (apply fmt_k; lia). { lra. }
      assert (B2R (fsub mx mn) <= B2R (fsub (fsub f2 mx) mn)). { rewrite ED, EB. apply rnd_le. lra. }
      apply fdiv_num; auto with fmt; [lra|]. apply div_01; lra.
    + assert (B2R (fsub mx mn) <= B2R (fadd mx mn)). { rewrite ED, ES. apply rnd_le. lra. }
      apply fdiv_num; auto with fmt; [lra|]. apply div_01; lra.
Qed.

Lemma hue2rgb_nan p q t : is_nan t = true -> hue2rgb p q t = p.
Proof. destruct t; try discriminate. reflexivity. Qed.
Lemma add_nan h k : is_nan h = true -> is_nan (fadd h k) = true.
Proof. destruct h; try discriminate. reflexivity. Qed.
Lemma hsl_to_rgb_loose c : loose (d0 c) -> in01 (d1 c) -> in01 (d2 c) -> tame (hsl_to_rgb c).
Proof.
  intros [N|H] Hs Hl.
  - unfold hsl_to_rgb. apply in01_num in Hs, Hl. destruct (feq (d1 c) f0).
    { unfold tame, rgb_new_with_alpha. cbn [d0 d1 d2]. apply in01_num in Hl. rewrite clamp_id; auto. }
    destruct (hsl_pq (d2 c) (d1 c) Hl Hs) as [Q P]. set (q := if flt (d2 c) _ then _ else _) in *. set (p := fsub _ q) in *. clearbody q. clearbody p.
    unfold tame, rgb_new_with_alpha. cbn [d0 d1 d2]. rewrite !hue2rgb_nan by auto using add_nan, sub_nan_l.
    assert (in01 (clamp p)) by (apply clamp_in01; eapply num_not_nan; exact P). auto.
  - destruct (hsl_to_rgb_range (mkC (d0 c) (d1 c) (d2 c) f1)) as (A & B & C & _); auto with fin.
    revert A B C. unfold hsl_to_rgb, tame. cbn [d0 d1 d2 d3]. destruct (feq (d1 c) f0); auto.
Qed.
Lemma saturated_wild f c : wild c -> fin f -> tame (with_saturation f c).
Proof.
  intros W F. destruct (hsl_wild c W) as (A & B & C). apply hsl_to_rgb_loose; cbn [d0 d1 d2]; auto.
  apply clamp_in01. apply fmul_not_nan; auto. apply B.
Qed.
Lemma gamma_tame L g c : bounded_powf L -> fin (fdiv f1 g) -> 0 < B2R (fdiv f1 g) -> tame c -> tame (with_gamma L g c).
Proof.
  intros BL F P (A & B & C). unfold with_gamma, map_channels, tame. cbn [d0 d1 d2].
  assert (K : forall v, in01 v -> in01 (clamp (powf L (clamp v) (fdiv f1 g)))).
  { intros v V. rewrite clamp_id; rewrite clamp_id by exact V; apply BL; auto. }
  auto.
Qed.
Lemma minmax_in01 x : in01 (fmax (fmin x f1) f0).
Proof.
  destruct (is_nan x) eqn:N. { destruct x; try discriminate. split; reflexivity. }
  destruct (is_finite x) eqn:F. 2:{ destruct x as [|[|]| |]; try discriminate; split; reflexivity. }
  destruct (fmin_val x f1 F) as [F1 E1]; auto with fin. destruct (fmax_val _ f0 F1) as [F2 E2]; auto with fin.
  apply in01_num. split; [exact F2|]. rewrite E2, E1, f1_R, f0_R. unfold Rmin, Rmax. repeat destruct Rle_dec; lra.
Qed.
Lemma hsl_no_alpha c a : let h := rgb_to_hsl c in let h' := rgb_to_hsl (mkC (d0 c) (d1 c) (d2 c) a) in d0 h = d0 h' /\ d1 h = d1 h' /\ d2 h = d2 h'.
Proof. destruct c as [x y z w]. cbv zeta. unfold rgb_to_hsl. change (rgb_max (mkC (d0 (mkC x y z w)) (d1 (mkC x y z w)) (d2 (mkC x y z w)) a)) with (rgb_max (mkC x y z w)).
  change (rgb_min (mkC (d0 (mkC x y z w)) (d1 (mkC x y z w)) (d2 (mkC x y z w)) a)) with (rgb_min (mkC x y z w)). cbn [d0 d1 d2]. destruct (flt _ EPSILON); cbn [d0 d1 d2]; auto. Qed.
Lemma vibrance_tame L f c : tame c -> in_gamut (with_vibrance L f c) /\ d3 (with_vibrance L f c) = f1.
Proof.
  intros (A & B & C). destruct (rgb_to_hsl_range (mkC (d0 c) (d1 c) (d2 c) f1)) as (R0 & R1 & R2 & _). { repeat split; apply A || apply B || apply C || reflexivity. }
  destruct (hsl_no_alpha c f1) as (E0 & E1 & E2). rewrite <- E0 in R0. rewrite <- E2 in R2.
  split; [|unfold with_vibrance, hsl_to_rgb; destruct (feq _ _); reflexivity].
  unfold with_vibrance. cbv zeta. apply hsl_to_rgb_range; unfold raw_new; cbn [d0 d1 d2 d3]; auto using minmax_in01 with fin.
  apply in01_num in R0. eapply num_weak; [exact R0|lra|lra].
Qed.

Lemma unsharp_wild L m (b : PixelBuffer Rgb) r factor sigma out : valid b -> (0 <= r <= 32767)%Z ->
  unsharp L m b r factor sigma = Ok out -> all_pixels wild out.
Proof.
  intros V Hr E c Hc. destruct (unsharp_lemma L m b r factor sigma V Hr) as (out' & E' & Vo & W & H & P).
  rewrite E in E'. apply Ok_inj in E'. subst out'.
  apply (data_In m) in Hc; auto. destruct Hc as [x [y [I Hp]]]. assert (I' : inside b x y) by (unfold inside in *; lia).
  destruct (P x y I') as (c0 & ps & E1 & E2 & E3). cbv zeta in E3. rewrite Hp in E3. apply Ok_inj in E3. subst c.
  unfold wild, rgb_new_with_alpha. cbn [d0 d1 d2]. auto using clamp_or.
Qed.
Lemma reduced_gamut L m (d o r : PixelBuffer Rgb) : valid d -> valid o -> width d = width o -> height d = height o -> bounded_powf L ->
  merge_color_reduced L m d o = Ok r -> all_pixels (fun c => in_gamut c /\ d3 c = f1) r.
Proof.
  intros Vd Vo W H BL. unfold merge_color_reduced.
  destruct (map_pure_all reduce_color o Vo) as (rc & -> & V1 & W1 & H1 & _). cbn [bind].
  destruct (blur_total L m rc 2 None V1 ltac:(lia)) as (g2 & -> & V2 & W2 & H2). cbn [bind].
  destruct (compose2_all m d g2 RGB_NONE (fun c1 c2 => hsv_to_rgb (with_1 (rgb_to_hsv c1) (d1 (rgb_to_hsv c2)))) (fun _ => True))
    as (o1 & -> & V3 & W3 & H3 & _); auto; try lia. cbn [bind].
  destruct (blur_total L m o 3 None Vo ltac:(lia)) as (g3 & -> & V4 & W4 & H4). cbn [bind].
  destruct (compose2_all m o1 g3 RGB_NONE (fun c1 c2 => hsv_to_rgb (with_0 (rgb_to_hsv c1) (d0 (rgb_to_hsv c2)))) (fun _ => True))
    as (o2 & -> & V5 & W5 & H5 & _); auto; try lia. cbn [bind].
  destruct (blur_total L m o 4 None Vo ltac:(lia)) as (g4 & -> & V6 & W6 & H6). cbn [bind].
  destruct (compose2_all m o2 g4 RGB_NONE (fun c1 c2 =>
    hsv_to_rgb (with_2 (rgb_to_hsv c1) (fmul (d2 (rgb_to_hsv c1)) (d2 (rgb_to_hsv c2))))) (fun _ => True))
    as (o3 & -> & V7 & W7 & H7 & _); auto; try lia. cbn [bind].
  destruct (unsharp_total L m o3 3 (dec 15 10) None V7 ltac:(lia)) as (u & E8 & V8 & W8 & H8).
  pose proof (unsharp_wild L m o3 3 (dec 15 10) None u V7 ltac:(lia) E8) as WU. rewrite E8. cbn [bind].
  destruct (map_pure_all (fun x => with_vibrance L (dec 3 10) (with_gamma L (dec 11 10) (with_saturation (dec 13 10) x))) u V8)
    as (r' & -> & V9 & W9 & H9 & P). intros E. apply Ok_inj in E. subst r'. intros c Hc. destruct (P c Hc) as (c' & Hc' & ->).
  apply vibrance_tame, gamma_tame; auto.
  - reflexivity.
  - fval (fdiv f1 (dec 11 10)) K. lra.
  - apply saturated_wild; [now apply WU|reflexivity].
Qed.
Lemma drawing_reduced L m (b : PixelBuffer Rgb) radius out : valid b -> (0 <= radius <= 32767)%Z -> exp_ok L -> bounded_powf L ->
  drawing L m b radius DReducedColors = Ok out -> all_pixels (fun c => in_gamut c /\ d3 c = f1) out.
Proof.
  intros V Hr X BL. unfold drawing.
  destruct (map_pure_all (map_channels (fun v => fadd (fmul v (dec 8 10)) (dec 2 10))) b V) as (l & -> & V1 & W1 & H1 & _). cbn [bind].
  destruct (blur_total L m l 1 None V1 ltac:(lia)) as (b1 & -> & V2 & W2 & H2). cbn [bind].
  destruct (unsharp_total L m b1 4 (ofZ 4) (Some (ofZ 5)) V2 ltac:(lia)) as (b1' & -> & V3 & W3 & H3). cbn [bind].
  destruct (map_pure_all (with_contrast (dec 105 100)) b1' V3) as (b1'' & -> & V4 & W4 & H4 & _). cbn [bind].
  destruct (blur_total L m l radius None V1 ltac:(lia)) as (b2 & -> & V5 & W5 & H5). cbn [bind].
  destruct (map_pure_all invert b2 V5) as (b2' & -> & V6 & W6 & H6 & _). cbn [bind].
  destruct (compose2_all m b1'' b2' RGB_NONE drawing_pixel (fun _ => True)) as (d & -> & V7 & W7 & H7 & _); auto; try lia.
  cbn [bind].
  destruct (unsharp_total L m d 2 f1 None V7 ltac:(lia)) as (d' & -> & V8 & W8 & H8). cbn [bind].
  destruct (despeckle_lemma m d' (dec 15 100) 1 V8) as (d'' & -> & V9 & W9 & H9 & _). cbn [bind].
  intros E. apply (reduced_gamut L m d'' b out); auto; lia.
Qed.
