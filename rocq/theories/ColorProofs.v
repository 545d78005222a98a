(** Proofs about colours. *)
From Coq Require Import ZArith Reals Lra Lia Bool.
From Flocq Require Import Core.Core IEEE754.BinarySingleNaN Plus_error.
From Verif Require Import Base F32 F32Lemmas Color ColorSpec.
Open Scope R_scope.

(** in01 as real bounds *)
Lemma in01_num x : in01 x <-> num 0 1 x.
Proof.
  split.
  - intros [A B]. assert (F : fin x) by (apply (fle_between f0 x f1); auto with fin).
    apply fle_R in A; auto with fin. apply fle_R in B; auto with fin. rewrite f0_R in A. rewrite f1_R in B.
    split; auto.
  - intros [F [A B]]. split; apply fle_R; auto with fin; rewrite ?f0_R, ?f1_R; auto.
Qed.
Lemma in01_fin x : in01 x -> fin x. Proof. rewrite in01_num. apply num_fin. Qed.
Lemma in01_not_nan x : in01 x -> is_nan x = false. Proof. rewrite in01_num. apply num_not_nan. Qed.
Lemma in01_f0 : in01 f0. Proof. split; reflexivity. Qed.
Lemma in01_f1 : in01 f1. Proof. split; reflexivity. Qed.
#[global] Hint Resolve in01_f0 in01_f1 in01_fin : fin.

(** clamp *)
Lemma clamp_id v : in01 v -> clamp v = v.
Proof. intros H. apply in01_num in H. destruct H as [F [A B]]. unfold clamp, fclamp.
  replace (flt v f0) with false. replace (flt f1 v) with false. reflexivity.
  - symmetry. apply flt_Rf; auto with fin. rewrite f1_R. auto.
  - symmetry. apply flt_Rf; auto with fin. Qed.
Lemma clamp_in01 v : is_nan v = false -> in01 (clamp v).
Proof. intros N. unfold clamp, fclamp. destruct (flt v f0) eqn:A; [auto with fin|].
  destruct (flt f1 v) eqn:B; [auto with fin|]. apply in01_num.
  destruct v as [s|[|]| |s m e P]; try discriminate.
  - split; [reflexivity|simpl; lra].
  - assert (F : fin (B754_finite s m e P)) by reflexivity.
    split; auto. apply flt_Rf in A; auto with fin. apply flt_Rf in B; auto with fin. rewrite f0_R in A. rewrite f1_R in B. lra.
Qed.
Lemma clamp_nan v : is_nan v = true -> is_nan (clamp v) = true.
Proof. destruct v; try discriminate. reflexivity. Qed.
Lemma clamp_clamped v : clamped v (clamp v).
Proof. unfold clamped. destruct (is_nan v) eqn:N; [now apply clamp_nan|]. split; [now apply clamp_in01|apply clamp_id]. Qed.
Lemma clamp_or v : in01_or_nan (clamp v).
Proof. destruct (is_nan v) eqn:N; [left; now apply clamp_nan|right; now apply clamp_in01]. Qed.
#[global] Hint Resolve clamp_or clamp_clamped : col.

(** C26 *)
Lemma op_keeps_alpha L f c : rgb_operation L f -> in01 (alpha c) -> alpha (f c) = alpha c.
Proof.
  intros H A. unfold alpha in *.
  assert (E : clamp (d3 c) = d3 c) by (now apply clamp_id).
  assert (Hs : forall h s l, d3 (hsl_to_rgb (mkC h s l (d3 c))) = d3 c).
  { intros. unfold hsl_to_rgb. cbn [d0 d1 d2 d3 alpha]. destruct (feq s f0); simpl; unfold alpha; simpl; auto. }
  assert (Hl : d3 (rgb_to_hsl c) = d3 c).
  { unfold rgb_to_hsl. destruct flt; reflexivity. }
  destruct H; try reflexivity; try (apply Hs); try exact E.
  unfold modulate. rewrite Hl. apply Hs.
Qed.

Lemma op_clamps L f c : clamping_operation L f ->
  in01_or_nan (d0 (f c)) /\ in01_or_nan (d1 (f c)) /\ in01_or_nan (d2 (f c)).
Proof.
  intros H.
  assert (Hs : forall x, in01_or_nan (d0 (hsl_to_rgb x)) /\ in01_or_nan (d1 (hsl_to_rgb x)) /\ in01_or_nan (d2 (hsl_to_rgb x))).
  { intros x. unfold hsl_to_rgb. destruct (feq (d1 x) f0); simpl; auto with col. }
  destruct H; try (apply Hs); simpl; auto with col.
Qed.

(** C28 *)
Lemma rgb_to_srgb_alpha L c : in01 (d3 c) -> d3 (rgb_to_srgb L c) = d3 c.
Proof. apply clamp_id. Qed.
Lemma srgb_to_rgb_alpha L c : in01 (d3 c) -> d3 (srgb_to_rgb L c) = d3 c.
Proof. apply clamp_id. Qed.
Lemma rgb_to_hsl_alpha c : d3 (rgb_to_hsl c) = d3 c.
Proof. unfold rgb_to_hsl. destruct flt; reflexivity. Qed.
Lemma rgb_to_hsv_alpha c : d3 (rgb_to_hsv c) = d3 c.
Proof. unfold rgb_to_hsv. destruct (_ || _); reflexivity. Qed.
Lemma hsl_to_rgb_alpha c : in01 (d3 c) -> d3 (hsl_to_rgb c) = d3 c.
Proof. unfold hsl_to_rgb. destruct (feq _ _); apply clamp_id. Qed.
Lemma hsv_to_rgb_alpha c : in01 (d3 c) -> d3 (hsv_to_rgb c) = d3 c.
Proof. intros H. unfold hsv_to_rgb. destruct (fle _ _); [reflexivity|].
  repeat match goal with |- context [if ?b then _ else _] => destruct b end; apply clamp_id; exact H. Qed.
Lemma apply_matrix_alpha c m : d3 (apply_matrix c m) = d3 c.
Proof. destruct m as [[r0 r1] r2]. reflexivity. Qed.
Lemma apply_matrix_clamped_alpha c m : d3 (apply_matrix_clamped c m) = d3 c.
Proof. destruct m as [[r0 r1] r2]. reflexivity. Qed.
Lemma xyz_to_lab_alpha L i o c : d3 (xyz_to_lab L i o c) = d3 c.
Proof. destruct i, o; reflexivity. Qed.
Lemma lab_to_xyz_alpha L i o c : d3 (lab_to_xyz L i o c) = d3 c.
Proof. destruct i, o; reflexivity. Qed.
Lemma lch_to_xyz_alpha L i o c : d3 (lch_to_xyz L i o c) = d3 c.
Proof. unfold lch_to_xyz. rewrite lab_to_xyz_alpha. reflexivity. Qed.
Lemma lab_to_lch_alpha L c : d3 (lab_to_lch L c) = d3 c.
Proof. reflexivity. Qed.
Lemma to_xyz_alpha L k c : in01 (d3 c) -> d3 (to_xyz L k c) = d3 c.
Proof. intros H. destruct k; unfold to_xyz, yuv_to_rgb; rewrite ?apply_matrix_alpha, ?lab_to_xyz_alpha, ?lch_to_xyz_alpha; auto.
  - now apply srgb_to_rgb_alpha. - now apply hsl_to_rgb_alpha. - now apply hsv_to_rgb_alpha.
  - rewrite srgb_to_rgb_alpha; rewrite ?apply_matrix_alpha; auto. Qed.
Lemma to_rgb_alpha L k c : in01 (d3 c) -> d3 (to_rgb L k c) = d3 c.
Proof. intros H. destruct k; unfold to_rgb, yuv_to_rgb, xyz_to_rgb, to_lab; rewrite ?apply_matrix_clamped_alpha, ?lab_to_xyz_alpha, ?xyz_to_lab_alpha; auto.
  - now apply srgb_to_rgb_alpha. - now apply hsl_to_rgb_alpha. - now apply hsv_to_rgb_alpha.
  - rewrite srgb_to_rgb_alpha; rewrite ?apply_matrix_alpha; auto.
  - now apply to_xyz_alpha. Qed.
Lemma to_srgb_alpha L k c : in01 (d3 c) -> d3 (to_srgb L k c) = d3 c.
Proof. intros H. destruct k; unfold to_srgb; rewrite ?rgb_to_srgb_alpha; rewrite ?to_rgb_alpha; auto. Qed.
Lemma convert_alpha L k k' c : in01 (alpha c) -> alpha (convert_color L k k' c) = alpha c.
Proof.
  unfold alpha. intros H. destruct k'; unfold convert_color.
  - now apply to_rgb_alpha. - now apply to_srgb_alpha.
  - unfold to_hsl. destruct k; rewrite ?rgb_to_hsl_alpha; auto using to_rgb_alpha.
  - unfold to_hsv. destruct k; rewrite ?rgb_to_hsv_alpha; auto using to_rgb_alpha.
  - unfold to_yuv. destruct k; rewrite ?apply_matrix_alpha; auto using to_srgb_alpha.
  - now apply to_xyz_alpha.
  - unfold to_lab. rewrite xyz_to_lab_alpha. now apply to_xyz_alpha.
  - unfold to_lch, to_lab. rewrite lab_to_lch_alpha, xyz_to_lab_alpha. now apply to_xyz_alpha.
Qed.

(** C29 *)
Lemma fabs_sub_comm x y : fabs (fsub x y) = fabs (fsub y x).
Proof.
  destruct (is_finite x) eqn:Fx, (is_finite y) eqn:Fy.
  - pose proof (Bminus_correct 24 128 p24 e128 mode_NE x y Fx Fy) as A.
    pose proof (Bminus_correct 24 128 p24 e128 mode_NE y x Fy Fx) as B.
    assert (E : round radix2 fx (round_mode mode_NE) (B2R y - B2R x) = - round radix2 fx (round_mode mode_NE) (B2R x - B2R y)).
    { rewrite <- Ropp_minus_distr. apply (rnd_opp (B2R x - B2R y)). }
    rewrite E, Rabs_Ropp in B.
    destruct (Rlt_bool (Rabs (round radix2 fx (round_mode mode_NE) (B2R x - B2R y))) (bpow radix2 128)).
    + destruct A as (A1 & A2 & _), B as (B1 & B2 & _). fold (fsub x y) in A1, A2. fold (fsub y x) in B1, B2.
      apply f_inj.
      * now apply fabs_fin. * now apply fabs_fin.
      * rewrite !fabs_R, A1, B1, Rabs_Ropp. reflexivity.
      * unfold fabs. rewrite !Bsign_Babs; auto; destruct (fsub _ _); discriminate || reflexivity.
    + destruct A as [A _], B as [B _]. fold (fsub x y) in A. fold (fsub y x) in B.
      cbn in A, B. destruct (fsub x y), (fsub y x); simpl in A, B; try discriminate; reflexivity.
  - destruct x, y; try discriminate; reflexivity.
  - destruct x, y; try discriminate; reflexivity.
  - destruct x as [|[|]| |], y as [|[|]| |]; try discriminate; reflexivity.
Qed.
Lemma chan_eq_sym x y : chan_eq x y = chan_eq y x.
Proof. unfold chan_eq. now rewrite fabs_sub_comm. Qed.
Lemma fsub_self x : fin x -> fin (fsub x x) /\ B2R (fsub x x) = 0.
Proof. intros F. destruct (fsub_exact x x F F) as [A B].
  - replace (B2R x - B2R x) with 0 by lra. apply fmt_0.
  - split; auto. lra. Qed.
Lemma EPS_fin : fin EPSILON. Proof. reflexivity. Qed.
Lemma EPS_R : B2R EPSILON = / 32768.
Proof. fval EPSILON H. rewrite H. lra. Qed.
#[global] Hint Resolve EPS_fin : fin.
Lemma chan_eq_refl x : chan_eq x x = true.
Proof. unfold chan_eq. destruct (is_finite x) eqn:F.
  - destruct (fsub_self x F) as [A B]. replace (flt EPSILON (fabs (fsub x x))) with false; auto.
    symmetry. apply flt_Rf; auto with fin. rewrite fabs_R, B, EPS_R, Rabs_R0. lra.
  - destruct x as [|[|]| |]; try discriminate; reflexivity. Qed.
Lemma color_eq_refl c : color_eq c c = true.
Proof. unfold color_eq. now rewrite !chan_eq_refl. Qed.
Lemma color_eq_sym a b : color_eq a b = color_eq b a.
Proof. unfold color_eq. rewrite (chan_eq_sym (d0 a)), (chan_eq_sym (d1 a)), (chan_eq_sym (d2 a)), (chan_eq_sym (d3 a)). reflexivity. Qed.

(** C30 *)
Lemma fmt_eps : fmt (/ 32768).
Proof. replace (/ 32768) with (IZR 1 / IZR (2 ^ 15)) by (simpl; lra). apply fmt_dyad; lia. Qed.
Lemma chan_eq_close x y : fin x -> fin y -> Rabs (B2R x - B2R y) <= / 32768 -> chan_eq x y = true.
Proof. intros A B H. unfold chan_eq. destruct (fsub_num x y (- / 32768) (/ 32768)) as [[F N] _]; auto using fmt_eps, fmt_opp.
  { apply Rabs_le_inv in H. lra. }
  replace (flt _ _) with false; auto. symmetry. apply flt_Rf; auto with fin. rewrite fabs_R, EPS_R. apply Rabs_le. lra. Qed.
Lemma chan_eq_near x y : num 0 1 x -> num 0 1 y -> chan_eq x y = true -> Rabs (B2R x - B2R y) < / 32768 + / 274877906944.
Proof.
  intros [A [A0 A1]] [B [B0 B1]] H. unfold chan_eq in H. apply negb_true_iff in H.
  destruct (fsub_num x y (-1) 1) as [[F N] E]; auto with fmt; [lra|].
  apply flt_Rf in H; auto with fin. rewrite fabs_R, EPS_R, E, rnd_abs in H.
  destruct (Rlt_le_dec (Rabs (B2R x - B2R y)) (/ 32768 + / 274877906944)) as [C|C]; auto.
  exfalso. assert (G : fmt (/ 32768 + / 274877906944)).
  { replace (/ 32768 + / 274877906944) with (IZR 8388609 / IZR (2 ^ 38)) by (simpl; lra). apply fmt_dyad; lia. }
  pose proof (rnd_lo _ _ G C). lra.
Qed.

(** min and max of numbers *)
Lemma fmax_val a b : fin a -> fin b ->
  fin (fmax a b) /\ B2R (fmax a b) = Rmax (B2R a) (B2R b).
Proof. intros A B. unfold fmax.
  replace (is_nan a) with false by (symmetry; unfold fin in *; destruct a; try discriminate; reflexivity).
  replace (is_nan b) with false by (symmetry; unfold fin in *; destruct b; try discriminate; reflexivity).
  destruct (flt a b) eqn:E; split; auto.
  - apply flt_R in E; auto. rewrite Rmax_right; lra.
  - apply flt_Rf in E; auto. rewrite Rmax_left; lra. Qed.
Lemma fmin_val a b : fin a -> fin b ->
  fin (fmin a b) /\ B2R (fmin a b) = Rmin (B2R a) (B2R b).
Proof. intros A B. unfold fmin.
  replace (is_nan a) with false by (symmetry; unfold fin in *; destruct a; try discriminate; reflexivity).
  replace (is_nan b) with false by (symmetry; unfold fin in *; destruct b; try discriminate; reflexivity).
  destruct (flt b a) eqn:E; split; auto.
  - apply flt_R in E; auto. rewrite Rmin_right; lra.
  - apply flt_Rf in E; auto. rewrite Rmin_left; lra. Qed.

Lemma rgb_max_val c : num 0 1 (d0 c) -> num 0 1 (d1 c) -> num 0 1 (d2 c) ->
  num 0 1 (rgb_max c) /\ B2R (d0 c) <= B2R (rgb_max c) /\ B2R (d1 c) <= B2R (rgb_max c) /\ B2R (d2 c) <= B2R (rgb_max c)
  /\ (B2R (rgb_max c) = B2R (d0 c) \/ B2R (rgb_max c) = B2R (d1 c) \/ B2R (rgb_max c) = B2R (d2 c)).
Proof.
  intros [F0 R0] [F1 R1] [F2 R2]. unfold rgb_max.
  destruct (fmax_val f0 (d0 c)) as [A1 A2]; auto with fin.
  destruct (fmax_val (fmax f0 (d0 c)) (d1 c)) as [B1 B2]; auto.
  destruct (fmax_val (fmax (fmax f0 (d0 c)) (d1 c)) (d2 c)) as [C1 C2]; auto.
  rewrite A2, f0_R in B2. rewrite B2 in C2. unfold num. rewrite C2.
  unfold Rmax. repeat destruct Rle_dec; intuition lra.
Qed.
Lemma rgb_min_val c : num 0 1 (d0 c) -> num 0 1 (d1 c) -> num 0 1 (d2 c) ->
  num 0 1 (rgb_min c) /\ B2R (rgb_min c) <= B2R (d0 c) /\ B2R (rgb_min c) <= B2R (d1 c) /\ B2R (rgb_min c) <= B2R (d2 c)
  /\ (B2R (rgb_min c) = B2R (d0 c) \/ B2R (rgb_min c) = B2R (d1 c) \/ B2R (rgb_min c) = B2R (d2 c)).
Proof.
  intros [F0 R0] [F1 R1] [F2 R2]. unfold rgb_min.
  destruct (fmin_val f1 (d0 c)) as [A1 A2]; auto with fin.
  destruct (fmin_val (fmin f1 (d0 c)) (d1 c)) as [B1 B2]; auto.
  destruct (fmin_val (fmin (fmin f1 (d0 c)) (d1 c)) (d2 c)) as [C1 C2]; auto.
  rewrite A2, f1_R in B2. rewrite B2 in C2. unfold num. rewrite C2.
  unfold Rmin. repeat destruct Rle_dec; intuition lra.
Qed.

(** C32 *)
Lemma one_minus x : num 0 1 x -> num 0 1 (fsub f1 x) /\ B2R (fsub f1 x) = rnd (1 - B2R x).
Proof. intros [F H]. destruct (fsub_num f1 x 0 1) as [A B]; auto with fin fmt; rewrite f1_R in *; [lra|auto]. Qed.
Lemma invert_twice_chan x : num 0 1 x -> chan_eq (fsub f1 (fsub f1 x)) x = true.
Proof.
  intros H. destruct (one_minus x H) as [A1 A2]. destruct (one_minus _ A1) as [B1 B2].
  apply chan_eq_close; [apply B1|apply H|]. rewrite B2, A2.
  destruct H as [F H]. destruct A1 as [FA HA], B1 as [FB HB]. rewrite A2 in HA.
  assert (E1 : Rabs (rnd (1 - B2R x) - (1 - B2R x)) <= bpow radix2 (0 - 25)) by (apply rnd_err; [lia|simpl; apply Rabs_le; lra]).
  assert (E2 : Rabs (rnd (1 - rnd (1 - B2R x)) - (1 - rnd (1 - B2R x))) <= bpow radix2 (0 - 25)) by (apply rnd_err; [lia|simpl; apply Rabs_le; lra]).
  change (bpow radix2 (0 - 25)) with (/ 33554432) in E1, E2.
  apply Rabs_le_inv in E1. apply Rabs_le_inv in E2. apply Rabs_le. lra.
Qed.

(** C33 *)
Lemma abs_div_le_1 a b : 0 < b -> Rabs a <= b -> -1 <= a / b <= 1.
Proof. intros P H. apply Rabs_le_inv in H. split.
  - apply Rmult_le_reg_r with b; auto. unfold Rdiv. rewrite Rmult_assoc, Rinv_l by lra. lra.
  - apply Rmult_le_reg_r with b; auto. unfold Rdiv. rewrite Rmult_assoc, Rinv_l by lra. lra. Qed.
Lemma div_01 a b : 0 < b -> 0 <= a <= b -> 0 <= a / b <= 1.
Proof. intros P H. split.
  - apply Rmult_le_reg_r with b; auto. unfold Rdiv. rewrite Rmult_assoc, Rinv_l by lra. lra.
  - apply Rmult_le_reg_r with b; auto. unfold Rdiv. rewrite Rmult_assoc, Rinv_l by lra. lra. Qed.
Lemma div_neg a b : 0 < b -> a <= 0 -> a / b <= 0.
Proof. intros P H. apply Rmult_le_reg_r with b; auto. unfold Rdiv. rewrite Rmult_assoc, Rinv_l by lra. lra. Qed.
Lemma div_pos a b : 0 < b -> 0 <= a -> 0 <= a / b.
Proof. intros P H. apply Rmult_le_reg_r with b; auto. unfold Rdiv. rewrite Rmult_assoc, Rinv_l by lra. lra. Qed.

(** the quotient (x - y) / d where d is the rounded spread of the channels *)
Lemma hue_quot x y d s : num 0 1 x -> num 0 1 y -> fin d -> B2R d = rnd s -> 0 < rnd s ->
  Rabs (B2R x - B2R y) <= s ->
  num (-1) 1 (fdiv (fsub x y) d) /\
  (B2R x < B2R y -> B2R (fdiv (fsub x y) d) <= 0) /\ (B2R y <= B2R x -> 0 <= B2R (fdiv (fsub x y) d)).
Proof.
  intros [Fx Hx] [Fy Hy] Fd Ed P H.
  destruct (fsub_num x y (-1) 1) as [[FA NA] EA]; auto with fmt; [lra|].
  assert (HA : Rabs (B2R (fsub x y)) <= B2R d).
  { rewrite EA, Ed, rnd_abs. now apply rnd_le. }
  destruct (fdiv_num (fsub x y) d (-1) 1) as [ND ED]; auto with fmt; [lra| |].
  { apply abs_div_le_1; lra. }
  split; auto. rewrite ED. split; intros C.
  - apply rnd_hi; auto with fmt. apply div_neg; [lra|]. rewrite EA. apply rnd_hi; auto with fmt. lra.
  - apply rnd_lo; auto with fmt. apply div_pos; [lra|]. rewrite EA. apply rnd_lo; auto with fmt. lra.
Qed.

Lemma six_R : B2R (ofZ 6) = 6. Proof. apply ofZ_R. lia. Qed.
Lemma six_fin : fin (ofZ 6). Proof. apply ofZ_fin. lia. Qed.
Lemma four_R : B2R (ofZ 4) = 4. Proof. apply ofZ_R. lia. Qed.
Lemma four_fin : fin (ofZ 4). Proof. apply ofZ_fin. lia. Qed.
Lemma half_R : B2R (dec 1 2) = / 2. Proof. fval (dec 1 2) H. rewrite H. lra. Qed.
Lemma half_fin : fin (dec 1 2). Proof. reflexivity. Qed.
#[global] Hint Resolve six_fin four_fin half_fin : fin.

Lemma num_div6 x : num 0 6 x -> num 0 1 (fdiv x (ofZ 6)).
Proof. intros [F H]. apply fdiv_num; auto with fin fmt; rewrite six_R; lra. Qed.

Lemma rgb_to_hsl_range c : in_gamut c ->
  in01 (d0 (rgb_to_hsl c)) /\ in01 (d1 (rgb_to_hsl c)) /\ in01 (d2 (rgb_to_hsl c)) /\ in01 (d3 (rgb_to_hsl c)).
Proof.
  intros (G0 & G1 & G2 & G3). rewrite rgb_to_hsl_alpha.
  apply in01_num in G0. apply in01_num in G1. apply in01_num in G2. rewrite !in01_num.
  destruct (rgb_max_val c G0 G1 G2) as ([FM HM] & M0 & M1 & M2 & MX).
  destruct (rgb_min_val c G0 G1 G2) as ([Fm Hm] & m0 & m1 & m2 & MN).
  assert (LM : B2R (rgb_min c) <= B2R (rgb_max c)) by lra.
  unfold rgb_to_hsl. set (mx := rgb_max c) in *. set (mn := rgb_min c) in *. clearbody mx mn.
  destruct (fsub_num mx mn 0 1) as [[FD ND] ED]; auto with fmt; [lra|].
  destruct (fadd_num mx mn 0 2) as [[FS NS] ES]; auto with fmt; [lra|].
  destruct (fdiv_num (fadd mx mn) f2 0 1) as [[FL NL] EL]; auto with fin fmt; rewrite ?f2_R; try lra.
  destruct (flt (fsub mx mn) EPSILON) eqn:Hd.
  - cbn [d0 d1 d2 d3]. apply in01_num in G3. split; [|split; [|split]]; auto; try (split; auto with fin; rewrite f0_R; lra).
  - apply flt_Rf in Hd; auto with fin. rewrite EPS_R in Hd.
    assert (P : 0 < rnd (B2R mx - B2R mn)) by lra.
    assert (NZ : B2R (fsub mx mn) <> 0) by lra.
    cbn [d0 d1 d2 d3].
    split; [|split; [|split; [split; auto|now apply in01_num in G3]]].
    + apply num_div6.
      assert (Q : forall x y, num 0 1 x -> num 0 1 y -> B2R mn <= B2R x <= B2R mx -> B2R mn <= B2R y <= B2R mx ->
         num (-1) 1 (fdiv (fsub x y) (fsub mx mn)) /\
         (B2R x < B2R y -> B2R (fdiv (fsub x y) (fsub mx mn)) <= 0) /\
         (B2R y <= B2R x -> 0 <= B2R (fdiv (fsub x y) (fsub mx mn)))).
      { intros x y X Y Bx By. apply hue_quot with (B2R mx - B2R mn); auto. apply Rabs_le. lra. }
      destruct (flt (fabs (fsub mx (d0 c))) EPSILON).
      * destruct (Q (d1 c) (d2 c)) as ([FQ NQ] & QL & QG); auto.
        destruct (flt (d1 c) (d2 c)) eqn:GB.
        -- apply flt_R in GB; [|apply G1|apply G2]. specialize (QL GB).
           apply fadd_num; auto with fin fmt. rewrite six_R. lra.
        -- apply flt_Rf in GB; [|apply G1|apply G2]. specialize (QG GB).
           apply fadd_num; auto with fin fmt. rewrite f0_R. lra.
      * destruct (flt (fabs (fsub mx (d1 c))) EPSILON).
        -- destruct (Q (d2 c) (d0 c)) as ([FQ NQ] & _ & _); auto.
           apply fadd_num; auto with fin fmt. rewrite f2_R. lra.
        -- destruct (Q (d0 c) (d1 c)) as ([FQ NQ] & _ & _); auto.
           apply fadd_num; auto with fin fmt. rewrite four_R. lra.
    + destruct (flt (dec 1 2) (fdiv (fadd mx mn) f2)) eqn:HL.
      * destruct (fsub_num f2 mx 1 2) as [[FA NA] EA]; auto with fin fmt. { rewrite f2_R. lra. }
        destruct (fsub_num (fsub f2 mx) mn 0 2) as [[FB NB] EB]; auto with fin fmt. { lra. }
        assert (DD : B2R (fsub mx mn) <= B2R (fsub (fsub f2 mx) mn)).
        { rewrite ED, EB. apply rnd_le. lra. }
        apply fdiv_num; auto with fmt; [lra|]. apply div_01; lra.
      * assert (DD : B2R (fsub mx mn) <= B2R (fadd mx mn)).
        { rewrite ED, ES. apply rnd_le. lra. }
        apply fdiv_num; auto with fmt; [lra|]. apply div_01; lra.
Qed.

(** C34 *)
Lemma rnd_pos_diff x y : fmt x -> fmt y -> y < x -> 0 < rnd (x - y).
Proof.
  intros [X _] [Y _] H.
  assert (N : rnd (x - y) <> 0).
  { unfold rnd. apply round_plus_neq_0; auto with typeclass_instances.
    - now apply generic_format_opp. - intro E; lra. }
  assert (0 <= rnd (x - y)) by (apply rnd_lo; [apply fmt_0|lra]). lra.
Qed.
Lemma k60_R : B2R (ofZ 60) = 60. Proof. apply ofZ_R. lia. Qed.
Lemma k60_fin : fin (ofZ 60). Proof. apply ofZ_fin. lia. Qed.
Lemma k360_R : B2R (ofZ 360) = 360. Proof. apply ofZ_R. lia. Qed.
Lemma k360_fin : fin (ofZ 360). Proof. apply ofZ_fin. lia. Qed.
#[global] Hint Resolve k60_fin k360_fin : fin.
Lemma fmt_k z : (Z.abs z < 2 ^ 24)%Z -> fmt (IZR z). Proof. apply fmt_IZR. Qed.

Lemma hsv_hue_range h : num (-1) 5 h ->
  num 0 1 (fdiv (let h := fmul h (ofZ 60) in if flt h f0 then fadd h (ofZ 360) else h) (ofZ 360)).
Proof.
  intros [F H]. cbv zeta.
  destruct (fmul_num h (ofZ 60) (-60) 300) as [[FA NA] EA]; auto with fin; try (apply fmt_k; lia); rewrite ?k60_R; try lra.
  assert (G : num 0 360 (if flt (fmul h (ofZ 60)) f0 then fadd (fmul h (ofZ 60)) (ofZ 360) else fmul h (ofZ 60))).
  { destruct (flt _ _) eqn:E.
    - apply flt_R in E; auto with fin. rewrite f0_R in E.
      apply fadd_num; auto with fin; try (apply fmt_k; lia); rewrite ?k360_R; lra.
    - apply flt_Rf in E; auto with fin. rewrite f0_R in E. split; auto. lra. }
  destruct G as [FG NG]. apply fdiv_num; auto with fin fmt; rewrite k360_R; lra.
Qed.

Lemma rgb_to_hsv_range c : in_gamut c ->
  flt (rgb_min c) (rgb_max c) = true \/ flt (rgb_max c) EPSILON = true ->
  in01 (d0 (rgb_to_hsv c)) /\ in01 (d1 (rgb_to_hsv c)) /\ in01 (d2 (rgb_to_hsv c)) /\ in01 (d3 (rgb_to_hsv c)).
Proof.
  intros (G0 & G1 & G2 & G3) Hc. rewrite rgb_to_hsv_alpha.
  apply in01_num in G0. apply in01_num in G1. apply in01_num in G2. rewrite !in01_num. apply in01_num in G3.
  destruct (rgb_max_val c G0 G1 G2) as ([FM HM] & M0 & M1 & M2 & MX).
  destruct (rgb_min_val c G0 G1 G2) as ([Fm Hm] & m0 & m1 & m2 & MN).
  unfold rgb_to_hsv. set (mx := rgb_max c) in *. set (mn := rgb_min c) in *. clearbody mx mn.
  destruct (fsub_num mx mn 0 1) as [[FD ND] ED]; auto with fmt; [lra|].
  destruct (fle EPSILON (fsub mx mn) || fle EPSILON mx) eqn:Hb.
  - assert (LT : B2R mn < B2R mx).
    { destruct Hc as [Hc|Hc]; [now apply flt_R in Hc|].
      apply flt_R in Hc; auto with fin. apply orb_true_iff in Hb. destruct Hb as [Hb|Hb].
      - apply fle_R in Hb; auto with fin. rewrite EPS_R in Hb. rewrite ED in Hb.
        destruct (Rlt_le_dec (B2R mn) (B2R mx)); auto.
        assert (rnd (B2R mx - B2R mn) <= 0) by (apply rnd_hi; [apply fmt_0|lra]). lra.
      - apply fle_R in Hb; auto with fin. lra. }
    clear Hc Hb.
    assert (P : 0 < rnd (B2R mx - B2R mn)) by (apply rnd_pos_diff; auto with fmt).
    assert (NZ : B2R (fsub mx mn) <> 0) by lra.
    cbn [d0 d1 d2 d3].
    split; [|split; [|split; [split; auto|auto]]].
    + apply hsv_hue_range.
      assert (Q : forall x y, num 0 1 x -> num 0 1 y -> B2R mn <= B2R x <= B2R mx -> B2R mn <= B2R y <= B2R mx ->
         num (-1) 1 (fdiv (fsub x y) (fsub mx mn))).
      { intros x y X Y Bx By. apply hue_quot with (B2R mx - B2R mn); auto. apply Rabs_le. lra. }
      destruct (fle mx (d0 c)); [|destruct (fle mx (d1 c))].
      * destruct (Q (d1 c) (d2 c)) as [FQ NQ]; auto. split; auto. lra.
      * destruct (Q (d2 c) (d0 c)) as [FQ NQ]; auto. 
        apply fadd_num; auto with fin fmt. rewrite f2_R. lra.
      * destruct (Q (d0 c) (d1 c)) as [FQ NQ]; auto.
        apply fadd_num; auto with fin fmt. rewrite four_R. lra.
    + assert (DD : B2R (fsub mx mn) <= B2R mx).
      { rewrite ED. apply rnd_hi; auto with fmt. lra. }
      apply fdiv_num; auto with fmt; [lra|]. apply div_01; lra.
  - cbn [d0 d1 d2 d3].
    split; [|split; [|split; [split; auto|auto]]].
    + apply fdiv_num; auto with fin fmt; rewrite ?k360_R, ?f0_R; lra.
    + split; auto with fin; rewrite f0_R; lra.
Qed.

(** grey colours *)
Lemma grey_max v a : num 0 1 v -> fin (rgb_max (mkC v v v a)) /\ B2R (rgb_max (mkC v v v a)) = B2R v.
Proof. intros H. destruct (rgb_max_val (mkC v v v a) H H H) as ([F _] & _ & _ & _ & X). simpl in *. split; auto. tauto. Qed.
Lemma grey_min v a : num 0 1 v -> fin (rgb_min (mkC v v v a)) /\ B2R (rgb_min (mkC v v v a)) = B2R v.
Proof. intros H. destruct (rgb_min_val (mkC v v v a) H H H) as ([F _] & _ & _ & _ & X). simpl in *. split; auto. tauto. Qed.
Lemma fsub_same_val x y : fin x -> fin y -> B2R x = B2R y -> fin (fsub x y) /\ B2R (fsub x y) = 0.
Proof. intros A B E. destruct (fsub_exact x y A B) as [C D].
  - replace (B2R x - B2R y) with 0 by lra. apply fmt_0.
  - split; auto. lra. Qed.
Lemma zero_cases x : fin x -> B2R x = 0 -> exists s, x = B754_zero s.
Proof. intros F E. destruct x as [s|s| |s m e P]; try discriminate; eauto.
  exfalso. simpl in E. assert (H : F2R (Float radix2 (cond_Zopp s (Zpos m)) e) <> 0).
  { apply F2R_neq_0. destruct s; discriminate. } auto. Qed.
Lemma zero_div_zero s t : is_nan (fdiv (B754_zero s) (B754_zero t)) = true.
Proof. reflexivity. Qed.

Lemma grey_hsv_hue_nan v a : in01 v -> fle EPSILON v = true ->
  is_nan (d0 (rgb_to_hsv (mkC v v v a))) = true.
Proof.
  intros H E. apply in01_num in H. destruct (grey_max v a H) as [FM EM]. destruct (grey_min v a H) as [Fm Em].
  pose proof H as [Fv Hv]. apply fle_R in E; auto with fin. rewrite EPS_R in E.
  unfold rgb_to_hsv. set (mx := rgb_max _) in *. set (mn := rgb_min _) in *. clearbody mx mn.
  replace (fle EPSILON mx) with true by (symmetry; apply fle_R; auto with fin; rewrite EPS_R; lra).
  rewrite orb_true_r. cbn [d0 d1 d2 d3].
  replace (fle mx v) with true by (symmetry; apply fle_R; auto; lra).
  destruct (fsub_same_val mx mn FM Fm) as [FD ED]; [lra|].
  destruct (fsub_same_val v v Fv Fv eq_refl) as [FS ES].
  destruct (zero_cases _ FD ED) as [s ->]. destruct (zero_cases _ FS ES) as [t ->].
  reflexivity.
Qed.

(** C35 *)
Lemma half_double v mx mn : fin mx -> fin mn -> num 0 1 v -> B2R mx = B2R v -> B2R mn = B2R v ->
  fin (fdiv (fadd mx mn) f2) /\ B2R (fdiv (fadd mx mn) f2) = B2R v.
Proof.
  intros FM Fm [F H] EM Em.
  assert (G : fmt (B2R mx + B2R mn)).
  { rewrite EM, Em. replace (B2R v + B2R v) with (B2R v * bpow radix2 1) by (simpl; lra).
    split.
    - pose proof (generic_format_B2R 24 128 v) as GF.
      apply (generic_format_FLT radix2 (-149) 24).
      apply (@FLT_format_generic radix2 (-149) 24 p24) in GF. destruct GF as [[m e] A B C].
      exists (Float radix2 m (e + 1)); simpl in *; try lia.
      rewrite A. unfold F2R. simpl. rewrite bpow_plus. simpl. lra.
    - rewrite Rabs_pos_eq by (simpl; lra). apply Rle_lt_trans with (bpow radix2 1); [simpl; lra|].
      apply bpow_lt. lia. }
  destruct (fadd_exact mx mn FM Fm G) as [FA EA].
  destruct (fdiv_exact (fadd mx mn) f2) as [FD ED]; auto with fin; rewrite ?f2_R; try lra.
  - rewrite EA, EM, Em. replace ((B2R v + B2R v) / 2) with (B2R v) by lra. apply fmt_B2R.
  - split; auto. rewrite ED, EA, EM, Em, f2_R. lra.
Qed.
Lemma same_R x y : fin x -> fin y -> B2R x = B2R y -> same x y.
Proof. intros A B E. now apply feq_R. Qed.
Lemma grey_hsl_roundtrip v a : in01 v -> in01 a -> same_color (hsl_to_rgb (rgb_to_hsl (mkC v v v a))) (mkC v v v a).
Proof.
  intros H Ha. pose proof H as Hv. apply in01_num in H. destruct (grey_max v a H) as [FM EM]. destruct (grey_min v a H) as [Fm Em].
  pose proof H as [Fv _]. unfold rgb_to_hsl. set (mx := rgb_max _) in *. set (mn := rgb_min _) in *. clearbody mx mn.
  destruct (fsub_same_val mx mn FM Fm) as [FD ED]; [lra|].
  replace (flt (fsub mx mn) EPSILON) with true by (symmetry; apply flt_R; auto with fin; rewrite ED, EPS_R; lra).
  unfold hsl_to_rgb. cbn [d0 d1 d2 d3 alpha].
  destruct (half_double v mx mn) as [FL EL]; auto.
  assert (IL : in01 (fdiv (fadd mx mn) f2)). { apply in01_num. split; auto. rewrite EL. apply H. }
  change (feq f0 f0) with true. cbv iota beta. unfold rgb_new_with_alpha, same_color. cbn [d0 d1 d2 d3].
  unfold alpha; cbn [d3]. rewrite !clamp_id by auto.
  split; [|split; [|split]]; apply same_R; auto using in01_fin.
Qed.
Lemma grey_hsv_roundtrip v a : in01 v -> in01 a -> same_color (hsv_to_rgb (rgb_to_hsv (mkC v v v a))) (mkC v v v a).
Proof.
  intros H Ha. pose proof H as Hv. apply in01_num in H. destruct (grey_max v a H) as [FM EM]. destruct (grey_min v a H) as [Fm Em].
  pose proof H as [Fv Rv]. unfold rgb_to_hsv. set (mx := rgb_max _) in *. set (mn := rgb_min _) in *. clearbody mx mn.
  destruct (fsub_same_val mx mn FM Fm) as [FD ED]; [lra|].
  assert (S : forall h s, fle s f0 = true -> same_color (hsv_to_rgb (mkC h s mx (alpha (mkC v v v a)))) (mkC v v v a)).
  { intros h s Hs. unfold hsv_to_rgb. cbn [d0 d1 d2 d3]. rewrite Hs.
    split; [|split; [|split]]; apply same_R; cbn [d0 d1 d2 d3]; unfold alpha; cbn [d3]; auto using in01_fin. }
  destruct (_ || _) eqn:Hb.
  - apply S. apply orb_true_iff in Hb.
    assert (P : / 32768 <= B2R v).
    { destruct Hb as [Hb|Hb]; apply fle_R in Hb; auto with fin; rewrite EPS_R in Hb; lra. }
    destruct (fdiv_exact (fsub mx mn) mx) as [FQ EQ]; auto; [lra| |].
    { rewrite ED. replace (0 / B2R mx) with 0 by (field; lra). apply fmt_0. }
    apply fle_R; auto with fin. rewrite EQ, ED, f0_R. unfold Rdiv. lra.
  - apply S. reflexivity.
Qed.

(** not NaN *)
Lemma fin_not_nan x : fin x -> is_nan x = false.
Proof. unfold fin. destruct x; try discriminate; reflexivity. Qed.
Lemma fmul_not_nan x y : fin x -> fin y -> is_nan (fmul x y) = false.
Proof.
  intros Fx Fy. pose proof (Bmult_correct 24 128 p24 e128 mode_NE x y) as B. fold (fmul x y) in B.
  destruct (Rlt_bool _ _).
  - destruct B as (_ & B & _). unfold fin in *. rewrite Fx, Fy in B. now apply fin_not_nan.
  - destruct (fmul x y); try reflexivity. destruct (xorb _ _); discriminate.
Qed.
Lemma fadd_not_nan x y : fin x -> is_nan y = false -> is_nan (fadd x y) = false.
Proof.
  intros Fx Ny. destruct (is_finite y) eqn:Fy.
  - pose proof (Bplus_correct 24 128 p24 e128 mode_NE x y Fx Fy) as B. fold (fadd x y) in B.
    destruct (Rlt_bool _ _).
    + destruct B as (_ & B & _). now apply fin_not_nan.
    + destruct B as [B _]. destruct (fadd x y); try reflexivity. destruct (Bsign x); discriminate.
  - destruct x, y; try discriminate; reflexivity.
Qed.

(** C36 *)
Lemma third_val : num 0 1 (fdiv f1 (ofZ 3)).
Proof. apply fdiv_num; auto with fin fmt; rewrite ?(ofZ_R 3), ?f1_R by lia; try lra. Qed.
Lemma hue2rgb_not_nan p q t : num (-2) 3 p -> num (-1) 2 q -> fin t -> is_nan (hue2rgb p q t) = false.
Proof.
  intros [Fp Hp] [Fq Hq] Ft. unfold hue2rgb.
  set (t1 := if flt t f0 then fadd t f1 else t).
  assert (F1 : fin t1).
  { unfold t1. destruct (flt t f0) eqn:E; auto. apply flt_R in E; auto with fin. rewrite f0_R in E.
    destruct (fadd_ok t f1 (Rmax (Rabs (B2R t)) 1)) as [A _]; auto with fin.
    - apply fmt_max; auto using fmt_abs with fmt.
    - rewrite f1_R. pose proof (Rmax_l (Rabs (B2R t)) 1). pose proof (Rmax_r (Rabs (B2R t)) 1).
      rewrite (Rabs_left (B2R t)) in * by lra. apply Rabs_le. lra. }
  clearbody t1.
  set (t2 := if flt f1 t1 then fsub t1 f1 else t1).
  assert (F2 : fin t2).
  { unfold t2. destruct (flt f1 t1) eqn:E; auto. apply flt_R in E; auto with fin. rewrite f1_R in E.
    destruct (fsub_ok t1 f1 (B2R t1)) as [A _]; auto with fin fmt. rewrite f1_R. apply Rabs_le. lra. }
  clearbody t2.
  destruct (fsub_num q p (-4) 4) as [[FA NA] EA]; auto with fmt; [lra|].
  destruct (flt t2 _).
  - apply fadd_not_nan; auto. destruct (fmul_num (fsub q p) (ofZ 6) (-24) 24) as [[FB NB] EB]; auto with fin; try (apply fmt_k; lia); rewrite ?six_R; try lra.
    now apply fmul_not_nan.
  - destruct (flt t2 (fdiv f1 f2)) eqn:E1; [now apply fin_not_nan|]. destruct (flt t2 (fdiv f2 (ofZ 3))) eqn:E2; [|now apply fin_not_nan].
    apply fadd_not_nan; auto.
    assert (T : num 0 1 (fdiv f2 (ofZ 3))).
    { apply fdiv_num; auto with fin fmt; rewrite ?(ofZ_R 3), ?f2_R by lia; try lra. }
    destruct T as [FT NT].
    apply flt_R in E2; auto.
    assert (H2 : fin (fdiv f1 f2) /\ B2R (fdiv f1 f2) = / 2).
    { fval (fdiv f1 f2) H. split; auto. rewrite H. lra. }
    destruct H2 as [FH EH]. apply flt_Rf in E1; auto. rewrite EH in E1.
    destruct (fsub_num (fdiv f2 (ofZ 3)) t2 0 1) as [[FC NC] EC]; auto with fmt; [lra|].
    destruct (fmul_num (fsub q p) (fsub (fdiv f2 (ofZ 3)) t2) (-4) 4) as [[FB NB] EB]; auto with fmt; [nra|].
    apply fmul_not_nan; auto with fin.
Qed.

Lemma hsl_pq l s : num 0 1 l -> num 0 1 s ->
  let q := if flt l (dec 1 2) then fmul l (fadd f1 s) else fsub (fadd l s) (fmul l s) in
  num (-1) 2 q /\ num (-2) 3 (fsub (fmul f2 l) q).
Proof.
  intros [Fl Hl] [Fs Hs] q.
  assert (Q : num (-1) 2 q).
  { unfold q. destruct (flt l _).
    - destruct (fadd_num f1 s 1 2) as [[FA NA] EA]; auto with fin fmt; rewrite ?f1_R; try lra.
      apply fmul_num; auto with fmt. nra.
    - destruct (fadd_num l s 0 2) as [[FA NA] EA]; auto with fmt; [lra|].
      destruct (fmul_num l s 0 1) as [[FB NB] EB]; auto with fmt; [nra|].
      apply fsub_num; auto with fmt. lra. }
  split; auto. destruct Q as [FQ NQ].
  destruct (fmul_num f2 l 0 2) as [[FA NA] EA]; auto with fin fmt; rewrite ?f2_R; try lra.
  apply fsub_num; auto with fmt; try lra.
Qed.

Lemma hsl_to_rgb_range c : num (-8388608) 8388608 (d0 c) -> in01 (d1 c) -> in01 (d2 c) -> in01 (d3 c) -> in_gamut (hsl_to_rgb c).
Proof.
  intros [Fh Hh] Hs Hl Ha. apply in01_num in Hs. unfold hsl_to_rgb.
  destruct (feq (d1 c) f0).
  - split; [|split; [|split]]; cbn [d0 d1 d2 d3]; unfold rgb_new_with_alpha; cbn [d0 d1 d2 d3]; rewrite clamp_id; auto.
  - apply in01_num in Hl. destruct (hsl_pq (d2 c) (d1 c) Hl Hs) as [Q P].
    set (q := if flt (d2 c) _ then _ else _) in *. set (p := fsub _ q) in *. clearbody q. clearbody p.
    destruct third_val as [FT NT].
    unfold rgb_new_with_alpha. split; [|split; [|split]]; cbn [d0 d1 d2 d3]; apply clamp_in01.
    4: now apply in01_not_nan.
    + apply hue2rgb_not_nan; auto. apply (fadd_num _ _ (-8388609) 8388609); auto; try (apply fmt_k; lia). lra.
    + apply hue2rgb_not_nan; auto.
    + apply hue2rgb_not_nan; auto. apply (fsub_num _ _ (-8388609) 8388609); auto; try (apply fmt_k; lia). lra.
Qed.

Lemma fcast_range lo hi v : (lo <= 0 <= hi)%Z -> (lo <= fcast lo hi v <= hi)%Z.
Proof. intros H. destruct v as [s|[|]| |s m e P]; unfold fcast; lia. Qed.

(** truncation of a number *)
Lemma Btrunc_floor v : fin v -> 0 <= B2R v -> IZR (Btrunc v) <= B2R v < IZR (Btrunc v) + 1.
Proof.
  intros F H. rewrite (Btrunc_correct 24 128 e128 v).
  unfold round, scaled_mantissa, F2R, cexp, FIX_exp. simpl. rewrite !Rmult_1_r.
  rewrite Ztrunc_floor by auto. split; [apply Zfloor_lb|apply Zfloor_ub].
Qed.
Lemma fcast_fin lo hi v : fin v -> fcast lo hi v = Z.max lo (Z.min hi (Btrunc v)).
Proof. unfold fin. destruct v; try discriminate; reflexivity. Qed.

Lemma hsv_to_rgb_range c : in_gamut c -> in_gamut (hsv_to_rgb c).
Proof.
  intros (Hh & Hs & Hv & Ha). pose proof Hv as Iv. unfold hsv_to_rgb.
  apply in01_num in Hh. apply in01_num in Hs. apply in01_num in Hv.
  destruct Hh as [Fh Hh], Hs as [Fs Hs], Hv as [Fv Hv].
  destruct (fle (d1 c) f0).
  - split; [|split; [|split]]; auto.
  - destruct (fmul_num (d0 c) (ofZ 360) 0 360) as [[FA NA] EA]; auto with fin; try (apply fmt_k; lia); rewrite ?k360_R; try lra.
    set (h := if fle (ofZ 360) (fmul (d0 c) (ofZ 360)) then f0 else fmul (d0 c) (ofZ 360)).
    assert (H1 : num 0 360 h).
    { unfold h. destruct (fle _ _); [split; auto with fin; rewrite f0_R; lra|split; auto]. }
    clearbody h. destruct H1 as [F1 N1].
    destruct (fdiv_num h (ofZ 60) 0 6) as [[FB NB] EB]; auto with fin fmt; rewrite ?k60_R; try lra.
    set (hh := fdiv h (ofZ 60)) in *. clearbody hh. clear EB EA.
    assert (Hi : f_as_u32 hh = Btrunc hh /\ (0 <= Btrunc hh <= 6)%Z /\ num 0 1 (fsub hh (ofZ (f_as_u32 hh)))).
    { pose proof (Btrunc_floor hh FB ltac:(lra)) as T.
      assert (T0 : (0 <= Btrunc hh <= 6)%Z).
      { split; [apply Z.lt_succ_r; apply lt_IZR; unfold Z.succ; rewrite plus_IZR; lra|apply le_IZR; lra]. }
      assert (E : f_as_u32 hh = Btrunc hh).
      { unfold f_as_u32. rewrite fcast_fin by auto. lia. }
      split; auto. split; auto. rewrite E.
      destruct (ofZ_val (Btrunc hh)) as [Fz Ez]; [lia|].
      apply fsub_num; auto with fmt. rewrite Ez. lra. }
    destruct Hi as (Ei & Ri & [Ff Nf]). set (ff := fsub hh (ofZ (f_as_u32 hh))) in *. clearbody ff.
    assert (M : forall x, num 0 1 x -> num 0 1 (fmul (d2 c) (fsub f1 x))).
    { intros x X. destruct (one_minus x X) as [[FO NO] _]. apply fmul_num; auto with fmt. nra. }
    assert (Mp : num 0 1 (fmul (d2 c) (fsub f1 (d1 c)))) by (apply M; split; auto).
    assert (Mq : num 0 1 (fmul (d2 c) (fsub f1 (fmul (d1 c) ff)))).
    { apply M. apply fmul_num; auto with fmt. nra. }
    assert (Mt : num 0 1 (fmul (d2 c) (fsub f1 (fmul (d1 c) (fsub f1 ff))))).
    { apply M. destruct (one_minus ff (conj Ff Nf)) as [[FO NO] _]. apply fmul_num; auto with fmt. nra. }
    assert (C : forall x, num 0 1 x -> in01 (clamp x)).
    { intros x X. apply clamp_in01. now apply num_not_nan in X. }
    assert (Nv : num 0 1 (d2 c)) by (split; auto).
    assert (Na : num 0 1 (d3 c)) by (now apply in01_num).
    repeat match goal with |- context [if Z.eqb ?a ?b then _ else _] => destruct (Z.eqb a b) end;
      unfold rgb_new_with_alpha, alpha; (split; [|split; [|split]]); cbn [d0 d1 d2 d3]; apply C; auto.
Qed.

(** C37 *)
Lemma fmul_1_r x : fin x -> fin (fmul x f1) /\ B2R (fmul x f1) = B2R x.
Proof. intros F. destruct (fmul_exact x f1) as [A B]; auto with fin; rewrite f1_R in *; rewrite ?Rmult_1_r in *; auto with fmt. Qed.
Lemma fmul_1_l x : fin x -> fin (fmul f1 x) /\ B2R (fmul f1 x) = B2R x.
Proof. intros F. destruct (fmul_exact f1 x) as [A B]; auto with fin; rewrite f1_R in *; rewrite ?Rmult_1_l in *; auto with fmt. Qed.
Lemma fmul_0_r x y : fin x -> fin y -> B2R y = 0 -> fin (fmul x y) /\ B2R (fmul x y) = 0.
Proof. intros F G E. destruct (fmul_exact x y) as [A B]; auto; rewrite E, ?Rmult_0_r in *; auto with fmt. Qed.
Lemma fmul_0_l x y : fin x -> fin y -> B2R x = 0 -> fin (fmul x y) /\ B2R (fmul x y) = 0.
Proof. intros F G E. destruct (fmul_exact x y) as [A B]; auto; rewrite E, ?Rmult_0_l in *; auto with fmt. Qed.
Lemma fadd_0_r x y : fin x -> fin y -> B2R y = 0 -> fin (fadd x y) /\ B2R (fadd x y) = B2R x.
Proof. intros F G E. destruct (fadd_exact x y) as [A B]; auto; rewrite E, ?Rplus_0_r in *; auto with fmt. Qed.
Lemma fadd_0_l x y : fin x -> fin y -> B2R x = 0 -> fin (fadd x y) /\ B2R (fadd x y) = B2R y.
Proof. intros F G E. destruct (fadd_exact x y) as [A B]; auto; rewrite E, ?Rplus_0_l in *; auto with fmt. Qed.

Lemma clamp_val x v : fin x -> B2R x = v -> 0 <= v <= 1 -> fin (clamp x) /\ B2R (clamp x) = v.
Proof. intros F E H. rewrite clamp_id; auto. apply in01_num. split; auto. lra. Qed.

Lemma blend_chan_opaque c x a : num 0 1 c -> num 0 1 x -> fin a -> B2R a = 1 ->
  same (clamp (fadd (fmul x a) (fmul (fsub f1 a) c))) x.
Proof.
  intros [Fc Hc] [Fx Hx] Fa Ea.
  assert (a = f1) as -> by (apply f_inj_nz; auto with fin; rewrite ?f1_R; lra).
  destruct (fmul_1_r x Fx) as [A1 A2]. destruct (fsub_self f1 f1_fin) as [B1 B2].
  destruct (fmul_0_l (fsub f1 f1) c) as [C1 C2]; auto.
  destruct (fadd_0_r (fmul x f1) (fmul (fsub f1 f1) c)) as [D1 D2]; auto.
  destruct (clamp_val _ (B2R x) D1) as [E1 E2]; [lra|auto|]. apply same_R; auto.
Qed.
Lemma blend_chan_transparent c x a : num 0 1 c -> num 0 1 x -> fin a -> B2R a = 0 ->
  same (clamp (fadd (fmul x a) (fmul (fsub f1 a) c))) c.
Proof.
  intros [Fc Hc] [Fx Hx] Fa Ea.
  destruct (fmul_0_r x a) as [A1 A2]; auto.
  destruct (fsub_exact f1 a) as [B1 B2]; auto with fin. { rewrite f1_R, Ea, Rminus_0_r. auto with fmt. }
  rewrite f1_R, Ea, Rminus_0_r in B2.
  assert (fsub f1 a = f1) as -> by (apply f_inj_nz; auto with fin; rewrite ?f1_R; lra).
  destruct (fmul_1_l c Fc) as [C1 C2].
  destruct (fadd_0_l (fmul x a) (fmul f1 c)) as [D1 D2]; auto.
  destruct (clamp_val _ (B2R c) D1) as [E1 E2]; [lra|auto|]. apply same_R; auto.
Qed.
Lemma blend_chan_range c x a : num 0 1 c -> num 0 1 x -> num 0 1 a ->
  in01 (clamp (fadd (fmul x a) (fmul (fsub f1 a) c))).
Proof.
  intros [Fc Hc] [Fx Hx] Ha. destruct (one_minus a Ha) as [[F1 N1] _]. destruct Ha as [Fa Ha].
  apply clamp_in01. apply (num_not_nan 0 2).
  destruct (fmul_num x a 0 1) as [[A1 A2] _]; auto with fmt; [nra|].
  destruct (fmul_num (fsub f1 a) c 0 1) as [[B1 B2] _]; auto with fmt; [nra|].
  apply fadd_num; auto with fmt. lra.
Qed.
Lemma blend_alpha a b : num 0 1 a -> num 0 1 b ->
  num 0 1 (clamp (fmin (fadd a b) f1)) /\ B2R a <= B2R (clamp (fmin (fadd a b) f1)) /\ B2R b <= B2R (clamp (fmin (fadd a b) f1))
  /\ (B2R b = 0 -> B2R (clamp (fmin (fadd a b) f1)) = B2R a) /\ (B2R b = 1 -> B2R (clamp (fmin (fadd a b) f1)) = 1).
Proof.
  intros [Fa Ha] [Fb Hb].
  destruct (fadd_num a b 0 2) as [[F N] E]; auto with fmt; [lra|].
  destruct (fmin_val (fadd a b) f1) as [FM EM]; auto with fin. rewrite f1_R in EM.
  assert (L1 : B2R a <= B2R (fadd a b)) by (rewrite E; apply rnd_lo; auto with fmt; lra).
  assert (L2 : B2R b <= B2R (fadd a b)) by (rewrite E; apply rnd_lo; auto with fmt; lra).
  assert (R : 0 <= B2R (fmin (fadd a b) f1) <= 1) by (rewrite EM; unfold Rmin; destruct Rle_dec; lra).
  rewrite clamp_id by (apply in01_num; split; auto).
  split; [split; auto|]. rewrite EM in *.
  split; [unfold Rmin; destruct Rle_dec; lra|]. split; [unfold Rmin; destruct Rle_dec; lra|].
  split; intros Z.
  - destruct (fadd_0_r a b) as [_ G]; auto. rewrite G. apply Rmin_left. lra.
  - apply Rmin_right. lra.
Qed.

(** C31 *)
Lemma grey_is_grayscale v a : fin v -> is_grayscale (mkC v v v a) = true.
Proof. intros F. unfold is_grayscale. cbn [d0 d1 d2]. destruct (fsub_self v F) as [A B].
  replace (flt (fabs (fsub v v)) EPSILON) with true; auto. symmetry. apply flt_R; auto with fin.
  rewrite fabs_R, B, EPS_R, Rabs_R0. lra. Qed.

Lemma weighted_range A B C r g b : num 0 1 A -> num 0 1 B -> num 0 1 C ->
  num 0 1 r -> num 0 1 g -> num 0 1 b ->
  B2R (fadd (fadd A B) C) <= 1 ->
  num 0 1 (fadd (fadd (fmul r A) (fmul g B)) (fmul b C)).
Proof.
  intros [FA HA] [FB HB] [FC HC] [Fr Hr] [Fg Hg] [Fb Hb] H.
  assert (M : forall X x, fin X -> 0 <= B2R X <= 1 -> fin x -> 0 <= B2R x <= 1 -> num 0 (B2R X) (fmul x X)).
  { intros X x FX HX Fx0 Hx. apply fmul_num; auto with fmt. nra. }
  destruct (M A r) as [F1 N1]; auto. destruct (M B g) as [F2 N2]; auto. destruct (M C b) as [F3 N3]; auto.
  destruct (fadd_num A B 0 2) as [[F4 N4] E4]; auto with fmt; [lra|].
  destruct (fadd_num (fmul r A) (fmul g B) 0 2) as [[F5 N5] E5]; auto with fmt; [lra|].
  assert (L5 : B2R (fadd (fmul r A) (fmul g B)) <= B2R (fadd A B)) by (rewrite E5, E4; apply rnd_le; lra).
  destruct (fadd_num (fadd A B) C 0 3) as [[F6 N6] E6]; auto with fmt; [lra|].
  destruct (fadd_num (fadd (fmul r A) (fmul g B)) (fmul b C) 0 3) as [[F7 N7] E7]; auto with fmt; [lra|].
  split; auto. split; [lra|]. apply Rle_trans with (B2R (fadd (fadd A B) C)); auto.
  rewrite E6, E7. apply rnd_le. lra.
Qed.

Ltac closed_num := match goal with |- num _ _ ?c => let H := fresh in fval c H; split; [assumption|rewrite H; lra] end.
Ltac closed_le := match goal with |- B2R ?c <= _ => let H := fresh in fval c H; rewrite H; lra end.

Lemma gray_value_range i c : in_gamut c -> in01 (gray_value i c).
Proof.
  intros G. pose proof G as (G0 & G1 & G2 & G3). apply in01_num.
  pose proof G0 as H0. pose proof G1 as H1. pose proof G2 as H2.
  apply in01_num in H0. apply in01_num in H1. apply in01_num in H2.
  destruct (rgb_max_val c H0 H1 H2) as (M & _). destruct (rgb_min_val c H0 H1 H2) as (m & _).
  destruct i; cbn [gray_value]; auto.
  - (* average *)
    destruct H0 as [F0 N0], H1 as [F1 N1], H2 as [F2 N2].
    destruct (fadd_num (d0 c) (d1 c) 0 2) as [[F3 N3] _]; auto with fmt; [lra|].
    destruct (fadd_num (fadd (d0 c) (d1 c)) (d2 c) 0 3) as [[F4 N4] _]; auto with fmt; [lra|].
    destruct (ofZ_val 3) as [Ft Et]; [lia|].
    apply fdiv_num; auto with fmt; rewrite Et; lra.
  - apply weighted_range; auto; try closed_num. closed_le.
  - apply weighted_range; auto; try closed_num. closed_le.
  - destruct M as [FM NM], m as [Fm Nm].
    destruct (fadd_num (rgb_min c) (rgb_max c) 0 2) as [[F3 N3] _]; auto with fmt; [lra|].
    apply fdiv_num; auto with fin fmt; rewrite f2_R; lra.
  - apply in01_num. apply (rgb_to_hsl_range c G).
Qed.

Lemma grey_fixed i v a : in01 v -> picks_channel i -> same (gray_value i (mkC v v v a)) v.
Proof.
  intros H P. apply in01_num in H. pose proof H as [F N].
  assert (R : same v v) by (apply same_R; auto).
  destruct (grey_max v a H) as [FM EM], (grey_min v a H) as [Fm Em].
  destruct i; try contradiction; cbn [gray_value d0 d1 d2]; auto.
  - apply same_R; auto.
  - destruct (half_double v (rgb_min (mkC v v v a)) (rgb_max (mkC v v v a))) as [A B]; auto. apply same_R; auto.
Qed.
