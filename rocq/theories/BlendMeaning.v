(** Proofs for C102 and C103: what the blend operations compute. *)
From Coq Require Import Reals Lra Lia ZArith Bool Psatz List.
From Flocq Require Import Core.Core IEEE754.BinarySingleNaN.
From Verif Require Import F32 F32Lemmas Color ColorSpec ColorProofs MeaningSpec ConvSpec BlendSpec Blend BlendProofs Approx OpMeaningProofs HslMeaning HslOps LabMeaning LchMeaning Saturate.
Import ListNotations.
Open Scope R_scope.

Lemma uo_double M u : unit_ok M u -> M <= 65536 -> unit_ok (2 * M) (2 * u).
Proof.
  intros (k & K & -> & ->) H. exists (k + 1)%Z. split.
  - assert (k <= 16)%Z; [|lia]. apply (le_bpow radix2). exact H.
  - split; [rewrite bpow_plus; change (bpow radix2 1) with 2; ring|]. replace (k + 1 - 25)%Z with (k - 25 + 1)%Z by lia. rewrite bpow_plus. change (bpow radix2 1) with 2. ring.
Qed.
Lemma mix_close M u v1 v2 i : unit_ok M u -> 1 <= M <= 65536 -> fin v1 -> fin v2 -> Rabs (B2R v1) <= M -> Rabs (B2R v2) <= M -> num 0 1 i ->
  close (6 * u) (mixed (B2R i) (B2R v1) (B2R v2)) (apply_intensity v1 v2 i).
Proof.
  intros UO HM F1 F2 B1 B2 [Fi Hi]. pose proof (uo_double M u UO ltac:(lra)) as U2. pose proof (uo_u M u UO) as UP.
  assert (UM : u = M * / 33554432). { destruct UO as (k & _ & -> & ->). unfold Zminus. rewrite bpow_plus. reflexivity. }
  assert (N : close (/ 33554432) (1 - B2R i) (fsub f1 i)).
  { eapply close_weak; [apply (close_sub 1 (/ 33554432) 0 0 1 (B2R i)); auto using uo_1|lra].
    - apply (close_eq 0 (B2R f1)); [apply close_0; auto with fin|exact f1_R].
    - now apply close_0.
    - rewrite Rabs_pos_eq; lra. }
  pose proof (close_mul (2 * M) (2 * u) M 1 0 (/ 33554432) (B2R v1) (1 - B2R i) v1 (fsub f1 i) U2 (close_0 v1 F1) N B1 ltac:(rewrite Rabs_pos_eq; lra) ltac:(lra)) as P1.
  pose proof (close_mul M u M 1 0 0 (B2R v2) (B2R i) v2 i UO (close_0 v2 F2) (close_0 i Fi) B2 ltac:(rewrite Rabs_pos_eq; lra) ltac:(lra)) as P2.
  unfold apply_intensity, mixed. eapply close_weak; [eapply (close_add (2 * M) (2 * u)); [exact U2|exact P1|exact P2|]|lra].
  apply Rabs_le_iff in B1, B2. assert (Rabs (B2R v1 * (1 - B2R i) + B2R v2 * B2R i) <= M) by (apply Rabs_le_iff; nra). nra.
Qed.

(** ** Normal and the channel by channel operations *)
Lemma mixed_lip t v1 v2 v2' e : 0 <= t <= 1 -> Rabs (v2 - v2') <= e -> Rabs (mixed t v1 v2 - mixed t v1 v2') <= e.
Proof. intros T E. unfold mixed. replace (_ - _) with ((v2 - v2') * t) by ring. rewrite <- (Rmult_1_r e). apply abs_mul_le; [exact E|]. rewrite Rabs_pos_eq; lra. Qed.
Lemma mixed_lip_t t t' v1 v2 M e : Rabs (v2 - v1) <= M -> Rabs (t - t') <= e -> Rabs (mixed t v1 v2 - mixed t' v1 v2) <= M * e.
Proof. intros B E. unfold mixed. replace (_ - _) with ((v2 - v1) * (t - t')) by ring. now apply abs_mul_le. Qed.

Definition plain_real (op : blend_op) : option (R -> R -> R) :=
  match op with Addition => Some Rplus | Subtract => Some Rminus | Darken => Some Rmin | Lighten => Some Rmax | _ => None end.
Lemma plain_close L op f g v1 v2 : plain_op L op = Some f -> plain_real op = Some g -> num 0 1 v1 -> num 0 1 v2 ->
  close (/ 16777216) (g (B2R v1) (B2R v2)) (f v1 v2) /\ Rabs (g (B2R v1) (B2R v2) - B2R v1) <= 1.
Proof.
  intros H G [F1 H1] [F2 H2]. destruct op; try discriminate; simpl in H, G; injection H as <-; injection G as <-.
  - split; [|apply Rabs_le_iff; lra]. eapply close_weak; [apply (close_add 2 (/ 16777216) 0 0); auto using uo_2, close_0|lra]. rewrite Rabs_pos_eq; lra.
  - split; [|apply Rabs_le_iff; lra]. eapply close_weak; [apply (close_sub 2 (/ 16777216) 0 0); auto using uo_2, close_0|lra].
    assert (Rabs (B2R v1 - B2R v2) <= 1) by (apply Rabs_le_iff; lra). lra.
  - split; [|unfold Rmin; destruct Rle_dec; apply Rabs_le_iff; lra]. destruct (fmin_val v1 v2 F1 F2) as [A B].
    eapply close_weak; [split; [exact A|]|]. 2: apply Rle_refl. rewrite B. replace (_ - _) with 0 by ring. rewrite Rabs_R0. lra.
  - split; [|unfold Rmax; destruct Rle_dec; apply Rabs_le_iff; lra]. destruct (fmax_val v1 v2 F1 F2) as [A B].
    eapply close_weak; [split; [exact A|]|]. 2: apply Rle_refl. rewrite B. replace (_ - _) with 0 by ring. rewrite Rabs_R0. lra.
Qed.
Lemma plain_meaning L op f g c1 c2 i : plain_op L op = Some f -> plain_real op = Some g -> in_gamut c1 -> in_gamut c2 -> in01 i ->
  let r := blend_func L op c1 c2 i in let t := B2R i * B2R (d3 c2) in let blended v1 v2 := limited (mixed t v1 (g v1 v2)) in
  colour_close (/ 1048576) (blended (B2R (d0 c1)) (B2R (d0 c2))) (blended (B2R (d1 c1)) (B2R (d1 c2))) (blended (B2R (d2 c1)) (B2R (d2 c2))) r /\ d3 r = d3 c2.
Proof.
  intros P G G1 G2 I. cbv zeta. rewrite (plain_op_func L op f P). destruct (gamut_num _ G1) as (A0 & A1 & A2 & A3). destruct (gamut_num _ G2) as (B0 & B1 & B2 & B3).
  apply in01_num in I. destruct I as [Fi Hi]. destruct B3 as [F3 H3].
  assert (T : B2R i * B2R (d3 c2) <= 1 /\ 0 <= B2R i * B2R (d3 c2)) by nra.
  destruct (fmul_num i (d3 c2) 0 1 Fi F3 ltac:(auto with fmt) ltac:(auto with fmt)) as [NT ET]; [lra|].
  pose proof (uo_err _ _ (B2R i * B2R (d3 c2)) uo_1 ltac:(rewrite Rabs_pos_eq; lra)) as TE. rewrite <- ET in TE.
  assert (K : forall v1 v2, num 0 1 v1 -> num 0 1 v2 ->
    close (/ 1048576) (limited (mixed (B2R i * B2R (d3 c2)) (B2R v1) (g (B2R v1) (B2R v2)))) (clamp (apply_intensity v1 (f v1 v2) (fmul i (d3 c2))))).
  { intros v1 v2 V1 V2. apply close_clamp. destruct (plain_close L op f g v1 v2 P G V1 V2) as [[Ff Cf] Bf]. pose proof (plain_op_num L op f v1 v2 P V1 V2) as [_ Rf].
    pose proof (mix_close 2 (/ 16777216) v1 (f v1 v2) (fmul i (d3 c2)) uo_2 ltac:(lra) ltac:(apply V1) Ff ltac:(destruct V1; rewrite Rabs_pos_eq; lra) ltac:(apply Rabs_le_iff; lra) NT) as [FM CM].
    split; [exact FM|]. destruct NT as [_ NT].
    pose proof (mixed_lip (B2R (fmul i (d3 c2))) (B2R v1) (B2R (f v1 v2)) (g (B2R v1) (B2R v2)) _ NT Cf) as L1.
    pose proof (mixed_lip_t (B2R (fmul i (d3 c2))) (B2R i * B2R (d3 c2)) (B2R v1) (g (B2R v1) (B2R v2)) 1 _ Bf TE) as L2.
    apply Rabs_le_iff in CM, L1, L2. apply Rabs_le_iff. lra. }
  split; [split; [|split]; apply K; assumption|]. unfold blend_color, rgb_new_with_alpha, alpha. cbn [d3].
  apply clamp_id. apply in01_num. split; assumption.
Qed.
Lemma normal_meaning L c1 c2 i : in_gamut c1 -> in_gamut c2 -> in01 i ->
  let r := blend_func L Normal c1 c2 i in let t := B2R i * B2R (d3 c2) in
  colour_close (/ 1048576) (mixed t (B2R (d0 c1)) (B2R (d0 c2))) (mixed t (B2R (d1 c1)) (B2R (d1 c2))) (mixed t (B2R (d2 c1)) (B2R (d2 c2))) r /\
  close (/ 1048576) (Rmin (B2R (d3 c1) + t) 1) (d3 r).
Proof.
  intros G1 G2 I. cbv zeta. cbn [blend_func]. unfold blend_normal. destruct (gamut_num _ G1) as (A0 & A1 & A2 & A3). destruct (gamut_num _ G2) as (B0 & B1 & B2 & B3).
  apply in01_num in I. destruct I as [Fi Hi]. destruct B3 as [F3 H3].
  assert (T : 0 <= B2R (d3 c2) * B2R i <= 1) by nra. unfold alpha.
  destruct (fmul_num (d3 c2) i 0 1 F3 Fi ltac:(auto with fmt) ltac:(auto with fmt)) as [NT ET]; [lra|].
  pose proof (uo_err _ _ (B2R (d3 c2) * B2R i) uo_1 ltac:(rewrite Rabs_pos_eq; lra)) as TE. rewrite <- ET in TE.
  set (top := with_alpha c2 (fmul (d3 c2) i)).
  assert (E0 : d0 top = d0 c2 /\ d1 top = d1 c2 /\ d2 top = d2 c2 /\ d3 top = fmul (d3 c2) i).
  { repeat split; try reflexivity. }
  clearbody top. destruct E0 as (E0 & E1 & E2 & E3).
  assert (GT : in_gamut top). { unfold in_gamut. rewrite E0, E1, E2, E3. destruct G2 as (? & ? & ? & _). repeat split; try tauto; apply in01_num in NT; try apply H; try apply NT; unfold in01 in *; tauto. }
  pose proof (alpha_blend_meaning c1 top G1 GT) as (K & KA). rewrite E0, E1, E2, E3 in K. rewrite E3 in KA. destruct K as (K0 & K1 & K2).
  rewrite (Rmult_comm (B2R i)). set (t := B2R (fmul (d3 c2) i)) in *. set (t' := B2R (d3 c2) * B2R i) in *.
  assert (M : forall v1 v2 o, num 0 1 v1 -> num 0 1 v2 -> close (/ 4194304) (B2R v2 * t + (1 - t) * B2R v1) o -> close (/ 1048576) (mixed t' (B2R v1) (B2R v2)) o).
  { intros v1 v2 o [_ V1] [_ V2] [FO CO]. split; [exact FO|].
    pose proof (mixed_lip_t t t' (B2R v1) (B2R v2) 1 _ ltac:(apply Rabs_le_iff; lra) TE) as ML. unfold mixed in *. apply Rabs_le_iff in CO, ML. apply Rabs_le_iff. lra. }
  split; [split; [|split]; apply M; assumption|].
  destruct KA as [FO CO]. split; [exact FO|]. apply Rabs_le_iff in CO, TE. apply Rabs_le_iff. revert CO. unfold Rmin. repeat destruct Rle_dec; lra.
Qed.

(** ** The HSL operations *)
Lemma hsl_meaning (pick : R -> R -> R) (op : f32 -> f32 -> f32) c1 c2 i :
  (forall a b, fin a -> fin b -> fin (op a b) /\ B2R (op a b) = pick (B2R a) (B2R b)) -> (forall a b, pick a b = a \/ pick a b = b) ->
  in_gamut c1 -> in_gamut c2 -> in01 i ->
  let h1 := rgb_to_hsl c1 in let h2 := rgb_to_hsl c2 in
  let r := hsl_to_rgb (with_2 h1 (apply_intensity (d2 h1) (op (d2 h1) (d2 h2)) i)) in
  is_hsl (/ 131072) (B2R (d0 h1)) (B2R (d1 h1)) (mixed (B2R i) (B2R (d2 h1)) (pick (B2R (d2 h1)) (B2R (d2 h2)))) r /\ d3 r = d3 c1.
Proof.
  intros HO HP G1 G2 I. cbv zeta. destruct (rgb_to_hsl_range c1 G1) as (R0 & R1 & R2 & _). destruct (rgb_to_hsl_range c2 G2) as (_ & _ & S2 & _).
  apply in01_num in I. pose proof (in01_R _ R2) as N1. pose proof (in01_R _ S2) as N2. destruct (HO (d2 (rgb_to_hsl c1)) (d2 (rgb_to_hsl c2)) ltac:(apply N1) ltac:(apply N2)) as [FO EO].
  assert (NO : num 0 1 (op (d2 (rgb_to_hsl c1)) (d2 (rgb_to_hsl c2)))).
  { split; [exact FO|]. rewrite EO. destruct (HP (B2R (d2 (rgb_to_hsl c1))) (B2R (d2 (rgb_to_hsl c2)))) as [-> | ->]; [apply N1|apply N2]. }
  pose proof (mix_close 1 (/ 33554432) (d2 (rgb_to_hsl c1)) _ i uo_1 ltac:(lra) ltac:(apply N1) FO ltac:(destruct N1; rewrite Rabs_pos_eq; lra) ltac:(destruct NO; rewrite Rabs_pos_eq; lra) I) as K.
  pose proof (intensity_01 (d2 (rgb_to_hsl c1)) _ i N1 NO I) as NI. rewrite EO in K.
  unfold with_2. rewrite rgb_to_hsl_alpha. apply (hsl_set c1 _ _ _ 0 0 (6 * / 33554432)); auto using circ_0, abs_0; try (now apply in01_R); try (now apply in01_num); [|apply K|lra].
  destruct I as [_ I], N1 as [_ N1], NO as [_ NO]. rewrite EO in NO. unfold mixed. nra.
Qed.

(** ** The LCh operations *)
Lemma PI_bounds : 314159264 / 100000000 <= PI <= 314159267 / 100000000.
Proof.
  pose proof (Machin.PI_2_3_7_ineq 4) as H. change (S (2 * 4))%nat with 9%nat in H. change (2 * 4)%nat with 8%nat in H.
  unfold Machin.PI_2_3_7_tg, tg_alt, Ratan_seq in H. cbn [sum_f_R0 pow Nat.add Nat.mul] in H. rewrite !INR_IZR_INZ in H. cbn [Z.of_nat Pos.of_succ_nat Pos.succ] in H. lra.
Qed.
Lemma fPI_val : fin fPI /\ B2R fPI = 13176795 / 4194304.
Proof. fval fPI H. rewrite H. split; [assumption|lra]. Qed.
Lemma turn_val : fin (fmul f2 fPI) /\ B2R (fmul f2 fPI) = 13176795 / 2097152.
Proof. fval (fmul f2 fPI) H. rewrite H. split; [assumption|lra]. Qed.

(** The lightness or the chroma replaced, or the hue. *)
Lemma lch_fin L c : accurate_powf L -> accurate_powf_above L -> accurate_angles L -> in_gamut c ->
  let h := to_lch L D65 O2 KRgb c in num (- / 1000) (1001 / 1000) (d0 h) /\ num 0 8 (d1 h) /\ fin (d2 h) /\ d3 h = d3 c.
Proof.
  intros AL AA AN G. cbv zeta. destruct (lch_light L c AL AA AN G) as (F0 & R0 & N1). split; [split; assumption|]. split; [exact N1|].
  destruct (gamut_xyz c G) as [XR WR]. specialize (WR D65 O2). cbn [white] in WR.
  unfold to_lch, to_lab. cbn [to_xyz to_rgb]. set (x := apply_matrix c RGB_TO_XYZ) in *.
  assert (HR : let '(w0, w1, w2) := white D65 O2 in B2R (d0 x) / w0 <= 14 / 10 /\ B2R (d1 x) / w1 <= 14 / 10 /\ B2R (d2 x) / w2 <= 14 / 10) by (cbn [white]; lra).
  destruct (lab_bound L D65 O2 x AL AA XR HR) as ((G0 & G1 & G2) & BA & BB). set (lab := xyz_to_lab L D65 O2 x) in *.
  destruct (radius _ _ BA BB) as (r & R & ER). destruct (polar L lab r AN G1 G2 ltac:(lra) ER) as (_ & (t & _ & _ & _ & [FT _]) & _). split; [exact FT|].
  change (d3 (lab_to_lch L lab)) with (d3 lab). unfold lab. rewrite (proj1 (lab_alpha L D65 O2 x)). reflexivity.
Qed.

(** ** Hues *)
Lemma hue_meaning h1 h2 i : fin h1 -> fin h2 -> Rabs (B2R h1) <= B2R fPI -> Rabs (B2R h2) <= B2R fPI -> num 0 1 i ->
  exists near, (exists k : Z, near = B2R h2 + 2 * PI * IZR k) /\ Rabs (near - B2R h1) <= PI + / 1048576 /\
  fin (blend_hue h1 h2 i) /\ same_angle (/ 262144) (B2R (blend_hue h1 h2 i)) (mixed (B2R i) (B2R h1) near).
Proof.
  intros F1 F2 B1 B2 I. pose proof PI_bounds as HP. destruct fPI_val as [FP EP]. destruct turn_val as [FT ET]. rewrite EP in B1, B2. apply Rabs_le_iff in B1, B2.
  pose proof (close_sub 8 (/ 4194304) 0 0 _ _ h1 h2 uo_8 (close_0 _ F1) (close_0 _ F2) ltac:(assert (Rabs (B2R h1 - B2R h2) <= 7) by (apply Rabs_le_iff; lra); lra)) as [FD CD].
  apply Rabs_le_iff in CD. unfold blend_hue. cbv zeta. destruct (flt fPI (fabs (fsub h1 h2))) eqn:E.
  - apply flt_R in E; auto using fabs_fin. rewrite fabs_R, EP in E.
    assert (FAR : forall a b r1 r2, fin a -> fin b -> Rabs (B2R a) <= 8 -> Rabs (B2R b) <= 8 -> Rabs (B2R a - r1) <= / 2000000 -> Rabs (B2R b - r2) <= / 2000000 ->
       let h := apply_intensity a b i in let o := if flt fPI h then fsub h (fmul f2 fPI) else h in
       fin o /\ (Rabs (B2R o - mixed (B2R i) r1 r2) <= / 262144 \/ Rabs (B2R o - (mixed (B2R i) r1 r2 - 2 * PI)) <= / 262144)).
    { clear E. intros a b r1 r2 Fa Fb Ba Bb Ea Eb. cbv zeta. destruct (mix_close 8 (/ 4194304) a b i uo_8 ltac:(lra) Fa Fb Ba Bb I) as [FM CM]. apply Rabs_le_iff in CM, Ba, Bb, Ea, Eb.
      destruct I as [_ I]. assert (MR : Rabs (mixed (B2R i) (B2R a) (B2R b) - mixed (B2R i) r1 r2) <= / 2000000) by (unfold mixed; apply Rabs_le_iff; nra).
      assert (MB : Rabs (mixed (B2R i) (B2R a) (B2R b)) <= 8) by (unfold mixed; apply Rabs_le_iff; nra). apply Rabs_le_iff in MR, MB.
      destruct (flt fPI (apply_intensity a b i)) eqn:Q.
      - apply flt_R in Q; auto. rewrite EP in Q.
        pose proof (close_sub 8 (/ 4194304) 0 0 _ _ _ _ uo_8 (close_0 _ FM) (close_0 _ FT) ltac:(rewrite ET; assert (Rabs (B2R (apply_intensity a b i) - 13176795 / 2097152) <= 4) by (apply Rabs_le_iff; lra); lra)) as [FO CO].
        rewrite ET in CO. apply Rabs_le_iff in CO. split; [exact FO|]. right. apply Rabs_le_iff. lra.
      - split; [exact FM|]. left. apply Rabs_le_iff. lra. }
    assert (SH : forall h, fin h -> Rabs (B2R h) <= 13176795 / 4194304 -> B2R h <= / 1000000 ->
      fin (fadd h (fmul f2 fPI)) /\ Rabs (B2R (fadd h (fmul f2 fPI))) <= 8 /\ Rabs (B2R (fadd h (fmul f2 fPI)) - (B2R h + 2 * PI)) <= / 2000000).
    { intros h Fh Bh Nh. apply Rabs_le_iff in Bh.
      pose proof (close_add 8 (/ 4194304) 0 0 _ _ _ _ uo_8 (close_0 _ Fh) (close_0 _ FT) ltac:(rewrite ET; rewrite Rabs_pos_eq; lra)) as [FO CO].
      rewrite ET in CO. apply Rabs_le_iff in CO. split; [exact FO|]. split; apply Rabs_le_iff; lra. }
    assert (SELF : forall h, fin h -> Rabs (B2R h) <= 13176795 / 4194304 -> Rabs (B2R h) <= 8 /\ Rabs (B2R h - B2R h) <= / 2000000).
    { intros h _ Bh. split; [lra|]. replace (B2R h - B2R h) with 0 by ring. rewrite Rabs_R0. lra. }
    assert (B1' : Rabs (B2R h1) <= 13176795 / 4194304) by (apply Rabs_le_iff; lra). assert (B2' : Rabs (B2R h2) <= 13176795 / 4194304) by (apply Rabs_le_iff; lra).
    destruct (flt h1 f0) eqn:S.
    + apply flt_R in S; auto with fin. rewrite f0_R in S.
      assert (D : B2R h2 - B2R h1 > 13176795 / 4194304 - / 1000000).
      { destruct (Rle_lt_dec 0 (B2R (fsub h1 h2))) as [P|P]; [|rewrite Rabs_left in E by lra; lra]. rewrite Rabs_pos_eq in E by exact P. exfalso.
        destruct (fsub_num h1 h2 (-8) (B2R fPI) F1 F2 ltac:(apply (fmt_IZR (-8)); lia) ltac:(apply fmt_B2R)) as [[_ Q] _]; [rewrite EP; lra|]. rewrite EP in Q. lra. }
      destruct (SH h1 F1 B1' ltac:(lra)) as (Fa & Ba & Ea). destruct (SELF h2 F2 B2') as [Bb Eb].
      destruct (FAR _ h2 _ _ Fa F2 Ba Bb Ea Eb) as [FO CO]. exists (B2R h2 - 2 * PI). split; [exists (-1)%Z; lra|]. split; [apply Rabs_le_iff; lra|]. split; [exact FO|].
      destruct CO as [CO|CO]; [exists 1%Z|exists 0%Z]; unfold mixed in *; (match type of CO with Rabs ?x <= _ => match goal with |- Rabs ?y <= _ => replace y with x by ring end end; exact CO).
    + apply flt_Rf in S; auto with fin. rewrite f0_R in S.
      assert (D : B2R h1 - B2R h2 > 13176795 / 4194304 - / 1000000).
      { destruct (Rle_lt_dec 0 (B2R (fsub h1 h2))) as [P|P]; [rewrite Rabs_pos_eq in E by exact P; lra|]. rewrite Rabs_left in E by exact P. exfalso.
        destruct (fsub_num h1 h2 (- B2R fPI) 8 F1 F2 ltac:(apply fmt_opp, fmt_B2R) ltac:(apply (fmt_IZR 8); lia)) as [[_ Q] _]; [rewrite EP; lra|]. rewrite EP in Q. lra. }
      destruct (SH h2 F2 B2' ltac:(lra)) as (Fb & Bb & Eb). destruct (SELF h1 F1 B1') as [Ba Ea].
      destruct (FAR h1 _ _ _ F1 Fb Ba Bb Ea Eb) as [FO CO]. exists (B2R h2 + 2 * PI). split; [exists 1%Z; lra|]. split; [apply Rabs_le_iff; lra|]. split; [exact FO|].
      destruct CO as [CO|CO]; [exists 0%Z|exists (-1)%Z]; unfold mixed in *; (match type of CO with Rabs ?x <= _ => match goal with |- Rabs ?y <= _ => replace y with x by ring end end; exact CO).
  - exists (B2R h2). split; [exists 0%Z; lra|]. apply flt_Rf in E; auto using fabs_fin. rewrite fabs_R, EP in E. apply Rabs_le_iff in E.
    split; [apply Rabs_le_iff; lra|]. destruct (mix_close 4 (/ 8388608) h1 h2 i uo_4 ltac:(lra) F1 F2 ltac:(apply Rabs_le_iff; lra) ltac:(apply Rabs_le_iff; lra) I) as [FM CM].
    split; [exact FM|]. exists 0%Z. apply Rabs_le_iff in CM. apply Rabs_le_iff. lra.
Qed.

(** ** The LCh operations as a whole *)
Lemma lch_hue_range L c : bounded_atan2 L -> accurate_powf L -> accurate_powf_above L -> in_gamut c -> Rabs (B2R (d2 (to_lch L D65 O2 KRgb c))) <= B2R fPI.
Proof.
  intros BA AL AA G. destruct (gamut_xyz c G) as [XR WR]. specialize (WR D65 O2). cbn [white] in WR.
  unfold to_lch, to_lab. cbn [to_xyz to_rgb]. set (x := apply_matrix c RGB_TO_XYZ) in *.
  assert (HR : let '(w0, w1, w2) := white D65 O2 in B2R (d0 x) / w0 <= 14 / 10 /\ B2R (d1 x) / w1 <= 14 / 10 /\ B2R (d2 x) / w2 <= 14 / 10) by (cbn [white]; lra).
  destruct (lab_bound L D65 O2 x AL AA XR HR) as ((G0 & G1 & G2) & _ & _). unfold lab_to_lch. cbn [d2]. now apply BA.
Qed.
Lemma lch_light_meaning L (pick : R -> R -> R) (op : f32 -> f32 -> f32) c1 c2 i :
  (forall a b, fin a -> fin b -> fin (op a b) /\ B2R (op a b) = pick (B2R a) (B2R b)) -> (forall a b, pick a b = a \/ pick a b = b) ->
  accurate_powf L -> accurate_powf_above L -> accurate_angles L -> in_gamut c1 -> in_gamut c2 -> in01 i ->
  let h1 := to_lch L D65 O2 KRgb c1 in let h2 := to_lch L D65 O2 KRgb c2 in
  exists l, lch_rgb L (with_0 h1 (apply_intensity (d0 h1) (op (d0 h1) (d0 h2)) i)) = of_lch L l (d1 h1) (d2 h1) (d3 c1) /\
    close (/ 1048576) (mixed (B2R i) (B2R (d0 h1)) (pick (B2R (d0 h1)) (B2R (d0 h2)))) l.
Proof.
  intros HO HP AL AA AN G1 G2 I. cbv zeta. destruct (lch_fin L c1 AL AA AN G1) as ([F0 N0] & _ & _ & E3). destruct (lch_fin L c2 AL AA AN G2) as ([F0' N0'] & _).
  apply in01_num in I. set (h1 := to_lch L D65 O2 KRgb c1) in *. set (h2 := to_lch L D65 O2 KRgb c2) in *. destruct (HO (d0 h1) (d0 h2) F0 F0') as [FO EO].
  exists (apply_intensity (d0 h1) (op (d0 h1) (d0 h2)) i). split; [unfold with_0, lch_rgb, of_lch; rewrite E3; reflexivity|].
  rewrite <- EO. eapply close_weak; [apply (mix_close 2 (/ 16777216)); auto using uo_2; try lra|lra].
  - apply Rabs_le_iff; lra.
  - rewrite EO. destruct (HP (B2R (d0 h1)) (B2R (d0 h2))) as [-> | ->]; apply Rabs_le_iff; lra.
Qed.
Lemma lch_saturation_meaning L c1 c2 i : accurate_powf L -> accurate_powf_above L -> accurate_angles L -> in_gamut c1 -> in_gamut c2 -> in01 i ->
  let h1 := to_lch L D65 O2 KRgb c1 in let h2 := to_lch L D65 O2 KRgb c2 in
  exists s, blend_func L LchSaturation c1 c2 i = of_lch L (d0 h1) s (d2 h1) (d3 c1) /\ close (/ 524288) (mixed (B2R i) (B2R (d1 h1)) (B2R (d1 h2))) s.
Proof.
  intros AL AA AN G1 G2 I. cbv zeta. destruct (lch_fin L c1 AL AA AN G1) as (_ & [F1 N1] & _ & E3). destruct (lch_fin L c2 AL AA AN G2) as (_ & [F1' N1'] & _).
  apply in01_num in I. cbn [blend_func]. unfold blend_lch_saturation, rgb_lch. cbv zeta. set (h1 := to_lch L D65 O2 KRgb c1) in *. set (h2 := to_lch L D65 O2 KRgb c2) in *.
  exists (apply_intensity (d1 h1) (d1 h2) i). split; [unfold with_1, lch_rgb, of_lch; rewrite E3; reflexivity|].
  eapply close_weak; [apply (mix_close 8 (/ 4194304)); auto using uo_8; try lra; rewrite Rabs_pos_eq; lra|lra].
Qed.
Lemma lch_color_meaning L c1 c2 i : accurate_powf L -> accurate_powf_above L -> accurate_angles L -> bounded_atan2 L -> in_gamut c1 -> in_gamut c2 -> in01 i ->
  let h1 := to_lch L D65 O2 KRgb c1 in let h2 := to_lch L D65 O2 KRgb c2 in
  exists s h, blend_func L LchColor c1 c2 i = of_lch L (d0 h1) s h (d3 c1) /\ close (/ 524288) (mixed (B2R i) (B2R (d1 h1)) (B2R (d1 h2))) s /\
    close (/ 524288) (mixed (B2R i) (B2R (d2 h1)) (B2R (d2 h2))) h.
Proof.
  intros AL AA AN BA G1 G2 I. cbv zeta. pose proof (lch_hue_range L c1 BA AL AA G1) as H1. pose proof (lch_hue_range L c2 BA AL AA G2) as H2. destruct fPI_val as [_ EP]. rewrite EP in H1, H2.
  destruct (lch_fin L c1 AL AA AN G1) as (_ & [F1 N1] & F2 & E3). destruct (lch_fin L c2 AL AA AN G2) as (_ & [F1' N1'] & F2' & _).
  apply in01_num in I. cbn [blend_func]. unfold blend_lch_color, rgb_lch. cbv zeta. set (h1 := to_lch L D65 O2 KRgb c1) in *. set (h2 := to_lch L D65 O2 KRgb c2) in *.
  exists (apply_intensity (d1 h1) (d1 h2) i), (apply_intensity (d2 h1) (d2 h2) i). split; [unfold with_1, with_2, lch_rgb, of_lch; rewrite <- E3; reflexivity|].
  split; (eapply close_weak; [apply (mix_close 8 (/ 4194304)); auto using uo_8; try lra; try (rewrite Rabs_pos_eq; lra)|lra]).
Qed.
Lemma lch_hue_meaning L c1 c2 i : accurate_powf L -> accurate_powf_above L -> accurate_angles L -> bounded_atan2 L -> in_gamut c1 -> in_gamut c2 -> in01 i ->
  let h1 := to_lch L D65 O2 KRgb c1 in let h2 := to_lch L D65 O2 KRgb c2 in
  exists h near, blend_func L LchHue c1 c2 i = of_lch L (d0 h1) (d1 h1) h (d3 c1) /\ is_finite h = true /\ (exists k : Z, near = B2R (d2 h2) + 2 * PI * IZR k) /\
    Rabs (near - B2R (d2 h1)) <= PI + / 1048576 /\ same_angle (/ 262144) (B2R h) (mixed (B2R i) (B2R (d2 h1)) near).
Proof.
  intros AL AA AN BA G1 G2 I. cbv zeta. pose proof (lch_hue_range L c1 BA AL AA G1) as H1. pose proof (lch_hue_range L c2 BA AL AA G2) as H2.
  destruct (lch_fin L c1 AL AA AN G1) as (_ & _ & F2 & E3). destruct (lch_fin L c2 AL AA AN G2) as (_ & _ & F2' & _).
  apply in01_num in I. cbn [blend_func]. unfold blend_lch_hue, rgb_lch. cbv zeta. set (h1 := to_lch L D65 O2 KRgb c1) in *. set (h2 := to_lch L D65 O2 KRgb c2) in *.
  destruct (hue_meaning (d2 h1) (d2 h2) i F2 F2' H1 H2 I) as (near & K & N & F & S). exists (blend_hue (d2 h1) (d2 h2) i), near.
  split; [unfold with_2, lch_rgb, of_lch; rewrite E3; reflexivity|]. tauto.
Qed.
