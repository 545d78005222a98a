(** Proofs for C100 and C101: what the change of the colour temperature computes. *)
From Coq Require Import Reals Lra Lia ZArith Bool Psatz List.
From Flocq Require Import Core.Core IEEE754.BinarySingleNaN.
From Verif Require Import Base BaseLemmas F32 F32Lemmas PixelBuffer BufferSpec PixelBufferProofs Color ColorSpec ColorProofs MeaningSpec ConvSpec OpsSpec TempSpec EnhanceSpec Approx OpMeaningProofs HslMeaning LinearConv LabCurve F64Lemmas Kernel Ops HistogramProofs TemperatureProofs Enhance.
Import ListNotations.
Open Scope R_scope.

Definition near64 (r : R) (x : f64) : Prop := fin64 x /\ Rabs (B2R x - r) <= / 10000000000000000.
Definition entry_ok (p : R * R) (q : f64 * f64) : Prop :=
  near64 (fst p) (fst q) /\ near64 (snd p) (snd q) /\ 27 / 100 <= fst p <= 66 / 100 /\ 27 / 100 <= snd p <= 42 / 100.
Ltac dnear := match goal with |- near64 _ ?c => let E := fresh "EE" in dval c E; split; [assumption|]; rewrite E; apply Rabs_le_iff; lra end.
Ltac entry := unfold entry_ok; cbn [fst snd]; split; [dnear|split; [dnear|lra]].
Lemma table_ok : Forall2 entry_ok cie_table TEMPERATURE_TABLE.
Proof. unfold cie_table, TEMPERATURE_TABLE. cbv zeta. do 12 (apply Forall2_cons; [entry|]). apply Forall2_nil. Qed.
Lemma entry_at i : (0 <= i < 12)%Z -> exists q, idx TEMPERATURE_TABLE i = Ok q /\ entry_ok (cie_entry i) q.
Proof.
  intros H. rewrite idx_nth by lia. unfold cie_entry. assert (N : (Z.to_nat i < 12)%nat) by lia. revert N. generalize (Z.to_nat i). clear H i. intros n N.
  assert (L : length cie_table = 12%nat) by reflexivity. rewrite <- L in N. clear L. revert n N.
  induction table_ok as [|p q l l' H _ IH]; intros n N; [cbn in N; lia|]. destruct n as [|n].
  - exists q. split; [reflexivity|exact H].
  - destruct (IH n) as (r & E & K). { change (length (p :: l)) with (S (length l)) in N. lia. } exists r. split; [exact E|exact K].
Qed.
(** An interpolated number. *)
Lemma mix_ok a b p q (T i : Z) : near64 p a -> near64 q b -> 27 / 100 <= p <= 66 / 100 -> 27 / 100 <= q <= 66 / 100 -> (0 <= i <= 12)%Z -> (0 <= T - i * 1000 <= 1000)%Z ->
  let f := ddiv (dsub (ofZ64 T) (ofZ64 (i * 1000))) (ofZ64 1000) in let F := IZR (T - i * 1000) / 1000 in
  let o := dadd (dmul a (dsub (ofZ64 1) f)) (dmul b f) in
  fin64 o /\ Rabs (B2R o - (p * (1 - F) + q * F)) <= / 100000000000000.
Proof.
  intros [Fa Ea] [Fb Eb] P Q I HT f F o.
  destruct (ofZ64_val T) as [F1 E1]. { lia. } destruct (ofZ64_val (i * 1000)) as [F2 E2]. { lia. }
  destruct (ofZ64_val 1000) as [F3 E3]. { lia. } destruct (ofZ64_val 1) as [F4 E4]. { lia. }
  assert (ES : IZR T - IZR (i * 1000) = IZR (T - i * 1000)) by (rewrite minus_IZR; reflexivity).
  assert (RF : 0 <= IZR (T - i * 1000) <= 1000) by (split; apply IZR_le; lia).
  assert (DS : fin64 (dsub (ofZ64 T) (ofZ64 (i * 1000))) /\ B2R (dsub (ofZ64 T) (ofZ64 (i * 1000))) = IZR (T - i * 1000)).
  { pose proof (Bminus_correct 53 1024 p53 e1024 mode_NE _ _ F1 F2) as B. rewrite E1, E2, ES in B.
    fold (rnd64 (IZR (T - i * 1000))) in B. rewrite rnd64_IZR in B by lia. rewrite Rlt_bool_true in B.
    - destruct B as (B1 & B2 & _). split; assumption.
    - pose proof big90. apply Rabs_lt. lra. }
  destruct DS as [F5 E5]. set (s := dsub (ofZ64 T) (ofZ64 (i * 1000))) in *. clearbody s.
  assert (R01 : 0 <= F <= 1) by (unfold F; lra).
  destruct (ddiv_val s (ofZ64 1000) 1) as [F6 E6]; auto; try lra. { rewrite E5, E3. fold F. apply Rabs_le_iff. lra. }
  rewrite E5, E3 in E6. fold F in E6. fold f in F6, E6. clearbody f F. apply Rabs_le_iff in E6.
  destruct (dsub_val (ofZ64 1) f 2) as [F7 E7]; auto; try lra. { rewrite E4. apply Rabs_le_iff. lra. } rewrite E4 in E7.
  set (g := dsub (ofZ64 1) f) in *. clearbody g. apply Rabs_le_iff in E7, Ea, Eb.
  assert (M1 : Rabs (B2R a * B2R g) <= 67 / 100 * 2) by (apply abs_mul_le; apply Rabs_le_iff; lra).
  assert (M2 : Rabs (B2R b * B2R f) <= 67 / 100 * 2) by (apply abs_mul_le; apply Rabs_le_iff; lra).
  destruct (dmul_val a g (67 / 100 * 2)) as [F8 E8]; auto; try lra. destruct (dmul_val b f (67 / 100 * 2)) as [F9 E9]; auto; try lra.
  set (u := dmul a g) in *. set (v := dmul b f) in *. clearbody u v. apply Rabs_le_iff in M1, M2, E8, E9.
  destruct (dadd_val u v 3) as [F10 E10]; auto; try lra. { apply Rabs_le_iff. lra. } split; [exact F10|]. unfold o. apply Rabs_le_iff in E10.
  assert (D1 : Rabs ((B2R a - p) * B2R g) <= / 10000000000000000 * (101 / 100)) by (apply abs_mul_le; apply Rabs_le_iff; lra).
  assert (D2 : Rabs (p * (B2R g - (1 - F))) <= 66 / 100 * (4 * V64)) by (apply abs_mul_le; apply Rabs_le_iff; lra).
  assert (D3 : Rabs ((B2R b - q) * B2R f) <= / 10000000000000000 * (101 / 100)) by (apply abs_mul_le; apply Rabs_le_iff; lra).
  assert (D4 : Rabs (q * (B2R f - F)) <= 66 / 100 * (2 * V64)) by (apply abs_mul_le; apply Rabs_le_iff; lra).
  apply Rabs_le_iff in D1, D2, D3, D4. apply Rabs_le_iff. lra.
Qed.
(** The chromaticity of the code. *)
Definition code_xy (T : Z) : res (f64 * f64) :=
  let i := (T / 1000)%Z in
  '(x, y) <- idx TEMPERATURE_TABLE (i - 1);
  if dlt (ofZ64 1) (dabs (dsub (ofZ64 T) (ofZ64 (i * 1000)))) then
    '(x2, y2) <- idx TEMPERATURE_TABLE i;
    let f := ddiv (dsub (ofZ64 T) (ofZ64 (i * 1000))) (ofZ64 1000) in
    Ok (dadd (dmul x (dsub (ofZ64 1) f)) (dmul x2 f), dadd (dmul y (dsub (ofZ64 1) f)) (dmul y2 f))
  else Ok (x, y).
Definition code_white (p : f64 * f64) : Rgb :=
  let (x, y) := p in let z := dsub (dsub (ofZ64 1) x) y in let s := ddiv (ofZ64 1) y in
  xyz_to_rgb (raw_new (f64_to_f32 (dmul x s)) (f64_to_f32 (dmul y s)) (f64_to_f32 (dmul z s))).
Lemma code_split t : convert_kelvin_to_rgb t = bind (code_xy (kelvin t)) (fun p => Ok (code_white p)).
Proof.
  unfold convert_kelvin_to_rgb, code_xy. cbv zeta. rewrite clamp_kelvin. cbn [bind].
  destruct (idx TEMPERATURE_TABLE (kelvin t / 1000 - 1)) as [[x y]|]; cbn [bind]; [|reflexivity].
  destruct (dlt _ _); [|reflexivity]. destruct (idx TEMPERATURE_TABLE (kelvin t / 1000)) as [[x2 y2]|]; reflexivity.
Qed.
Lemma mix_range a b f lo hi : lo <= a <= hi -> lo <= b <= hi -> 0 <= f <= 1 -> lo <= a * (1 - f) + b * f <= hi.
Proof. intros. nra. Qed.
Lemma code_xy_ok T : (1000 <= T <= 12000)%Z -> exists p, code_xy T = Ok p /\
  let (X, Y) := cie_xy T in (27 / 100 <= X <= 66 / 100 /\ 27 / 100 <= Y <= 42 / 100) /\
  (fin64 (fst p) /\ Rabs (B2R (fst p) - X) <= / 100000000000000) /\ (fin64 (snd p) /\ Rabs (B2R (snd p) - Y) <= / 100000000000000).
Proof.
  intros HT. unfold code_xy, cie_xy. cbv zeta.
  pose proof (Z.div_mod T 1000 ltac:(lia)) as DM. pose proof (Z.mod_pos_bound T 1000 ltac:(lia)) as MB.
  set (i := (T / 1000)%Z) in *. set (k := (T mod 1000)%Z) in *. clearbody i k.
  destruct (entry_at (i - 1) ltac:(lia)) as ([x y] & -> & ([Fx Ex] & [Fy Ey] & Rx & Ry)). cbn [bind fst snd] in *. destruct (cie_entry (i - 1)) as [X Y]. cbn [fst snd] in *.
  assert (ET : (T - i * 1000 = k)%Z) by lia.
  assert (DS : dlt (ofZ64 1) (dabs (dsub (ofZ64 T) (ofZ64 (i * 1000)))) = negb (k <=? 1)%Z).
  { destruct (ofZ64_val T) as [F1 E1]. { lia. } destruct (ofZ64_val (i * 1000)) as [F2 E2]. { lia. } destruct (ofZ64_val 1) as [F4 E4]. { lia. }
    pose proof (Bminus_correct 53 1024 p53 e1024 mode_NE _ _ F1 F2) as B. rewrite E1, E2, <- minus_IZR, ET in B.
    fold (rnd64 (IZR k)) in B. rewrite rnd64_IZR in B by lia. rewrite Rlt_bool_true in B.
    2:{ pose proof big90. assert (0 <= IZR k <= 1000) by (split; apply IZR_le; lia). apply Rabs_lt. lra. }
    destruct B as (B1 & B2 & _). set (s := dsub (ofZ64 T) (ofZ64 (i * 1000))) in *. fold (dsub (ofZ64 T) (ofZ64 (i * 1000))) in B1, B2. fold s in B1, B2. clearbody s.
    assert (FA : fin64 (dabs s)). { unfold fin64, dabs. rewrite is_finite_Babs. exact B2. }
    assert (EA : B2R (dabs s) = IZR k). { unfold dabs. rewrite B2R_Babs, B1. apply Rabs_right. apply Rle_ge, IZR_le. lia. }
    destruct (Z.leb_spec k 1) as [Q|Q]; cbn [negb].
    - destruct (dlt (ofZ64 1) (dabs s)) eqn:D; [|reflexivity]. apply dlt_R in D; auto. rewrite E4, EA in D. apply lt_IZR in D. lia.
    - apply dlt_R; auto. rewrite E4, EA. apply IZR_lt. lia. }
  rewrite DS. destruct (Z.leb_spec k 1) as [Q|Q]; cbn [negb].
  - eexists. split; [reflexivity|]. cbn [fst snd]. split; [tauto|]. split; (split; [assumption|lra]).
  - destruct (entry_at i ltac:(lia)) as ([x2 y2] & -> & ([Fx2 Ex2] & [Fy2 Ey2] & Rx2 & Ry2)). cbn [bind fst snd] in *. destruct (cie_entry i) as [X2 Y2]. cbn [fst snd] in *.
    eexists. split; [reflexivity|]. cbn [fst snd].
    assert (RF : 0 <= IZR k / 1000 <= 1). { assert (0 <= IZR k <= 1000) by (split; apply IZR_le; lia). lra. }
    split; [split; apply mix_range; assumption|]. rewrite <- ET. split; apply mix_ok; try split; try assumption; try lia; lra.
Qed.
Lemma code_white_ok x y X Y : (27 / 100 <= X <= 66 / 100 /\ 27 / 100 <= Y <= 42 / 100) ->
  (fin64 x /\ Rabs (B2R x - X) <= / 100000000000000) -> (fin64 y /\ Rabs (B2R y - Y) <= / 100000000000000) ->
  let w := code_white (x, y) in
  close (/ 131072) (limited (xyz_red (X / Y) 1 ((1 - X - Y) / Y))) (d0 w) /\
  close (/ 131072) (limited (xyz_green (X / Y) 1 ((1 - X - Y) / Y))) (d1 w) /\
  close (/ 131072) (limited (xyz_blue (X / Y) 1 ((1 - X - Y) / Y))) (d2 w) /\
  (1 + / 65536 <= xyz_red (X / Y) 1 ((1 - X - Y) / Y) -> B2R (d0 w) = 1) /\
  (xyz_blue (X / Y) 1 ((1 - X - Y) / Y) <= - / 65536 -> B2R (d2 w) = 0) /\
  (num 0 1 (d0 w) /\ num 0 1 (d1 w) /\ num 0 1 (d2 w)).
Proof.
  intros [HX HY] [Fx Ex] [Fy Ey]. unfold code_white. cbv zeta. pose proof Ex as Ex'. pose proof Ey as Ey'. apply Rabs_le_iff in Ex, Ey.
  destruct (ofZ64_val 1) as [F1 E1]. { lia. }
  destruct (dsub_val (ofZ64 1) x 1) as [F2 E2]; auto; try lra. { rewrite E1. apply Rabs_le_iff. lra. } rewrite E1 in E2.
  set (u := dsub (ofZ64 1) x) in *. clearbody u. apply Rabs_le_iff in E2.
  destruct (dsub_val u y 1) as [F3 E3]; auto; try lra. { apply Rabs_le_iff. lra. }
  set (z := dsub u y) in *. clearbody z. apply Rabs_le_iff in E3.
  assert (IY : / B2R y <= 4 /\ 0 < / B2R y).
  { split; [|apply Rinv_0_lt_compat; lra]. apply (Rmult_le_reg_r (B2R y)); [lra|]. rewrite Rinv_l by lra. lra. }
  assert (IY2 : / Y <= 4 /\ 0 < / Y).
  { split; [|apply Rinv_0_lt_compat; lra]. apply (Rmult_le_reg_r Y); [lra|]. rewrite Rinv_l by lra. lra. }
  assert (DY : Rabs (/ B2R y - / Y) <= 4 * 4 * / 100000000000000).
  { replace (/ B2R y - / Y) with ((/ B2R y * / Y) * (Y - B2R y)) by (field; lra). apply abs_mul_le.
    - apply Rabs_le_iff. nra. - rewrite Rabs_minus_sym. exact Ey'. }
  destruct (ddiv_val (ofZ64 1) y 4) as [F4 E4]; auto; try lra. { rewrite E1. unfold Rdiv. rewrite Rmult_1_l. apply Rabs_le_iff. lra. }
  rewrite E1 in E4. unfold Rdiv in E4. rewrite Rmult_1_l in E4.
  set (s := ddiv (ofZ64 1) y) in *. clearbody s. apply Rabs_le_iff in E4, DY.
  assert (P : forall (v : f64) V, fin64 v -> Rabs (B2R v - V) <= / 10000000000000 -> - (66 / 100) <= V <= 66 / 100 ->
    fin (f64_to_f32 (dmul v s)) /\ Rabs (B2R (f64_to_f32 (dmul v s)) - V * / Y) <= 3 * U /\ - (264 / 100) <= V * / Y <= 264 / 100).
  { intros v V Fv Ev HV. apply Rabs_le_iff in Ev.
    assert (D1 : Rabs (V * (B2R s - / Y)) <= 66 / 100 * / 1000000000000) by (apply abs_mul_le; apply Rabs_le_iff; lra).
    assert (D2 : Rabs ((B2R v - V) * B2R s) <= / 10000000000000 * 5) by (apply abs_mul_le; apply Rabs_le_iff; lra).
    assert (V0 : Rabs (V * / Y) <= 66 / 100 * 4) by (apply abs_mul_le; apply Rabs_le_iff; lra). apply Rabs_le_iff in V0.
    apply Rabs_le_iff in D1, D2.
    destruct (dmul_val v s 3) as [Fm Em]; auto; try lra. { apply Rabs_le_iff. lra. }
    set (m := dmul v s) in *. clearbody m. apply Rabs_le_iff in Em.
    destruct (narrow m 4) as [Fn En]; auto with fmt. { apply Rabs_le_iff. lra. }
    split; [exact Fn|]. pose proof (uo_err 4 _ (B2R m) uo_4 ltac:(apply Rabs_le_iff; lra)) as Er. rewrite <- En in Er. apply Rabs_le_iff in Er. split; [|lra]. apply Rabs_le_iff. lra. }
  assert (YY : Y * / Y = 1) by (apply Rinv_r; lra).
  destruct (P x X Fx) as (G0 & H0 & K0); [apply Rabs_le_iff; lra|lra|].
  destruct (P y Y Fy) as (G1 & H1 & _); [apply Rabs_le_iff; lra|lra|]. rewrite YY in H1.
  destruct (P z (1 - X - Y) F3) as (G2 & H2 & K2).
  { apply Rabs_le_iff. lra. } { lra. }
  unfold Rdiv at 1 2 3 4 5 6 7 8 9 10. set (a := f64_to_f32 (dmul x s)) in *. set (b := f64_to_f32 (dmul y s)) in *. set (c := f64_to_f32 (dmul z s)) in *.
  set (A := X * / Y) in *. set (C0 := (1 - X - Y) * / Y) in *. clearbody a b c A C0. clear P E4 E3 E2 DY IY IY2.
  apply Rabs_le_iff in H0, H1, H2.
  destruct (rgb_rows 3 (raw_new a b c) ltac:(lra)) as (R0 & R1 & R2).
  { split; [split; [exact G0|split; [exact G1|exact G2]]|]. cbn [raw_new d0 d1 d2]. split; [|split]; apply Rabs_le_iff; lra. }
  cbn [raw_new d0 d1 d2] in R0, R1, R2.
  assert (W : forall r r' (v : f32), close (3 / 524288) r v -> Rabs (r - r') <= / 1048576 -> close (/ 131072) (limited r') (clamp v)).
  { intros r r' v K D. eapply close_weak; [apply close_clamp; eapply close_move; eassumption|lra]. }
  split; [|split; [|split; [|split; [|split]]]].
  6:{ assert (N : forall (v : f32) e r, close e r v -> num 0 1 (clamp v)).
      { intros v e r [FR _]. destruct (clamp_R v FR) as [CF CE]. split; [exact CF|]. rewrite CE. apply limited_range. }
      split; [exact (N _ _ _ R0)|split; [exact (N _ _ _ R1)|exact (N _ _ _ R2)]]. }
  5:{ intros BIG. destruct R2 as [FR ER]. apply Rabs_le_iff in ER. unfold xyz_blue in ER, BIG.
      match type of FR with is_finite ?v = true => assert (E : B2R (clamp v) = 0) end; [|exact E].
      destruct (clamp_R _ FR) as [_ ->]. apply limited_lo. lra. }
  4:{ intros BIG. destruct R0 as [FR ER]. apply Rabs_le_iff in ER. unfold xyz_red in ER, BIG.
      match type of FR with is_finite ?v = true => assert (E : B2R (clamp v) = 1) end; [|exact E].
      destruct (clamp_R _ FR) as [_ ->]. apply limited_hi. lra. }
  - apply (W _ _ _ R0). unfold xyz_red. apply Rabs_le_iff. lra.
  - apply (W _ _ _ R1). unfold xyz_green. apply Rabs_le_iff. lra.
  - apply (W _ _ _ R2). unfold xyz_blue. apply Rabs_le_iff. lra.
Qed.

(** A linear condition that the entries meet holds between them. *)
Lemma cie_linear a b c lo hi : (forall i, (lo <= i <= hi)%Z -> let (x, y) := cie_entry i in 0 <= a * x + b * y + c) ->
  forall T, (1000 * (lo + 1) <= T <= 1000 * (hi + 1))%Z -> let (X, Y) := cie_xy T in 0 <= a * X + b * Y + c.
Proof.
  intros H T HT. unfold cie_xy. pose proof (Z.div_mod T 1000 ltac:(lia)) as DM. pose proof (Z.mod_pos_bound T 1000 ltac:(lia)) as MB.
  set (i := (T / 1000)%Z) in *. set (k := (T mod 1000)%Z) in *. clearbody i k.
  pose proof (H (i - 1)%Z ltac:(lia)) as H1. destruct (cie_entry (i - 1)) as [x y].
  destruct (Z.leb_spec k 1) as [Q|Q]; [exact H1|]. pose proof (H i ltac:(lia)) as H2. destruct (cie_entry i) as [x2 y2].
  assert (RF : 0 <= IZR k / 1000 <= 1). { assert (0 <= IZR k <= 1000) by (split; apply IZR_le; lia). lra. }
  set (f := IZR k / 1000) in *. clearbody f.
  replace (a * (x * (1 - f) + x2 * f) + b * (y * (1 - f) + y2 * f) + c) with ((a * x + b * y + c) * (1 - f) + (a * x2 + b * y2 + c) * f) by ring.
  apply Rplus_le_le_0_compat; apply Rmult_le_pos; lra.
Qed.
Lemma over Y n m : 0 < Y -> 0 <= n - m * Y -> m <= n / Y.
Proof. intros P H. apply (Rmult_le_reg_r Y); [lra|]. unfold Rdiv. rewrite Rmult_assoc, Rinv_l by lra. lra. Qed.
Ltac entries lo hi :=
  let i := fresh "i" in let n := fresh "n" in let H := fresh "H" in let N := fresh "N" in intros i H; unfold cie_entry, cie_table;
  assert (N : (Z.to_nat lo <= Z.to_nat i <= Z.to_nat hi)%nat) by lia; revert N; generalize (Z.to_nat i); clear i H; intros n N;
  do 12 (destruct n as [|n]; [cbn [nth]; first [lra | exfalso; lia]|]); exfalso; lia.
Lemma red_full T : (1000 <= T <= 7000)%Z -> let (X, Y) := cie_xy T in 1 + / 65536 <= xyz_red (X / Y) 1 ((1 - X - Y) / Y).
Proof.
  intros HT. pose proof (code_xy_ok T ltac:(lia)) as (p & _ & R).
  pose proof (cie_linear (3240479 / 1000000 + 498535 / 1000000) (- (1537150 / 1000000) + 498535 / 1000000 - (1 + / 65536)) (- (498535 / 1000000)) 0 6 ltac:(entries 0%Z 6%Z) T ltac:(lia)) as L.
  destruct (cie_xy T) as [X Y]. destruct R as ((RX & RY) & _). unfold xyz_red.
  replace (3240479 / 1000000 * (X / Y) - 1537150 / 1000000 * 1 - 498535 / 1000000 * ((1 - X - Y) / Y))
    with ((3240479 / 1000000 * X - 1537150 / 1000000 * Y - 498535 / 1000000 * (1 - X - Y)) / Y) by (field; lra).
  apply over; lra.
Qed.

Lemma white_ok t : exists c, convert_kelvin_to_rgb t = Ok c /\
  close (/ 131072) (white_red (kelvin t)) (d0 c) /\ close (/ 131072) (white_green (kelvin t)) (d1 c) /\ close (/ 131072) (white_blue (kelvin t)) (d2 c) /\
  ((kelvin t <= 7000)%Z -> B2R (d0 c) = 1).
Proof.
  rewrite code_split. destruct (code_xy_ok (kelvin t) (kelvin_range t)) as ([x y] & -> & H). cbn [bind]. eexists. split; [reflexivity|].
  unfold white_red, white_green, white_blue. destruct (cie_xy (kelvin t)) as [X Y] eqn:E. destruct H as (R & A & B). cbn [fst snd] in *.
  destruct (code_white_ok x y X Y R A B) as (W0 & W1 & W2 & W3 & _). split; [exact W0|]. split; [exact W1|]. split; [exact W2|].
  intros H7. apply W3. pose proof (red_full (kelvin t)) as RF. rewrite E in RF. apply RF. pose proof (kelvin_range t). lia.
Qed.
Lemma limited_ge r m : m <= 1 -> m <= r -> m <= limited r.
Proof. intros A B. unfold limited. apply Rle_trans with (Rmin r 1); [apply Rmin_glb; lra|first [apply Rmax_l|apply Rmax_r]]. Qed.
Lemma whites T : (3000 <= T <= 12000)%Z -> / 4 <= white_red T /\ / 4 <= white_green T /\ / 4 <= white_blue T.
Proof.
  intros HT. pose proof (code_xy_ok T ltac:(lia)) as (p & _ & R).
  pose proof (cie_linear (3240479 / 1000000 + 498535 / 1000000) (- (1537150 / 1000000) + 498535 / 1000000 - / 4) (- (498535 / 1000000)) 2 11 ltac:(entries 2%Z 11%Z) T ltac:(lia)) as L0.
  pose proof (cie_linear (- (969256 / 1000000) - 41556 / 1000000) (1875991 / 1000000 - 41556 / 1000000 - / 4) (41556 / 1000000) 2 11 ltac:(entries 2%Z 11%Z) T ltac:(lia)) as L1.
  pose proof (cie_linear (55648 / 1000000 - 1057311 / 1000000) (- (204043 / 1000000) - 1057311 / 1000000 - / 4) (1057311 / 1000000) 2 11 ltac:(entries 2%Z 11%Z) T ltac:(lia)) as L2.
  unfold white_red, white_green, white_blue. destruct (cie_xy T) as [X Y]. destruct R as ((RX & RY) & _).
  split; [|split]; apply limited_ge; try lra; [unfold xyz_red|unfold xyz_green|unfold xyz_blue].
  - replace (3240479 / 1000000 * (X / Y) - 1537150 / 1000000 * 1 - 498535 / 1000000 * ((1 - X - Y) / Y))
      with ((3240479 / 1000000 * X - 1537150 / 1000000 * Y - 498535 / 1000000 * (1 - X - Y)) / Y) by (field; lra). apply over; lra.
  - match goal with |- _ <= ?e => replace e with ((- (969256 / 1000000) * X + 1875991 / 1000000 * Y + 41556 / 1000000 * (1 - X - Y)) / Y) by (field; lra) end. apply over; lra.
  - match goal with |- _ <= ?e => replace e with ((55648 / 1000000 * X - 204043 / 1000000 * Y + 1057311 / 1000000 * (1 - X - Y)) / Y) by (field; lra) end. apply over; lra.
Qed.
Lemma white_limited T : (0 <= white_red T <= 1) /\ (0 <= white_green T <= 1) /\ (0 <= white_blue T <= 1).
Proof. unfold white_red, white_green, white_blue. destruct (cie_xy T). repeat split; apply limited_range. Qed.
Lemma scaled_channel (v c c' : f32) W W' : in01 v -> close (/ 131072) W c -> close (/ 131072) W' c' -> 0 <= W <= 1 -> / 4 <= W' <= 1 ->
  close (/ 4096) (limited (B2R v * (W / W'))) (clamp (fmul v (fdiv c c'))).
Proof.
  intros I K K' HW HW'. apply in01_R in I. destruct I as [Fv Hv].
  assert (IW : 0 < / W' <= 4). { split; [apply Rinv_0_lt_compat; lra|]. apply (Rmult_le_reg_r W'); [lra|]. rewrite Rinv_l by lra. lra. }
  assert (Q : 0 <= W / W' <= 4). { unfold Rdiv. split; [apply Rmult_le_pos; lra|]. replace 4 with (1 * 4) by lra. apply Rmult_le_compat; lra. }
  assert (D : close (/ 131072 * 21) (W / W') (fdiv c c')).
  { eapply close_weak; [apply (close_div 8 _ (/ 4 - / 131072) 4 (/ 131072) (/ 131072) W W' c c' uo_8 K K'); try lra|].
    - rewrite Rabs_right by lra. lra. - apply Rabs_le_iff. lra.
    - replace ((/ 131072 + 4 * / 131072) / (/ 4 - / 131072)) with (5 * 4 / 131068) by field. lra. }
  assert (V : close 0 (B2R v) v). { split; [exact Fv|]. rewrite Rminus_diag_eq by reflexivity. rewrite Rabs_R0. lra. }
  apply close_clamp. eapply close_weak; [apply (close_mul 8 _ 1 4 0 (/ 131072 * 21) _ _ _ _ uo_8 V D)|]; try (apply Rabs_le_iff; lra); lra.
Qed.
Lemma temperature_meaning L (b : PixelBuffer Rgb) t t' tint : valid b -> Forall in_gamut (data b) -> fle tint f0 = true -> (3000 <= kelvin t')%Z ->
  exists r, change_color_temperature L b t t' tint = Ok r /\ valid r /\ width r = width b /\ height r = height b /\
  forall m x y c, inside b x y -> get_pixel m b x y = Ok c -> exists o, get_pixel m r x y = Ok o /\
    close (/ 4096) (limited (B2R (d0 c) * (white_red (kelvin t) / white_red (kelvin t')))) (d0 o) /\
    close (/ 4096) (limited (B2R (d1 c) * (white_green (kelvin t) / white_green (kelvin t')))) (d1 o) /\
    close (/ 4096) (limited (B2R (d2 c) * (white_blue (kelvin t) / white_blue (kelvin t')))) (d2 o) /\ d3 o = d3 c.
Proof.
  intros Vb G Ht H3. destruct (white_ok t) as (k & E & A0 & A1 & A2 & _). destruct (white_ok t') as (k' & E' & B0 & B1 & B2 & _).
  rewrite (temperature_0 L b t t' tint k k' Ht E E'). eexists. split; [reflexivity|].
  match goal with |- context [convert ?g b] => destruct (same_dims_convert g b Vb) as (V1 & V2 & V3) end.
  split; [exact V1|]. split; [exact V2|]. split; [exact V3|]. intros m x y c I P. eexists. split; [exact (convert_pixel _ b m x y c Vb I P)|].
  assert (IN : In c (data b)). { rewrite get_pixel_eq in P by auto. eapply idx_In; exact P. }
  rewrite Forall_forall in G. destruct (G c IN) as (G0 & G1 & G2 & G3).
  destruct (white_limited (kelvin t)) as (L0 & L1 & L2). destruct (white_limited (kelvin t')) as (M0 & M1 & M2).
  destruct (whites (kelvin t')) as (N0 & N1 & N2). { pose proof (kelvin_range t'). lia. }
  unfold rgb_new_with_alpha. cbn [d0 d1 d2 d3].
  split; [apply scaled_channel; auto; lra|]. split; [apply scaled_channel; auto; lra|]. split; [apply scaled_channel; auto; lra|]. apply clamp_id. exact G3.
Qed.
Lemma temperature_red L (b : PixelBuffer Rgb) t t' tint : valid b -> Forall in_gamut (data b) -> fle tint f0 = true -> (kelvin t <= 7000)%Z -> (kelvin t' <= 7000)%Z ->
  exists r, change_color_temperature L b t t' tint = Ok r /\
  forall m x y c, inside b x y -> get_pixel m b x y = Ok c -> exists o, get_pixel m r x y = Ok o /\ same (d0 o) (d0 c).
Proof.
  intros Vb G Ht H7 H7'. destruct (white_ok t) as (k & E & [A0 _] & _ & _ & R). destruct (white_ok t') as (k' & E' & [B0 _] & _ & _ & R').
  rewrite (temperature_0 L b t t' tint k k' Ht E E'). eexists. split; [reflexivity|].
  intros m x y c I P. eexists. split; [exact (convert_pixel _ b m x y c Vb I P)|].
  assert (IN : In c (data b)). { rewrite get_pixel_eq in P by auto. eapply idx_In; exact P. }
  rewrite Forall_forall in G. destruct (G c IN) as (G0 & G1 & G2 & G3). unfold rgb_new_with_alpha. cbn [d0].
  destruct (fdiv_num (d0 k) (d0 k') 1 1) as [[F Q] _]; auto with fmt. { rewrite R' by lia. lra. } { rewrite R, R' by lia. lra. }
  apply keep_channel; auto. lra.
Qed.
