(** Proofs for C49: the whites of all temperatures, and changing a temperature
    to itself. *)
From Coq Require Import Reals Lra Lia ZArith Bool Psatz List.
From Flocq Require Import Core.Core IEEE754.BinarySingleNaN.
From Verif Require Import Base BaseLemmas F32 F32Lemmas PixelBuffer BufferSpec PixelBufferProofs Color ColorSpec ColorProofs MeaningSpec ConvSpec OpsSpec TempSpec Approx OpMeaningProofs Kernel Ops HistogramProofs TemperatureProofs TempProofs.
Import ListNotations.
Open Scope R_scope.

(** The blue part of a chromaticity, times its y. *)
Definition blue_part (x y : R) : R := 55648 / 1000000 * x - 204043 / 1000000 * y + 1057311 / 1000000 * (1 - x - y).
Lemma blue_over X Y : Y <> 0 -> xyz_blue (X / Y) 1 ((1 - X - Y) / Y) = blue_part X Y / Y.
Proof. intros H. unfold xyz_blue, blue_part. field. exact H. Qed.
Lemma low_blue T : (1000 <= T <= 1785)%Z -> let (X, Y) := cie_xy T in blue_part X Y + / 65536 * Y <= 0.
Proof.
  intros H. unfold cie_xy. assert (D : (T / 1000 = 1)%Z) by (symmetry; apply (Z.div_unique T 1000 1 (T - 1000)); lia).
  assert (M : (T mod 1000 = T - 1000)%Z) by (rewrite Z.mod_eq by lia; lia). rewrite D, M. unfold cie_entry. change (Z.to_nat (1 - 1)) with 0%nat. change (Z.to_nat 1) with 1%nat.
  unfold cie_table. cbn [nth]. unfold blue_part. assert (K : 0 <= IZR (T - 1000) <= 785) by (split; apply IZR_le; lia).
  set (k := IZR (T - 1000)) in *. clearbody k. destruct (_ <=? _)%Z; lra.
Qed.
Lemma high_blue T : (1787 <= T <= 12000)%Z -> let (X, Y) := cie_xy T in 0 <= blue_part X Y - / 65536 * Y.
Proof.
  intros H. destruct (Z_lt_le_dec T 2000) as [Q|Q].
  - unfold cie_xy. assert (D : (T / 1000 = 1)%Z) by (symmetry; apply (Z.div_unique T 1000 1 (T - 1000)); lia).
    assert (M : (T mod 1000 = T - 1000)%Z) by (rewrite Z.mod_eq by lia; lia). rewrite D, M. unfold cie_entry. change (Z.to_nat (1 - 1)) with 0%nat. change (Z.to_nat 1) with 1%nat.
    unfold cie_table. cbn [nth]. unfold blue_part. assert (K : 787 <= IZR (T - 1000) <= 999) by (split; apply IZR_le; lia).
    set (k := IZR (T - 1000)) in *. clearbody k. replace (T - 1000 <=? 1)%Z with false by (symmetry; apply Z.leb_gt; lia). lra.
  - pose proof (cie_linear (55648 / 1000000 - 1057311 / 1000000) (- (204043 / 1000000) - 1057311 / 1000000 - / 65536) (1057311 / 1000000) 1 11 ltac:(entries 1%Z 11%Z) T ltac:(lia)) as L2.
    destruct (cie_xy T) as [X Y]. unfold blue_part. lra.
Qed.
Lemma kelvin_checked t : exists c, convert_kelvin_to_rgb t = Ok c /\
  num 0 1 (d0 c) /\ num 0 1 (d1 c) /\ num 0 1 (d2 c) /\ (0 < B2R (d0 c))%R /\ (0 < B2R (d1 c))%R /\
  (if (kelvin t <? 1786)%Z then B2R (d2 c) = 0%R else (0 < B2R (d2 c))%R).
Proof.
  pose proof (kelvin_range t) as Hr. rewrite code_split. destruct (code_xy_ok (kelvin t) Hr) as ([x y] & EC & H).
  pose proof (code_split t) as CS. rewrite EC in *. cbn [bind] in *. eexists. split; [reflexivity|].
  pose proof (cie_linear (3240479 / 1000000 + 498535 / 1000000) (- (1537150 / 1000000) + 498535 / 1000000 - / 4) (- (498535 / 1000000)) 0 11 ltac:(entries 0%Z 11%Z) (kelvin t) ltac:(lia)) as L0.
  pose proof (cie_linear (- (969256 / 1000000) - 41556 / 1000000) (1875991 / 1000000 - 41556 / 1000000 - / 50) (41556 / 1000000) 0 11 ltac:(entries 0%Z 11%Z) (kelvin t) ltac:(lia)) as L1.
  pose proof (low_blue (kelvin t)) as LB. pose proof (high_blue (kelvin t)) as HB.
  destruct (cie_xy (kelvin t)) as [X Y] eqn:E. destruct H as (R & A & B). cbn [fst snd] in *.
  destruct (code_white_ok x y X Y R A B) as (W0 & W1 & W2 & _ & W4 & N0 & N1 & N2). destruct R as [RX RY].
  repeat (split; [assumption|]).
  assert (P : forall r (v : f32), close (/ 131072) (limited r) v -> / 65536 <= r -> 0 < B2R v).
  { intros r v [_ K] Q. pose proof (limited_ge r (/ 65536) ltac:(lra) Q). apply Rabs_le_iff in K. lra. }
  split.
  { apply (P _ _ W0). unfold xyz_red.
    replace (3240479 / 1000000 * (X / Y) - 1537150 / 1000000 * 1 - 498535 / 1000000 * ((1 - X - Y) / Y))
      with ((3240479 / 1000000 * X - 1537150 / 1000000 * Y - 498535 / 1000000 * (1 - X - Y)) / Y) by (field; lra). apply over; lra. }
  split.
  { apply (P _ _ W1). unfold xyz_green.
    match goal with |- _ <= ?e => replace e with ((- (969256 / 1000000) * X + 1875991 / 1000000 * Y + 41556 / 1000000 * (1 - X - Y)) / Y) by (field; lra) end. apply over; lra. }
  rewrite blue_over in W2, W4 by lra. destruct (Z.ltb_spec (kelvin t) 1786) as [Q|Q].
  - apply W4. specialize (LB ltac:(lia)). assert (O : / 65536 <= - blue_part X Y / Y) by (apply over; lra).
    replace (- blue_part X Y / Y) with (- (blue_part X Y / Y)) in O by (field; lra). lra.
  - destruct (Z.eq_dec (kelvin t) 1786) as [E6|N6].
    + assert (F : match convert_kelvin_to_rgb (ofZ 1786) with Ok c => flt f0 (d2 c) | Panic => false end = true) by (vm_compute; reflexivity).
      rewrite (kelvin_only (ofZ 1786) t), CS in F by (rewrite E6; apply kelvin_ofZ; lia).
      apply flt_R in F; [|reflexivity|apply N2]. rewrite f0_R in F. exact F.
    + apply (P _ _ W2). apply over; [lra|]. exact (HB ltac:(lia)).
Qed.

Lemma temperature_same_l L (b : PixelBuffer Rgb) t tint : valid b -> fle tint f0 = true ->
  exists r, change_color_temperature L b t t tint = Ok r /\ valid r /\ width r = width b /\ height r = height b /\
    forall m x y c, inside b x y -> get_pixel m b x y = Ok c -> in_gamut c -> exists c', get_pixel m r x y = Ok c' /\
      same (d0 c') (d0 c) /\ same (d1 c') (d1 c) /\ alpha c' = alpha c /\
      (if kelvin t <? 1786 then is_nan (d2 c') = true else same (d2 c') (d2 c)).
Proof.
  intros V T. destruct (kelvin_checked t) as (k & E & N0 & N1 & N2 & P0 & P1 & P2).
  rewrite (temperature_0 L b t t tint k k T E E). eexists. split; [reflexivity|].
  match goal with |- context [convert ?g b] => destruct (same_dims_convert g b V) as (A & B & C) end.
  split; [auto|]. split; [auto|]. split; [auto|].
  intros m x y c I Hc (G0 & G1 & G2 & G3). eexists. split; [exact (convert_pixel _ b m x y c V I Hc)|].
  unfold rgb_new_with_alpha, alpha. cbn [d0 d1 d2 d3].
  destruct (div_self (d0 k)) as [K0 K0']; [apply N0|auto|]. destruct (div_self (d1 k)) as [K1 K1']; [apply N1|auto|].
  split; [now apply keep_channel|]. split; [now apply keep_channel|]. split; [now apply clamp_id|].
  destruct (kelvin t <? 1786).
  - assert (Z0 : exists s, d2 k = B754_zero s).
    { destruct N2 as [F _]. destruct (d2 k) as [s|s| |s mm e BB] eqn:Ek; try discriminate; [eauto|]. exfalso.
      revert P2. apply (F2R_neq_0 radix2 (Float radix2 (SpecFloat.cond_Zopp s (Zpos mm)) e)). destruct s; discriminate. }
    destruct Z0 as [s ->]. replace (fdiv (B754_zero s) (B754_zero s)) with fnan by reflexivity.
    replace (fmul (d2 c) fnan) with fnan by (destruct (d2 c); reflexivity). reflexivity.
  - destruct (div_self (d2 k)) as [K2 K2']; [apply N2|auto|]. now apply keep_channel.
Qed.
