(** Powers of floats computed with integers: which results a [powf] with a
    small error can have (for C117). *)
From Coq Require Import Reals ZArith List Bool Lia Lra Psatz.
From Flocq Require Import Core.Core IEEE754.BinarySingleNaN.
From Verif Require Import F32 F32Lemmas Color ColorSpec ColorProofs MeaningSpec Approx OpMeaningProofs HslMeaning HslOps SrgbMeaning ResaveSpec.
Import ListNotations.
Open Scope R_scope.

(** ** Powers of numbers [m * 2^e], rounded down or up to 48 bits *)
Definition V (a : Z * Z) : R := IZR (fst a) * bpow radix2 (snd a).
Definition cut (up : bool) (a : Z * Z) : Z * Z :=
  let s := (Z.log2 (fst a) - 48)%Z in
  if (s <=? 0)%Z then a else ((if up then Z.shiftr (fst a) s + 1 else Z.shiftr (fst a) s)%Z, (snd a + s)%Z).
Definition mul2 (a b : Z * Z) : Z * Z := (fst a * fst b, snd a + snd b)%Z.
Fixpoint pw (up : bool) (n : positive) (a : Z * Z) : Z * Z :=
  match n with
  | xH => a
  | xO n => pw up n (cut up (mul2 a a))
  | xI n => cut up (mul2 a (pw up n (cut up (mul2 a a))))
  end.
Definition le2 (a b : Z * Z) : bool :=
  let d := (snd a - snd b)%Z in
  if (0 <=? d)%Z then (Z.shiftl (fst a) d <=? fst b)%Z else (fst a <=? Z.shiftl (fst b) (- d))%Z.

Lemma V_mul a b : V (mul2 a b) = V a * V b.
Proof. unfold V, mul2. cbn [fst snd]. rewrite mult_IZR, bpow_plus. ring. Qed.
Lemma V_pos a : (0 <= fst a)%Z -> 0 <= V a.
Proof. intros H. unfold V. apply Rmult_le_pos; [apply IZR_le, H|apply bpow_ge_0]. Qed.
Lemma cut_sign up a : (0 <= fst a)%Z -> (0 <= fst (cut up a))%Z.
Proof. intros H. unfold cut. destruct (_ <=? 0)%Z; [exact H|]. cbn [fst]. pose proof (proj2 (Z.shiftr_nonneg (fst a) (Z.log2 (fst a) - 48)) H). destruct up; lia. Qed.
Lemma shift_bounds m s : (0 < s)%Z -> IZR (Z.shiftr m s) * bpow radix2 s <= IZR m <= (IZR (Z.shiftr m s) + 1) * bpow radix2 s.
Proof.
  intros S. rewrite Z.shiftr_div_pow2 by lia. pose proof (Z.div_mod m (2 ^ s) ltac:(lia)) as D. pose proof (Z.mod_pos_bound m (2 ^ s) ltac:(lia)) as B.
  rewrite <- (IZR_Zpower radix2) by lia. change (Zpower radix2 s) with (2 ^ s)%Z. set (q := (m / 2 ^ s)%Z) in *. set (p := (2 ^ s)%Z) in *.
  rewrite <- plus_IZR. rewrite <- !mult_IZR. split; apply IZR_le; nia.
Qed.
Lemma cut_lo a : V (cut false a) <= V a.
Proof.
  unfold cut. destruct (_ <=? 0)%Z eqn:E; [lra|]. apply Z.leb_gt in E. unfold V. cbn [fst snd]. rewrite bpow_plus, (Rmult_comm (bpow radix2 (snd a))), <- Rmult_assoc.
  apply Rmult_le_compat_r; [apply bpow_ge_0|]. apply shift_bounds, E.
Qed.
Lemma cut_hi a : V a <= V (cut true a).
Proof.
  unfold cut. destruct (_ <=? 0)%Z eqn:E; [lra|]. apply Z.leb_gt in E. unfold V. cbn [fst snd]. rewrite bpow_plus, (Rmult_comm (bpow radix2 (snd a))), <- Rmult_assoc.
  apply Rmult_le_compat_r; [apply bpow_ge_0|]. rewrite plus_IZR. apply shift_bounds, E.
Qed.
Lemma pw_sign up n : forall a, (0 <= fst a)%Z -> (0 <= fst (pw up n a))%Z.
Proof.
  induction n as [n IH|n IH|]; intros a H; cbn [pw].
  - apply cut_sign. unfold mul2 at 1. cbn [fst]. apply Z.mul_nonneg_nonneg; [exact H|]. apply IH, cut_sign. unfold mul2. cbn [fst]. nia.
  - apply IH, cut_sign. unfold mul2. cbn [fst]. nia.
  - exact H.
Qed.
Lemma sq_sign up a : (0 <= fst a)%Z -> (0 <= fst (cut up (mul2 a a)))%Z.
Proof. intros H. apply cut_sign. unfold mul2. cbn [fst]. nia. Qed.
Lemma pow_xO (x : R) n : x ^ Pos.to_nat (xO n) = (x * x) ^ Pos.to_nat n.
Proof. rewrite Pos2Nat.inj_xO, pow_mult. f_equal. ring. Qed.
Lemma pow_xI (x : R) n : x ^ Pos.to_nat (xI n) = x * (x * x) ^ Pos.to_nat n.
Proof. rewrite Pos2Nat.inj_xI. change (x ^ S (2 * Pos.to_nat n)) with (x * x ^ (2 * Pos.to_nat n)). rewrite pow_mult. f_equal. f_equal. ring. Qed.
Lemma pw_lo n : forall a, (0 <= fst a)%Z -> V (pw false n a) <= V a ^ Pos.to_nat n.
Proof.
  induction n as [n IH|n IH|]; intros a H; cbn [pw]; pose proof (V_pos a H) as P;
    [pose proof (IH _ (sq_sign false a H)) as I | pose proof (IH _ (sq_sign false a H)) as I |].
  - pose proof (V_pos _ (sq_sign false a H)) as Q. pose proof (cut_lo (mul2 a a)) as C. rewrite V_mul in C.
    eapply Rle_trans; [apply cut_lo|]. rewrite V_mul, pow_xI. apply Rmult_le_compat_l; [exact P|]. eapply Rle_trans; [exact I|]. apply pow_incr. split; assumption.
  - pose proof (V_pos _ (sq_sign false a H)) as Q. pose proof (cut_lo (mul2 a a)) as C. rewrite V_mul in C.
    rewrite pow_xO. eapply Rle_trans; [exact I|]. apply pow_incr. split; assumption.
  - change (Pos.to_nat 1) with 1%nat. rewrite pow_1. lra.
Qed.
Lemma pw_hi n : forall a, (0 <= fst a)%Z -> V a ^ Pos.to_nat n <= V (pw true n a).
Proof.
  induction n as [n IH|n IH|]; intros a H; cbn [pw]; pose proof (V_pos a H) as P;
    [pose proof (IH _ (sq_sign true a H)) as I | pose proof (IH _ (sq_sign true a H)) as I |].
  - pose proof (cut_hi (mul2 a a)) as C. rewrite V_mul in C. assert (0 <= V a * V a) by nra.
    eapply Rle_trans; [|apply cut_hi]. rewrite V_mul, pow_xI. apply Rmult_le_compat_l; [exact P|]. eapply Rle_trans; [|exact I]. apply pow_incr. split; assumption.
  - pose proof (cut_hi (mul2 a a)) as C. rewrite V_mul in C. assert (0 <= V a * V a) by nra.
    rewrite pow_xO. eapply Rle_trans; [|exact I]. apply pow_incr. split; assumption.
  - change (Pos.to_nat 1) with 1%nat. rewrite pow_1. lra.
Qed.
Lemma V_shift m e d : (0 <= d)%Z -> V (Z.shiftl m d, e) = V (m, (e + d)%Z).
Proof.
  intros D. unfold V. cbn [fst snd]. rewrite Z.shiftl_mul_pow2, mult_IZR, bpow_plus by exact D. rewrite <- (IZR_Zpower radix2 d) by exact D.
  change (Zpower radix2 d) with (2 ^ d)%Z. ring.
Qed.
Lemma le2_V a b : le2 a b = true -> V a <= V b.
Proof.
  destruct a as [m e]. destruct b as [n f]. unfold le2. cbn [fst snd]. destruct (0 <=? e - f)%Z eqn:D; intros H; apply Z.leb_le in H.
  - apply Z.leb_le in D. pose proof (V_shift m f _ D) as S. replace (f + (e - f))%Z with e in S by lia. rewrite <- S.
    unfold V. cbn [fst snd]. apply Rmult_le_compat_r; [apply bpow_ge_0|]. apply IZR_le, H.
  - apply Z.leb_gt in D. pose proof (V_shift n e (- (e - f)) ltac:(lia)) as S. replace (e + - (e - f))%Z with f in S by lia. rewrite <- S.
    unfold V. cbn [fst snd]. apply Rmult_le_compat_r; [apply bpow_ge_0|]. apply IZR_le, H.
Qed.

(** [t] is at most, or at least, [x] to the power [p / q]. *)
Definition below (t x : Z * Z) (p q : positive) : bool := le2 (pw true q t) (pw false p x).
Definition above (t x : Z * Z) (p q : positive) : bool := le2 (pw true p x) (pw false q t).
Lemma INR_pos p : INR (Pos.to_nat p) = IZR (Zpos p).
Proof. rewrite INR_IZR_INZ, positive_nat_Z. reflexivity. Qed.
Lemma below_ok t x p q : (0 < fst t)%Z -> (0 < fst x)%Z -> below t x p q = true -> V t <= Rpower (V x) (IZR (Zpos p) / IZR (Zpos q)).
Proof.
  intros T X H. assert (P : forall a, (0 < fst a)%Z -> 0 < V a) by (intros a A; unfold V; apply Rmult_lt_0_compat; [apply IZR_lt, A|apply bpow_gt_0]).
  rewrite <- !INR_pos. apply power_ge; auto using Pos2Nat.is_pos. apply le2_V in H.
  eapply Rle_trans; [apply pw_hi; lia|]. eapply Rle_trans; [exact H|]. apply pw_lo; lia.
Qed.
Lemma above_ok t x p q : (0 < fst t)%Z -> (0 < fst x)%Z -> above t x p q = true -> Rpower (V x) (IZR (Zpos p) / IZR (Zpos q)) <= V t.
Proof.
  intros T X H. assert (P : forall a, (0 < fst a)%Z -> 0 < V a) by (intros a A; unfold V; apply Rmult_lt_0_compat; [apply IZR_lt, A|apply bpow_gt_0]).
  rewrite <- !INR_pos. apply power_le; auto using Pos2Nat.is_pos. apply le2_V in H.
  eapply Rle_trans; [apply pw_hi; lia|]. eapply Rle_trans; [exact H|]. apply pw_lo; lia.
Qed.

(** ** The floats a [powf] can give *)
Definition mkf (k e : Z) : f32 := binary_normalize 24 128 (eq_refl _) (eq_refl _) mode_NE k e false.
(** [h] tells where the power is; it is checked. *)
Definition cands (T : Z) (h : Z * Z * Z) (x y : f32) : option (list f32) :=
  match x, y with
  | B754_finite false mx ex _, B754_finite false my ey _ =>
      if negb ((ey <? 0) && (Zpos my <=? 1000 * 2 ^ (- ey)))%Z then None else
      let x := (Zpos mx, ex) in let q := Z.to_pos (2 ^ (- ey)) in
      let '(e, k0, k1) := h in
      let lo k0 := below (128 * (k0 - 1) + T + 1, e - 31)%Z x my q in
      let hi k1 := above (128 * (k1 + 1) - T - 1, e - 31)%Z x my q in
      if lo k0 && hi k1 && (8388609 <=? k0)%Z && (k0 <=? k1)%Z && (k1 <=? 16777214)%Z && (-80 <=? e)%Z && (e <=? 1)%Z
      then Some (map (fun j => mkf (k0 + Z.of_nat j) (e - 24)) (seq 0 (Z.to_nat (k1 - k0 + 1)))) else None
  | _, _ => None
  end.

Lemma mkf_val k e : (0 < k < 16777216)%Z -> (-80 <= e <= 1)%Z -> is_finite_strict (mkf k (e - 24)) = true /\ B2R (mkf k (e - 24)) = IZR k * bpow radix2 (e - 24).
Proof.
  intros K E. unfold mkf.
  pose proof (binary_normalize_correct 24 128 (eq_refl _) (eq_refl _) mode_NE k (e - 24) false) as C. cbv zeta in C.
  set (f := binary_normalize 24 128 (eq_refl _) (eq_refl _) mode_NE k (e - 24) false) in *. clearbody f.
  assert (G : generic_format radix2 (SpecFloat.fexp 24 128) (F2R (Float radix2 k (e - 24)))).
  { apply (generic_format_FLT radix2 (-149) 24). exists (Float radix2 k (e - 24)); [reflexivity| |]; cbn [Fnum Fexp]; [|lia]. rewrite Z.abs_eq by lia. cbn. lia. }
  rewrite round_generic in C; [|typeclasses eauto|exact G].
  assert (B : Rabs (F2R (Float radix2 k (e - 24))) < bpow radix2 128).
  { unfold F2R. cbn [Fnum Fexp]. rewrite Rabs_mult, (Rabs_right (bpow _ _)) by (apply Rle_ge, bpow_ge_0).
    apply Rlt_le_trans with (bpow radix2 24 * bpow radix2 (e - 24)).
    - apply Rmult_lt_compat_r; [apply bpow_gt_0|]. rewrite Rabs_right by (apply Rle_ge, IZR_le; lia). change (bpow radix2 24) with (IZR 16777216). apply IZR_lt; lia.
    - rewrite <- bpow_plus. apply bpow_le. lia. }
  rewrite Rlt_bool_true in C by exact B. destruct C as (C1 & C2 & _). split; [|exact C1].
  assert (N : B2R f <> 0). { rewrite C1. unfold F2R. cbn [Fnum Fexp]. apply Rmult_integral_contrapositive_currified; [apply IZR_neq; lia|]. apply Rgt_not_eq, bpow_gt_0. }
  destruct f; try reflexivity; try discriminate C2. exfalso. apply N. reflexivity.
Qed.
Lemma grid (r : f32) e : (-80 <= e <= 1)%Z -> bpow radix2 (e - 1) < B2R r < bpow radix2 e -> exists k, B2R r = IZR k * bpow radix2 (e - 24).
Proof.
  intros E R. pose proof (generic_format_B2R 24 128 r) as G. unfold generic_format in G.
  assert (C : cexp radix2 (SpecFloat.fexp 24 128) (B2R r) = (e - 24)%Z).
  { unfold cexp. rewrite (mag_unique_pos radix2 (B2R r) e) by lra. unfold SpecFloat.fexp, SpecFloat.emin. lia. }
  rewrite C in G. unfold F2R in G. cbn [Fnum Fexp] in G. eexists. exact G.
Qed.
Lemma cands_ok T L h x y l : (0 <= T < 127)%Z -> powf_within T L -> B2R x <= 1 -> cands T h x y = Some l -> In (powf L x y) l.
Proof.
  intros HT PW X1 H. destruct x as [| | |[] mx ex Bx]; try discriminate H. destruct y as [| | |[] my ey By]; try discriminate H. unfold cands in H.
  destruct (negb _) eqn:EY in H; [discriminate H|]. apply negb_false_iff, andb_true_iff in EY. destruct EY as [EY YB]. apply Z.ltb_lt in EY. apply Z.leb_le in YB.
  set (q := Z.to_pos (2 ^ (- ey))) in *. destruct h as [[e k0] k1].
  destruct (_ && _) eqn:C in H; [|discriminate H].
  repeat (apply andb_true_iff in C as [C ?]). repeat match goal with E : (_ <=? _)%Z = true |- _ => apply Z.leb_le in E end.
  match goal with E : above _ _ _ _ = true |- _ => rename E into A end. rename C into Bl.
  assert (EL : map (fun j => mkf (k0 + Z.of_nat j) (e - 24)) (seq 0 (Z.to_nat (k1 - k0 + 1))) = l) by (injection H; auto). clear H. subst l.
  apply below_ok in Bl; [|cbn [fst]; lia|reflexivity]. apply above_ok in A; [|cbn [fst]; lia|reflexivity].
  set (xf := B754_finite false mx ex Bx : f32) in *. set (yf := B754_finite false my ey By : f32) in *.
  assert (RX : V (Zpos mx, ex) = B2R xf) by reflexivity.
  assert (Q : Zpos q = (2 ^ (- ey))%Z) by (unfold q; apply Z2Pos.id; lia).
  assert (RY : IZR (Zpos my) / IZR (Zpos q) = B2R yf).
  { rewrite Q. unfold yf, B2R, F2R. cbn [Fnum Fexp cond_Zopp]. change (2 ^ (- ey))%Z with (Zpower radix2 (- ey)). rewrite (IZR_Zpower radix2) by lia.
    rewrite bpow_opp. unfold Rdiv. rewrite Rinv_inv. reflexivity. }
  rewrite RX, RY in Bl, A. set (P := Rpower (B2R xf) (B2R yf)) in *.
  assert (PX : 0 < B2R xf) by (rewrite <- RX; unfold V; apply Rmult_lt_0_compat; [apply IZR_lt; reflexivity|apply bpow_gt_0]).
  assert (PY : 0 < B2R yf <= 1000).
  { rewrite <- RY. assert (0 < IZR (Zpos q)) by (apply IZR_lt; reflexivity). split; [apply Rdiv_lt_0_compat; [apply IZR_lt; reflexivity|assumption]|].
    apply Rmult_le_reg_r with (IZR (Zpos q)); [assumption|]. unfold Rdiv. rewrite Rmult_assoc, Rinv_l, Rmult_1_r by lra. rewrite <- mult_IZR. apply IZR_le. rewrite Q. lia. }
  set (u := bpow radix2 (e - 24)) in *. assert (U0 : 0 < u) by apply bpow_gt_0.
  assert (S : bpow radix2 (e - 31) = u / 128) by (unfold u; replace (e - 31)%Z with (e - 24 + -7)%Z by lia; rewrite bpow_plus; cbn [bpow radix_val radix2]; cbn; lra).
  unfold V in Bl, A. cbn [fst snd] in Bl, A. rewrite S in Bl, A.
  rewrite !plus_IZR, mult_IZR, minus_IZR in Bl. rewrite !minus_IZR, mult_IZR, plus_IZR in A.
  assert (K0 : 8388609 <= IZR k0) by (apply IZR_le; assumption). assert (K1 : IZR k1 <= 16777214) by (apply IZR_le; assumption).
  assert (T0 : 0 <= IZR T < 127) by (split; [apply IZR_le|apply IZR_lt]; lia).
  assert (E1 : bpow radix2 (e - 1) = 8388608 * u) by (unfold u; replace (e - 1)%Z with (23 + (e - 24))%Z by lia; rewrite bpow_plus; reflexivity).
  assert (E2 : bpow radix2 e = 16777216 * u) by (unfold u; replace e with (24 + (e - 24))%Z at 1 by lia; rewrite bpow_plus; reflexivity).
  assert (PB : bpow radix2 (e - 1) <= P < bpow radix2 e) by (rewrite E1, E2; nra).
  destruct (PW xf yf e eq_refl eq_refl ltac:(lra) PY ltac:(lia) PB) as [FR R]. fold P u in R. set (r := powf L xf yf) in *. clearbody r. apply Rabs_le_iff in R.
  assert (R1 : (IZR k0 - 1) * u < B2R r) by nra. assert (R2 : B2R r < (IZR k1 + 1) * u) by nra.
  destruct (grid r e ltac:(lia)) as [j J]. { rewrite E1, E2. nra. }
  fold u in J. rewrite J in R1, R2. apply Rmult_lt_reg_r in R1, R2; try exact U0.
  assert (J0 : (k0 <= j)%Z) by (apply Z.lt_pred_le, lt_IZR; rewrite <- Z.sub_1_r, minus_IZR; lra).
  assert (J1 : (j <= k1)%Z) by (apply Z.lt_succ_r, lt_IZR; rewrite succ_IZR; lra).
  apply in_map_iff. exists (Z.to_nat (j - k0)). split; [|apply in_seq; lia].
  rewrite Z2Nat.id by lia. replace (k0 + (j - k0))%Z with j by lia.
  destruct (mkf_val j e ltac:(lia) ltac:(lia)) as [MF MV]. apply B2R_inj; [exact MF| |rewrite MV, J; reflexivity].
  assert (N : B2R r <> 0) by (rewrite J; apply Rgt_not_eq, Rmult_lt_0_compat; [apply IZR_lt; lia|exact U0]).
  destruct r; try reflexivity; try discriminate FR. exfalso. apply N. reflexivity.
Qed.
