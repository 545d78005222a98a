(** Lemmas about f32 arithmetic: values as reals, ranges, exactness. *)
From Coq Require Import ZArith Reals Lra Lia Bool Psatz.
From Flocq Require Import Core.Core IEEE754.BinarySingleNaN Sterbenz.
From Verif Require Import F32.
Open Scope R_scope.

Notation fx := (SpecFloat.fexp 24 128).
Definition rnd (r : R) : R := round radix2 fx (round_mode mode_NE) r.
Definition fin (x : f32) : Prop := is_finite x = true.

#[global] Instance fx_valid : Valid_exp fx.
Proof. apply fexp_correct. reflexivity. Qed.
#[global] Instance fx_mono : Monotone_exp fx.
Proof. apply fexp_monotone. Qed.
#[global] Instance rnd_valid : Valid_rnd (round_mode mode_NE).
Proof. apply valid_rnd_round_mode. Qed.

(** Representable reals of f32 magnitude. *)
Definition fmt (r : R) : Prop := generic_format radix2 fx r /\ Rabs r < bpow radix2 128.

Lemma fx_FLT : forall e, fx e = FLT_exp (-149) 24 e.
Proof. intros. reflexivity. Qed.

Lemma fmt_F2R (m e : Z) : (Z.abs m < 2 ^ 24)%Z -> (-149 <= e <= 104)%Z -> fmt (IZR m * bpow radix2 e).
Proof.
  intros Hm He. split.
  - apply (generic_format_FLT radix2 (-149) 24). exists (Float radix2 m e); simpl.
    + reflexivity.
    + exact Hm.
    + lia.
  - rewrite Rabs_mult, <- abs_IZR, (Rabs_pos_eq (bpow _ _)) by apply bpow_ge_0.
    apply Rlt_le_trans with (bpow radix2 24 * bpow radix2 e).
    + apply Rmult_lt_compat_r; [apply bpow_gt_0|]. rewrite <- (IZR_Zpower radix2) by lia. apply IZR_lt. exact Hm.
    + rewrite <- bpow_plus. apply bpow_le. lia.
Qed.
Lemma fmt_IZR m : (Z.abs m < 2 ^ 24)%Z -> fmt (IZR m).
Proof. intros H. rewrite <- (Rmult_1_r (IZR m)). apply (fmt_F2R m 0); lia. Qed.
(** [m / 2^k] *)
Lemma fmt_dyad m k : (Z.abs m < 2 ^ 24)%Z -> (0 <= k <= 149)%Z -> fmt (IZR m / IZR (2 ^ k)).
Proof. intros H K. change (2 ^ k)%Z with (radix2 ^ k)%Z. rewrite IZR_Zpower by lia. unfold Rdiv. rewrite <- bpow_opp.
  apply fmt_F2R; lia. Qed.
Lemma fmt_B2R (x : f32) : fmt (B2R x).
Proof. split; [apply generic_format_B2R|apply abs_B2R_lt_emax]. Qed.
Lemma fmt_opp r : fmt r -> fmt (- r).
Proof. intros [A B]. split; [now apply generic_format_opp|now rewrite Rabs_Ropp]. Qed.
Lemma fmt_abs r : fmt r -> fmt (Rabs r).
Proof. intros [A B]. split; [now apply generic_format_abs|now rewrite Rabs_Rabsolu]. Qed.
Lemma fmt_0 : fmt 0. Proof. apply (fmt_IZR 0); lia. Qed.
Lemma fmt_1 : fmt 1. Proof. apply (fmt_IZR 1); lia. Qed.
Lemma fmt_m1 : fmt (-1). Proof. apply (fmt_IZR (-1)); lia. Qed.
Lemma fmt_2 : fmt 2. Proof. apply (fmt_IZR 2); lia. Qed.
Lemma fmt_3 : fmt 3. Proof. apply (fmt_IZR 3); lia. Qed.
Lemma fmt_4 : fmt 4. Proof. apply (fmt_IZR 4); lia. Qed.
Lemma fmt_5 : fmt 5. Proof. apply (fmt_IZR 5); lia. Qed.
Lemma fmt_6 : fmt 6. Proof. apply (fmt_IZR 6); lia. Qed.
Lemma fmt_half : fmt (/ 2).
Proof. replace (/ 2) with (IZR 1 / IZR (2 ^ 1)) by (simpl; lra). apply fmt_dyad; lia. Qed.
#[global] Hint Resolve fmt_B2R fmt_opp fmt_0 fmt_1 fmt_m1 fmt_2 fmt_3 fmt_4 fmt_5 fmt_6 fmt_half : fmt.
#[global] Hint Extern 3 (fmt (IZR _)) => (apply fmt_IZR; lia) : fmt.

(** Rounding. *)
Lemma rnd_id r : fmt r -> rnd r = r.
Proof. intros [A _]. apply round_generic; auto with typeclass_instances. Qed.
Lemma rnd_le a b : a <= b -> rnd a <= rnd b.
Proof. intros H. apply round_le; auto with typeclass_instances. Qed.
Lemma rnd_lo a b : fmt a -> a <= b -> a <= rnd b.
Proof. intros F H. rewrite <- (rnd_id a F). now apply rnd_le. Qed.
Lemma rnd_hi a b : fmt b -> a <= b -> rnd a <= b.
Proof. intros F H. rewrite <- (rnd_id b F). now apply rnd_le. Qed.
Lemma rnd_opp r : rnd (- r) = - rnd r.
Proof. unfold rnd. simpl. apply round_NE_opp. Qed.
Lemma rnd_0 : rnd 0 = 0. Proof. apply rnd_id, fmt_0. Qed.
Lemma rnd_abs r : Rabs (rnd r) = rnd (Rabs r).
Proof. unfold Rabs at 2. destruct (Rcase_abs r) as [H|H].
  - rewrite rnd_opp. apply Rabs_left1. rewrite <- rnd_0. apply rnd_le. lra.
  - apply Rabs_pos_eq. rewrite <- rnd_0. apply rnd_le. lra. Qed.
Lemma rnd_small r M : fmt M -> Rabs r <= M -> Rabs (rnd r) < bpow radix2 128.
Proof. intros F H. rewrite rnd_abs. apply Rle_lt_trans with M; [now apply rnd_hi|].
  apply Rle_lt_trans with (Rabs M); [apply Rle_abs|apply F]. Qed.

(** Finite operations. *)
Lemma fadd_ok x y M : fin x -> fin y -> fmt M -> Rabs (B2R x + B2R y) <= M ->
  fin (fadd x y) /\ B2R (fadd x y) = rnd (B2R x + B2R y).
Proof. intros Hx Hy F H. pose proof (Bplus_correct 24 128 p24 e128 mode_NE x y Hx Hy) as B.
  rewrite Rlt_bool_true in B by (apply (rnd_small _ M F H)). destruct B as (A & B & _). auto. Qed.
Lemma fsub_ok x y M : fin x -> fin y -> fmt M -> Rabs (B2R x - B2R y) <= M ->
  fin (fsub x y) /\ B2R (fsub x y) = rnd (B2R x - B2R y).
Proof. intros Hx Hy F H. pose proof (Bminus_correct 24 128 p24 e128 mode_NE x y Hx Hy) as B.
  rewrite Rlt_bool_true in B by (apply (rnd_small _ M F H)). destruct B as (A & B & _). auto. Qed.
Lemma fmul_ok x y M : fin x -> fin y -> fmt M -> Rabs (B2R x * B2R y) <= M ->
  fin (fmul x y) /\ B2R (fmul x y) = rnd (B2R x * B2R y).
Proof. intros Hx Hy F H. pose proof (Bmult_correct 24 128 p24 e128 mode_NE x y) as B.
  rewrite Rlt_bool_true in B by (apply (rnd_small _ M F H)). destruct B as (A & B & _).
  unfold fin, fmul. rewrite B. unfold fin in *. rewrite Hx, Hy. auto. Qed.
Lemma fdiv_ok x y M : fin x -> fin y -> B2R y <> 0 -> fmt M -> Rabs (B2R x / B2R y) <= M ->
  fin (fdiv x y) /\ B2R (fdiv x y) = rnd (B2R x / B2R y).
Proof. intros Hx Hy N F H. pose proof (Bdiv_correct 24 128 p24 e128 mode_NE x y N) as B.
  rewrite Rlt_bool_true in B by (apply (rnd_small _ M F H)). destruct B as (A & B & _).
  unfold fin, fdiv. rewrite B. unfold fin in *. auto. Qed.

(** Comparisons of numbers. *)
Lemma flt_R x y : fin x -> fin y -> flt x y = true <-> B2R x < B2R y.
Proof. intros A B. unfold flt. rewrite Bltb_correct by auto. case Rlt_bool_spec; intuition; try discriminate; lra. Qed.
Lemma fle_R x y : fin x -> fin y -> fle x y = true <-> B2R x <= B2R y.
Proof. intros A B. unfold fle. rewrite Bleb_correct by auto. case Rle_bool_spec; intuition; try discriminate; lra. Qed.
Lemma feq_R x y : fin x -> fin y -> feq x y = true <-> B2R x = B2R y.
Proof. intros A B. unfold feq. rewrite Beqb_correct by auto. case Req_bool_spec; intuition; try discriminate; lra. Qed.
Lemma flt_Rf x y : fin x -> fin y -> flt x y = false <-> B2R y <= B2R x.
Proof. intros A B. unfold flt. rewrite Bltb_correct by auto. case Rlt_bool_spec; intuition; try discriminate; lra. Qed.
Lemma fle_Rf x y : fin x -> fin y -> fle x y = false <-> B2R y < B2R x.
Proof. intros A B. unfold fle. rewrite Bleb_correct by auto. case Rle_bool_spec; intuition; try discriminate; lra. Qed.
Lemma feq_Rf x y : fin x -> fin y -> feq x y = false <-> B2R x <> B2R y.
Proof. intros A B. unfold feq. rewrite Beqb_correct by auto. case Req_bool_spec; intuition; try discriminate. Qed.

Lemma fabs_fin x : fin x -> fin (fabs x).
Proof. unfold fin, fabs. now rewrite is_finite_Babs. Qed.
Lemma fabs_R x : B2R (fabs x) = Rabs (B2R x).
Proof. apply B2R_Babs. Qed.
Lemma fneg_fin x : fin x -> fin (fneg x).
Proof. unfold fin, fneg. now rewrite is_finite_Bopp. Qed.
Lemma fneg_R x : B2R (fneg x) = - B2R x.
Proof. apply B2R_Bopp. Qed.

(** Constants: [fval c] puts the value of the closed float [c] in the context. *)
Lemma f0_fin : fin f0. Proof. reflexivity. Qed.
Lemma f0_R : B2R f0 = 0. Proof. reflexivity. Qed.
Lemma f1_fin : fin f1. Proof. reflexivity. Qed.
Lemma val_sf (c : f32) s m e : B2SF c = SpecFloat.S754_finite s m e ->
  fin c /\ B2R c = IZR (cond_Zopp s (Zpos m)) * bpow radix2 e.
Proof. intros H. rewrite <- SF2R_B2SF, H. split; [|reflexivity].
  unfold fin. destruct c; simpl in *; congruence. Qed.
Lemma bpow_neg p : bpow radix2 (Zneg p) = / IZR (Z.pow_pos 2 p).
Proof. reflexivity. Qed.
Lemma bpow_pos p : bpow radix2 (Zpos p) = IZR (Z.pow_pos 2 p).
Proof. reflexivity. Qed.
Ltac fval c H :=
  let v := eval vm_compute in (B2SF c) in
  match v with
  | SpecFloat.S754_finite ?s ?m ?e =>
    let Hf := fresh H "fin" in
    assert (Hf : fin c /\ B2R c = IZR (cond_Zopp s (Zpos m)) * bpow radix2 e)
      by (apply val_sf; vm_cast_no_check (eq_refl v));
    destruct Hf as [Hf H]; cbn [cond_Zopp] in H;
    rewrite ?bpow_neg, ?bpow_pos in H;
    let zz := match type of H with context [Z.pow_pos 2 ?p] => constr:(Z.pow_pos 2 p) | _ => constr:(0%Z) end in
    let zv := eval vm_compute in zz in
    try change zz with zv in H
  end.
Lemma f1_R : B2R f1 = 1. Proof. fval f1 H. rewrite H. lra. Qed.
Lemma f2_R : B2R f2 = 2. Proof. fval f2 H. rewrite H. lra. Qed.
Lemma f2_fin : fin f2. Proof. reflexivity. Qed.
Lemma ofZ_val z : (Z.abs z < 2 ^ 24)%Z -> fin (ofZ z) /\ B2R (ofZ z) = IZR z.
Proof.
  intros H. pose proof (binary_normalize_correct 24 128 p24 e128 mode_NE z 0 false) as B. cbv zeta in B.
  assert (E : F2R (Float radix2 z 0) = IZR z) by (unfold F2R; simpl; lra).
  rewrite E in B. fold (rnd (IZR z)) in B. rewrite (rnd_id _ (fmt_IZR z H)) in B.
  rewrite Rlt_bool_true in B by apply (fmt_IZR z H). unfold fin. tauto.
Qed.
Lemma ofZ_fin z : (Z.abs z < 2 ^ 24)%Z -> fin (ofZ z). Proof. apply ofZ_val. Qed.
Lemma ofZ_R z : (Z.abs z < 2 ^ 24)%Z -> B2R (ofZ z) = IZR z. Proof. apply ofZ_val. Qed.
#[global] Hint Resolve f0_fin f1_fin f2_fin fabs_fin fneg_fin : fin.

(** NaN and infinities. *)
Lemma flt_nan_r x : flt x fnan = false. Proof. destruct x; reflexivity. Qed.
Lemma flt_nan_l x : flt fnan x = false. Proof. reflexivity. Qed.

(** Between two finite bounds lies a number. *)
Lemma fle_between a x b : fin a -> fin b -> fle a x = true -> fle x b = true -> fin x.
Proof. unfold fin, fle, Bleb, SpecFloat.SFleb. destruct a, x, b; simpl; intros; auto; try discriminate;
  repeat match goal with s : bool |- _ => destruct s end; simpl in *; try discriminate; auto. Qed.

(** [x] is a number in [lo, hi]. *)
Definition num (lo hi : R) (x : f32) : Prop := fin x /\ lo <= B2R x <= hi.
Lemma num_weak a b c d x : num a b x -> c <= a -> b <= d -> num c d x.
Proof. unfold num. intuition lra. Qed.
Lemma num_fin a b x : num a b x -> fin x. Proof. intros [H _]; auto. Qed.
Lemma num_not_nan a b x : num a b x -> is_nan x = false.
Proof. intros [H _]. destruct x; try reflexivity; discriminate. Qed.

Lemma abs_le_max r lo hi : lo <= r <= hi -> Rabs r <= Rmax (Rabs lo) (Rabs hi).
Proof. intros H. apply Rabs_le. pose proof (Rmax_l (Rabs lo) (Rabs hi)). pose proof (Rmax_r (Rabs lo) (Rabs hi)).
  pose proof (Rle_abs hi). pose proof (Rle_abs (- lo)). rewrite Rabs_Ropp in H3. lra. Qed.
Lemma fmt_max a b : fmt a -> fmt b -> fmt (Rmax a b).
Proof. intros. unfold Rmax. destruct Rle_dec; auto. Qed.

Lemma fadd_num x y lo hi : fin x -> fin y -> fmt lo -> fmt hi -> lo <= B2R x + B2R y <= hi ->
  num lo hi (fadd x y) /\ B2R (fadd x y) = rnd (B2R x + B2R y).
Proof. intros Hx Hy L U H. destruct (fadd_ok x y (Rmax (Rabs lo) (Rabs hi))) as [A B]; auto using fmt_max, fmt_abs, abs_le_max.
  split; auto. split; auto. rewrite B. split; [apply rnd_lo|apply rnd_hi]; tauto. Qed.
Lemma fsub_num x y lo hi : fin x -> fin y -> fmt lo -> fmt hi -> lo <= B2R x - B2R y <= hi ->
  num lo hi (fsub x y) /\ B2R (fsub x y) = rnd (B2R x - B2R y).
Proof. intros Hx Hy L U H. destruct (fsub_ok x y (Rmax (Rabs lo) (Rabs hi))) as [A B]; auto using fmt_max, fmt_abs, abs_le_max.
  split; auto. split; auto. rewrite B. split; [apply rnd_lo|apply rnd_hi]; tauto. Qed.
Lemma fmul_num x y lo hi : fin x -> fin y -> fmt lo -> fmt hi -> lo <= B2R x * B2R y <= hi ->
  num lo hi (fmul x y) /\ B2R (fmul x y) = rnd (B2R x * B2R y).
Proof. intros Hx Hy L U H. destruct (fmul_ok x y (Rmax (Rabs lo) (Rabs hi))) as [A B]; auto using fmt_max, fmt_abs, abs_le_max.
  split; auto. split; auto. rewrite B. split; [apply rnd_lo|apply rnd_hi]; tauto. Qed.
Lemma fdiv_num x y lo hi : fin x -> fin y -> B2R y <> 0 -> fmt lo -> fmt hi -> lo <= B2R x / B2R y <= hi ->
  num lo hi (fdiv x y) /\ B2R (fdiv x y) = rnd (B2R x / B2R y).
Proof. intros Hx Hy N L U H. destruct (fdiv_ok x y (Rmax (Rabs lo) (Rabs hi))) as [A B]; auto using fmt_max, fmt_abs, abs_le_max.
  split; auto. split; auto. rewrite B. split; [apply rnd_lo|apply rnd_hi]; tauto. Qed.

(** Two finite floats with the same value and sign are the same. *)
Lemma f_inj x y : fin x -> fin y -> B2R x = B2R y -> Bsign x = Bsign y -> x = y.
Proof. apply B2R_Bsign_inj. Qed.
Lemma f_inj_nz x y : fin x -> fin y -> B2R x = B2R y -> B2R x <> 0 -> x = y.
Proof. intros A B E N. apply B2R_inj; auto; unfold fin in *.
  - destruct x; simpl in *; auto; lra.
  - destruct y; simpl in *; auto; lra. Qed.

(** Exact results. *)
Lemma fadd_exact x y : fin x -> fin y -> fmt (B2R x + B2R y) -> fin (fadd x y) /\ B2R (fadd x y) = B2R x + B2R y.
Proof. intros A B F. destruct (fadd_ok x y (Rabs (B2R x + B2R y))) as [C D]; auto using fmt_abs; [lra|].
  rewrite (rnd_id _ F) in D. auto. Qed.
Lemma fsub_exact x y : fin x -> fin y -> fmt (B2R x - B2R y) -> fin (fsub x y) /\ B2R (fsub x y) = B2R x - B2R y.
Proof. intros A B F. destruct (fsub_ok x y (Rabs (B2R x - B2R y))) as [C D]; auto using fmt_abs; [lra|].
  rewrite (rnd_id _ F) in D. auto. Qed.
Lemma fmul_exact x y : fin x -> fin y -> fmt (B2R x * B2R y) -> fin (fmul x y) /\ B2R (fmul x y) = B2R x * B2R y.
Proof. intros A B F. destruct (fmul_ok x y (Rabs (B2R x * B2R y))) as [C D]; auto using fmt_abs; [lra|].
  rewrite (rnd_id _ F) in D. auto. Qed.
Lemma fdiv_exact x y : fin x -> fin y -> B2R y <> 0 -> fmt (B2R x / B2R y) -> fin (fdiv x y) /\ B2R (fdiv x y) = B2R x / B2R y.
Proof. intros A B N F. destruct (fdiv_ok x y (Rabs (B2R x / B2R y))) as [C D]; auto using fmt_abs; [lra|].
  rewrite (rnd_id _ F) in D. auto. Qed.

(** Rounding error for small magnitudes: below [2^k], half a unit is [2^(k-25)]. *)
Lemma rnd_err r k : (-125 <= k <= 127)%Z -> Rabs r <= bpow radix2 k -> Rabs (rnd r - r) <= bpow radix2 (k - 25).
Proof.
  intros K H.
  destruct (Req_dec (Rabs r) (bpow radix2 k)) as [E|E].
  - rewrite rnd_id.
    + replace (r - r) with 0 by lra. rewrite Rabs_R0. apply bpow_ge_0.
    + split.
      * apply generic_format_abs_inv. rewrite E. apply generic_format_bpow.
        unfold SpecFloat.fexp, SpecFloat.emin. lia.
      * rewrite E. apply bpow_lt. lia.
  - unfold rnd. simpl.
    apply Rle_trans with (/ 2 * ulp radix2 fx r). { apply error_le_half_ulp. apply fx_valid. }
    replace (bpow radix2 (k - 25)) with (/ 2 * bpow radix2 (k - 24)).
    2: { replace (k - 25)%Z with (-1 + (k - 24))%Z by lia. rewrite bpow_plus. simpl. lra. }
    apply Rmult_le_compat_l; [lra|].
    destruct (Req_dec r 0) as [->|N].
    + change (ulp radix2 (FLT_exp (-149) 24) 0 <= bpow radix2 (k - 24)). rewrite ulp_FLT_0; [apply bpow_le; lia|reflexivity].
    + rewrite ulp_neq_0 by auto. apply bpow_le. unfold cexp.
      assert (mag radix2 r <= k)%Z by (apply mag_le_bpow; auto; lra).
      unfold SpecFloat.fexp, SpecFloat.emin. lia.
Qed.
