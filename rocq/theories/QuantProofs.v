(** Proofs about 8 and 16 bit samples (C55, C56, C78). *)
From Coq Require Import ZArith Reals List Bool Lia Lra.
From Flocq Require Import Core IEEE754.BinarySingleNaN.
From Verif Require Import Base BaseLemmas PixelBuffer BufferSpec PixelBufferProofs F32 F32Lemmas Color ColorSpec ColorProofs.
From Verif Require Import ResampleProofs Codec CodecSpec.
Import ListNotations.
Open Scope Z_scope.

(** ** The general quantisation to 0..N *)
Definition quant (N : Z) (v : f32) : Z := fcast 0 N (fclamp (fmul v (ofZ N)) f0 (ofZ N)).
Lemma quant8_eq v : quant8 v = quant 255 v. Proof. reflexivity. Qed.
Lemma quant16_eq v : quant16 v = quant 65535 v. Proof. reflexivity. Qed.

Definition depth (N : Z) : Prop := 1 <= N < 16777216.
Lemma depth_val N : depth N -> fin (ofZ N) /\ B2R (ofZ N) = IZR N /\ (1 <= IZR N)%R.
Proof. intros H. unfold depth in H. destruct (ofZ_val N ltac:(lia)). split; [|split]; auto. apply IZR_le. lia. Qed.

Lemma quant_clamp N v : depth N -> quant N v = fcast 0 N (fmul v (ofZ N)).
Proof.
  intros HN. destruct (depth_val N HN) as (FN & RN & NP). unfold depth in HN. unfold quant, fclamp. generalize (fmul v (ofZ N)). intros w.
  destruct (is_finite w) eqn:Fw.
  2:{ destruct w as [s|[|]| |]; try discriminate.
      - change (flt (B754_infinity true) f0) with true. cbv iota. rewrite (cast_int 0 N f0 0); auto with fin. cbn [fcast]. lia.
      - change (flt (B754_infinity false) f0) with false.
        assert (E : flt (ofZ N) (B754_infinity false) = true) by (clear -FN; destruct (ofZ N) as [s|s| |s m e P]; try discriminate; destruct s; reflexivity).
        rewrite E. cbv iota. rewrite (cast_int 0 N (ofZ N) N); auto. cbn [fcast]. lia.
      - change (flt B754_nan f0) with false.
        assert (E : flt (ofZ N) B754_nan = false) by (destruct (ofZ N); reflexivity). rewrite E. reflexivity. }
  assert (T : (B2R w < 0 \/ IZR N < B2R w \/ 0 <= B2R w <= IZR N)%R) by lra.
  rewrite (fcast_fin 0 N w) by exact Fw.
  pose proof (Btrunc_correct 24 128 e128 w) as B. rewrite fix0_round in B. apply eq_IZR in B.
  destruct T as [T|[T|T]].
  - replace (flt w f0) with true by (symmetry; apply flt_R; auto with fin).
    rewrite (cast_int 0 N f0 0); auto with fin. rewrite B.
    assert (Ztrunc (B2R w) <= 0). { rewrite <- (Ztrunc_IZR 0). apply Ztrunc_le. lra. } lia.
  - replace (flt w f0) with false by (symmetry; apply flt_Rf; auto with fin; rewrite f0_R; lra).
    replace (flt (ofZ N) w) with true by (symmetry; apply flt_R; auto; rewrite RN; lra).
    rewrite (cast_int 0 N (ofZ N) N); auto. rewrite B.
    assert (N <= Ztrunc (B2R w)). { rewrite <- (Ztrunc_IZR N). apply Ztrunc_le. lra. } lia.
  - replace (flt w f0) with false by (symmetry; apply flt_Rf; auto with fin; rewrite f0_R; lra).
    replace (flt (ofZ N) w) with false by (symmetry; apply flt_Rf; auto; rewrite RN; lra).
    rewrite fcast_fin by exact Fw. rewrite B. reflexivity.
Qed.
Lemma quant_range N v : depth N -> 0 <= quant N v <= N.
Proof. unfold depth. intros H. apply fcast_range. lia. Qed.
Lemma quant_nan N v : depth N -> is_nan v = true -> quant N v = 0.
Proof. intros HN H. rewrite quant_clamp by auto. destruct v; try discriminate. reflexivity. Qed.

(** Within [0,1] the value is scaled and rounded down. *)
Lemma quant_floor N v : depth N -> in01 v -> quant N v = Zfloor (rnd (B2R v * IZR N)).
Proof.
  intros HN H. destruct (depth_val N HN) as (FN & RN & NP). unfold depth in HN. apply in01_num in H. rewrite quant_clamp by auto.
  destruct (fmul_num v (ofZ N) 0 (IZR N)) as [[A A1] A2]; [apply H|auto|auto with fmt|apply fmt_IZR; lia|destruct H as [_ H]; rewrite RN; split; nra|].
  rewrite fcast_fin by exact A.
  pose proof (Btrunc_correct 24 128 e128 (fmul v (ofZ N))) as B. rewrite fix0_round in B. apply eq_IZR in B. rewrite B.
  rewrite Ztrunc_floor by lra. rewrite <- RN, <- A2.
  revert A1. generalize (B2R (fmul v (ofZ N))). intros w A1.
  assert (0 <= Zfloor w <= N).
  { split; [rewrite <- (Zfloor_IZR 0)|rewrite <- (Zfloor_IZR N)]; apply Zfloor_le; lra. } lia.
Qed.

Lemma pos_sign (x : f32) : (0 < B2R x)%R -> Bsign x = false.
Proof.
  destruct x as [s|s| |s m e P]; cbn; try lra; try (intros; lra). destruct s; [|reflexivity]. intros H. exfalso.
  assert (F2R (Float radix2 (Z.neg m) e) < 0)%R by (apply F2R_lt_0; reflexivity). cbn in *. lra.
Qed.
(** The product, which may overflow. *)
Lemma fmul_cases v N : depth N -> fin v -> (fin (fmul v (ofZ N)) /\ B2R (fmul v (ofZ N)) = rnd (B2R v * IZR N)) \/
  fmul v (ofZ N) = B754_infinity (Bsign v).
Proof.
  intros HN F. destruct (depth_val N HN) as (FN & RN & NP).
  pose proof (Bmult_correct 24 128 p24 e128 mode_NE v (ofZ N)) as B. destruct (Rlt_bool _ _).
  - left. destruct B as (A & B & _). unfold fin, fmul. rewrite B, A, RN. unfold fin in *. rewrite F, FN. auto.
  - right. assert (S : Bsign (ofZ N) = false).
    { apply pos_sign. lra. }
    rewrite S in B. unfold fmul. revert B. generalize (@Bmult 24 128 p24 e128 mode_NE v (ofZ N)). intros w.
    unfold binary_overflow, overflow_to_inf. rewrite xorb_false_r. destruct w; cbn; congruence.
Qed.
Lemma quant_low N v : depth N -> fle v f0 = true -> quant N v = 0.
Proof.
  intros HN H. rewrite quant_clamp by auto. destruct (depth_val N HN) as (FN & RN & NP). unfold depth in HN.
  destruct (is_finite v) eqn:F.
  - assert (V : (B2R v <= 0)%R) by (rewrite <- f0_R; apply fle_R; auto with fin).
    destruct (fmul_cases v N HN F) as [[A B]|E].
    + rewrite fcast_fin by exact A. pose proof (Btrunc_correct 24 128 e128 (fmul v (ofZ N))) as T. rewrite fix0_round in T. apply eq_IZR in T. rewrite T.
      assert (Ztrunc (B2R (fmul v (ofZ N))) <= 0); [|lia]. rewrite <- (Ztrunc_IZR 0). apply Ztrunc_le. rewrite B.
      apply rnd_hi; [auto with fmt|nra].
    + rewrite E. assert (S : v = B754_zero false \/ v = B754_zero true \/ Bsign v = true).
      { destruct v as [[|]|s| |s m e P]; try discriminate; auto. right. right. cbn. destruct s; [reflexivity|]. exfalso.
        cbn in V. assert (0 < F2R (Float radix2 (Z.pos m) e))%R by (apply F2R_gt_0; reflexivity). cbn in *. lra. }
      destruct S as [ -> |[ -> |S]].
      * exfalso. revert E. clear -FN. destruct (ofZ N) as [|s| |]; try discriminate.
      * exfalso. revert E. clear -FN. destruct (ofZ N) as [|s| |]; try discriminate.
      * rewrite S. cbn [fcast]. reflexivity.
  - destruct v as [|[|]| |]; try discriminate. assert (E : fmul (B754_infinity true) (ofZ N) = B754_infinity true).
    { assert (S : Bsign (ofZ N) = false).
      { apply pos_sign. lra. }
      revert FN S RN. generalize (ofZ N). intros w FN S RN. destruct w as [|s| |s m e P]; try discriminate; cbn in S; subst; [|reflexivity].
      exfalso. cbn in RN. lra. }
    rewrite E. reflexivity.
Qed.
Lemma quant_high N v : depth N -> fle f1 v = true -> quant N v = N.
Proof.
  intros HN H. rewrite quant_clamp by auto. destruct (depth_val N HN) as (FN & RN & NP). unfold depth in HN.
  destruct (is_finite v) eqn:F.
  - assert (V : (1 <= B2R v)%R) by (rewrite <- f1_R; apply fle_R; auto with fin).
    destruct (fmul_cases v N HN F) as [[A B]|E].
    + rewrite fcast_fin by exact A. pose proof (Btrunc_correct 24 128 e128 (fmul v (ofZ N))) as T. rewrite fix0_round in T. apply eq_IZR in T. rewrite T.
      assert (N <= Ztrunc (B2R (fmul v (ofZ N)))); [|lia]. rewrite <- (Ztrunc_IZR N) at 1. apply Ztrunc_le. rewrite B.
      apply rnd_lo; [apply fmt_IZR; lia|nra].
    + rewrite E. assert (S : Bsign v = false).
      { apply pos_sign. lra. }
      rewrite S. reflexivity.
  - destruct v as [|[|]| |]; try discriminate. assert (E : fmul (B754_infinity false) (ofZ N) = B754_infinity false).
    { assert (S : Bsign (ofZ N) = false).
      { apply pos_sign. lra. }
      revert FN S RN. generalize (ofZ N). intros w FN S RN. destruct w as [|s| |s m e P]; try discriminate; cbn in S; subst; [|reflexivity].
      exfalso. cbn in RN. lra. }
    rewrite E. reflexivity.
Qed.
Lemma fle_total v w : is_nan v = false -> is_nan w = false -> fle v w = true \/ fle w v = true.
Proof.
  intros V W. destruct (is_finite v) eqn:Fv, (is_finite w) eqn:Fw.
  - destruct (Rle_lt_dec (B2R v) (B2R w)); [left|right]; apply fle_R; auto; lra.
  - destruct w as [|[|]| |]; try discriminate; destruct v as [|[|]| |[|]]; try discriminate; cbn; auto.
  - destruct v as [|[|]| |]; try discriminate; destruct w as [|[|]| |[|]]; try discriminate; cbn; auto.
  - destruct v as [|[|]| |]; try discriminate; destruct w as [|[|]| |]; try discriminate; cbn; auto.
Qed.
Lemma quant_mono N v w : depth N -> fle v w = true -> quant N v <= quant N w.
Proof.
  intros HN H. pose proof (quant_range N v HN). pose proof (quant_range N w HN).
  assert (NV : is_nan v = false) by (destruct v; try reflexivity; destruct w; discriminate).
  assert (NW : is_nan w = false) by (destruct w; try reflexivity; destruct v as [|[|]| |]; discriminate).
  destruct (fle_total v f0 NV eq_refl) as [A|A]; [rewrite (quant_low N v); auto; lia|].
  destruct (fle_total f1 w eq_refl NW) as [B|B]; [rewrite (quant_high N w); auto; lia|].
  destruct (fle_total v f1 NV eq_refl) as [A'|A'].
  - destruct (fle_total f0 w eq_refl NW) as [B'|B'].
    + assert (V : in01 v) by (split; auto). assert (W : in01 w) by (split; auto). rewrite !quant_floor by auto.
      destruct (depth_val N HN) as (FN & RN & NP). apply in01_num in V. apply in01_num in W. apply Zfloor_le, rnd_le.
      assert (B2R v <= B2R w)%R by (apply fle_R; [apply V|apply W|exact H]). nra.
    + rewrite (quant_low N w); auto. enough (quant N v <= 0) by lia. 
      assert (Fw : fin w).
      { clear B. destruct w as [|[|]| |]; [reflexivity| | | |reflexivity]; exfalso;
          [|discriminate B'|discriminate B']. destruct v as [|[|]| |[|]]; discriminate H || discriminate A. }
      assert (Fv : fin v).
      { destruct v as [|[|]| |]; [reflexivity| | | |reflexivity]; exfalso; [discriminate A|discriminate A'|discriminate A]. }
      rewrite quant_low; auto; [lia|]. apply fle_R; auto with fin. apply fle_R in H; auto. apply fle_R in B'; auto with fin. lra.
  - rewrite (quant_high N v); auto. rewrite quant_high; auto; [lia|].
    destruct (is_finite w) eqn:Fw.
    + assert (Fv : fin v).
      { destruct v as [|[|]| |]; [reflexivity| | | |reflexivity]; exfalso; [discriminate A| |discriminate A].
        clear B. destruct w as [|[|]| |[|]]; discriminate H || discriminate Fw. }
      apply fle_R; auto with fin. apply fle_R in H; auto. apply fle_R in A'; auto with fin. lra.
    + clear B. destruct w as [|[|]| |]; [discriminate Fw| |reflexivity|discriminate NW|discriminate Fw].
      exfalso. destruct v as [|[|]| |[|]]; discriminate H || discriminate A.
Qed.

(** ** Round trips *)
Lemma u8_round_trip : forall b, 0 <= b <= 255 -> quant8 (from_u8 b) = b.
Proof.
  assert (T : forallb (fun b => quant8 (from_u8 b) =? b) (zrange 0 256) = true) by (vm_compute; reflexivity).
  intros b H. rewrite forallb_forall in T. apply Z.eqb_eq, T, zrange_In. lia.
Qed.
(** A number with 16 bits is recovered when it is hit up to half a unit in the
    last place. *)
Lemma back_to_int e b x : 0 <= e <= 15 -> 2 ^ e < b < 2 ^ (e + 1) -> (Rabs (x - IZR b) < bpow radix2 (e - 24))%R -> rnd x = IZR b.
Proof.
  intros HE HB HX. apply Rabs_lt_inv in HX.
  assert (P1 : (bpow radix2 e < IZR b)%R) by (rewrite <- (IZR_Zpower radix2) by lia; apply IZR_lt; exact (proj1 HB)).
  assert (P2 : (IZR b < bpow radix2 (e + 1))%R) by (rewrite <- (IZR_Zpower radix2) by lia; apply IZR_lt; exact (proj2 HB)).
  pose proof (bpow_gt_0 radix2 e) as P0.
  assert (M : mag radix2 (IZR b) = e + 1 :> Z).
  { apply mag_unique_pos. replace (e + 1 - 1) with e by lia. lra. }
  assert (B16 : b < 65536) by (change 65536 with (2 ^ 16); eapply Z.lt_le_trans; [apply HB|apply Z.pow_le_mono_r; lia]).
  assert (FB : fmt (IZR b)) by (apply fmt_IZR; lia).
  assert (UL : ulp radix2 (SpecFloat.fexp 24 128) (IZR b) = (2 * bpow radix2 (e - 24))%R).
  { rewrite ulp_neq_0 by lra. unfold cexp. rewrite M.
    replace (SpecFloat.fexp 24 128 (e + 1)) with (1 + (e - 24)) by (unfold SpecFloat.fexp, SpecFloat.emin; lia). rewrite bpow_plus. reflexivity. }
  apply Rle_antisym.
  - apply round_N_le_midp; [typeclasses eauto|apply FB|]. rewrite succ_eq_pos by lra. rewrite UL. lra.
  - apply round_N_ge_midp; [typeclasses eauto|apply FB|]. rewrite pred_eq_pos by lra. unfold pred_pos.
    rewrite Req_bool_false by (rewrite M; replace (e + 1 - 1) with e by lia; lra). rewrite UL. lra.
Qed.
Lemma u16_round_trip : forall b, 0 <= b <= 65535 -> quant16 (from_u16 b) = b.
Proof.
  intros b H.
  assert (T : forallb (fun b => quant16 (from_u16 b) =? b) (0 :: 65535 :: map (fun e => 2 ^ e) (zrange 0 16)) = true) by (vm_compute; reflexivity).
  rewrite forallb_forall in T. destruct (in_dec Z.eq_dec b (0 :: 65535 :: map (fun e => 2 ^ e) (zrange 0 16))) as [I|NI]; [apply Z.eqb_eq, T, I|]. clear T.
  assert (B0 : 0 < b) by (destruct (Z.eq_dec b 0); [exfalso; apply NI; left; auto|lia]).
  assert (B9 : b <= 65534) by (destruct (Z.eq_dec b 65535); [exfalso; apply NI; right; left; auto|lia]).
  pose proof (Z.log2_spec b B0) as [L1 L2]. pose proof (Z.log2_nonneg b) as L3. set (e := Z.log2 b) in *. replace (Z.succ e) with (e + 1) in L2 by lia.
  assert (HE : e <= 15). { assert (e <= Z.log2 65535) by (apply Z.log2_le_mono; lia). exact H0. }
  assert (L1' : 2 ^ e < b).
  { destruct (Z.eq_dec (2 ^ e) b) as [Q|Q]; [|lia]. exfalso. apply NI. right. right. apply in_map_iff. exists e. split; [exact Q|]. apply zrange_In. lia. }
  clearbody e. clear NI L1.
  assert (D : depth 65535) by (unfold depth; lia). destruct (depth_val _ D) as (FN & RN & NP). destruct (ofZ_val b ltac:(lia)) as [Fb Rb].
  assert (B1 : (0 < IZR b <= 65535)%R) by (split; [apply IZR_lt|apply IZR_le]; lia).
  assert (Q01 : (0 <= B2R (ofZ b) / B2R (ofZ 65535) <= 1)%R).
  { rewrite Rb, RN. split; [apply Rle_mult_inv_pos; lra|]. apply Rmult_le_reg_r with 65535%R; [lra|]. unfold Rdiv. rewrite Rmult_assoc, Rinv_l; lra. }
  destruct (fdiv_num (ofZ b) (ofZ 65535) 0 1 Fb FN ltac:(rewrite RN; lra) ltac:(auto with fmt) ltac:(auto with fmt) Q01) as [N E].
  rewrite quant16_eq. unfold from_u16. rewrite quant_floor; [|exact D|apply in01_num; exact N]. rewrite E, Rb, RN.
  rewrite (back_to_int e b); [apply Zfloor_IZR|lia|lia|].
  assert (P1 : (bpow radix2 e < IZR b)%R) by (rewrite <- (IZR_Zpower radix2) by lia; apply IZR_lt; exact L1').
  assert (P2 : (IZR b <= bpow radix2 (e + 1) - 1)%R) by (rewrite <- (IZR_Zpower radix2) by lia; rewrite <- minus_IZR; apply IZR_le; change (radix2 ^ (e + 1))%Z with (2 ^ (e + 1)); lia).
  assert (S : (bpow radix2 (e + 1) <= 32768 \/ bpow radix2 (e + 1) = 65536 /\ IZR b <= 65534)%R).
  { destruct (Z.eq_dec e 15) as [-> |N15]; [right; split; [reflexivity|apply IZR_le; lia]|left]. change 32768%R with (bpow radix2 15). apply bpow_le. lia. }
  set (q := (IZR b / 65535)%R) in *. assert (QB : (q * 65535 = IZR b)%R) by (unfold q; field).
  assert (M : mag radix2 q = e - 15 :> Z).
  { apply mag_unique_pos. replace (e - 15 - 1) with (e + -16) by lia. replace (e - 15) with (e + 1 + -16) by lia. rewrite !(bpow_plus radix2 _ (-16)).
    change (bpow radix2 (-16)) with (/ 65536)%R. pose proof (bpow_gt_0 radix2 e). lra. }
  assert (HU : (Rabs (rnd q - q) <= bpow radix2 (e - 40))%R).
  { eapply Rle_trans; [apply error_le_half_ulp; typeclasses eauto|]. pose proof (bpow_gt_0 radix2 e). rewrite ulp_neq_0 by lra. unfold cexp. rewrite M.
    replace (SpecFloat.fexp 24 128 (e - 15)) with (1 + (e - 40)) by (unfold SpecFloat.fexp, SpecFloat.emin; lia). rewrite bpow_plus. change (bpow radix2 1) with 2%R. lra. }
  rewrite <- QB. replace (rnd q * 65535 - q * 65535)%R with ((rnd q - q) * 65535)%R by ring. rewrite Rabs_mult, (Rabs_pos_eq 65535) by lra.
  replace (e - 24) with (e - 40 + 16) by lia. rewrite bpow_plus. change (bpow radix2 16) with 65536%R. pose proof (bpow_gt_0 radix2 (e - 40)). nra.
Qed.
Lemma from_u_in01 N b : depth N -> 0 <= b <= N -> in01 (fdiv (ofZ b) (ofZ N)).
Proof.
  intros HN H. destruct (depth_val N HN) as (FN & RN & NP). unfold depth in HN. destruct (ofZ_val b ltac:(lia)) as [Fb Rb].
  apply in01_num. eapply (proj1 (fdiv_num (ofZ b) (ofZ N) 0 1 _ _ _ _ _ _)).
  Unshelve. all: auto with fmt. rewrite RN. lra. rewrite Rb, RN. assert (0 <= IZR b <= IZR N)%R by (split; apply IZR_le; lia).
  split; [apply Rle_mult_inv_pos; lra|]. apply Rmult_le_reg_r with (IZR N); [lra|]. unfold Rdiv. rewrite Rmult_assoc, Rinv_l; lra.
Qed.
Lemma from_u8_in01 b : is_byte b -> in01 (from_u8 b).
Proof. intros H. apply (from_u_in01 255); unfold depth; auto; lia. Qed.
Lemma from_u16_in01 b : 0 <= b <= 65535 -> in01 (from_u16 b).
Proof. intros H. apply (from_u_in01 65535); unfold depth; auto; lia. Qed.
