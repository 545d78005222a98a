(** Proofs about NumPy arrays (C69, C83). *)
From Coq Require Import Reals.
From Coq Require Import ZArith List Bool String Lia Lra.
From Flocq Require Import Core IEEE754.BinarySingleNaN.
From Verif Require Import Base BaseLemmas PixelBuffer BufferSpec PixelBufferProofs F32 F32Lemmas Color ColorSpec ColorProofs.
From Verif Require Import ResampleProofs Codec CodecSpec QuantProofs Image ImageSpec Numpy NumpySpec.
Import ListNotations.
Local Open Scope string_scope.
Open Scope Z_scope.

(** ** Lists *)
Lemma nth_flat {A B} (g : A -> list B) (n : nat) l : (forall a, List.length (g a) = n) ->
  forall i a j, nth_error l i = Some a -> (j < n)%nat -> nth_error (flat_map g l) (i * n + j) = nth_error (g a) j.
Proof.
  intros G. induction l as [|b l IH]; intros i a j H J; destruct i; try discriminate; cbn [nth_error flat_map] in *.
  - injection H as ->. rewrite nth_error_app1 by (rewrite G; lia). reflexivity.
  - rewrite nth_error_app2 by (rewrite G; nia). rewrite G. replace (S i * n + j - n)%nat with (i * n + j)%nat by nia. auto.
Qed.
Lemma length_flat {A B} (g : A -> list B) (n : nat) l : (forall a, List.length (g a) = n) ->
  List.length (flat_map g l) = (List.length l * n)%nat.
Proof. intros G. induction l; cbn [flat_map List.length]; auto. rewrite app_length, G, IHl. lia. Qed.

Lemma chunked_flat {A} (g : A -> list f32) (n : nat) : (0 < n)%nat -> (forall a, List.length (g a) = n) ->
  forall l fuel, (List.length l <= fuel)%nat -> chunked_ fuel n (flat_map g l) = map g l.
Proof.
  intros N G. induction l as [|a l IH]; intros fuel F.
  - destruct fuel; cbn [chunked_ flat_map map]; auto. cbn [List.length]. destruct (Nat.ltb_spec 0 n); auto. lia.
  - destruct fuel; [cbn in F; lia|]. cbn [chunked_ flat_map map]. cbn [List.length] in F.
    destruct (Nat.ltb_spec (List.length (g a ++ flat_map g l)) n) as [X|_].
    { rewrite app_length, G in X. lia. }
    f_equal.
    + rewrite firstn_app, G, Nat.sub_diag. cbn [firstn]. rewrite app_nil_r. apply firstn_all2. rewrite G; lia.
    + rewrite skipn_app, G, Nat.sub_diag. cbn [skipn]. rewrite (skipn_all2 (g a)) by (rewrite G; lia). cbn [app]. apply IH. lia.
Qed.
Lemma chunked_flat_map {A} (g : A -> list f32) (n : nat) l : (0 < n)%nat -> (forall a, List.length (g a) = n) ->
  chunked n (flat_map g l) = map g l.
Proof. intros N G. unfold chunked. apply chunked_flat; auto. rewrite (length_flat g n) by auto. nia. Qed.

(** Any list of k*n numbers is made of k chunks. *)
Lemma split_chunks {A} (n : nat) : forall (k : nat) (l : list A), List.length l = (k * n)%nat ->
  exists cs, List.length cs = k /\ (forall c, In c cs -> List.length c = n) /\ l = List.concat cs.
Proof.
  induction k; intros l H.
  - exists []. cbn in H. destruct l; [|discriminate]. cbn. intuition.
  - destruct (IHk (skipn n l)) as (cs & C1 & C2 & C3). { rewrite skipn_length. nia. }
    exists (firstn n l :: cs). cbn [List.length List.concat]. rewrite C1, <- C3, firstn_skipn. split; [|split]; auto.
    intros c [<-|I]; auto. rewrite firstn_length. nia.
Qed.
Lemma chunked_concat (n : nat) cs : (0 < n)%nat -> (forall c, In c cs -> List.length c = n) -> chunked n (List.concat cs) = cs.
Proof.
  intros N H. unfold chunked.
  assert (E : forall fuel, (List.length cs <= fuel)%nat -> chunked_ fuel n (List.concat cs) = cs).
  { induction cs as [|c cs IH]; intros fuel F.
    - destruct fuel; cbn [chunked_ List.concat List.length]; auto. destruct (Nat.ltb_spec 0 n); auto. lia.
    - destruct fuel; [cbn in F; lia|]. cbn [chunked_ List.concat]. cbn [List.length] in F.
      pose proof (H c (or_introl eq_refl)) as G.
      destruct (Nat.ltb_spec (List.length (c ++ List.concat cs)) n) as [X|_]. { rewrite app_length in X. lia. }
      rewrite firstn_app, skipn_app, G, Nat.sub_diag. cbn [firstn skipn]. rewrite app_nil_r.
      rewrite firstn_all2, skipn_all2 by (rewrite G; lia). cbn [app]. f_equal. apply IH; [intros; apply H; right; auto|lia]. }
  apply E. clear E. assert (X : (List.length cs * n)%nat = List.length (List.concat cs)).
  { clear N. induction cs as [|c cs IH]; cbn [List.concat List.length]; auto. rewrite app_length, (H c) by (left; auto).
    rewrite <- IH; [lia|]. intros; apply H; right; auto. }
  nia.
Qed.
Lemma nth_concat {A} (n : nat) (cs : list (list A)) : (forall c, In c cs -> List.length c = n) ->
  forall i c j, nth_error cs i = Some c -> (j < n)%nat -> nth_error (List.concat cs) (i * n + j) = nth_error c j.
Proof.
  intros H. induction cs as [|b l IH]; intros i c j X J; destruct i; try discriminate; cbn [nth_error List.concat] in *.
  - injection X as ->. rewrite nth_error_app1 by (rewrite H; [lia|left; auto]). reflexivity.
  - rewrite nth_error_app2 by (rewrite H; [nia|left; auto]). rewrite (H b) by (left; auto).
    replace (S i * n + j - n)%nat with (i * n + j)%nat by nia. apply IH; auto. intros; apply H; right; auto.
Qed.
Lemma map_concat {A B} (f : A -> B) cs : map f (List.concat cs) = List.concat (map (map f) cs).
Proof. apply concat_map. Qed.

Lemma color_iter_length n c : (n <= 4)%nat -> List.length (color_iter n c) = n.
Proof. intros H. unfold color_iter. rewrite firstn_length. cbn [List.length]. lia. Qed.
Lemma color_iter_nth n c j : (n <= 4)%nat -> 0 <= j < Z.of_nat n -> nth_error (color_iter n c) (Z.to_nat j) = Some (channel j c).
Proof.
  intros H J. assert (C : j = 0 \/ j = 1 \/ j = 2 \/ j = 3) by lia. unfold color_iter.
  destruct C as [->|[->|[->| ->]]]; do 5 (destruct n; [try lia; reflexivity|]); lia.
Qed.

(** ** Stored numbers *)
Definition st (t : DataType) (v : f32) : number :=
  match t with
  | Float32 => NF32 v | Float64 => NF64 (f32_to_f64 v)
  | Uint8 => NInt (as_u8 (fmul v (ofZ 255))) | Uint16 => NInt (as_u16 (fmul v (ofZ 65535)))
  | Uint32 => NInt (f_as_u32 (fmul v (ofZ 4294967295))) | Bool => NBool (fle (dec 5 10) v)
  end.
Lemma numbers_store t l : numbers (store t l) = map (st t) l.
Proof. destruct t; cbn [store numbers]; rewrite ?map_map; reflexivity. Qed.
Lemma type_store t l : type_of (store t l) = t. Proof. destruct t; reflexivity. Qed.
Lemma num_numbers e : num_elements e = zlen (numbers e).
Proof. destruct e; cbn [num_elements numbers]; rewrite ?zlen_map; reflexivity. Qed.

Definition rd (t : DataType) (n : number) : f32 :=
  match n with
  | NF32 v => v | NF64 v => f64_to_f32 v | NBool b => if b then f0 else f1
  | NInt n => match t with Uint8 => fdiv (ofZ n) (ofZ 255) | Uint16 => fdiv (ofZ n) (ofZ 65535) | _ => fdiv (ofZ n) (ofZ 4294967295) end
  end.
Lemma load_numbers e : load e = map (rd (type_of e)) (numbers e).
Proof. destruct e; cbn [load numbers type_of rd]; rewrite ?map_map; try reflexivity; rewrite map_id; reflexivity. Qed.

(** ** f64 *)
Lemma wide_ok (v : f32) : is_nan (f32_to_f64 v) = is_nan v /\ is_finite (f32_to_f64 v) = is_finite v /\
  Bsign (f32_to_f64 v) = Bsign v /\ B2R (f32_to_f64 v) = B2R v.
Proof.
  destruct v as [s|s| |s m e B]; cbn [f32_to_f64]; try (repeat split; reflexivity).
  pose proof (binary_normalize_correct 53 1024 p53 e1024 mode_NE (cond_Zopp s (Zpos m)) e s) as C. cbv zeta in C.
  assert (M : B2R (B754_finite s m e B : f32) = F2R (Float radix2 (cond_Zopp s (Zpos m)) e)) by reflexivity.
  rewrite <- M in C.
  destruct (fmt_B2R (B754_finite s m e B)) as [G1 G2].
  rewrite round_generic in C; [|typeclasses eauto|].
  2:{ refine (generic_inclusion_mag _ _ _ _ _ G1). intros NZ.
      change (SpecFloat.fexp 53 1024) with (FLT_exp (-1074) 53). change fx with (FLT_exp (-149) 24). unfold FLT_exp. lia. }
  rewrite Rlt_bool_true in C.
  2:{ eapply Rlt_trans; [exact G2|]. apply bpow_lt. lia. }
  destruct C as (C1 & C2 & C3). rewrite C1, C2, C3, M.
  assert (NN : is_nan (binary_normalize 53 1024 p53 e1024 mode_NE (cond_Zopp s (Zpos m)) e s) = false).
  { revert C2. generalize (binary_normalize 53 1024 p53 e1024 mode_NE (cond_Zopp s (Zpos m)) e s). intros w; destruct w; cbn; congruence. }
  rewrite NN. repeat split; auto. destruct s; cbn [cond_Zopp Bsign].
  - rewrite Rcompare_Lt; auto. apply F2R_lt_0. reflexivity.
  - rewrite Rcompare_Gt; auto. apply F2R_gt_0. reflexivity.
Qed.
Lemma narrow_ok (w : f64) : is_nan (f64_to_f32 w) = is_nan w /\
  (is_finite w = true -> (Rabs (rnd (B2R w)) < bpow radix2 128)%R ->
    fin (f64_to_f32 w) /\ B2R (f64_to_f32 w) = rnd (B2R w) /\ (B2R w = 0%R -> Bsign (f64_to_f32 w) = Bsign w)).
Proof.
  destruct w as [s|s| |s m e B]; cbn [f64_to_f32].
  - split; auto. intros _ _. repeat split; auto. cbn [B2R]. rewrite rnd_0. reflexivity.
  - split; auto. intros X; discriminate.
  - split; auto. intros X; discriminate.
  - pose proof (binary_normalize_correct 24 128 p24 e128 mode_NE (cond_Zopp s (Zpos m)) e s) as C. cbv zeta in C.
    assert (M : B2R (B754_finite s m e B : f64) = F2R (Float radix2 (cond_Zopp s (Zpos m)) e)) by reflexivity.
    rewrite <- M in C. fold fx in C. fold (rnd (B2R (B754_finite s m e B : f64))) in C.
    split.
    + cbn [is_nan]. destruct (Rlt_bool _ _).
      * destruct C as (_ & C & _). revert C. generalize (binary_normalize 24 128 p24 e128 mode_NE (cond_Zopp s (Zpos m)) e s). intros w; destruct w; cbn; congruence.
      * revert C. generalize (binary_normalize 24 128 p24 e128 mode_NE (cond_Zopp s (Zpos m)) e s). intros w; destruct w; cbn; try congruence.
    + intros _ H. rewrite Rlt_bool_true in C by exact H. destruct C as (C1 & C2 & C3). rewrite C1. split; [|split]; auto.
      intros Z. exfalso. rewrite M in Z. apply eq_0_F2R in Z. destruct s; discriminate.
Qed.
Lemma narrow_wide v : is_finite v = true -> f64_to_f32 (f32_to_f64 v) = v.
Proof.
  intros F. destruct (wide_ok v) as (A1 & A2 & A3 & A4). destruct (fmt_B2R v) as [G1 G2].
  destruct (narrow_ok (f32_to_f64 v)) as [_ N]. rewrite A4 in N. rewrite rnd_id in N by (split; auto).
  rewrite A2 in N. destruct (N F G2) as (N1 & N2 & N3).
  destruct (Req_dec (B2R v) 0) as [Z|Z].
  - apply f_inj; auto. rewrite (N3 Z). exact A3.
  - apply f_inj_nz; auto. rewrite N2. exact Z.
Qed.

(** ** Samples as integers *)
Lemma scaled_quant N v : depth N -> scaled_down N v (fcast 0 N (fmul v (ofZ N))).
Proof.
  intros D. rewrite <- quant_clamp by auto. split; [apply quant_range; auto|]. split; [apply quant_low; auto|].
  split; [apply quant_high; auto|]. split; [apply quant_nan; auto|].
  intros I. rewrite quant_floor by auto. apply in01_num in I. destruct I as [F I].
  assert (P : (1 <= IZR N)%R) by (apply IZR_le; unfold depth in D; lia).
  set (x := (B2R v * IZR N)%R). assert (X : (0 <= x)%R) by (unfold x; nra).
  destruct (Rle_dec (/ 2) x) as [H|H].
  - pose proof (rnd_rel_pos x ltac:(lra)) as K. rewrite ee_val in K.
    pose proof (Zfloor_lb (rnd x)). pose proof (Zfloor_ub (rnd x)). split; lra.
  - assert (K : (0 <= rnd x <= / 2)%R). { split; [apply rnd_lo|apply rnd_hi]; auto with fmt; lra. }
    assert (Z : Zfloor (rnd x) = 0). { apply Zfloor_imp. change (0 + 1)%Z with 1%Z. lra. }
    rewrite Z. split; nra.
Qed.
Lemma two32 : ofZ 4294967295 = ofZ 4294967296. Proof. apply B2SF_inj; vm_compute; reflexivity. Qed.
Lemma two32_val : fin (ofZ 4294967295) /\ B2R (ofZ 4294967295) = 4294967296%R.
Proof. split; [reflexivity|]. fval (ofZ 4294967295) H. rewrite H. lra. Qed.
Lemma fmul_pos_cases v w : fin w -> (0 < B2R w)%R -> fin v ->
  (fin (fmul v w) /\ B2R (fmul v w) = rnd (B2R v * B2R w)) \/ fmul v w = B754_infinity (Bsign v).
Proof.
  intros FN P F.
  pose proof (Bmult_correct 24 128 p24 e128 mode_NE v w) as B. destruct (Rlt_bool _ _).
  - left. destruct B as (A & B & _). unfold fin, fmul. rewrite B, A. unfold fin in *. rewrite F, FN. auto.
  - right. pose proof (pos_sign w P) as S.
    rewrite S in B. unfold fmul. revert B. generalize (@Bmult 24 128 p24 e128 mode_NE v w). intros u.
    unfold binary_overflow, overflow_to_inf. rewrite xorb_false_r. destruct u; cbn; congruence.
Qed.
Lemma fmul_inf_pos s w : fin w -> (0 < B2R w)%R -> fmul (B754_infinity s) w = B754_infinity s.
Proof.
  intros FN P. pose proof (pos_sign w P) as S. destruct w as [|s'| |s' m e B]; try discriminate; cbn in S; subst.
  - cbn in P. lra.
  - destruct s; reflexivity.
Qed.
Lemma trunc_B2R (v : f32) : Btrunc v = Ztrunc (B2R v).
Proof. pose proof (Btrunc_correct 24 128 e128 v) as T. rewrite fix0_round in T. apply eq_IZR in T. exact T. Qed.
Lemma fmt_2_32 : fmt 4294967296.
Proof. replace 4294967296%R with (IZR 1 * bpow radix2 32)%R; [apply fmt_F2R; lia|]. change (bpow radix2 32) with (IZR 4294967296). lra. Qed.
(** Scaling by a power of two is exact. *)
Lemma fmt_scale r : fmt r -> (Rabs r <= 1)%R -> fmt (r * 4294967296).
Proof.
  intros [G B] K. split.
  - change 4294967296%R with (bpow radix2 32). change fx with (FLT_exp (-149) 24) in *.
    apply FLT_format_generic in G; [|reflexivity]. destruct G as [f E1 E2 E3].
    apply generic_format_FLT. apply (FLT_spec radix2 (-149) 24 _ (Float radix2 (Fnum f) (Fexp f + 32))); cbn [Fnum Fexp]; auto; [|lia].
    rewrite E1. unfold F2R. cbn [Fnum Fexp]. rewrite bpow_plus. lra.
  - rewrite Rabs_mult. rewrite (Rabs_pos_eq 4294967296) by lra.
    apply Rle_lt_trans with 4294967296%R; [nra|]. change 4294967296%R with (bpow radix2 32). apply bpow_lt. lia.
Qed.
Lemma scaled_u32 v : scaled_down 4294967295 v (f_as_u32 (fmul v (ofZ 4294967295))).
Proof.
  destruct two32_val as [FT RT]. unfold f_as_u32. set (T := ofZ 4294967295) in *. assert (PT : (0 < B2R T)%R) by lra.
  split; [apply fcast_range; lia|]. split; [|split; [|split]].
  - intros H. destruct (is_finite v) eqn:F.
    + assert (V : (B2R v <= 0)%R) by (rewrite <- f0_R; apply fle_R; auto with fin).
      destruct (fmul_pos_cases v T FT PT F) as [[A B]|E].
      * rewrite fcast_fin by exact A. rewrite trunc_B2R.
        assert (Ztrunc (B2R (fmul v T)) <= 0); [|lia]. rewrite <- (Ztrunc_IZR 0). apply Ztrunc_le. rewrite B. apply rnd_hi; [auto with fmt|nra].
      * rewrite E. destruct (Bsign v) eqn:S; [reflexivity|]. exfalso.
        destruct v as [s|s| |s m e P].
        { revert E. clear -FT. destruct T as [|s'| |]; discriminate. }
        { discriminate F. } { discriminate F. }
        cbn [Bsign] in S; subst s. cbn [B2R] in V.
        assert (0 < F2R (Float radix2 (Z.pos m) e))%R by (apply F2R_gt_0; reflexivity). cbn [cond_Zopp] in V. lra.
    + destruct v as [|[|]| |]; try discriminate. rewrite fmul_inf_pos by auto. reflexivity.
  - intros H. destruct (is_finite v) eqn:F.
    + assert (V : (1 <= B2R v)%R) by (rewrite <- f1_R; apply fle_R; auto with fin).
      destruct (fmul_pos_cases v T FT PT F) as [[A B]|E].
      * rewrite fcast_fin by exact A. rewrite trunc_B2R.
        assert (4294967296 <= Ztrunc (B2R (fmul v T))); [|lia]. rewrite <- (Ztrunc_IZR 4294967296). apply Ztrunc_le. rewrite B.
        apply rnd_lo; [apply fmt_2_32|nra].
      * rewrite E. rewrite (pos_sign v) by lra. reflexivity.
    + destruct v as [|[|]| |]; try discriminate. rewrite fmul_inf_pos by auto. reflexivity.
  - intros H. destruct v; try discriminate. reflexivity.
  - intros I. apply in01_num in I. destruct I as [F I].
    destruct (fmul_pos_cases v T FT PT F) as [[A B]|E].
    2:{ exfalso. pose proof (fmul_ok v T 4294967296 F FT fmt_2_32) as [X _]; [rewrite RT, Rabs_pos_eq; nra|]. rewrite E in X. discriminate. }
    rewrite RT in B. rewrite rnd_id in B by (apply fmt_scale; [apply fmt_B2R|rewrite Rabs_pos_eq; lra]).
    rewrite fcast_fin by exact A. rewrite trunc_B2R, B. rewrite Ztrunc_floor by nra.
    set (x := (B2R v * 4294967296)%R). pose proof (Zfloor_lb x). pose proof (Zfloor_ub x).
    assert (0 <= Zfloor x). { rewrite <- (Zfloor_IZR 0). apply Zfloor_le. unfold x. nra. }
    rewrite Z.max_r by lia. destruct (Z.min_spec 4294967295 (Zfloor x)) as [[M ->]|[M ->]].
    + unfold x in *. assert (4294967296 <= Zfloor (B2R v * 4294967296)) by lia.
      assert (4294967296 <= IZR (Zfloor (B2R v * 4294967296)))%R by (apply IZR_le; lia). split; nra.
    + unfold x in *. split; nra.
Qed.
Lemma half_eq : dec 5 10 = fdiv f1 f2. Proof. apply B2SF_inj; vm_compute; reflexivity. Qed.
Lemma st_ok t v : stored_as t v (st t v).
Proof.
  destruct t; cbn [stored_as st].
  - reflexivity.
  - apply wide_ok.
  - apply (scaled_quant 255). unfold depth. lia.
  - apply (scaled_quant 65535). unfold depth. lia.
  - apply scaled_u32.
  - rewrite half_eq. reflexivity.
Qed.

(** ** Reading numbers *)
Definition good_num (t : DataType) (n : number) : Prop :=
  match t, n with
  | Float32, NF32 _ | Float64, NF64 _ | Bool, NBool _ => True
  | Uint8, NInt n => 0 <= n <= 255
  | Uint16, NInt n => 0 <= n <= 65535
  | Uint32, NInt n => 0 <= n <= 4294967295
  | _, _ => False
  end.
Lemma good_array_nums a : good_array a -> forall n, In n (numbers (elems a)) -> good_num (type_of (elems a)) n.
Proof.
  intros (_ & _ & G) n I. destruct (elems a) as [l|l|l|l|l|l]; cbn [numbers type_of good_num] in *;
    apply in_map_iff in I as (v & <- & I); cbn; auto.
Qed.
Lemma nearest_rnd r v : fin v -> B2R v = rnd r -> nearest r v.
Proof.
  intros F E. split; [exact F|]. rewrite E. unfold rnd. change fx with (FLT_exp (-149) 24). reflexivity.
Qed.
Lemma div_nearest N n : depth N -> 0 <= n <= N -> nearest (IZR n / IZR N) (fdiv (ofZ n) (ofZ N)).
Proof.
  intros D H. destruct (depth_val N D) as (FN & RN & PN). unfold depth in D.
  destruct (ofZ_val n ltac:(lia)) as [Fn Rn].
  destruct (fdiv_num (ofZ n) (ofZ N) 0 1 Fn FN) as [[A _] B]; auto with fmt; [lra| |].
  - rewrite Rn, RN. assert (0 <= IZR n <= IZR N)%R by (split; apply IZR_le; lia). split.
    + apply Rmult_le_pos; [lra|]. apply Rlt_le, Rinv_0_lt_compat. lra.
    + apply Rmult_le_reg_r with (IZR N); [lra|]. field_simplify; lra.
  - apply nearest_rnd; auto. rewrite B, Rn, RN. reflexivity.
Qed.
Lemma fmt_scale_down r : fmt r -> (Rabs r <= 4294967296)%R -> (r = 0 \/ 1 <= Rabs r)%R -> fmt (r / 4294967296).
Proof.
  intros [G B] K L. split.
  - destruct L as [->|L]; [replace (0 / 4294967296)%R with 0%R by lra; apply generic_format_0|].
    replace (r / 4294967296)%R with (r * bpow radix2 (-32))%R by (change (bpow radix2 (-32)) with (/ IZR 4294967296)%R; lra).
    change fx with (FLT_exp (-149) 24) in *.
    apply FLT_format_generic in G; [|reflexivity]. destruct G as [f E1 E2 E3].
    destruct (Z_lt_le_dec (Fexp f) (-117)) as [X|X].
    + exfalso. rewrite E1 in L. assert (Y : (Rabs (F2R f) < 1)%R); [|lra].
      destruct f as [fm fe]. cbn [Fnum Fexp] in *. rewrite <- F2R_Zabs. unfold F2R. cbn [Fnum Fexp].
      apply Rlt_trans with (bpow radix2 24 * bpow radix2 fe)%R.
      * apply Rmult_lt_compat_r; [apply bpow_gt_0|]. change (bpow radix2 24) with (IZR 16777216). apply IZR_lt. exact E2.
      * rewrite <- bpow_plus. change 1%R with (bpow radix2 0). apply bpow_lt. lia.
    + apply generic_format_FLT. apply (FLT_spec radix2 (-149) 24 _ (Float radix2 (Fnum f) (Fexp f - 32))); cbn [Fnum Fexp]; auto; [|lia].
      rewrite E1. unfold F2R. cbn [Fnum Fexp]. replace (Fexp f - 32) with (Fexp f + -32) by lia. rewrite bpow_plus. lra.
  - apply Rle_lt_trans with 1%R; [|change 1%R with (bpow radix2 0); apply bpow_lt; lia].
    unfold Rdiv. rewrite Rabs_mult. rewrite (Rabs_pos_eq (/ 4294967296)) by lra. nra.
Qed.
Lemma ofZ_u32 n : 0 <= n <= 4294967295 -> fin (ofZ n) /\ B2R (ofZ n) = rnd (IZR n).
Proof.
  intros H. pose proof (binary_normalize_correct 24 128 p24 e128 mode_NE n 0 false) as C. cbv zeta in C.
  assert (M : F2R (Float radix2 n 0) = IZR n) by (unfold F2R; cbn [Fnum Fexp bpow]; lra).
  rewrite M in C. fold fx in C. fold (rnd (IZR n)) in C. rewrite Rlt_bool_true in C.
  - destruct C as (C1 & C2 & _). split; [exact C2|exact C1].
  - apply (rnd_small _ 4294967296); [apply fmt_2_32|]. assert (0 <= IZR n <= 4294967295)%R by (split; apply IZR_le; lia).
    rewrite Rabs_pos_eq; lra.
Qed.
Lemma div_u32 n : 0 <= n <= 4294967295 ->
  in01 (fdiv (ofZ n) (ofZ 4294967295)) /\ B2R (fdiv (ofZ n) (ofZ 4294967295)) = (rnd (IZR n) / 4294967296)%R.
Proof.
  intros H. destruct (ofZ_u32 n H) as [Fn Rn]. destruct two32_val as [FT RT].
  assert (I : (0 <= IZR n <= 4294967295)%R) by (split; apply IZR_le; lia).
  assert (K : (0 <= rnd (IZR n) <= 4294967296)%R) by (split; [apply rnd_lo|apply rnd_hi]; auto using fmt_2_32 with fmt; lra).
  assert (L : (rnd (IZR n) = 0 \/ 1 <= rnd (IZR n))%R).
  { destruct (Z.eq_dec n 0) as [->|]; [left; apply rnd_0|right]. apply rnd_lo; auto with fmt. apply IZR_le. lia. }
  destruct (fdiv_exact (ofZ n) (ofZ 4294967295) Fn FT) as [A B].
  - rewrite RT. lra.
  - rewrite Rn, RT. apply fmt_scale_down; [rewrite <- Rn; apply fmt_B2R| |]; rewrite Rabs_pos_eq by lra; [lra|destruct L; [left|right]; lra].
  - rewrite Rn, RT in B. split; [|exact B]. apply in01_num. split; [exact A|]. rewrite B. split; nra.
Qed.
Lemma rd_ok t n : good_num t n -> read_as t n (rd t n).
Proof.
  destruct t, n as [v|v|n|b]; cbn [good_num read_as rd]; try tauto; intros H.
  - split; [apply narrow_ok|]. intros F B. destruct (narrow_ok v) as [_ N].
    destruct (N F) as (N1 & N2 & _). { apply (rnd_small _ 1); auto with fmt. } apply nearest_rnd; auto.
  - apply (div_nearest 255); [unfold depth; lia|auto].
  - apply (div_nearest 65535); [unfold depth; lia|auto].
  - destruct (div_u32 n H) as [A B]. split; [exact A|]. rewrite B.
    assert (I : (0 <= IZR n)%R) by (apply IZR_le; lia).
    destruct (Z.eq_dec n 0) as [->|NZ]. { rewrite rnd_0. replace (0 / 4294967296 - 0 / 4294967296)%R with 0%R by lra. rewrite Rabs_R0. lra. }
    assert (1 <= IZR n)%R by (apply IZR_le; lia).
    pose proof (rnd_rel_pos (IZR n) ltac:(lra)) as K. rewrite ee_val in K. apply Rabs_le. lra.
Qed.

(** ** Images to arrays *)
Lemma export_samples L name k n (b : PixelBuffer Rgb) : In (name, k, n) export_modes ->
  (n = 3 \/ n = 4) /\
  array_samples L name b = ROk (flat_map (fun c => color_iter (Z.to_nat n) (convert_color L KRgb k c)) (data b), n).
Proof.
  intros H. cbn [In export_modes] in H.
  repeat (destruct H as [H|H]; [injection H as <- <- <-; (split; [lia|reflexivity])|]). destruct H.
Qed.
Lemma good_data_type tn t : In (tn, t) type_names -> extract_data_type tn = ROk t.
Proof.
  intros H. cbn [In type_names] in H.
  repeat (destruct H as [H|H]; [injection H as <- <-; reflexivity|]). destruct H.
Qed.
Lemma data_type_names tn : (exists t, In (tn, t) type_names /\ extract_data_type tn = ROk t) \/
  ((forall t, ~ In (tn, t) type_names) /\ exists s, tn = Some s /\ extract_data_type tn = RErr (UnsupportedDataType s)).
Proof.
  destruct tn as [s|]; [|left; exists Float32; split; [left; auto|auto]]. cbn [extract_data_type].
  destruct (String.eqb_spec s "float32"); [subst; left; eexists; split; [|reflexivity]; cbn; tauto|].
  destruct (String.eqb_spec s "float64"); [subst; left; eexists; split; [|reflexivity]; cbn; tauto|].
  destruct (String.eqb_spec s "uint8"); [subst; left; eexists; split; [|reflexivity]; cbn; tauto|].
  destruct (String.eqb_spec s "uint16"); [subst; left; eexists; split; [|reflexivity]; cbn; tauto|].
  destruct (String.eqb_spec s "uint32"); [subst; left; eexists; split; [|reflexivity]; cbn; tauto|].
  destruct (String.eqb_spec s "bool"); [subst; left; eexists; split; [|reflexivity]; cbn; tauto|].
  right. split; [|exists s; auto]. intros t I. cbn in I. repeat (destruct I as [I|I]; [congruence|]). destruct I.
Qed.
Lemma good_nums_array ds e : (forall d, In d ds -> 0 <= d) -> zlen (numbers e) = fold_right Z.mul 1 ds ->
  (forall n, In n (numbers e) -> good_num (type_of e) n) -> good_array (mkArray ds e).
Proof.
  intros A B C. split; [exact A|split; [exact B|]]. cbn [elems]. destruct e; auto; intros n I; apply (C (NInt n)); cbn [numbers]; apply in_map; auto.
Qed.
Lemma st_good t v : good_num t (st t v).
Proof.
  destruct t; cbn; auto; apply fcast_range; lia.
Qed.
(** An array made of pieces. *)
Lemma pieces_array (w h n : Z) (g : Rgb -> list f32) (b : PixelBuffer Rgb) t : valid b -> width b = w -> height b = h ->
  0 <= n -> (forall c, List.length (g c) = Z.to_nat n) ->
  let a := mkArray [h; w; n] (store t (flat_map g (data b))) in
  reshape [h; w; n] (store t (flat_map g (data b))) = ROk a /\ good_array a /\
  forall m x y j c v, inside b x y -> get_pixel m b x y = Ok c -> 0 <= j < n ->
    nth_error (g c) (Z.to_nat j) = Some v -> at_ a y x j = Some (st t v).
Proof.
  intros V W H N G a. destruct V as [V1 V2].
  assert (LEN : zlen (numbers (store t (flat_map g (data b)))) = h * (w * (n * 1))).
  { rewrite numbers_store, zlen_map. unfold zlen. rewrite (length_flat g (Z.to_nat n)) by auto. unfold zlen in V2. subst w h. nia. }
  pose proof (valid_size_bounds _ _ V1) as VB. rewrite W, H in VB.
  split; [|split].
  - unfold reshape. cbn [fold_right]. rewrite num_numbers, LEN, Z.eqb_refl. reflexivity.
  - apply good_nums_array.
    + intros d [<-|[<-|[<-|[]]]]; lia.
    + rewrite LEN. reflexivity.
    + intros x I. rewrite type_store. rewrite numbers_store in I. apply in_map_iff in I as (v & <- & _). apply st_good.
  - intros m x y j c v I P J E. rewrite get_pixel_eq in P by (auto; split; auto). apply idx_inv in P as X.
    rewrite idx_nth in P by lia. unfold at_. cbn [dims elems a]. rewrite numbers_store.
    destruct (nth_error (data b) (Z.to_nat (x + y * width b))) as [c'|] eqn:Q; [|discriminate]. injection P as ->.
    pose proof (nth_flat g (Z.to_nat n) (data b) G _ _ (Z.to_nat j) Q ltac:(lia)) as R. rewrite E in R.
    replace (Z.to_nat ((y * w + x) * n + j)) with (Z.to_nat (x + y * width b) * Z.to_nat n + Z.to_nat j)%nat.
    + apply map_nth_error. exact R.
    + rewrite W in *. destruct I as [I1 I2]. rewrite W in I1. rewrite H in I2. rewrite <- Z2Nat.inj_mul, <- Z2Nat.inj_add by nia. f_equal. ring.
Qed.
Lemma to_array L (i : Image) name k n tn t : good_image i -> In (name, k, n) export_modes -> In (tn, t) type_names ->
  let e := store t (flat_map (fun c => color_iter (Z.to_nat n) (convert_color L KRgb k c)) (data (buffer i))) in
  let a := mkArray [height (buffer i); width (buffer i); n] e in
  to_np_array L (Some name) tn i = ROk a /\ good_array a /\
  forall m x y j c, inside (buffer i) x y -> get_pixel m (buffer i) x y = Ok c -> 0 <= j < n ->
    at_ a y x j = Some (st t (channel j (convert_color L KRgb k c))).
Proof.
  intros V I T e a. destruct (export_samples L name k n (buffer i) I) as [N E].
  assert (G : forall c, List.length (color_iter (Z.to_nat n) (convert_color L KRgb k c)) = Z.to_nat n) by (intros; apply color_iter_length; lia).
  destruct (pieces_array (width (buffer i)) (height (buffer i)) n _ (buffer i) t V eq_refl eq_refl ltac:(lia) G) as (A & B & C).
  split; [|split].
  - unfold to_np_array. rewrite (good_data_type tn t T). rewrite E. exact A.
  - exact B.
  - intros m x y j c IN P J. apply (C m x y j c); auto. apply color_iter_nth; lia.
Qed.
Lemma flat_map_one {A B} (f : A -> B) l : map f l = flat_map (fun a => [f a]) l.
Proof. induction l; cbn [map flat_map app]; congruence. Qed.
Lemma to_array_gray L (i : Image) tn t : good_image i -> In (tn, t) type_names ->
  let a := mkArray [height (buffer i); width (buffer i); 1] (store t (map (fun c => d0 (to_gray c)) (data (buffer i)))) in
  to_np_array L (Some "gray") tn i = ROk a /\ good_array a /\
  forall m x y c, inside (buffer i) x y -> get_pixel m (buffer i) x y = Ok c -> at_ a y x 0 = Some (st t (d0 (to_gray c))).
Proof.
  intros V T a.
  destruct (pieces_array (width (buffer i)) (height (buffer i)) 1 (fun c => [d0 (to_gray c)]) (buffer i) t V eq_refl eq_refl ltac:(lia) (fun _ => eq_refl)) as (A & B & C).
  rewrite <- flat_map_one in A, B, C.
  split; [|split].
  - unfold to_np_array. rewrite (good_data_type tn t T).
    change (array_samples L "gray" (buffer i)) with (@ROk (list f32 * Z) py_error (map (fun c => d0 (to_gray c)) (data (buffer i)), 1)). exact A.
  - exact B.
  - intros m x y c IN P. apply (C m x y 0 c); auto. lia.
Qed.

(** ** Arrays to images *)
Definition colour (L : libm) (k : kind) (n : Z) (chunk : list f32) : Rgb :=
  to_rgb L k (new_with_alpha k (nth 0 chunk f0) (nth 1 chunk f0) (nth 2 chunk f0) (if n =? 4 then nth 3 chunk f0 else f1)).
Lemma clamp_f1 : clamp f1 = f1. Proof. apply clamp_id. apply in01_f1. Qed.
Lemma import_colors L name k n nd l : In (name, k, n) import_modes ->
  (n = 4 /\ colors4 L name nd l = ROk (map (colour L k n) (chunked 4 l))) \/
  (n = 3 /\ colors3 L name nd l = ROk (map (colour L k n) (chunked 3 l))).
Proof.
  intros H. cbn [In import_modes] in H.
  assert (E : forall k', match k' with KRgb => false | _ => true end = true -> forall ch, to_rgb L k' (new_with_alpha k' (nth 0 ch f0) (nth 1 ch f0) (nth 2 ch f0) f1) = on3 (fun a b c => to_rgb L k' (match k' with KSrgb => rgb_new a b c | _ => raw_new a b c end)) ch).
  { intros k' K ch. unfold on3. destruct k'; try discriminate K; try reflexivity; unfold new_with_alpha, rgb_new_with_alpha; rewrite clamp_f1; reflexivity. }
  assert (E' : forall ch, to_rgb L KRgb (new_with_alpha KRgb (nth 0 ch f0) (nth 1 ch f0) (nth 2 ch f0) f1) = on3 rgb_new ch).
  { intros ch. unfold on3, to_rgb, new_with_alpha, rgb_new_with_alpha; rewrite clamp_f1; reflexivity. }
  repeat (destruct H as [H|H]; [injection H as <- <- <-;
    ((left; split; [reflexivity|]; reflexivity) ||
     (right; split; [reflexivity|]; unfold colour; change (3 =? 4) with false; cbv iota; match goal with |- context [new_with_alpha ?k' _ _ _ _] => rewrite (map_ext _ _ (E k' eq_refl)) end; reflexivity) ||
     (right; split; [reflexivity|]; unfold colour; change (3 =? 4) with false; cbv iota; rewrite (map_ext _ _ E'); reflexivity))|]).
  destruct H.
Qed.
Lemma chunked_length n k l : (0 < n)%nat -> List.length l = (k * n)%nat ->
  List.length (chunked n l) = k /\
  forall i j, (i < k)%nat -> (j < n)%nat -> exists ch, nth_error (chunked n l) i = Some ch /\ nth_error ch j = nth_error l (i * n + j).
Proof.
  intros N H. destruct (split_chunks n k l H) as (cs & C1 & C2 & ->). rewrite chunked_concat by auto. split; auto.
  intros i j I J. destruct (nth_error cs i) as [c|] eqn:E.
  - exists c. split; auto. symmetry. apply nth_concat; auto.
  - apply nth_error_None in E. lia.
Qed.
Lemma from_raw_image w h d : valid_size w h -> zlen d = w * h ->
  (_ <- assert_ (w * h =? zlen d); i <- image_new_from_raw (as_u32 w) (as_u32 h) d; Ok (ROk i)) =
  Ok (@ROk Image py_error (mkImage (mkPB w h d) None)).
Proof.
  intros V E. pose proof (valid_size_bounds _ _ V) as B. rewrite E, Z.eqb_refl. cbn [assert_ bind].
  assert (w < 4294967296 /\ h < 4294967296). { destruct V as [[-> ->]|V]; nia. }
  rewrite !as_u32_id by lia. unfold image_new_from_raw. rewrite new_from_raw_ok by auto. reflexivity.
Qed.
Lemma load_length a : good_array a -> zlen (load (elems a)) = fold_right Z.mul 1 (dims a).
Proof. intros (_ & G & _). rewrite load_numbers, zlen_map. exact G. Qed.

Lemma from_array L a cs h w n k : good_array a -> dims a = [h; w; n] -> valid_size w h ->
  In (mode_name cs "auto", k, n) import_modes ->
  from_np_array L a cs = Ok (ROk (mkImage (mkPB w h (map (colour L k n) (chunked (Z.to_nat n) (load (elems a))))) None)).
Proof.
  intros G D V I. pose proof (valid_size_bounds _ _ V) as B. pose proof (load_length a G) as LL. rewrite D in LL. cbn [fold_right] in LL.
  unfold from_np_array, from_np_array_iter. rewrite D.
  change (idx [h; w; n] 1) with (Ok w). change (idx [h; w; n] 0) with (Ok h). change (idx [h; w; n] 2) with (Ok n).
  change (zlen [h; w; n]) with 3. change (3 =? 3) with true. cbn [bind]. cbv zeta.
  change (match cs with Some s => s | None => "auto" end) with (mode_name cs "auto").
  destruct (import_colors L (mode_name cs "auto") k n 3 (load (elems a)) I) as [[-> E]|[-> E]].
  - change (4 =? 4) with true. cbv iota. rewrite E. apply from_raw_image; auto.
    rewrite zlen_map. unfold zlen in *. destruct (chunked_length 4 (Z.to_nat (w * h)) (load (elems a))) as [C _]; [lia| |].
    + nia.
    + change (Z.to_nat 4) with 4%nat. rewrite C. lia.
  - change (3 =? 4) with false. change (3 =? 3) with true. cbv iota. rewrite E. apply from_raw_image; auto.
    rewrite zlen_map. unfold zlen in *. destruct (chunked_length 3 (Z.to_nat (w * h)) (load (elems a))) as [C _]; [lia| |].
    + nia.
    + change (Z.to_nat 3) with 3%nat. rewrite C. lia.
Qed.
Lemma numbers_at a y x j h w n : good_array a -> dims a = [h; w; n] -> 0 <= x < w -> 0 <= y < h -> 0 <= j < n ->
  exists e, at_ a y x j = Some e /\ good_num (type_of (elems a)) e /\
    nth_error (load (elems a)) (Z.to_nat ((y * w + x) * n + j)) = Some (rd (type_of (elems a)) e).
Proof.
  intros G D X Y J. unfold at_. rewrite D. destruct (nth_error (numbers (elems a)) (Z.to_nat ((y * w + x) * n + j))) as [e|] eqn:E.
  - exists e. split; auto. split; [apply good_array_nums; auto; eapply nth_error_In; eauto|].
    rewrite load_numbers. apply map_nth_error. exact E.
  - exfalso. destruct G as (_ & G & _). rewrite D in G. cbn [fold_right] in G. apply nth_error_None in E. unfold zlen in G.
    assert (A1 : 0 <= y * w + x <= h * w - 1) by nia. assert (A2 : 0 <= (y * w + x) * n + j < h * w * n) by nia. rewrite Z.mul_1_r, Z.mul_assoc in G. lia.
Qed.
Lemma import_n name k n : In (name, k, n) import_modes -> n = 3 \/ n = 4.
Proof. intros H. cbn [In import_modes] in H. repeat (destruct H as [H|H]; [injection H as <- <- <-; lia|]). destruct H. Qed.
Lemma nth_some {A} (l : list A) i v d : nth_error l i = Some v -> nth i l d = v.
Proof. intros H. apply nth_error_nth. exact H. Qed.
Lemma valid_image w h d : valid_size w h -> zlen d = w * h -> good_image (mkImage (mkPB w h d) None).
Proof. intros V E. split; auto. Qed.
Lemma from_array_pixels L a cs h w n k : good_array a -> dims a = [h; w; n] -> valid_size w h ->
  In (mode_name cs "auto", k, n) import_modes ->
  exists i, from_np_array L a cs = Ok (ROk i) /\
    image_of w h (fun x y c => exists v : Z -> f32,
      (forall j, 0 <= j < n -> exists e, at_ a y x j = Some e /\ read_as (type_of (elems a)) e (v j)) /\
      c = to_rgb L k (new_with_alpha k (v 0) (v 1) (v 2) (if n =? 4 then v 3 else f1))) i.
Proof.
  intros G D V I. pose proof (valid_size_bounds _ _ V) as B. pose proof (load_length a G) as LL. rewrite D in LL. cbn [fold_right] in LL.
  eexists. split; [apply from_array; eauto|].
  pose proof (import_n _ _ _ I) as N.
  destruct (chunked_length (Z.to_nat n) (Z.to_nat (w * h)) (load (elems a))) as [C1 C2]; [lia|unfold zlen in LL; nia|].
  assert (Z1 : zlen (map (colour L k n) (chunked (Z.to_nat n) (load (elems a)))) = w * h) by (rewrite zlen_map; unfold zlen; lia).
  pose proof (valid_image w h _ V Z1) as VI.
  split; [exact VI|]. split; [reflexivity|]. split; [reflexivity|]. split; [reflexivity|].
  intros m x y IN. pose proof IN as [X Y]. cbn [buffer width height] in X, Y. rewrite get_pixel_eq by auto. cbn [buffer data width].
  set (p := Z.to_nat (x + y * w)). assert (P : (p < Z.to_nat (w * h))%nat) by (unfold p; nia).
  destruct (C2 p 0%nat P ltac:(lia)) as (ch & Q & _).
  rewrite idx_nth by nia. fold p. rewrite (map_nth_error _ _ _ Q).
  eexists. split; [reflexivity|]. exists (fun j => nth (Z.to_nat j) ch f0). split.
  - intros j J. destruct (numbers_at a y x j h w n G D X Y J) as (e & E1 & E2 & E3). exists e. split; auto.
    destruct (C2 p (Z.to_nat j) P ltac:(lia)) as (ch' & Q' & R). rewrite Q in Q'. injection Q' as <-.
    replace (p * Z.to_nat n + Z.to_nat j)%nat with (Z.to_nat ((y * w + x) * n + j)) in R.
    + rewrite E3 in R. rewrite (nth_some _ _ _ _ R). apply rd_ok. exact E2.
    + unfold p. rewrite <- Z2Nat.inj_mul, <- Z2Nat.inj_add by nia. f_equal. ring.
  - reflexivity.
Qed.
Lemma from_gray L a cs h w : good_array a -> dims a = [h; w] \/ dims a = [h; w; 1] -> valid_size w h ->
  mode_name cs "auto" = "gray" \/ mode_name cs "auto" = "auto" ->
  from_np_array L a cs = Ok (ROk (mkImage (mkPB w h (map (fun v => rgb_new v v v) (load (elems a)))) None)).
Proof.
  intros G D V I. pose proof (valid_size_bounds _ _ V) as B. pose proof (load_length a G) as LL.
  assert (E : forall nd, colors1 (mode_name cs "auto") nd (load (elems a)) = ROk (map (fun v => rgb_new v v v) (load (elems a)))).
  { intros nd. unfold colors1. destruct I as [-> | ->]; (change (String.eqb "gray" "gray") with true || change (String.eqb "auto" "auto") with true); cbn [negb andb];
    try rewrite andb_false_r; cbv iota; f_equal; apply map_ext; intros v; unfold rgb_new, rgb_new_with_alpha; rewrite clamp_f1; reflexivity. }
  unfold from_np_array, from_np_array_iter.
  change (match cs with Some s => s | None => "auto" end) with (mode_name cs "auto").
  destruct D as [D|D]; rewrite D in *; cbn [fold_right] in LL.
  - change (idx [h; w] 1) with (Ok w). change (idx [h; w] 0) with (Ok h). change (zlen [h; w]) with 2. cbn [bind]. cbv zeta.
    change (2 =? 3) with false. change (2 =? 2) with true. cbv iota. cbn [bind]. rewrite E. apply from_raw_image; auto. rewrite zlen_map, LL. lia.
  - change (idx [h; w; 1] 1) with (Ok w). change (idx [h; w; 1] 0) with (Ok h). change (idx [h; w; 1] 2) with (Ok 1). change (zlen [h; w; 1]) with 3. cbn [bind]. cbv zeta.
    change (3 =? 3) with true. change (1 =? 4) with false. change (1 =? 3) with false. change (1 =? 1) with true. cbv iota. rewrite E.
    apply from_raw_image; auto. rewrite zlen_map, LL. lia.
Qed.
Lemma from_gray_pixels L a cs h w : good_array a -> dims a = [h; w] \/ dims a = [h; w; 1] -> valid_size w h ->
  mode_name cs "auto" = "gray" \/ mode_name cs "auto" = "auto" ->
  exists i, from_np_array L a cs = Ok (ROk i) /\
    image_of w h (fun x y c => exists e v, at_ a y x 0 = Some e /\ read_as (type_of (elems a)) e v /\ c = rgb_new v v v) i.
Proof.
  intros G D V I. pose proof (valid_size_bounds _ _ V) as B. pose proof (load_length a G) as LL.
  eexists. split; [apply from_gray; eauto|].
  assert (Z1 : zlen (load (elems a)) = w * h) by (destruct D as [D|D]; rewrite D in LL; cbn [fold_right] in LL; lia).
  assert (Z2 : zlen (map (fun v => rgb_new v v v) (load (elems a))) = w * h) by (rewrite zlen_map; auto).
  pose proof (valid_image w h _ V Z2) as VI.
  split; [exact VI|]. split; [reflexivity|]. split; [reflexivity|]. split; [reflexivity|].
  intros m x y IN. pose proof IN as [X Y]. cbn [buffer width height] in X, Y. rewrite get_pixel_eq by auto. cbn [buffer data width].
  assert (P : 0 <= x + y * w < w * h) by nia.
  assert (A : exists e, at_ a y x 0 = Some e /\ good_num (type_of (elems a)) e /\ nth_error (load (elems a)) (Z.to_nat (x + y * w)) = Some (rd (type_of (elems a)) e)).
  { assert (E : at_ a y x 0 = nth_error (numbers (elems a)) (Z.to_nat (x + y * w))).
    { unfold at_. destruct D as [-> | ->]; f_equal; f_equal; ring. }
    rewrite E. rewrite load_numbers in Z1. rewrite zlen_map in Z1.
    destruct (nth_error (numbers (elems a)) (Z.to_nat (x + y * w))) as [e|] eqn:Q.
    - exists e. split; auto. split; [apply good_array_nums; auto; eapply nth_error_In; eauto|].
      rewrite load_numbers. apply map_nth_error. exact Q.
    - exfalso. apply nth_error_None in Q. unfold zlen in Z1. lia. }
  destruct A as (e & E1 & E2 & E3). rewrite idx_nth by lia. rewrite (map_nth_error _ _ _ E3).
  eexists. split; [reflexivity|]. exists e, (rd (type_of (elems a)) e). split; auto. split; [apply rd_ok; auto|reflexivity].
Qed.

(** ** Errors *)
Lemma eqb_or_In s t : String.eqb s t = true -> s = t. Proof. apply String.eqb_eq. Qed.
Ltac not_named s K := match goal with |- context [String.eqb s ?t] =>
  let Q := fresh "Q" in destruct (String.eqb s t) eqn:Q;
  [apply eqb_or_In in Q; exfalso; rewrite Q in K; eapply K; cbn [In import_modes export_modes]; repeat first [left; reflexivity|right] |] end.
Lemma bad_import L a cs h w n : dims a = [h; w; n] ->
  (forall k, ~ In (mode_name cs "auto", k, n) import_modes) ->
  (n = 1 -> mode_name cs "auto" <> "gray" /\ mode_name cs "auto" <> "auto") ->
  exists e, from_np_array L a cs = Ok (RErr e).
Proof.
  intros D NI N1. unfold from_np_array, from_np_array_iter. rewrite D.
  change (idx [h; w; n] 1) with (Ok w). change (idx [h; w; n] 0) with (Ok h). change (idx [h; w; n] 2) with (Ok n).
  change (zlen [h; w; n]) with 3. change (3 =? 3) with true. cbn [bind]. cbv zeta.
  change (match cs with Some s => s | None => "auto" end) with (mode_name cs "auto").
  set (s := mode_name cs "auto") in *. generalize (load (elems a)). intros l.
  assert (K : forall k, In (s, k, n) import_modes -> False) by (intros k; apply NI). clear NI.
  destruct (Z.eqb_spec n 4) as [->|N4].
  { unfold colors4. repeat not_named s K.
    cbn [orb]. eexists. reflexivity. }
  destruct (Z.eqb_spec n 3) as [->|N3].
  { unfold colors3. repeat not_named s K.
    cbn [orb]. eexists. reflexivity. }
  destruct (Z.eqb_spec n 1) as [->|N1'].
  { destruct (N1 eq_refl) as [A1 A2]. unfold colors1. apply String.eqb_neq in A1, A2. rewrite A1, A2. eexists. reflexivity. }
  eexists. reflexivity.
Qed.
Lemma bad_gray L a cs h w : dims a = [h; w] -> mode_name cs "auto" <> "gray" -> mode_name cs "auto" <> "auto" ->
  exists e, from_np_array L a cs = Ok (RErr e).
Proof.
  intros D A1 A2. unfold from_np_array, from_np_array_iter. rewrite D.
  change (idx [h; w] 1) with (Ok w). change (idx [h; w] 0) with (Ok h). change (zlen [h; w]) with 2.
  change (2 =? 3) with false. change (2 =? 2) with true. cbn [bind]. cbv zeta.
  change (match cs with Some s => s | None => "auto" end) with (mode_name cs "auto").
  unfold colors1. apply String.eqb_neq in A1, A2. rewrite A1, A2. eexists. reflexivity.
Qed.
Lemma many_dims L a cs : 3 < zlen (dims a) -> exists e, from_np_array L a cs = Ok (RErr e).
Proof.
  intros H. unfold from_np_array, from_np_array_iter. destruct (dims a) as [|h [|w [|n [|q r]]]]; try (cbn in H; lia).
  rewrite !zlen_cons in *. change (idx (h :: w :: n :: q :: r) 1) with (Ok w). change (idx (h :: w :: n :: q :: r) 0) with (Ok h). cbn [bind]. cbv zeta.
  pose proof (zlen_nonneg r). destruct (Z.eqb_spec (zlen r + 1 + 1 + 1 + 1) 3); [lia|]. destruct (Z.eqb_spec (zlen r + 1 + 1 + 1 + 1) 2); [lia|].
  eexists. reflexivity.
Qed.
Lemma few_dims L a cs : zlen (dims a) < 2 -> from_np_array L a cs = Panic.
Proof.
  intros H. unfold from_np_array, from_np_array_iter. destruct (dims a) as [|h [|w r]]; try reflexivity.
  rewrite !zlen_cons in H. pose proof (zlen_nonneg r). lia.
Qed.
Lemma bad_export L i name tn t : In (tn, t) type_names -> name <> "gray" -> (forall k n, ~ In (name, k, n) export_modes) ->
  to_np_array L (Some name) tn i = RErr (UnknownColorspace name).
Proof.
  intros T G K. unfold to_np_array. rewrite (good_data_type _ _ T). unfold array_samples. apply String.eqb_neq in G. rewrite G.
  repeat not_named name K.
  reflexivity.
Qed.

(** ** Round trips *)
Lemma narrow_wide_all v : f64_to_f32 (f32_to_f64 v) = v.
Proof. destruct v as [s|s| |s m e B]; try reflexivity. apply narrow_wide. reflexivity. Qed.
Lemma map_flat {A B C} (f : B -> C) (g : A -> list B) l : map f (flat_map g l) = flat_map (fun a => map f (g a)) l.
Proof. induction l; cbn [flat_map map]; auto. rewrite map_app, IHl. reflexivity. Qed.
Lemma load_store t l : load (store t l) = map (fun v => rd t (st t v)) l.
Proof. rewrite load_numbers, type_store, numbers_store, map_map. reflexivity. Qed.
Lemma round_trip L (i : Image) name k k' n tn t : good_image i -> In (name, k, n) export_modes -> In (name, k', n) import_modes -> In (tn, t) type_names ->
  exists a, to_np_array L (Some name) tn i = ROk a /\
    from_np_array L a (Some name) = Ok (ROk (mkImage (mkPB (width (buffer i)) (height (buffer i))
      (map (fun c => colour L k' n (map (fun v => rd t (st t v)) (color_iter (Z.to_nat n) (convert_color L KRgb k c)))) (data (buffer i)))) None)).
Proof.
  intros V E I T. destruct (to_array L i name k n tn t V E T) as (A & B & _). eexists. split; [exact A|].
  pose proof (import_n _ _ _ I) as N.
  rewrite (from_array L _ (Some name) (height (buffer i)) (width (buffer i)) n k' B eq_refl (proj1 V) I).
  cbn [elems]. rewrite load_store, map_flat, chunked_flat_map by (try lia; intros; rewrite map_length; apply color_iter_length; lia).
  rewrite map_map. reflexivity.
Qed.
Lemma float_id t v : t = Float32 \/ t = Float64 -> rd t (st t v) = v.
Proof. intros [-> | ->]; [reflexivity|]. apply narrow_wide_all. Qed.
Lemma data_ext {T} m (b : PixelBuffer T) (f g : T -> T) : valid b ->
  (forall x y c, inside b x y -> get_pixel m b x y = Ok c -> f c = g c) -> map f (data b) = map g (data b).
Proof.
  intros V H. apply map_ext_in. intros c I. apply In_idx in I as (i & J & E). destruct (get_pixel_data m b i V J) as [A IN].
  eapply H; [exact IN|]. rewrite A. exact E.
Qed.

(** Values that are numbers from 0 to 1 survive in rgb and rgba arrays. *)
Lemma chunk_id L n ch : n = 3 \/ n = 4 -> List.length ch = Z.to_nat n -> (forall v, In v ch -> in01 v) ->
  color_iter (Z.to_nat n) (convert_color L KRgb KRgb (colour L KRgb n ch)) = ch.
Proof.
  intros N H G. change (convert_color L KRgb KRgb (colour L KRgb n ch)) with (colour L KRgb n ch).
  unfold colour, to_rgb, new_with_alpha, rgb_new_with_alpha.
  destruct N as [-> | ->].
  - destruct ch as [|a [|b [|c [|]]]]; try discriminate H. cbn [In] in G. cbn [nth]. rewrite !clamp_id by (apply G; tauto). reflexivity.
  - destruct ch as [|a [|b [|c [|d [|]]]]]; try discriminate H. cbn [In] in G. change (4 =? 4) with true. cbv iota. cbn [nth]. rewrite !clamp_id by (apply G; tauto). reflexivity.
Qed.
Lemma flat_map_map {A B C} (f : B -> list C) (g : A -> B) l : flat_map f (map g l) = flat_map (fun a => f (g a)) l.
Proof. induction l; cbn [flat_map map]; congruence. Qed.
Lemma flat_map_id {A} (f : list A -> list A) cs : (forall c, In c cs -> f c = c) -> flat_map f cs = List.concat cs.
Proof. induction cs; intros H; cbn [flat_map List.concat]; auto. rewrite H by (left; auto). rewrite IHcs; auto. intros; apply H; right; auto. Qed.
Lemma plain_modes name n : plain_mode name n -> (n = 3 \/ n = 4) /\ In (name, KRgb, n) export_modes /\ In (name, KRgb, n) import_modes.
Proof. intros [[-> ->]|[-> ->]]; cbn; repeat split; auto 30. Qed.
Lemma array_round_trip L a h w n name tn : good_array a -> dims a = [h; w; n] -> valid_size w h -> plain_mode name n ->
  In (tn, type_of (elems a)) type_names -> (forall e, In e (numbers (elems a)) -> in01 (rd (type_of (elems a)) e)) ->
  exists i, from_np_array L a (Some name) = Ok (ROk i) /\
    to_np_array L (Some name) tn i = ROk (mkArray (dims a) (store (type_of (elems a)) (load (elems a)))).
Proof.
  intros G D V P T N01. destruct (plain_modes name n P) as (N & E & I). pose proof (valid_size_bounds _ _ V) as B.
  pose proof (load_length a G) as LL. rewrite D in LL. cbn [fold_right] in LL.
  destruct (chunked_length (Z.to_nat n) (Z.to_nat (w * h)) (load (elems a))) as [C1 _]; [lia|unfold zlen in LL; nia|].
  eexists. split; [apply (from_array L a (Some name) h w n KRgb G D V I)|].
  assert (VI : good_image (mkImage (mkPB w h (map (colour L KRgb n) (chunked (Z.to_nat n) (load (elems a))))) None)).
  { apply valid_image; auto. rewrite zlen_map. unfold zlen. lia. }
  destruct (to_array L _ name KRgb n tn _ VI E T) as (A & _). rewrite A. rewrite D. cbn [buffer width height data]. f_equal. f_equal. f_equal.
  rewrite flat_map_map.
  destruct (split_chunks (Z.to_nat n) (Z.to_nat (w * h)) (load (elems a))) as (cs & S1 & S2 & S3); [unfold zlen in LL; nia|].
  assert (IN : forall c, In c cs -> forall v, In v c -> in01 v).
  { intros c Ic v Iv. assert (Q : In v (load (elems a))) by (rewrite S3; apply in_concat; eauto).
    rewrite load_numbers in Q. apply in_map_iff in Q as (e & <- & Q). auto. }
  rewrite S3, chunked_concat by (auto; lia). apply flat_map_id. intros c Ic. apply chunk_id; [exact N|auto|exact (IN c Ic)].
Qed.
Lemma quant_back N n : depth N -> (forall b, 0 <= b <= N -> quant N (fdiv (ofZ b) (ofZ N)) = b) -> 0 <= n <= N ->
  fcast 0 N (fmul (fdiv (ofZ n) (ofZ N)) (ofZ N)) = n.
Proof. intros D H I. rewrite <- quant_clamp by auto. auto. Qed.
Lemma u8_back n : 0 <= n <= 255 -> as_u8 (fmul (fdiv (ofZ n) (ofZ 255)) (ofZ 255)) = n.
Proof. intros H. apply (quant_back 255); auto; [unfold depth; lia|]. intros b I. apply u8_round_trip. exact I. Qed.
Lemma u16_back n : 0 <= n <= 65535 -> as_u16 (fmul (fdiv (ofZ n) (ofZ 65535)) (ofZ 65535)) = n.
Proof. intros H. apply (quant_back 65535); auto; [unfold depth; lia|]. intros b I. apply u16_round_trip. exact I. Qed.
Lemma u32_back n : 0 <= n <= 4294967295 ->
  IZR (f_as_u32 (fmul (fdiv (ofZ n) (ofZ 4294967295)) (ofZ 4294967295))) = Rmin 4294967295 (rnd (IZR n)).
Proof.
  intros H. destruct (div_u32 n H) as [A B]. apply in01_num in A. destruct A as [F A]. destruct two32_val as [FT RT].
  set (v := fdiv (ofZ n) (ofZ 4294967295)) in *.
  assert (R : (B2R v * B2R (ofZ 4294967295) = rnd (IZR n))%R) by (rewrite B, RT; field).
  assert (FR : fmt (rnd (IZR n))) by (destruct (ofZ_u32 n H) as [_ <-]; apply fmt_B2R).
  destruct (fmul_exact v (ofZ 4294967295) F FT) as [M1 M2]; [rewrite R; exact FR|]. rewrite R in M2.
  unfold f_as_u32. rewrite fcast_fin by exact M1. rewrite trunc_B2R, M2.
  assert (I : exists z, rnd (IZR n) = IZR z).
  { destruct (Z_lt_le_dec n 16777216) as [L|L].
    - exists n. apply rnd_id, fmt_IZR. lia.
    - assert (LB : (16777216 <= rnd (IZR n))%R).
      { apply rnd_lo; [|apply IZR_le; exact L]. replace 16777216%R with (IZR 1 * bpow radix2 24)%R; [apply fmt_F2R; lia|]. change (bpow radix2 24) with (IZR 16777216). lra. }
      destruct FR as [FR _]. change fx with (FLT_exp (-149) 24) in FR.
      exists (Ztrunc (rnd (IZR n))). unfold generic_format, scaled_mantissa in FR.
      set (r := rnd (IZR n)) in *. set (c := cexp radix2 (FLT_exp (-149) 24) r) in *.
      assert (C : 0 <= c). { unfold c, cexp, FLT_exp. assert (25 <= mag radix2 r)%Z; [|lia]. apply mag_ge_bpow. rewrite Rabs_pos_eq by lra. change (bpow radix2 (25 - 1)) with (IZR 16777216). lra. }
      rewrite FR. unfold F2R. cbn [Fnum Fexp]. rewrite <- (IZR_Zpower radix2 c C), <- mult_IZR, Ztrunc_IZR. reflexivity. }
  destruct I as [z E]. rewrite E, Ztrunc_IZR.
  assert (0 <= z). { apply le_IZR. rewrite <- E. apply rnd_lo; auto with fmt. apply IZR_le. lia. }
  rewrite Z.max_r by lia. unfold Rmin. destruct (Rle_dec _ _) as [K|K].
  - apply le_IZR in K. f_equal. lia.
  - assert (z < 4294967295) by (apply lt_IZR; lra). f_equal. lia.
Qed.
Lemma u32_back_small n : 0 <= n <= 16777216 -> f_as_u32 (fmul (fdiv (ofZ n) (ofZ 4294967295)) (ofZ 4294967295)) = n.
Proof.
  intros H. apply eq_IZR. rewrite u32_back by lia. assert (0 <= IZR n <= 16777216)%R by (split; apply IZR_le; lia).
  rewrite rnd_id.
  - rewrite Rmin_right; lra.
  - destruct (Z.eq_dec n 16777216) as [->|]; [|apply fmt_IZR; lia].
    replace 16777216%R with (IZR 1 * bpow radix2 24)%R; [apply fmt_F2R; lia|]. change (bpow radix2 24) with (IZR 16777216). lra.
Qed.
Lemma map_id_in {A} (f : A -> A) l : (forall a, In a l -> f a = a) -> map f l = l.
Proof. intros H. rewrite <- (map_id l) at 2. apply map_ext_in. auto. Qed.

(** Integer samples there and back. *)
Lemma coarse_div N v n : depth N -> in01 v -> scaled_down N v n ->
  in01 (fdiv (ofZ n) (ofZ N)) /\ (B2R v - / IZR N - / 8388608 <= B2R (fdiv (ofZ n) (ofZ N)) <= B2R v + / 8388608)%R.
Proof.
  intros D I (S1 & _ & _ & _ & S). specialize (S I). split; [apply from_u_in01; auto|].
  destruct (div_nearest N n D S1) as [F E]. change (B2R (fdiv (ofZ n) (ofZ N)) = rnd (IZR n / IZR N)) in E.
  apply in01_num in I. destruct I as [Fv I]. assert (P : (1 <= IZR N)%R) by (apply IZR_le; unfold depth in D; lia).
  set (q := (IZR n / IZR N)%R) in *.
  assert (Q : (IZR n = q * IZR N)%R) by (unfold q; field; lra).
  assert (Q1 : (0 <= q <= 1)%R). { assert (0 <= IZR n <= IZR N)%R by (split; apply IZR_le; lia). unfold q. split.
    - apply Rmult_le_pos; [lra|]. apply Rlt_le, Rinv_0_lt_compat. lra.
    - apply Rmult_le_reg_r with (IZR N); [lra|]. field_simplify; lra. }
  pose proof (rnd_err q 0 ltac:(lia)) as RE. change (bpow radix2 0) with 1%R in RE. change (bpow radix2 (0 - 25)) with (/ IZR 33554432)%R in RE.
  rewrite Rabs_pos_eq in RE by lra. specialize (RE ltac:(lra)). apply Rabs_le_inv in RE. rewrite E.
  rewrite Q in S. set (M := IZR N) in *. set (b := B2R v) in *.
  assert (U : (q <= b * (1 + / 16777216))%R). { apply Rmult_le_reg_r with M; [lra|]. lra. }
  assert (W : (b * (1 - / 16777216) < q + / M)%R). { apply Rmult_lt_reg_r with M; [lra|]. replace ((q + / M) * M)%R with (q * M + 1)%R by (field; lra). lra. }
  lra.
Qed.
Lemma coarse_ok t v : t = Uint8 \/ t = Uint16 \/ t = Uint32 -> in01 v -> in01 (rd t (st t v)) /\ loses t v (rd t (st t v)).
Proof.
  intros [->|[->| ->]] I; cbn [rd st loses].
  - apply (coarse_div 255); auto; [unfold depth; lia|]. apply (scaled_quant 255). unfold depth; lia.
  - apply (coarse_div 65535); auto; [unfold depth; lia|]. apply (scaled_quant 65535). unfold depth; lia.
  - pose proof (scaled_u32 v) as S. destruct S as (S & _ & SH & _).
    set (n := f_as_u32 (fmul v (ofZ 4294967295))) in *. destruct (div_u32 n S) as [A B]. split; [exact A|]. rewrite B.
    pose proof I as I'. apply in01_num in I. destruct I as [F I]. destruct two32_val as [FT RT].
    assert (K : fmt (B2R v * 4294967296)) by (apply fmt_scale; [apply fmt_B2R|rewrite Rabs_pos_eq; lra]).
    destruct (fmul_exact v (ofZ 4294967295) F FT) as [M1 M2]; [rewrite RT; exact K|]. rewrite RT in M2.
    assert (N : n = Z.min 4294967295 (Zfloor (B2R v * 4294967296))).
    { unfold n, f_as_u32. rewrite fcast_fin by exact M1. rewrite trunc_B2R, M2. rewrite Ztrunc_floor by nra.
      assert (0 <= Zfloor (B2R v * 4294967296)). { rewrite <- (Zfloor_IZR 0). apply Zfloor_le. nra. } lia. }
    set (x := (B2R v * 4294967296)%R) in *.
    assert (UP : (IZR n <= x)%R). { apply Rle_trans with (IZR (Zfloor x)); [apply IZR_le; lia|apply Zfloor_lb]. }
    assert (U : (rnd (IZR n) <= x)%R) by (apply rnd_hi; auto).
    enough (W : (x - 1 <= rnd (IZR n))%R) by (unfold x in *; lra).
    destruct (Rle_lt_dec 1 (B2R v)) as [V1|V1].
    { assert (n = 4294967295) by (apply SH; apply fle_R; auto with fin; rewrite f1_R; lra). subst n. rewrite H in *.
      apply Rle_trans with 4294967295%R; [unfold x; lra|]. clear. 
      replace (rnd 4294967295) with (B2R (ofZ 4294967295)); [destruct two32_val as [_ ->]; lra|]. apply ofZ_u32. lia. }
    destruct (Rle_lt_dec 16777216 x) as [X|X].
    + (* an integer already *)
      assert (Ix : exists z, x = IZR z).
      { destruct K as [K _]. change fx with (FLT_exp (-149) 24) in K. exists (Ztrunc x). unfold generic_format, scaled_mantissa in K.
        set (c := cexp radix2 (FLT_exp (-149) 24) x) in *.
        assert (C : 0 <= c). { unfold c, cexp, FLT_exp. assert (25 <= mag radix2 x)%Z; [|lia]. apply mag_ge_bpow. rewrite Rabs_pos_eq by lra. change (bpow radix2 (25 - 1)) with (IZR 16777216). lra. }
        rewrite K. unfold F2R. cbn [Fnum Fexp]. rewrite <- (IZR_Zpower radix2 c C), <- mult_IZR, Ztrunc_IZR. reflexivity. }
      destruct Ix as [z Z]. rewrite Z, Zfloor_IZR in N. assert (z < 4294967296) by (apply lt_IZR; rewrite <- Z; unfold x; lra).
      assert (n = z) by lia. subst n. rewrite H0. rewrite <- Z. rewrite rnd_id by exact K. lra.
    + assert (Zfloor x < 16777216). { apply lt_IZR. apply Rle_lt_trans with x; [apply Zfloor_lb|exact X]. }
      assert (n = Zfloor x) by lia. pose proof (Zfloor_ub x). rewrite H0 in *.
      rewrite rnd_id by (apply fmt_IZR; lia). lra.
Qed.
