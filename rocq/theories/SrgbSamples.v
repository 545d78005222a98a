(** Proofs for C89: every sample survives decoding and encoding up to one. *)
From Coq Require Import Reals Lra Lia ZArith Bool Psatz.
From Flocq Require Import Core.Core IEEE754.BinarySingleNaN.
From Verif Require Import Base F32 F32Lemmas Color ColorSpec ColorProofs QuantProofs Codec CodecSpec RoundTripProofs MeaningSpec Approx OpMeaningProofs HslMeaning HslOps SrgbMeaning.
Open Scope R_scope.

(** ** The grey value of a grey *)
Lemma mul_rel x k : in01 x -> fin k -> 0 <= B2R k <= 1 -> fin (fmul x k) /\ Rabs (B2R (fmul x k) - B2R x * B2R k) <= U * (B2R x * B2R k) + / 2 ^ 140.
Proof.
  intros X Fk K. apply in01_R in X. destruct X as [F X].
  destruct (fmul_ok x k 1 F Fk ltac:(apply (uo_fmt _ _ uo_1)) ltac:(apply Rabs_le_iff; nra)) as [A B]. split; [exact A|]. rewrite B.
  pose proof (rnd_rel_abs (B2R x * B2R k)) as E. rewrite (Rabs_right (B2R x * B2R k)) in E by nra. exact E.
Qed.
Lemma add_rel x y : fin x -> fin y -> 0 <= B2R x -> 0 <= B2R y -> B2R x + B2R y <= 4 ->
  fin (fadd x y) /\ Rabs (B2R (fadd x y) - (B2R x + B2R y)) <= U * (B2R x + B2R y) + / 2 ^ 140.
Proof.
  intros Fx Fy X Y S. destruct (fadd_ok x y 4 Fx Fy ltac:(apply (uo_fmt _ _ uo_4)) ltac:(apply Rabs_le_iff; lra)) as [A B].
  split; [exact A|]. rewrite B. pose proof (rnd_rel_abs (B2R x + B2R y)) as E. rewrite (Rabs_right (B2R x + B2R y)) in E by lra. exact E.
Qed.
Lemma rnd_pos r : 0 <= r -> 0 <= rnd r.
Proof. intros H. rewrite <- rnd_0. now apply rnd_le. Qed.
Lemma mul_pos x k : in01 x -> fin k -> 0 <= B2R k <= 1 -> 0 <= B2R (fmul x k).
Proof.
  intros X Fk K. apply in01_R in X. destruct X as [F X].
  destruct (fmul_ok x k 1 F Fk ltac:(apply (uo_fmt _ _ uo_1)) ltac:(apply Rabs_le_iff; nra)) as [A B]. rewrite B. apply rnd_pos. nra.
Qed.
Lemma c_luma : (fin (dec 212656 1000000) /\ fin (dec 715158 1000000) /\ fin (dec 72186 1000000)) /\
  0 <= B2R (dec 212656 1000000) <= 1 /\ 0 <= B2R (dec 715158 1000000) <= 1 /\ 0 <= B2R (dec 72186 1000000) <= 1 /\
  Rabs (B2R (dec 212656 1000000) + B2R (dec 715158 1000000) + B2R (dec 72186 1000000) - 1) <= U.
Proof.
  split; [split; [|split]; vm_compute; reflexivity|].
  fval (dec 212656 1000000) H1. fval (dec 715158 1000000) H2. fval (dec 72186 1000000) H3. rewrite H1, H2, H3. split; [lra|]. split; [lra|]. split; [lra|]. apply Rabs_le_iff. lra.
Qed.
Lemma grey_zero l a : in01 l -> B2R l = 0 -> B2R (gray_value Rec709Luma (mkC l l l a)) = 0.
Proof.
  intros I Z. pose proof c_luma as ((F1 & F2 & F3) & K1 & K2 & K3 & S). cbn [gray_value d0 d1 d2]. apply in01_R in I. destruct I as [F I].
  assert (M : forall k, fin k -> fin (fmul l k) /\ B2R (fmul l k) = 0).
  { intros k Fk. destruct (fmul_ok l k 1 F Fk ltac:(apply (uo_fmt _ _ uo_1)) ltac:(rewrite Z, Rmult_0_l, Rabs_R0; lra)) as [A B].
    split; [exact A|]. rewrite B, Z, Rmult_0_l. apply rnd_0. }
  assert (A : forall x y, fin x /\ B2R x = 0 -> fin y /\ B2R y = 0 -> fin (fadd x y) /\ B2R (fadd x y) = 0).
  { intros x y [Fx X] [Fy Y]. destruct (fadd_ok x y 1 Fx Fy ltac:(apply (uo_fmt _ _ uo_1)) ltac:(rewrite X, Y, Rplus_0_l, Rabs_R0; lra)) as [C D].
    split; [exact C|]. rewrite D, X, Y, Rplus_0_l. apply rnd_0. }
  apply (A _ _ (A _ _ (M _ F1) (M _ F2)) (M _ F3)).
Qed.
Lemma grey_rel l a : in01 l -> (B2R l = 0 \/ / 1073741824 <= B2R l) ->
  in01 (gray_value Rec709Luma (mkC l l l a)) /\ Rabs (B2R (gray_value Rec709Luma (mkC l l l a)) - B2R l) <= 8 * U * B2R l.
Proof.
  intros I Z. split.
  { change (gray_value Rec709Luma (mkC l l l a)) with (gray_value Rec709Luma (mkC l l l f1)). apply gray_value_range. repeat split; try apply I; reflexivity. }
  destruct Z as [Z|Z]; [rewrite grey_zero, Z by assumption; replace (0 - 0) with 0 by ring; rewrite Rabs_R0; lra|].
  pose proof c_luma as ((F1 & F2 & F3) & K1 & K2 & K3 & S). cbn [gray_value d0 d1 d2].
  destruct (mul_rel l _ I F1 K1) as [G1 E1]. destruct (mul_rel l _ I F2 K2) as [G2 E2]. destruct (mul_rel l _ I F3 K3) as [G3 E3].
  pose proof (mul_pos l _ I F1 K1) as P1. pose proof (mul_pos l _ I F2 K2) as P2. pose proof (mul_pos l _ I F3 K3) as P3.
  set (k1 := B2R (dec 212656 1000000)) in *. set (k2 := B2R (dec 715158 1000000)) in *. set (k3 := B2R (dec 72186 1000000)) in *.
  set (t1 := fmul l (dec 212656 1000000)) in *. set (t2 := fmul l (dec 715158 1000000)) in *. set (t3 := fmul l (dec 72186 1000000)) in *.
  pose proof p140 as P. assert (P' : 0 < / 2 ^ 140 <= / 1000000000000000000000) by (pose proof p100; lra).
  apply in01_R in I. destruct I as [Fl I]. apply Rabs_le_iff in E1, E2, E3, S.
  destruct (add_rel t1 t2 G1 G2 P1 P2 ltac:(nra)) as [G4 E4]. apply Rabs_le_iff in E4.
  assert (B4 : B2R (fadd t1 t2) <= 3) by nra.
  assert (P4 : 0 <= B2R (fadd t1 t2)).
  { destruct (fadd_ok t1 t2 4 G1 G2 ltac:(apply (uo_fmt _ _ uo_4)) ltac:(apply Rabs_le_iff; nra)) as [_ B]. rewrite B. apply rnd_pos. lra. }
  destruct (add_rel (fadd t1 t2) t3 G4 G3 P4 P3 ltac:(nra)) as [G5 E5]. apply Rabs_le_iff in E5.
  set (s := B2R (fadd t1 t2)) in *. set (o := B2R (fadd (fadd t1 t2) t3)) in *. clearbody o s. set (q := / 2 ^ 140) in *. clearbody q.
  set (w := B2R l) in *. apply Rabs_le_iff. clear - E1 E2 E3 E4 E5 Z S P P' I.
  assert (S1 : - (U * w) <= w * k1 + w * k2 + w * k3 - w <= U * w) by (replace (w * k1 + w * k2 + w * k3 - w) with (w * (k1 + k2 + k3 - 1)) by ring; nra).
  set (p1 := w * k1) in *. set (p2 := w * k2) in *. set (p3 := w * k3) in *. clearbody p1 p2 p3. clear S. lra.
Qed.

(** ** Samples *)
Local Open Scope Z_scope.
Lemma quant_near N v g : (N = 255 \/ N = 65535) -> 0 <= v <= N -> in01 g -> (Rabs (B2R g - IZR v / IZR N) <= 65 * U)%R -> v - 1 <= quant N g <= v.
Proof.
  intros HN V I E. assert (D : depth N) by (unfold depth; lia). rewrite (quant_floor N g D I).
  apply in01_R in I. destruct I as [F I]. assert (N1 : (255 <= IZR N <= 65535)%R) by (split; apply IZR_le; lia).
  assert (X : (Rabs (B2R g * IZR N - IZR v) <= 65 * U * 65535)%R).
  { replace (B2R g * IZR N - IZR v)%R with ((B2R g - IZR v / IZR N) * IZR N)%R by (field; lra). apply abs_mul_le; [exact E|]. rewrite Rabs_right; lra. }
  pose proof (rnd_rel_abs (B2R g * IZR N)) as R. pose proof p140 as P. rewrite (Rabs_right (B2R g * IZR N)) in R by (apply Rle_ge, Rmult_le_pos; lra).
  assert (Q : (Rabs (rnd (B2R g * IZR N) - B2R g * IZR N) <= / 100)%R) by nra.
  apply Rabs_le_iff in X, Q. split.
  - apply Zfloor_lub. rewrite minus_IZR. lra.
  - apply Z.lt_succ_r. apply lt_IZR. eapply Rle_lt_trans; [apply Zfloor_lb|]. rewrite succ_IZR. lra.
Qed.
Lemma sample_val N v : (N = 255 \/ N = 65535) -> 0 <= v <= N ->
  let x := fdiv (ofZ v) (ofZ N) in in01 x /\ (Rabs (B2R x - IZR v / IZR N) <= U)%R /\ (v = 0 -> B2R x = 0%R).
Proof.
  intros HN V. cbv zeta. assert (D : depth N) by (unfold depth; lia). split; [now apply from_u_in01|].
  destruct (depth_val N D) as (FN & RN & NP). destruct (ofZ_val v ltac:(lia)) as [Fv Rv].
  assert (V' : (0 <= IZR v <= IZR N)%R) by (split; apply IZR_le; lia). pose proof (div_01 (IZR v) (IZR N) ltac:(lra) V') as B.
  destruct (fdiv_ok (ofZ v) (ofZ N) 1 Fv FN ltac:(rewrite RN; lra) ltac:(apply (uo_fmt _ _ uo_1))) as [A C].
  { rewrite Rv, RN. apply Rabs_le_iff. lra. }
  rewrite C, Rv, RN. split.
  - eapply Rle_trans; [apply (uo_err _ _ _ uo_1); apply Rabs_le_iff; lra|lra].
  - intros ->. replace (0 / IZR N)%R with 0%R by (unfold Rdiv; ring). apply rnd_0.
Qed.
Lemma quant_max d g : (match d with Eight => quant8 | Sixteen => quant16 end) g = quant (max_sample d) g.
Proof. destruct d; reflexivity. Qed.
Lemma max_cases d : max_sample d = 255 \/ max_sample d = 65535.
Proof. destruct d; auto. Qed.

Lemma requant_near L d v : accurate_powf L -> 0 <= v <= max_sample d -> v - 1 <= requant L d v <= v.
Proof.
  intros AL V. unfold requant. rewrite quant_max. destruct (sample_val _ v (max_cases d) V) as (I & E & _).
  set (x := fdiv (ofZ v) (ofZ (max_sample d))) in *.
  pose proof (decode_meaning L x AL I) as C. pose proof (clamped_in01 _ _ _ C) as IC.
  pose proof (there_and_back L x (clamp (gamma_to_linear L x)) AL I IC) as T.
  destruct T as [F T].
  { replace (B2R _ - B2R _)%R with 0%R by ring. rewrite Rabs_R0. apply in01_R in IC. lra. }
  apply quant_near; auto using max_cases. { apply (clamped_in01 (64 * U) (B2R x)). split; auto. }
  apply Rabs_le_iff in T, E. apply Rabs_le_iff. lra.
Qed.
(** Decoded samples are zero or not tiny. *)
Lemma decoded_size L x : accurate_powf L -> in01 x -> (B2R x = 0 \/ / 100000 <= B2R x)%R ->
  (B2R (clamp (gamma_to_linear L x)) = 0 \/ / 1073741824 <= B2R (clamp (gamma_to_linear L x)))%R.
Proof.
  intros AL I Z. pose proof I as I'. apply in01_R in I'. destruct I' as [F X]. pose proof c_t1 as [Ft T].
  destruct (Rle_dec (B2R x) (B2R (dec 4045 100000))) as [N|N].
  - unfold gamma_to_linear. replace (flt (dec 4045 100000) x) with false.
    2:{ symmetry. apply not_true_is_false. intros E. apply (flt_R _ _ Ft F) in E. lra. }
    pose proof c_1292 as [Fk K]. apply Rabs_le_iff in K.
    assert (B : (0 <= B2R x / B2R (dec 1292 100) <= 1)%R) by (apply div_01; lra).
    destruct (fdiv_ok x (dec 1292 100) 1 F Fk ltac:(lra) ltac:(apply (uo_fmt _ _ uo_1)) ltac:(apply Rabs_le_iff; lra)) as [A C].
    destruct (clamp_R _ A) as [_ E]. rewrite E, C. destruct Z as [Z|Z].
    + left. rewrite Z. unfold Rdiv. rewrite Rmult_0_l, rnd_0. apply limited_id. lra.
    + right. pose proof (rnd_rel_abs (B2R x / B2R (dec 1292 100))) as R. rewrite (Rabs_right (B2R x / B2R (dec 1292 100))) in R by lra. apply Rabs_le_iff in R. pose proof p140 as P.
      assert (Q : (/ 100000 / 13 <= B2R x / B2R (dec 1292 100))%R).
      { apply Rmult_le_compat; try lra. apply Rinv_le_contravar; lra. }
      assert (W : (/ 1073741824 <= rnd (B2R x / B2R (dec 1292 100)))%R) by lra.
      unfold limited, Rmax, Rmin. repeat destruct Rle_dec; lra.
  - right. destruct (decode_pow L x AL F ltac:(lra)) as (_ & RB & K & EK & HK). rewrite EK. apply Rabs_le_iff in HK. nra.
Qed.
Lemma requant_gray_near L d v : accurate_powf L -> 0 <= v <= max_sample d -> v - 1 <= requant_gray L d v <= v.
Proof.
  intros AL V. unfold requant_gray. rewrite quant_max. destruct (sample_val _ v (max_cases d) V) as (I & E & Z).
  set (x := fdiv (ofZ v) (ofZ (max_sample d))) in *. cbv zeta.
  pose proof (decode_meaning L x AL I) as C. pose proof (clamped_in01 _ _ _ C) as IC.
  assert (NZ : (B2R x = 0 \/ / 100000 <= B2R x)%R).
  { destruct (Z.eq_dec v 0) as [V0|V0]; [auto|]. right. apply Rabs_le_iff in E.
    assert (IZR 1 <= IZR v)%R by (apply IZR_le; lia). assert (255 <= IZR (max_sample d) <= 65535)%R by (destruct (max_cases d) as [-> | ->]; lra).
    assert (/ 65535 <= IZR v / IZR (max_sample d))%R.
    { replace (/ 65535)%R with (1 * / 65535)%R by ring. apply Rmult_le_compat; try lra. apply Rinv_le_contravar; lra. }
    lra. }
  destruct (grey_rel _ f1 IC (decoded_size L x AL I NZ)) as [IG G].
  pose proof (there_and_back L x _ AL I IG G) as T.
  apply quant_near; auto using max_cases. { exact (clamped_in01 _ _ _ T). }
  destruct T as [F T]. apply Rabs_le_iff in T, E. apply Rabs_le_iff. lra.
Qed.

(** ** Whole colours *)
Local Open Scope R_scope.
Lemma decode_colour L c : accurate_powf L -> in_gamut c -> channelwise (/ 524288) srgb_decode c (srgb_to_rgb L c).
Proof.
  intros AL (A & B & C & D). split; [|split; [|split]].
  - rewrite <- decode_limit. exact (decode_meaning L _ AL A).
  - rewrite <- decode_limit. exact (decode_meaning L _ AL B).
  - rewrite <- decode_limit. exact (decode_meaning L _ AL C).
  - exact (clamp_id _ D).
Qed.
Lemma encode_colour L c : accurate_powf L -> in_gamut c -> channelwise (/ 524288) srgb_encode c (rgb_to_srgb L c).
Proof.
  assert (W : forall r x, close (25 * U) r x -> close (/ 524288) r x) by (intros; eapply close_weak; [eassumption|lra]).
  intros AL (A & B & C & D). split; [|split; [|split]].
  - rewrite <- encode_limit. exact (W _ _ (encode_meaning L _ AL A)).
  - rewrite <- encode_limit. exact (W _ _ (encode_meaning L _ AL B)).
  - rewrite <- encode_limit. exact (W _ _ (encode_meaning L _ AL C)).
  - exact (clamp_id _ D).
Qed.
Lemma there_and_back_0 L x : accurate_powf L -> in01 x ->
  close (64 * U) (B2R x) (clamp (linear_to_gamma L (clamp (gamma_to_linear L x)))).
Proof.
  intros AL I. pose proof (clamped_in01 _ _ _ (decode_meaning L x AL I)) as IC. apply there_and_back; auto.
  replace (B2R _ - B2R _) with 0 by ring. rewrite Rabs_R0. apply in01_R in IC. lra.
Qed.
Lemma there_and_back_colour L c : accurate_powf L -> in_gamut c -> channelwise (/ 262144) (fun v => v) c (rgb_to_srgb L (srgb_to_rgb L c)).
Proof.
  assert (W : forall r x, close (64 * U) r x -> close (/ 262144) r x) by (intros; eapply close_weak; [eassumption|lra]).
  intros AL (A & B & C & D). split; [|split; [|split]].
  - exact (W _ _ (there_and_back_0 L _ AL A)).
  - exact (W _ _ (there_and_back_0 L _ AL B)).
  - exact (W _ _ (there_and_back_0 L _ AL C)).
  - exact (eq_trans (f_equal clamp (clamp_id _ D)) (clamp_id _ D)).
Qed.
Lemma back_and_there_colour L c : accurate_powf L -> in_gamut c -> channelwise (/ 131072) (fun v => v) c (srgb_to_rgb L (rgb_to_srgb L c)).
Proof.
  intros AL (A & B & C & D). split; [|split; [|split]].
  - exact (back_and_there L _ AL A).
  - exact (back_and_there L _ AL B).
  - exact (back_and_there L _ AL C).
  - exact (eq_trans (f_equal clamp (clamp_id _ D)) (clamp_id _ D)).
Qed.
Lemma scaled_near L N v : accurate_powf L -> (N = 255 \/ N = 65535)%Z -> (0 <= v <= N)%Z ->
  Rabs (B2R (clamp (linear_to_gamma L (clamp (gamma_to_linear L (fdiv (ofZ v) (ofZ N)))))) * IZR N - IZR v) < / 2.
Proof.
  intros AL HN V. destruct (sample_val N v HN V) as (I & E & _). destruct (there_and_back_0 L _ AL I) as [_ T].
  set (g := B2R (clamp _)) in *. set (x := B2R (fdiv _ _)) in *. assert (N1 : 255 <= IZR N <= 65535) by (destruct HN as [-> | ->]; lra).
  assert (S : Rabs (g - IZR v / IZR N) <= 65 * U) by (apply Rabs_le_iff in T, E; apply Rabs_le_iff; lra).
  replace (g * IZR N - IZR v) with ((g - IZR v / IZR N) * IZR N) by (field; lra).
  eapply Rle_lt_trans; [apply (abs_mul_le _ _ _ 65535 S); rewrite Rabs_right; lra|]. lra.
Qed.
