(** YUV and back: values a little outside [0,1] are brought into it. *)
From Coq Require Import Reals Lra Lia ZArith Bool.
From Flocq Require Import Core.Core IEEE754.BinarySingleNaN.
From Verif Require Import F32 F32Lemmas Color ColorSpec ColorProofs MeaningSpec ConvSpec Approx OpMeaningProofs HslMeaning HslOps SrgbMeaning LinearConv.
Open Scope R_scope.

Lemma rpow1 a : Rpower 1 a = 1.
Proof. unfold Rpower. now rewrite ln_1, Rmult_0_r, exp_0. Qed.
Lemma decode_1 : srgb_decode 1 = 1.
Proof. unfold srgb_decode. destruct Rle_dec; [lra|]. replace ((1 + 55 / 1000) / (1055 / 1000)) with 1 by field. apply rpow1. Qed.
Lemma decode_above L x : accurate_powf L -> accurate_powf_above L -> fin x -> 1 < B2R x <= 16 / 5 ->
  fin (gamma_to_linear L x) /\ 1 - / 524288 <= B2R (gamma_to_linear L x).
Proof.
  intros AL AA F X. unfold gamma_to_linear. pose proof c_t1 as [Ft T]. replace (flt (dec 4045 100000) x) with true.
  2:{ symmetry. apply flt_R; auto. lra. }
  assert (S : close (17 / 8 * U) (B2R x + 55 / 1000) (fadd x (dec 55 1000))).
  { eapply close_weak; [apply (close_add 4 _ 0 (U / 8) _ _ _ _ uo_4 (close_0 _ F) c_055)|lra]. rewrite Rabs_right; lra. }
  assert (Y : close (8 * U) ((B2R x + 55 / 1000) / (1055 / 1000)) (fdiv (fadd x (dec 55 1000)) (dec 1055 1000))).
  { eapply close_weak; [apply (close_div 4 _ 1 (7 / 2) (17 / 8 * U) U _ _ _ _ uo_4 S c_1055)|]; try lra; try (rewrite Rabs_right; lra); apply Rabs_le_iff; lra. }
  destruct Y as [FY Y]. set (y := fdiv _ _) in *. apply Rabs_le_iff in Y. pose proof c_24 as [Fa A].
  destruct (Rle_dec 1 (B2R y)) as [G|G].
  - destruct (AA y (dec 24 10) FY Fa ltac:(lra) ltac:(lra)) as [FP EP]. split; [exact FP|].
    assert (P1 : 1 <= Rpower (B2R y) (B2R (dec 24 10))).
    { rewrite <- (rpow1 (B2R (dec 24 10))). apply Rpower_mono; lra. }
    apply Rabs_le_iff in EP. lra.
  - apply Rnot_le_lt in G.
    assert (Y2 : - (4 * U) <= B2R y - (B2R x + 55 / 1000) / (1055 / 1000)).
    { assert (S2 : close (9 / 8 * U) (B2R x + 55 / 1000) (fadd x (dec 55 1000))).
      { eapply close_weak; [apply (close_add 2 _ 0 (U / 8) _ _ _ _ uo_2 (close_0 _ F) c_055)|lra]. rewrite Rabs_right; lra. }
      assert (Y2 : close (4 * U) ((B2R x + 55 / 1000) / (1055 / 1000)) y).
      { eapply close_weak; [apply (close_div 2 _ 1 (11 / 10) (9 / 8 * U) U _ _ _ _ uo_2 S2 c_1055)|]; try lra; try (rewrite Rabs_right; lra); apply Rabs_le_iff; lra. }
      destruct Y2 as [_ Y2]. apply Rabs_le_iff in Y2. lra. }
    destruct (AL y (dec 24 10) FY Fa ltac:(lra)) as [P _]. specialize (P ltac:(lra)). destruct P as [FP EP]. split; [exact FP|].
    pose proof (Rpower_lip (B2R y) 1 (B2R (dec 24 10)) ltac:(lra) ltac:(lra) ltac:(lra)) as LI. rewrite rpow1, (Rabs_left (B2R y - 1)) in LI by lra.
    apply Rabs_le_iff in EP. apply Rabs_le_iff in LI. pose proof p100. nra.
Qed.
Lemma decode_below L x : fin x -> - 16 / 5 <= B2R x <= 0 -> fin (clamp (gamma_to_linear L x)) /\ B2R (clamp (gamma_to_linear L x)) = 0.
Proof.
  intros F X. unfold gamma_to_linear. pose proof c_t1 as [Ft T]. replace (flt (dec 4045 100000) x) with false.
  2:{ symmetry. apply not_true_is_false. intros E. apply (flt_R _ _ Ft F) in E. lra. }
  fval (dec 1292 100) W.
  destruct (fdiv_ok x (dec 1292 100) 1) as [FD D]; auto with fmt. { rewrite W. lra. } { rewrite W. apply Rabs_le_iff. lra. }
  destruct (clamp_R _ FD) as [FC C]. split; [exact FC|]. rewrite C. apply limited_lo. rewrite D. rewrite <- rnd_0. apply rnd_le. rewrite W. lra.
Qed.
(** Decoding and encoding of any value from -3.2 to 3.2. *)
Lemma decode_limited L x : accurate_powf L -> accurate_powf_above L -> fin x -> - 16 / 5 <= B2R x <= 16 / 5 ->
  close (/ 524288) (srgb_decode (limited (B2R x))) (clamp (gamma_to_linear L x)).
Proof.
  intros AL AA F X. destruct (Rlt_dec (B2R x) 0) as [N|N].
  - destruct (decode_below L x F ltac:(lra)) as [A B]. split; [exact A|]. rewrite B, limited_lo by lra.
    unfold srgb_decode. destruct Rle_dec; [|lra]. apply Rabs_le_iff. lra.
  - destruct (Rle_dec (B2R x) 1) as [M|M].
    + rewrite limited_id by lra. rewrite <- decode_limit. apply decode_meaning; auto. apply in01_num. split; [exact F|lra].
    + apply Rnot_le_lt in M. destruct (decode_above L x AL AA F ltac:(lra)) as [A B]. rewrite limited_hi by lra. rewrite decode_1.
      destruct (clamp_R _ A) as [FC C]. split; [exact FC|]. rewrite C. pose proof (limited_range (B2R (gamma_to_linear L x))) as R.
      assert (1 - / 524288 <= limited (B2R (gamma_to_linear L x))). { unfold limited, Rmax, Rmin. repeat destruct Rle_dec; lra. }
      apply Rabs_le_iff. lra.
Qed.
Lemma back_limited L x : accurate_powf L -> accurate_powf_above L -> fin x -> - 16 / 5 <= B2R x <= 16 / 5 ->
  close (/ 262144) (limited (B2R x)) (clamp (linear_to_gamma L (clamp (gamma_to_linear L x)))).
Proof.
  intros AL AA F X. destruct (Rlt_dec (B2R x) 0) as [N|N].
  - destruct (decode_below L x F ltac:(lra)) as [A B]. rewrite limited_lo by lra. pose proof c_t2 as [_ T].
    destruct (encode_lin L _ A) as [FE E]. { rewrite B. lra. } split; [exact FE|]. rewrite B in E. apply Rabs_le_iff in E. apply Rabs_le_iff. lra.
  - destruct (Rle_dec (B2R x) 1) as [M|M].
    + rewrite limited_id by lra. assert (I : in01 x) by (apply in01_num; split; [exact F|lra]).
      assert (J : in01 (clamp (gamma_to_linear L x))) by (eapply clamped_in01; apply (decode_meaning L x AL I)).
      eapply close_weak; [apply (there_and_back L x _ AL I J)|lra].
      replace (B2R (clamp (gamma_to_linear L x)) - B2R (clamp (gamma_to_linear L x))) with 0 by ring. rewrite Rabs_R0.
      apply in01_R in J. lra.
    + apply Rnot_le_lt in M. rewrite limited_hi by lra. pose proof (decode_limited L x AL AA F X) as D. rewrite limited_hi, decode_1 in D by lra.
      assert (J : in01 (clamp (gamma_to_linear L x))).
      { destruct (decode_above L x AL AA F ltac:(lra)) as [A _]. destruct (clamp_R _ A) as [FC C]. apply in01_num. split; [exact FC|].
        rewrite C. pose proof (limited_range (B2R (gamma_to_linear L x))). lra. }
      destruct D as [_ D]. apply Rabs_le_iff in D. destruct (encode_meaning L _ AL J) as [FE E]. split; [exact FE|]. revert E.
      apply in01_R in J. destruct J as [_ J]. set (l := B2R (clamp (gamma_to_linear L x))) in *. unfold encode_t. pose proof c_t2 as [_ T].
      destruct Rle_dec; [lra|]. intros E. pose proof (Rpower_01 l (10 / 24) ltac:(lra) ltac:(lra)) as P1.
      assert (P2 : l <= Rpower l (10 / 24)).
      { pose proof (Rpower_near l (10 / 24) 1 ltac:(lra) ltac:(lra)) as Q. rewrite Rpower_1 in Q by lra. lra. }
      apply Rabs_le_iff in E. apply Rabs_le_iff. lra.
Qed.
Lemma decode_lip a b : 0 <= a <= 1 -> 0 <= b <= 1 -> Rabs (srgb_decode a - srgb_decode b) <= 23 / 10 * Rabs (a - b) + / 5000000.
Proof.
  assert (S : forall a b, 0 <= a <= 1 -> 0 <= b <= 1 -> a <= b -> - / 5000000 <= srgb_decode b - srgb_decode a <= 23 / 10 * (b - a) + / 5000000).
  { clear. intros a b A B H. unfold srgb_decode. destruct (Rle_dec a (4045 / 100000)) as [P|P]; destruct (Rle_dec b (4045 / 100000)) as [Q|Q]; try lra.
    - apply Rnot_le_lt in Q. set (y := (b + 55 / 1000) / (1055 / 1000)).
      pose proof (pow_B ((4045 / 100000 + 55 / 1000) / (1055 / 1000)) ltac:(lra)) as L1.
      pose proof (pow_B' ((4045 / 100000 + 55 / 1000) / (1055 / 1000)) ltac:(lra)) as L2.
      pose proof (Rpower_lip y ((4045 / 100000 + 55 / 1000) / (1055 / 1000)) (24 / 10) ltac:(unfold y; lra) ltac:(lra) ltac:(lra)) as L3.
      pose proof (Rpower_mono ((4045 / 100000 + 55 / 1000) / (1055 / 1000)) y (24 / 10) ltac:(unfold y; lra) ltac:(lra)) as L4.
      rewrite (Rabs_right (y - _)) in L3 by (unfold y; lra). apply Rabs_le_iff in L3. unfold y in *. lra.
    - apply Rnot_le_lt in Q, P.
      pose proof (Rpower_lip ((b + 55 / 1000) / (1055 / 1000)) ((a + 55 / 1000) / (1055 / 1000)) (24 / 10) ltac:(lra) ltac:(lra) ltac:(lra)) as L3.
      pose proof (Rpower_mono ((a + 55 / 1000) / (1055 / 1000)) ((b + 55 / 1000) / (1055 / 1000)) (24 / 10) ltac:(lra) ltac:(lra)) as L4.
      rewrite (Rabs_right ((b + 55 / 1000) / (1055 / 1000) - _)) in L3 by lra. apply Rabs_le_iff in L3. lra. }
  intros A B. destruct (Rle_dec a b) as [H|H].
  - specialize (S a b A B H). rewrite (Rabs_left1 (a - b)) by lra. apply Rabs_le_iff. lra.
  - apply Rnot_le_lt in H. specialize (S b a B A ltac:(lra)). rewrite (Rabs_right (a - b)) by lra. apply Rabs_le_iff. lra.
Qed.
Lemma decode_near L x r e : accurate_powf L -> accurate_powf_above L -> close e r x -> 0 <= e <= / 1000 -> - 31 / 10 <= r <= 31 / 10 ->
  close (/ 524288 + 23 / 10 * e + / 5000000) (srgb_decode (limited r)) (clamp (gamma_to_linear L x)).
Proof.
  intros AL AA [F H] E R. pose proof H as H'. apply Rabs_le_iff in H'. destruct (decode_limited L x AL AA F ltac:(lra)) as [G D]. split; [exact G|].
  pose proof (decode_lip (limited (B2R x)) (limited r) (limited_range _) (limited_range _)) as P.
  pose proof (limited_lip_e _ _ _ H) as Q. assert (P' : Rabs (srgb_decode (limited (B2R x)) - srgb_decode (limited r)) <= 23 / 10 * e + / 5000000) by lra.
  apply Rabs_le_iff in P', D. apply Rabs_le_iff. lra.
Qed.
Lemma yuv_colour L c : accurate_powf L -> accurate_powf_above L -> channels_to 1 c ->
  let y := B2R (d0 c) in let u := B2R (d1 c) in let v := B2R (d2 c) in
  colour_close (/ 131072) (srgb_decode (limited (yuv_red y v))) (srgb_decode (limited (yuv_green y u v))) (srgb_decode (limited (yuv_blue y u))) (yuv_to_rgb L c).
Proof.
  intros AL AA T y u v. destruct (srgb_rows 1 c ltac:(lra) T) as (R & G & B). fold y u v in R, G, B.
  destruct T as (_ & A0 & A1 & A2). apply Rabs_le_iff in A0, A1, A2. fold y in A0. fold u in A1. fold v in A2. clearbody y u v.
  unfold yuv_red, yuv_green, yuv_blue in *.
  unfold yuv_to_rgb, srgb_to_rgb, rgb_new_with_alpha, colour_close. cbn [d0 d1 d2].
  split; [|split]; (eapply close_weak; [eapply decode_near; eauto; lra | lra]).
Qed.
(** sRGB to YUV and back: the sRGB value of each channel. *)
Lemma yuv_channels s : in_gamut s ->
  let o := apply_matrix (apply_matrix s RGB_TO_YUV) YUV_TO_RGB in
  close (/ 400000) (B2R (d0 s)) (d0 o) /\ close (/ 400000) (B2R (d1 s)) (d1 o) /\ close (/ 400000) (B2R (d2 s)) (d2 o).
Proof.
  intros G o. pose proof (in_gamut_to s G) as T. destruct (yuv_rows s T) as (X & Y & Z).
  destruct G as (A & B & C & _). apply in01_R in A, B, C. destruct A as [FA A], B as [FB B], C as [FC C].
  unfold o. clear o. set (x := apply_matrix s RGB_TO_YUV) in *. unfold u_of, v_of, luma in *.
  assert (Tx : channels_to (101 / 100) x).
  { destruct X as [Fx X], Y as [Fy Y], Z as [Fz Z]. apply Rabs_le_iff in X, Y, Z. unfold channels_to. repeat split; auto; apply Rabs_le_iff; lra. }
  destruct (srgb_rows (101 / 100) x ltac:(lra) Tx) as (P & Q & S). unfold yuv_red, yuv_green, yuv_blue in *.
  destruct X as [_ X], Y as [_ Y], Z as [_ Z]. apply Rabs_le_iff in X, Y, Z.
  destruct P as [FP P], Q as [FQ Q], S as [FS S]. apply Rabs_le_iff in P, Q, S.
  split; [|split]; (split; [assumption|]; apply Rabs_le_iff; lra).
Qed.
Lemma yuv_back L s : accurate_powf L -> accurate_powf_above L -> in_gamut s ->
  channelwise (/ 65536) srgb_decode s (yuv_to_rgb L (apply_matrix s RGB_TO_YUV)).
Proof.
  intros AL AA G. destruct (yuv_channels s G) as (P & Q & S). pose proof G as (A & B & C & _). apply in01_R in A, B, C.
  unfold yuv_to_rgb, srgb_to_rgb, rgb_new_with_alpha, channelwise. cbn [d0 d1 d2 d3]. 
  split; [|split; [|split; [|destruct G as (_ & _ & _ & D)]]].
  - rewrite <- (limited_id (B2R (d0 s))) by apply A. eapply close_weak; [eapply decode_near; eauto; lra | lra].
  - rewrite <- (limited_id (B2R (d1 s))) by apply B. eapply close_weak; [eapply decode_near; eauto; lra | lra].
  - rewrite <- (limited_id (B2R (d2 s))) by apply C. eapply close_weak; [eapply decode_near; eauto; lra | lra].
  - change (clamp (d3 s) = d3 s). now apply clamp_id.
Qed.
Lemma yuv_back_srgb L s : accurate_powf L -> accurate_powf_above L -> in_gamut s ->
  channelwise (/ 131072) (fun v => v) s (rgb_to_srgb L (yuv_to_rgb L (apply_matrix s RGB_TO_YUV))).
Proof.
  intros AL AA G. destruct (yuv_channels s G) as (P & Q & S). pose proof G as (A & B & C & D). apply in01_R in A, B, C.
  unfold yuv_to_rgb, srgb_to_rgb, rgb_to_srgb, rgb_new_with_alpha, channelwise. cbn [d0 d1 d2 d3].
  assert (H : forall r x, 0 <= r <= 1 -> close (/ 400000) r x -> close (/ 131072) r (clamp (linear_to_gamma L (clamp (gamma_to_linear L x))))).
  { intros r x R [F E]. pose proof E as E'. apply Rabs_le_iff in E'. destruct (back_limited L x AL AA F ltac:(lra)) as [F2 E2]. split; [exact F2|].
    apply (limited_lip_e _ r) in E. rewrite (limited_id r) in E by exact R. apply Rabs_le_iff in E, E2. apply Rabs_le_iff. lra. }
  split; [|split; [|split]]; try (apply H; tauto).
  change (clamp (clamp (d3 s)) = d3 s). rewrite (clamp_id (d3 s) D). exact (clamp_id (d3 s) D).
Qed.
Lemma yuv_back_linear L c : accurate_powf L -> accurate_powf_above L -> in_gamut c ->
  channelwise (/ 32768) (fun v => v) c (yuv_to_rgb L (apply_matrix (rgb_to_srgb L c) RGB_TO_YUV)).
Proof.
  intros AL AA G. pose proof G as (A & B & C & D).
  assert (I : forall v, in01 v -> in01 (clamp (linear_to_gamma L v))) by (intros v V; eapply clamped_in01; apply (encode_meaning L v AL V)).
  assert (Gs : in_gamut (rgb_to_srgb L c)).
  { unfold rgb_to_srgb, rgb_new_with_alpha, in_gamut. cbn [d0 d1 d2 d3]. rewrite (clamp_id (d3 c) D). auto. }
  destruct (yuv_back L _ AL AA Gs) as (P & Q & S & E).
  assert (H : forall v x, in01 v -> close (/ 65536) (srgb_decode (B2R (clamp (linear_to_gamma L v)))) x -> close (/ 32768) (B2R v) x).
  { intros v x V [F X]. destruct (back_and_there L v AL V) as [_ K]. destruct (decode_meaning L _ AL (I v V)) as [_ N]. rewrite decode_limit in N.
    split; [exact F|]. apply Rabs_le_iff in X, K, N. apply Rabs_le_iff. lra. }
  unfold channelwise. split; [|split; [|split]]; try (apply H; assumption).
  rewrite E. unfold rgb_to_srgb, rgb_new_with_alpha. cbn [d3]. now apply clamp_id.
Qed.
