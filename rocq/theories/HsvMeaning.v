(** Proofs for C86: colours and their HSV components. *)
From Coq Require Import Reals Lra Lia ZArith Bool Psatz.
From Flocq Require Import Core.Core IEEE754.BinarySingleNaN.
From Verif Require Import F32 F32Lemmas Color ColorSpec ColorProofs MeaningSpec Approx OpMeaningProofs HslMeaning.
Open Scope R_scope.

(** A representable number below 360 is at most 360 - 2^-15. *)
Lemma below_360 x : fmt x -> 0 <= x < 360 -> x <= 360 - / 32768.
Proof.
  intros [F _] H.
  destruct (Rle_lt_dec x 256) as [S|S]; [lra|].
  assert (M : mag radix2 x = 9%Z :> Z).
  { apply mag_unique. rewrite Rabs_right by lra. change (9 - 1)%Z with 8%Z. rewrite !bpow_pos.
    change (Z.pow_pos 2 8) with 256%Z. change (Z.pow_pos 2 9) with 512%Z. lra. }
  unfold generic_format, F2R, cexp in F. cbn [Fnum Fexp] in F. rewrite M in F.
  change (fx 9) with (-15)%Z in F. rewrite bpow_neg in F. change (Z.pow_pos 2 15) with 32768%Z in F.
  set (z := Ztrunc _) in F. clearbody z.
  assert (Z1 : (z < 11796480)%Z) by (apply lt_IZR; lra).
  assert (Z2 : IZR z <= 11796479) by (apply IZR_le; lia). lra.
Qed.

Lemma hsv_to_rgb_meaning c : in_gamut c ->
  is_hsv (/ 1048576) (B2R (d0 c)) (B2R (d1 c)) (B2R (d2 c)) (hsv_to_rgb c) /\ d3 (hsv_to_rgb c) = d3 c.
Proof.
  intros (G0 & G1 & G2 & G3). split; [|now apply hsv_to_rgb_alpha].
  apply in01_R in G0, G1, G2. destruct G0 as [F0 H], G1 as [F1 S], G2 as [F2 V].
  set (h := B2R (d0 c)) in *. set (s := B2R (d1 c)) in *. set (v := B2R (d2 c)) in *.
  assert (hr : hue_fun hue_red) by (left; reflexivity). assert (hg : hue_fun hue_green) by (right; left; reflexivity).
  assert (hb : hue_fun hue_blue) by (right; right; reflexivity).
  unfold hsv_to_rgb. destruct (fle (d1 c) f0) eqn:E.
  - apply fle_R in E; auto with fin. rewrite f0_R in E. fold s in E. assert (s0 : s = 0) by lra.
    assert (K : forall k, close (/ 1048576) (hsv_channel k s v) (d2 c)).
    { intros k. replace (hsv_channel k s v) with v by (unfold hsv_channel; rewrite s0; ring).
      eapply close_weak; [now apply close_0 | lra]. }
    three; apply K.
  - clear E.
    assert (K60 : close 0 60 (ofZ 60)) by (eapply close_eq; [apply close_0; auto with fin | apply k60_R]).
    assert (K360 : close 0 360 (ofZ 360)) by (eapply close_eq; [apply close_0; auto with fin | apply k360_R]).
    assert (O1 : close 0 1 f1) by (eapply close_eq; [apply close_0; auto with fin | apply f1_R]).
    destruct (fmul_num (d0 c) (ofZ 360) 0 360) as [[FA NA] EA]; auto with fin; try (apply fmt_k; lia); rewrite ?k360_R; try (fold h; lra).
    rewrite k360_R in EA. fold h in EA.
    pose proof (uo_err 512 (/ 65536) (h * 360) uo_512 ltac:(apply Rabs_le_iff; lra)) as EA'. rewrite <- EA in EA'. apply Rabs_le_iff in EA'.
    set (h0 := if fle (ofZ 360) (fmul (d0 c) (ofZ 360)) then f0 else fmul (d0 c) (ofZ 360)).
    assert (H1 : fin h0 /\ 0 <= B2R h0 <= 360 - / 32768 /\ circ (/ 65536 / 360) (B2R h0 / 360) h).
    { unfold h0. destruct (fle (ofZ 360) (fmul (d0 c) (ofZ 360))) eqn:T.
      - apply fle_R in T; auto with fin. rewrite k360_R in T. split; [reflexivity|]. rewrite f0_R. split; [lra|].
        right; right. apply Rabs_le_iff. lra.
      - apply fle_Rf in T; auto with fin. rewrite k360_R in T. split; [exact FA|]. split.
        + split; [lra|]. apply below_360; [apply fmt_B2R|lra].
        + left. apply Rabs_le_iff. lra. }
    destruct H1 as (F3 & N3 & C3).
    fold h0. set (hh := fdiv h0 (ofZ 60)).
    assert (X1 : fin hh /\ 0 <= B2R hh < 6 /\ Rabs (B2R hh - B2R h0 / 60) <= 4 * U).
    { destruct (fdiv_ok h0 (ofZ 60) 8) as [A B]; auto with fin. { rewrite k60_R. lra. } { apply fmt_IZR; lia. } { rewrite k60_R. apply Rabs_le_iff. lra. }
      rewrite k60_R in B. fold hh in A, B. split; [exact A|]. split.
      - rewrite B. split; [apply rnd_lo; auto with fmt; lra|].
        apply Rle_lt_trans with (12582911 / 2097152); [|lra]. apply rnd_hi; [|lra].
        apply (fmt_dyad 12582911 21); lia.
      - rewrite B. replace (4 * U) with (/ 4194304) by lra. apply (uo_err 8 (/ 4194304) _ uo_8). apply Rabs_le_iff. lra. }
    destruct X1 as (Fx & Hx & Ex). set (x := B2R hh) in *.
    assert (CX : circ (9 / 6 * U) (x / 6) h).
    { apply Rabs_le_iff in Ex. destruct C3 as [C|[C|C]]; apply Rabs_le_iff in C; [left|right;left|right;right]; apply Rabs_le_iff; lra. }
    pose proof (Btrunc_floor hh Fx ltac:(fold x; lra)) as T. fold x in T.
    assert (T0 : (0 <= Btrunc hh <= 5)%Z).
    { split; [apply Z.lt_succ_r; apply lt_IZR; unfold Z.succ; rewrite plus_IZR; lra|]. apply Z.lt_succ_r. apply lt_IZR. simpl Z.succ. lra. }
    assert (E : f_as_u32 hh = Btrunc hh) by (unfold f_as_u32; rewrite fcast_fin by auto; lia).
    set (i := Btrunc hh) in *. rewrite E. set (ff := fsub hh (ofZ i)).
    set (f := x - IZR i). assert (f01 : 0 <= f <= 1) by (unfold f; lra).
    assert (CF : close (/ 2 * U) f ff).
    { destruct (ofZ_val i) as [Fz Ez]; [lia|]. eapply close_weak; [apply (close_sub 1 (/ 33554432) 0 0 _ (IZR i) _ _ uo_1 (close_0 _ Fx))|].
      - rewrite <- Ez. now apply close_0.
      - fold x f. rewrite Rabs_right; lra.
      - lra. }
    (* products *)
    assert (MI : forall e r y, close e r y -> 0 <= r <= 1 -> e <= 5 * U -> close (e + U) (1 - r) (fsub f1 y)).
    { intros e r y C R He. assert (e0 : 0 <= e) by (destruct C as [_ C]; eapply Rle_trans; [apply Rabs_pos|exact C]).
      eapply close_weak; [apply (close_sub 2 U 0 _ _ _ _ _ uo_2 O1 C)|lra]. rewrite Rabs_right; lra. }
    assert (MU : forall e r y a, close e r y -> fin a -> 0 <= B2R a <= 1 -> 0 <= r <= 1 -> e <= 5 * U -> close (e + U) (B2R a * r) (fmul a y)).
    { intros e r y a C Fa Ha R He. assert (e0 : 0 <= e) by (destruct C as [_ C]; eapply Rle_trans; [apply Rabs_pos|exact C]).
      eapply close_weak; [apply (close_mul 2 U 1 1 0 _ _ _ _ _ uo_2 (close_0 a Fa) C); rabs; lra|lra]. }
    assert (sf : 0 <= s * f <= 1) by nra. assert (sf' : 0 <= s * (1 - f) <= 1) by nra.
    assert (Sb : 0 <= B2R (d1 c) <= 1) by exact S. assert (Vb : 0 <= B2R (d2 c) <= 1) by exact V.
    assert (C1 := MI 0 s (d1 c) (close_0 _ F1) S ltac:(lra)).
    assert (CP : close (6 * U) (v * (1 - s)) (fmul (d2 c) (fsub f1 (d1 c)))).
    { eapply close_weak; [apply (MU _ _ _ _ C1 F2 Vb ltac:(lra) ltac:(lra))|lra]. }
    assert (C2 := MU _ _ _ _ CF F1 Sb f01 ltac:(lra)). fold s in C2.
    assert (C4 := MI _ _ _ C2 sf ltac:(lra)).
    assert (CQ : close (6 * U) (v * (1 - s * f)) (fmul (d2 c) (fsub f1 (fmul (d1 c) ff)))).
    { eapply close_weak; [apply (MU _ _ _ _ C4 F2 Vb ltac:(lra) ltac:(lra))|lra]. }
    assert (C5 := MI _ _ _ CF f01 ltac:(lra)).
    assert (C6 := MU _ _ _ _ C5 F1 Sb ltac:(lra) ltac:(lra)). fold s in C6.
    assert (C7 := MI _ _ _ C6 sf' ltac:(lra)).
    assert (CT : close (6 * U) (v * (1 - s * (1 - f))) (fmul (d2 c) (fsub f1 (fmul (d1 c) (fsub f1 ff))))).
    { eapply close_weak; [apply (MU _ _ _ _ C7 F2 Vb ltac:(lra) ltac:(lra))|lra]. }
    assert (CV : close (6 * U) v (d2 c)) by (eapply close_weak; [now apply close_0|lra]).
    set (p := fmul (d2 c) (fsub f1 (d1 c))) in *. set (q := fmul (d2 c) (fsub f1 (fmul (d1 c) ff))) in *.
    set (t := fmul (d2 c) (fsub f1 (fmul (d1 c) (fsub f1 ff)))) in *. clearbody p q t.
    (* one channel *)
    assert (Main : forall K y, hue_fun K -> close (6 * U) (v * (1 - s * (1 - K (x / 6)))) y -> close (/ 1048576) (hsv_channel (K h) s v) (clamp y)).
    { intros K y HK C. pose proof (hue_01 K h HK) as K1. pose proof (hue_01 K (x / 6) HK) as K2.
      assert (KD : Rabs (K (x / 6) - K h) <= 6 * (9 / 6 * U)) by (apply hue_circ; auto; lra).
      assert (B1 : 0 <= s * (1 - K h) <= 1) by nra.
      assert (B2 : 0 <= hsv_channel (K h) s v <= 1) by (unfold hsv_channel; nra).
      rewrite <- (limited_id _ B2). apply close_clamp.
      eapply close_weak; [apply (close_move _ _ _ (9 * U) _ C)|lra]. unfold hsv_channel.
      replace (v * (1 - s * (1 - K (x / 6))) - v * (1 - s * (1 - K h))) with (v * s * (K (x / 6) - K h)) by ring.
      replace (9 * U) with (1 * (6 * (9 / 6 * U))) by field. apply abs_mul_le; [|exact KD]. rewrite Rabs_right; nra. }
    assert (IC : (i = 0 \/ i = 1 \/ i = 2 \/ i = 3 \/ i = 4 \/ i = 5)%Z) by lia.
    assert (V1 : v * (1 - s * (1 - 1)) = v) by ring. assert (V0 : v * (1 - s * (1 - 0)) = v * (1 - s)) by ring.
    clear Ex CX C3 N3 F3 EA EA' FA NA. clearbody x. clear MI MU CF C1 C2 C4 C5 C6 C7 T E ff.
    destruct IC as [I|[I|[I|[I|[I|I]]]]]; unfold f in *; rewrite I in *; cbn [Z.eqb]; three; unfold rgb_new_with_alpha; cbn [d0 d1 d2]; apply Main; auto.
    + replace (hue_red (x / 6)) with 1 by hues. rewrite V1. exact CV.
    + replace (hue_green (x / 6)) with (x - 0) by hues. exact CT.
    + replace (hue_blue (x / 6)) with 0 by hues. rewrite V0. exact CP.
    + replace (hue_red (x / 6)) with (1 - (x - 1)) by hues. replace (1 - (1 - (x - 1))) with (x - 1) by ring. exact CQ.
    + replace (hue_green (x / 6)) with 1 by hues. rewrite V1. exact CV.
    + replace (hue_blue (x / 6)) with 0 by hues. rewrite V0. exact CP.
    + replace (hue_red (x / 6)) with 0 by hues. rewrite V0. exact CP.
    + replace (hue_green (x / 6)) with 1 by hues. rewrite V1. exact CV.
    + replace (hue_blue (x / 6)) with (x - 2) by hues. exact CT.
    + replace (hue_red (x / 6)) with 0 by hues. rewrite V0. exact CP.
    + replace (hue_green (x / 6)) with (1 - (x - 3)) by hues. replace (1 - (1 - (x - 3))) with (x - 3) by ring. exact CQ.
    + replace (hue_blue (x / 6)) with 1 by hues. rewrite V1. exact CV.
    + replace (hue_red (x / 6)) with (x - 4) by hues. exact CT.
    + replace (hue_green (x / 6)) with 0 by hues. rewrite V0. exact CP.
    + replace (hue_blue (x / 6)) with 1 by hues. rewrite V1. exact CV.
    + replace (hue_red (x / 6)) with 1 by hues. rewrite V1. exact CV.
    + replace (hue_green (x / 6)) with 0 by hues. rewrite V0. exact CP.
    + replace (hue_blue (x / 6)) with (1 - (x - 5)) by hues. replace (1 - (1 - (x - 5))) with (x - 5) by ring. exact CQ.
Qed.

(** ** RGB to HSV *)
Lemma rgb_to_hsv_meaning c : in_gamut c ->
  let o := rgb_to_hsv c in
  is_hsv (if Rle_dec (/ 32768) (B2R (d2 o)) then / 524288 else / 32768) (B2R (d0 o)) (B2R (d1 o)) (B2R (d2 o)) c.
Proof.
  intros G. cbv zeta. pose proof (rgb_to_hsv_range c G) as RG.
  destruct G as (G0 & G1 & G2 & G3).
  apply in01_num in G0, G1, G2.
  destruct (rgb_max_val c G0 G1 G2) as (NM & M0 & M1 & M2 & MX).
  destruct (rgb_min_val c G0 G1 G2) as (Nm & m0 & m1 & m2 & MN).
  revert RG. unfold rgb_to_hsv. cbv zeta. set (mx := rgb_max c) in *. set (mn := rgb_min c) in *. clearbody mx mn.
  set (M := B2R mx) in *. set (m := B2R mn) in *. pose proof NM as [FM HM]. pose proof Nm as [Fm Hm]. fold M in HM. fold m in Hm.
  assert (LM : m <= M) by lra.
  set (r := B2R (d0 c)) in *. set (g := B2R (d1 c)) in *. set (b := B2R (d2 c)) in *.
  pose proof G0 as [F0 H0]. pose proof G1 as [F1 H1]. pose proof G2 as [F2 H2]. fold r in H0. fold g in H1. fold b in H2.
  destruct (fsub_ok mx mn 1) as [FD ED]; auto with fmt. { apply Rabs_le_iff. fold M m. lra. } fold M m in ED.
  assert (DM : B2R (fsub mx mn) <= M) by (rewrite ED; apply rnd_hi; [apply fmt_B2R | lra]).
  assert (Fe : fin EPSILON) by reflexivity.
  assert (hr : hue_fun hue_red) by (left; reflexivity). assert (hg : hue_fun hue_green) by (right; left; reflexivity).
  assert (hb : hue_fun hue_blue) by (right; right; reflexivity).
  destruct (fle EPSILON (fsub mx mn) || fle EPSILON mx) eqn:Hb.
  - assert (Me : / 32768 <= M).
    { apply orb_true_iff in Hb. destruct Hb as [Hb|Hb].
      - apply (fle_R _ _ Fe FD) in Hb. rewrite EPS_R in Hb. lra.
      - apply (fle_R _ _ Fe FM) in Hb. rewrite EPS_R in Hb. exact Hb. }
    intros RG. cbn [d0 d1 d2] in *. fold M. destruct Rle_dec as [_|NR]; [|lra].
    set (sat := fdiv (fsub mx mn) mx) in *.
    assert (D0 : 0 <= B2R (fsub mx mn)) by (rewrite ED; apply rnd_lo; auto with fmt; lra).
    assert (QB : 0 <= B2R (fsub mx mn) / M <= 1) by (apply div_01; lra).
    destruct (fdiv_ok (fsub mx mn) mx 1) as [FQ EQ]; auto with fmt. { fold M. lra. } { fold M. apply Rabs_le_iff; lra. }
    fold sat M in EQ.
    destruct LM as [P|P].
    + assert (T : flt mn mx = true) by (apply flt_R; auto). destruct (RG (or_introl T)) as (RH & RS & _). clear RG T Hb.
      apply in01_num in RH, RS. destruct RH as [FH RH], RS as [FS RS].
      (* saturation *)
      destruct (sub_rel mx mn FM Fm NM Nm) as (_ & K1 & E1 & HK1). fold M m in E1.
      assert (SA : Rabs (B2R sat * M - (M - m)) <= 2 * U).
      { assert (AB : Rabs (B2R (fsub mx mn) / M) <= 1) by (apply Rabs_le_iff; lra).
        pose proof (uo_err 1 (/ 33554432) _ uo_1 AB) as Q. rewrite <- EQ in Q.
        assert (Q' : Rabs ((B2R sat - B2R (fsub mx mn) / M) * M) <= / 33554432 * 1) by (apply abs_mul_le; [exact Q | rewrite Rabs_right; lra]).
        replace ((B2R sat - B2R (fsub mx mn) / M) * M) with (B2R sat * M - B2R (fsub mx mn)) in Q' by (field; lra).
        assert (Q2 : Rabs ((M - m) * (K1 - 1)) <= 1 * U) by (apply abs_mul_le; [rewrite Rabs_right; lra | exact HK1]).
        apply Rabs_le_iff in Q', Q2. apply Rabs_le_iff. lra. }
      (* hue *)
      set (d := fsub mx mn) in *.
      set (hue := if fle mx (d0 c) then fdiv (fsub (d1 c) (d2 c)) d
         else if fle mx (d1 c) then fadd f2 (fdiv (fsub (d2 c) (d0 c)) d) else fadd (ofZ 4) (fdiv (fsub (d0 c) (d1 c)) d)) in *.
      set (X := if fle mx (d0 c) then (g - b) / (M - m) + (if Rlt_dec g b then 6 else 0)
                else if fle mx (d1 c) then (b - r) / (M - m) + 2 else (r - g) / (M - m) + 4).
      assert (S : (M - r <= 0 /\ m <> r /\ X = (g - b) / (M - m) + (if Rlt_dec g b then 6 else 0)) \/
        (M - g <= 0 /\ m <> g /\ X = (b - r) / (M - m) + 2) \/
        (M - b <= 0 /\ m <> b /\ X = (r - g) / (M - m) + 4)).
      { unfold X. destruct (fle mx (d0 c)) eqn:T0.
        - left. apply fle_R in T0; auto. fold M r in T0. split; [lra|]. split; [lra|reflexivity].
        - right. apply fle_Rf in T0; auto. fold M r in T0. destruct (fle mx (d1 c)) eqn:T1.
          + left. apply fle_R in T1; auto. fold M g in T1. split; [lra|]. split; [lra|reflexivity].
          + right. apply fle_Rf in T1; auto. fold M g in T1. assert (M = b) by (destruct MX as [|[|]]; lra).
            split; [lra|]. split; [lra|reflexivity]. }
      destruct (sector r g b M m X 0) as (X06 & KR & KG & KB); auto. { lra. }
      assert (RA : forall x y, num 0 1 x -> num 0 1 y -> m <= B2R x <= M -> m <= B2R y <= M ->
        close (4 * U) ((B2R x - B2R y) / (M - m)) (fdiv (fsub x y) d) /\ Rabs ((B2R x - B2R y) / (M - m)) <= 1).
      { intros x y X' Y BX BY. assert (Z : Rabs (B2R x - B2R y) <= M - m) by (apply Rabs_le_iff; lra).
        split; [apply ratio_close; auto; fold M m; lra|].
        unfold Rdiv. rewrite Rabs_mult, (Rabs_right (/ (M - m))) by (left; apply Rinv_0_lt_compat; lra).
        apply (Rmult_le_reg_r (M - m)); [lra|]. rewrite Rmult_assoc, Rinv_l by lra. lra. }
      assert (ADD : forall x k kf, Rabs x <= 1 -> fin kf -> B2R kf = k -> 0 <= k <= 6 -> forall xf, close (4 * U) x xf -> close (8 * U) (x + k) (fadd kf xf)).
      { intros x k kf Xb Fk Ek Kb xf C. rewrite Rplus_comm. eapply close_weak; [apply (close_add 8 (4 * U) 0 (4 * U) k x kf xf ltac:(replace (4 * U) with (/ 4194304) by lra; apply uo_8))|].
        - eapply close_eq; [apply (close_0 _ Fk) | exact Ek].
        - exact C.
        - apply Rabs_le_iff in Xb. unfold Rabs; destruct Rcase_abs; lra.
        - lra. }
      assert (HU : exists y, close (8 * U) y hue /\ (X = y \/ X = y + 6) /\ -1 <= y <= 6).
      { unfold hue, X. destruct (fle mx (d0 c)).
        - destruct (RA (d1 c) (d2 c)) as [A B]; auto. exists ((g - b) / (M - m)). split; [eapply close_weak; [exact A|lra]|].
          apply Rabs_le_iff in B. fold g b in B. split; [destruct Rlt_dec; [right|left]; ring | lra].
        - destruct (fle mx (d1 c)).
          + destruct (RA (d2 c) (d0 c)) as [A B]; auto. exists ((b - r) / (M - m) + 2).
            split; [apply ADD; auto with fin; first [apply f2_R | lra]|]. apply Rabs_le_iff in B. fold b r in B. split; [left; reflexivity|lra].
          + destruct (RA (d0 c) (d1 c)) as [A B]; auto. exists ((r - g) / (M - m) + 4).
            split; [apply ADD; auto with fin; first [apply four_R | lra]|]. apply Rabs_le_iff in B. fold r g in B. split; [left; reflexivity|lra]. }
      destruct HU as (y & CY & XY & Yb).
      clearbody X hue. clear RA ADD S.
      assert (K60 : close 0 60 (ofZ 60)) by (eapply close_eq; [apply close_0; auto with fin | apply k60_R]).
      assert (K360 : close 0 360 (ofZ 360)) by (eapply close_eq; [apply close_0; auto with fin | apply k360_R]).
      assert (C60 : close (740 * U) (y * 60) (fmul hue (ofZ 60))).
      { eapply close_weak; [apply (close_mul 512 (/ 65536) 6 60 _ 0 _ _ _ _ uo_512 CY K60); rabs; lra|lra]. }
      set (h0 := if flt (fmul hue (ofZ 60)) f0 then _ else _) in *.
      assert (HC : exists z, close (1000 * U) z h0 /\ (z = y * 60 \/ z = y * 60 + 360) /\ -1 <= z <= 361).
      { unfold h0. pose proof C60 as [Fh Eh]. apply Rabs_le_iff in Eh. destruct (flt (fmul hue (ofZ 60)) f0) eqn:T.
        - apply flt_R in T; auto with fin. rewrite f0_R in T. exists (y * 60 + 360). split; [|lra].
          eapply close_weak; [apply (close_add 512 (/ 65536) _ 0 _ _ _ _ uo_512 C60 K360)|lra]. rewrite Rabs_right; lra.
        - apply flt_Rf in T; auto with fin. rewrite f0_R in T. exists (y * 60). split; [eapply close_weak; [exact C60|lra]|lra]. }
      destruct HC as (z & CZ & ZY & Zb). clearbody h0.
      assert (CH : close (5 * U) (z / 360) (fdiv h0 (ofZ 360))).
      { eapply close_weak; [apply (close_div 2 U 360 (11 / 10) _ 0 _ 360 _ _ uo_2 CZ K360)|]; try lra.
        - rewrite Rabs_right; lra.
        - apply Rabs_le_iff. lra. }
      set (h := B2R (fdiv h0 (ofZ 360))) in *.
      assert (CC : circ (5 * U) h (X / 6)).
      { destruct CH as [_ CH]. fold h in CH. apply Rabs_le_iff in CH.
        destruct XY as [XY|XY], ZY as [ZY|ZY].
        - left. apply Rabs_le_iff. lra.
        - right; left. apply Rabs_le_iff. lra.
        - right; right. apply Rabs_le_iff. lra.
        - left. apply Rabs_le_iff. lra. }
      assert (Z : forall K v x, hue_fun K -> fin v -> B2R v = x -> Rabs (m + (M - m) * K (X / 6) - x) <= 0 ->
        close (/ 524288) (hsv_channel (K h) (B2R sat) M) v).
      { intros K v x HK Fv Ev KX. split; [exact Fv|]. rewrite Ev. unfold hsv_channel.
        assert (L : Rabs (K h - K (X / 6)) <= 6 * (5 * U)) by (apply hue_circ; auto; lra).
        pose proof (hue_01 K h HK) as K1'.
        assert (L2 : Rabs ((M - m) * (K h - K (X / 6))) <= 1 * (6 * (5 * U))) by (apply abs_mul_le; [rewrite Rabs_right; lra | exact L]).
        assert (L3 : Rabs ((B2R sat * M - (M - m)) * (1 - K h)) <= 2 * U * 1) by (apply abs_mul_le; [exact SA | apply Rabs_le_iff; lra]).
        apply Rabs_le_iff in L2, L3, KX. apply Rabs_le_iff. lra. }
      three.
      * apply (Z hue_red (d0 c) r); auto.
      * apply (Z hue_green (d1 c) g); auto.
      * apply (Z hue_blue (d2 c) b); auto.
    + (* grey *)
      assert (S0 : B2R sat = 0).
      { rewrite EQ. replace (B2R (fsub mx mn)) with 0.
        - unfold Rdiv. rewrite Rmult_0_l. apply rnd_0.
        - rewrite ED, P, Rminus_diag_eq, rnd_0; reflexivity. }
      unfold is_hsv, hsv_channel. rewrite S0, !Rmult_0_l, Rminus_0_r, Rmult_1_r.
      three; (split; [assumption|]); fold r g b; apply Rabs_le_iff; lra.
  - intros _. cbn [d0 d1 d2]. apply orb_false_iff in Hb. destruct Hb as [_ Hb]. apply (fle_Rf _ _ Fe FM) in Hb. rewrite EPS_R in Hb.
    fold M in Hb. fold M. destruct Rle_dec as [R|_]; [lra|].
    unfold is_hsv, hsv_channel. rewrite f0_R, !Rmult_0_l, Rminus_0_r, Rmult_1_r.
    three; (split; [assumption|]); fold r g b; apply Rabs_le_iff; lra.
Qed.

(** There and back. *)
Lemma hsv_value c : d2 (rgb_to_hsv c) = rgb_max c.
Proof. unfold rgb_to_hsv. cbv zeta. destruct (_ || _); reflexivity. Qed.
Lemma hsv_dull c : fle (d1 c) f0 = true -> hsv_to_rgb c = mkC (d2 c) (d2 c) (d2 c) (d3 c).
Proof. intros H. unfold hsv_to_rgb. cbv zeta. rewrite H. reflexivity. Qed.

Lemma hsv_round_trip c : in_gamut c -> channelwise (/ 32768) (fun v => v) c (hsv_to_rgb (rgb_to_hsv c)).
Proof.
  intros G. pose proof G as (G0 & G1 & G2 & G3).
  apply in01_num in G0, G1, G2.
  destruct (rgb_max_val c G0 G1 G2) as (NM & M0 & M1 & M2 & MX).
  destruct (rgb_min_val c G0 G1 G2) as (Nm & m0 & m1 & m2 & MN).
  pose proof NM as [FM HM]. pose proof Nm as [Fm Hm].
  pose proof G0 as [F0 H0]. pose proof G1 as [F1 H1]. pose proof G2 as [F2 H2].
  assert (Fe : fin EPSILON) by reflexivity.
  assert (GREY : fle (d1 (rgb_to_hsv c)) f0 = true -> B2R (rgb_max c) - B2R (rgb_min c) <= / 32768 ->
    channelwise (/ 32768) (fun v => v) c (hsv_to_rgb (rgb_to_hsv c))).
  { intros A D. rewrite (hsv_dull _ A), hsv_value, rgb_to_hsv_alpha. unfold channelwise. cbn [d0 d1 d2 d3].
    repeat split; auto; apply Rabs_le_iff; lra. }
  assert (DD : {flt (rgb_min c) (rgb_max c) = true} + {flt (rgb_min c) (rgb_max c) = false}) by (destruct flt; auto).
  destruct DD as [D|D].
  - destruct (Rle_lt_dec (/ 32768) (B2R (rgb_max c))) as [B|B].
    + pose proof (rgb_to_hsv_range c G (or_introl D)) as RG.
      destruct (rgb_to_hsv_meaning c G) as (A1 & A2 & A3).
      destruct (hsv_to_rgb_meaning (rgb_to_hsv c) RG) as [(B1 & B2 & B3) E]. rewrite rgb_to_hsv_alpha in E.
      rewrite hsv_value in *. destruct Rle_dec as [_|N]; [|lra].
      assert (T : forall r x y, close (/ 524288) r x -> close (/ 1048576) r y -> close (/ 32768) (B2R x) y).
      { intros r x y [_ X] [F Y]. split; [exact F|]. apply Rabs_le_iff in X, Y. apply Rabs_le_iff. lra. }
      split; [|split; [|split; [|exact E]]]; eapply T; eassumption.
    + apply GREY; [|lra]. unfold rgb_to_hsv. cbv zeta.
      destruct (fsub_ok (rgb_max c) (rgb_min c) 1) as [FD ED]; auto with fmt. { apply Rabs_le_iff. lra. }
      assert (DM : B2R (fsub (rgb_max c) (rgb_min c)) <= B2R (rgb_max c)) by (rewrite ED; apply rnd_hi; [apply fmt_B2R | lra]).
      destruct (_ || _) eqn:Hb; [|reflexivity]. exfalso. apply orb_true_iff in Hb. destruct Hb as [Hb|Hb]; apply fle_R in Hb; auto; rewrite EPS_R in Hb; lra.
  - apply flt_Rf in D; auto. apply GREY; [|lra].
    unfold rgb_to_hsv. cbv zeta. destruct (_ || _) eqn:Hb; [|reflexivity]. cbn [d1].
    destruct (fsub_ok (rgb_max c) (rgb_min c) 1) as [FD ED]; auto with fmt. { apply Rabs_le_iff. lra. }
    replace (B2R (rgb_max c) - B2R (rgb_min c)) with 0 in ED by lra. rewrite rnd_0 in ED.
    assert (Me : / 32768 <= B2R (rgb_max c)).
    { apply orb_true_iff in Hb. destruct Hb as [Hb|Hb]; apply fle_R in Hb; auto; rewrite EPS_R in Hb; lra. }
    destruct (fdiv_ok (fsub (rgb_max c) (rgb_min c)) (rgb_max c) 1) as [FQ EQ]; auto with fmt.
    { lra. } { rewrite ED. unfold Rdiv. rewrite Rmult_0_l, Rabs_R0. lra. }
    apply fle_R; auto with fin. rewrite EQ, ED, f0_R. unfold Rdiv. rewrite Rmult_0_l, rnd_0. lra.
Qed.
