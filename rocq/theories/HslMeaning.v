(** Proofs for C85 and C86: colours and their HSL and HSV components. *)
From Coq Require Import Reals Lra Lia ZArith Bool Psatz.
From Flocq Require Import Core.Core Plus_error Relative IEEE754.BinarySingleNaN.
From Verif Require Import F32 F32Lemmas Color ColorSpec ColorProofs MeaningSpec Approx OpMeaningProofs.
Open Scope R_scope.

(** ** The hue circle *)
Definition hue_fun (K : R -> R) : Prop := K = hue_red \/ K = hue_green \/ K = hue_blue.
Ltac hues := unfold hue_red, hue_green, hue_blue, limited, Rmax, Rmin, Rabs in *; repeat destruct Rle_dec; repeat destruct Rcase_abs; try lra.
Lemma limited_lip' a b e : - e <= a - b <= e -> - e <= limited a - limited b <= e.
Proof. intros H. apply Rabs_le_iff. apply limited_lip_e. now apply Rabs_le_iff. Qed.
Lemma hue_lip K a b e : hue_fun K -> Rabs (a - b) <= e -> Rabs (K a - K b) <= 6 * e.
Proof.
  intros H E. apply Rabs_le_iff in E. apply Rabs_le_iff.
  destruct H as [->|[->| ->]]; unfold hue_red, hue_green, hue_blue; apply limited_lip'; unfold Rabs; repeat destruct Rcase_abs; lra.
Qed.
Lemma hue_01 K a : hue_fun K -> 0 <= K a <= 1.
Proof. intros [->|[->| ->]]; apply limited_range. Qed.
Lemma hue_ends K : hue_fun K -> K 0 = K 1.
Proof. intros [->|[->| ->]]; hues. Qed.
(** near on the circle *)
Definition circ (e a b : R) : Prop := Rabs (a - b) <= e \/ Rabs (a - b - 1) <= e \/ Rabs (a - b + 1) <= e.
Lemma hue_circ K a b e : hue_fun K -> 0 <= a <= 1 -> 0 <= b <= 1 -> circ e a b -> Rabs (K a - K b) <= 6 * e.
Proof.
  intros H A B [C|[C|C]].
  - now apply hue_lip.
  - apply Rabs_le_iff in C.
    pose proof (hue_lip K a 1 (1 - a) H) as P. pose proof (hue_lip K 0 b b H) as Q.
    rewrite (hue_ends K H) in Q. specialize (P ltac:(apply Rabs_le_iff; lra)). specialize (Q ltac:(apply Rabs_le_iff; lra)).
    apply Rabs_le_iff in P, Q. apply Rabs_le_iff. lra.
  - apply Rabs_le_iff in C.
    pose proof (hue_lip K a 0 a H) as P. pose proof (hue_lip K 1 b (1 - b) H) as Q.
    rewrite <- (hue_ends K H) in Q. specialize (P ltac:(apply Rabs_le_iff; lra)). specialize (Q ltac:(apply Rabs_le_iff; lra)).
    apply Rabs_le_iff in P, Q. apply Rabs_le_iff. lra.
Qed.
(** the hues are shifts of each other *)
Lemma red_green h t : 0 <= h <= 1 -> 0 <= t <= 1 -> circ 0 t (h + / 3) -> hue_red h = hue_green t.
Proof.
  intros H T C. assert (E : t = h + / 3 \/ t = h + / 3 - 1).
  { destruct C as [C|[C|C]]; apply Rabs_le_iff in C; lra. }
  destruct E as [-> | ->]; hues.
Qed.
Lemma blue_green h t : 0 <= h <= 1 -> 0 <= t <= 1 -> circ 0 t (h - / 3) -> hue_blue h = hue_green t.
Proof.
  intros H T C. assert (E : t = h - / 3 \/ t = h - / 3 + 1).
  { destruct C as [C|[C|C]]; apply Rabs_le_iff in C; lra. }
  destruct E as [-> | ->]; hues.
Qed.

Ltac rabs := match goal with |- Rabs _ <= _ => apply Rabs_le_iff | _ => idtac end.
(** ** [hue2rgb] *)
Notation U := (/ 16777216).
Lemma wrap_close th : fin th -> - / 2 <= B2R th <= 3 / 2 ->
  let t := if flt th f0 then fadd th f1 else th in
  let t := if flt f1 t then fsub t f1 else t in
  fin t /\ 0 <= B2R t <= 1 /\ circ (U / 2) (B2R t) (B2R th).
Proof.
  intros F H. cbv zeta. destruct (flt th f0) eqn:N.
  - apply flt_R in N; auto with fin. rewrite f0_R in N.
    destruct (fadd_ok th f1 1) as [A B]; auto with fin fmt. { rewrite f1_R. apply Rabs_le_iff. lra. } rewrite f1_R in B.
    assert (T : / 2 <= B2R (fadd th f1) <= 1) by (rewrite B; split; [apply rnd_lo; auto with fmt; lra | apply rnd_hi; auto with fmt; lra]).
    replace (flt f1 (fadd th f1)) with false by (symmetry; apply flt_Rf; auto with fin; rewrite f1_R; lra).
    split; [exact A|]. split; [lra|]. right; left. rewrite B.
    replace (rnd (B2R th + 1) - B2R th - 1) with (rnd (B2R th + 1) - (B2R th + 1)) by ring.
    eapply Rle_trans; [apply (uo_err 1 (/ 33554432)); [apply uo_1|]|lra]. apply Rabs_le_iff. lra.
  - apply flt_Rf in N; auto with fin. rewrite f0_R in N. destruct (flt f1 th) eqn:O.
    + apply flt_R in O; auto with fin. rewrite f1_R in O.
      destruct (fsub_ok th f1 1) as [A B]; auto with fin fmt. { rewrite f1_R. apply Rabs_le_iff. lra. } rewrite f1_R in B.
      split; [exact A|]. rewrite B. split; [split; [apply rnd_lo; auto with fmt; lra | apply rnd_hi; auto with fmt; lra]|].
      right; right. replace (rnd (B2R th - 1) - B2R th + 1) with (rnd (B2R th - 1) - (B2R th - 1)) by ring.
      eapply Rle_trans; [apply (uo_err 1 (/ 33554432)); [apply uo_1|]|lra]. apply Rabs_le_iff. lra.
    + apply flt_Rf in O; auto with fin. rewrite f1_R in O. split; [exact F|]. split; [lra|]. left.
      rewrite Rminus_diag_eq, Rabs_R0 by reflexivity. lra.
Qed.

Lemma hue2rgb_close p q ph qh th : close (7 / 2 * U) p ph -> close (5 / 2 * U) q qh -> 0 <= p -> p <= q <= 1 ->
  fin th -> - / 2 <= B2R th <= 3 / 2 ->
  exists T, 0 <= T <= 1 /\ circ (U / 2) T (B2R th) /\ close (21 * U) (p + (q - p) * hue_green T) (hue2rgb ph qh th).
Proof.
  intros P Q P0 Q1 Ft Ht. unfold hue2rgb. destruct (wrap_close th Ft Ht) as (F & X & C). cbv zeta in *.
  set (t := if flt f1 (if flt th f0 then fadd th f1 else th) then _ else _) in *. clearbody t.
  exists (B2R t). split; [exact X|]. split; [exact C|]. clear C Ft Ht th.
  assert (S6 : close 0 6 (ofZ 6)) by (eapply close_eq; [apply close_0; auto with fin | apply six_R]).
  assert (D : close (7 * U) (q - p) (fsub qh ph)).
  { eapply close_weak; [apply (close_sub 2 U _ _ _ _ _ _ uo_2 Q P)|]; [|lra]. rewrite Rabs_right; lra. }
  assert (c6 : fin (fdiv f1 (ofZ 6)) /\ / 6 <= B2R (fdiv f1 (ofZ 6)) <= / 6 + / 100000000).
  { fval (fdiv f1 (ofZ 6)) H. split; [assumption|]. rewrite H. lra. }
  assert (c2 : fin (fdiv f1 f2) /\ B2R (fdiv f1 f2) = / 2).
  { fval (fdiv f1 f2) H. split; [assumption|]. rewrite H. lra. }
  assert (c3 : fin (fdiv f2 (ofZ 3)) /\ 2 / 3 <= B2R (fdiv f2 (ofZ 3)) <= 2 / 3 + 2 / 100000000).
  { fval (fdiv f2 (ofZ 3)) H. split; [assumption|]. rewrite H. lra. }
  destruct c6 as [F6 C6], c2 as [F2 C2], c3 as [F3 C3].
  destruct (flt t (fdiv f1 (ofZ 6))) eqn:B1; [apply flt_R in B1; auto | apply flt_Rf in B1; auto].
  - (* rising *)
    assert (W : close (46 * U) ((q - p) * 6) (fmul (fsub qh ph) (ofZ 6))).
    { eapply close_weak; [apply (close_mul 8 (4 * U) 1 6 _ 0 _ _ _ _ ltac:(replace (4 * U) with (/ 4194304) by lra; apply uo_8) D S6); try (apply Rabs_le_iff; lra)|]; lra. }
    assert (V : close (87 / 10 * U) ((q - p) * 6 * B2R t) (fmul (fmul (fsub qh ph) (ofZ 6)) t)).
    { eapply close_weak; [apply (close_mul 2 U 6 (/ 6 + / 100000000) _ 0 _ _ _ _ uo_2 W (close_0 t F)); try (apply Rabs_le_iff; lra)|]; lra. }
    assert (Vb : 0 <= (q - p) * 6 * B2R t <= q - p + / 10000000) by nra.
    assert (Z : close (133 / 10 * U) (p + (q - p) * 6 * B2R t) (fadd ph (fmul (fmul (fsub qh ph) (ofZ 6)) t))).
    { eapply close_weak; [apply (close_add 2 U _ _ _ _ _ _ uo_2 P V)|]; [rewrite Rabs_right; lra | lra]. }
    eapply close_weak; [apply (close_move _ _ _ (2 * U) _ Z)|lra].
    assert (G : Rabs (6 * B2R t - hue_green (B2R t)) <= 2 * U) by hues.
    replace (p + (q - p) * 6 * B2R t - (p + (q - p) * hue_green (B2R t))) with ((q - p) * (6 * B2R t - hue_green (B2R t))) by ring.
    replace (2 * U) with (1 * (2 * U)) by ring. apply abs_mul_le; [rewrite Rabs_right; lra | exact G].
  - destruct (flt t (fdiv f1 f2)) eqn:B2; [apply flt_R in B2; auto | apply flt_Rf in B2; auto].
    + replace (hue_green (B2R t)) with 1 by hues. replace (p + (q - p) * 1) with q by ring. eapply close_weak; [exact Q|lra].
    + destruct (flt t (fdiv f2 (ofZ 3))) eqn:B3; [apply flt_R in B3; auto | apply flt_Rf in B3; auto].
      * assert (C3' : close (4 / 10 * U) (2 / 3) (fdiv f2 (ofZ 3))).
        { fval (fdiv f2 (ofZ 3)) H. split; [assumption|]. rewrite H. apply Rabs_le_iff. lra. }
        assert (W : close (6 / 10 * U) (2 / 3 - B2R t) (fsub (fdiv f2 (ofZ 3)) t)).
        { eapply close_weak; [apply (close_sub (/ 4) (/ 134217728) _ _ _ _ _ _ uo_q C3' (close_0 t F))|]; [|lra].
          unfold Rabs; destruct Rcase_abs; lra. }
        assert (V : close (195 / 100 * U) ((q - p) * (2 / 3 - B2R t)) (fmul (fsub qh ph) (fsub (fdiv f2 (ofZ 3)) t))).
        { eapply close_weak; [apply (close_mul (/ 4) (/ 134217728) 1 (/ 6) _ _ _ _ _ _ uo_q D W); try (apply Rabs_le_iff; lra)|]; lra. }
        assert (Vb : - / 10000000 <= (q - p) * (2 / 3 - B2R t) <= (q - p) / 6) by nra.
        assert (Y : close (128 / 10 * U) ((q - p) * (2 / 3 - B2R t) * 6) (fmul (fmul (fsub qh ph) (fsub (fdiv f2 (ofZ 3)) t)) (ofZ 6))).
        { eapply close_weak; [apply (close_mul 2 U (/ 6) 6 _ 0 _ _ _ _ uo_2 V S6); try (apply Rabs_le_iff; lra)|]; lra. }
        assert (Z : close (174 / 10 * U) (p + (q - p) * (2 / 3 - B2R t) * 6) (fadd ph (fmul (fmul (fsub qh ph) (fsub (fdiv f2 (ofZ 3)) t)) (ofZ 6)))).
        { eapply close_weak; [apply (close_add 2 U _ _ _ _ _ _ uo_2 P Y)|]; [|lra].
          unfold Rabs; destruct Rcase_abs; lra. }
        eapply close_weak; [apply (close_move _ _ _ (3 * U) _ Z)|lra].
        assert (G : Rabs (6 * (2 / 3 - B2R t) - hue_green (B2R t)) <= 3 * U) by hues.
        replace (p + (q - p) * (2 / 3 - B2R t) * 6 - (p + (q - p) * hue_green (B2R t))) with ((q - p) * (6 * (2 / 3 - B2R t) - hue_green (B2R t))) by ring.
        replace (3 * U) with (1 * (3 * U)) by ring. apply abs_mul_le; [rewrite Rabs_right; lra | exact G].
      * assert (G : Rabs (hue_green (B2R t)) <= 0) by hues.
        assert (E : hue_green (B2R t) = 0) by (apply Rabs_le_iff in G; lra). rewrite E.
        replace (p + (q - p) * 0) with p by ring. eapply close_weak; [exact P|lra].
Qed.

(** ** HSL to RGB *)
Lemma hsl_to_rgb_meaning c : in_gamut c ->
  is_hsl (/ 262144) (B2R (d0 c)) (B2R (d1 c)) (B2R (d2 c)) (hsl_to_rgb c) /\ d3 (hsl_to_rgb c) = d3 c.
Proof.
  intros (G0 & G1 & G2 & G3). split.
  2:{ unfold hsl_to_rgb. destruct (feq (d1 c) f0); cbn [d3 rgb_new_with_alpha]; apply clamp_id; exact G3. }
  apply in01_R in G0, G1, G2. destruct G0 as [F0 H], G1 as [F1 S], G2 as [F2 L].
  set (h := B2R (d0 c)) in *. set (s := B2R (d1 c)) in *. set (l := B2R (d2 c)) in *.
  assert (Id : forall k, 0 <= k <= 1 -> 0 <= hsl_channel k s l <= 1).
  { intros k K. unfold hsl_channel. assert (A : 0 <= 1 - Rabs (2 * l - 1) <= 1 /\ 1 - Rabs (2 * l - 1) <= 2 * l /\ 1 - Rabs (2 * l - 1) <= 2 - 2 * l).
    { unfold Rabs; destruct Rcase_abs; lra. } set (a := 1 - Rabs (2 * l - 1)) in *. clearbody a.
    assert (0 <= s * a <= a) by nra. set (b := s * a) in *. clearbody b. nra. }
  assert (hr : hue_fun hue_red) by (left; reflexivity). assert (hg : hue_fun hue_green) by (right; left; reflexivity).
  assert (hb : hue_fun hue_blue) by (right; right; reflexivity).
  unfold hsl_to_rgb. destruct (feq (d1 c) f0) eqn:E.
  - apply feq_R in E; auto with fin. rewrite f0_R in E. fold s in E.
    assert (K : forall k, close (/ 262144) (hsl_channel k s l) (clamp (d2 c))).
    { intros k. destruct (clamp_01 (d2 c) F2 L) as [A B]. replace (hsl_channel k s l) with l by (unfold hsl_channel; rewrite E; ring).
      eapply close_weak; [split; [exact A | rewrite B; fold l; rewrite Rminus_diag_eq, Rabs_R0 by reflexivity; apply Rle_refl] | lra]. }
    three; apply K.
  - clear E. set (qh := if flt (d2 c) (dec 1 2) then _ else _).
    set (q := if Rlt_dec l (/ 2) then l * (1 + s) else l + s - l * s).
    assert (O1 : close 0 1 f1) by (eapply close_eq; [apply close_0; auto with fin | apply f1_R]).
    assert (O2 : close 0 2 f2) by (eapply close_eq; [apply close_0; auto with fin | apply f2_R]).
    assert (LS : 0 <= l * s <= 1) by nra.
    assert (Q : close (5 / 2 * U) q qh).
    { unfold q, qh. destruct (flt (d2 c) (dec 1 2)) eqn:T.
      - apply flt_R in T; auto with fin. rewrite half_R in T. fold l in T. destruct Rlt_dec; [|lra].
        assert (A : close U (1 + s) (fadd f1 (d1 c))).
        { eapply close_weak; [apply (close_add 2 U 0 0 _ _ _ _ uo_2 O1 (close_0 _ F1))|lra]. fold s. rewrite Rabs_right; lra. }
        eapply close_weak; [apply (close_mul 2 U (/ 2) 2 0 _ _ _ _ _ uo_2 (close_0 _ F2) A)|]; fold l; rabs; lra.
      - apply flt_Rf in T; auto with fin. rewrite half_R in T. fold l in T. destruct Rlt_dec; [lra|].
        assert (A : close U (l + s) (fadd (d2 c) (d1 c))).
        { eapply close_weak; [apply (close_add 2 U 0 0 _ _ _ _ uo_2 (close_0 _ F2) (close_0 _ F1))|lra]. fold s l. rewrite Rabs_right; lra. }
        assert (B : close (/ 2 * U) (l * s) (fmul (d2 c) (d1 c))).
        { eapply close_weak; [apply (close_mul 1 (/ 33554432) 1 1 0 0 _ _ _ _ uo_1 (close_0 _ F2) (close_0 _ F1))|]; fold l s; rabs; lra. }
        eapply close_weak; [apply (close_sub 2 U _ _ _ _ _ _ uo_2 A B)|]; [|lra]. rewrite Rabs_right; nra. }
    set (ph := fsub (fmul f2 (d2 c)) qh). set (p := 2 * l - q).
    assert (Q0 : l <= q <= 1 /\ q <= 2 * l).
    { unfold q. destruct Rlt_dec; split; nra. }
    assert (P : close (7 / 2 * U) p ph).
    { assert (A : close 0 (2 * l) (fmul f2 (d2 c))).
      { destruct (fmul_exact f2 (d2 c)) as [A B]; auto with fin.
        - rewrite Rmult_comm. destruct (double_exact (d2 c) F2 L) as [A B]. rewrite f2_R, Rmult_comm, <- B. apply fmt_B2R.
        - split; [exact A|]. rewrite B, f2_R. fold l. rewrite Rminus_diag_eq, Rabs_R0 by reflexivity. apply Rle_refl. }
      eapply close_weak; [apply (close_sub 2 U _ _ _ _ _ _ uo_2 A Q)|lra]. fold p. rewrite Rabs_right; unfold p; lra. }
    assert (QP : q - p = s * (1 - Rabs (2 * l - 1))).
    { unfold p, q. destruct Rlt_dec; unfold Rabs; destruct Rcase_abs; nra. }
    assert (Ch : forall k, p + (q - p) * k = hsl_channel k s l).
    { intros k. unfold hsl_channel. rewrite <- QP. unfold p. field. }
    assert (Main : forall K th, hue_fun K -> fin th -> - / 2 <= B2R th <= 3 / 2 ->
      (forall T, 0 <= T <= 1 -> circ (U / 2) T (B2R th) -> Rabs (hue_green T - K h) <= 12 * U) ->
      close (/ 262144) (hsl_channel (K h) s l) (clamp (hue2rgb ph qh th))).
    { intros K th HK Ft Ht HT. rewrite <- (limited_id (hsl_channel (K h) s l)) by (apply Id; now apply hue_01).
      apply close_clamp. destruct (hue2rgb_close p q ph qh th P Q) as (T & T1 & T2 & T3); try (unfold p; lra); auto.
      eapply close_weak; [apply (close_move _ _ _ (12 * U) _ T3)|lra].
      rewrite <- Ch. replace (p + (q - p) * hue_green T - (p + (q - p) * K h)) with ((q - p) * (hue_green T - K h)) by ring.
      replace (12 * U) with (1 * (12 * U)) by ring. apply abs_mul_le; [unfold p; rewrite Rabs_right; lra | now apply HT]. }
    assert (T3 : close (2 / 10 * U) (/ 3) (fdiv f1 (ofZ 3))).
    { fval (fdiv f1 (ofZ 3)) Hv. split; [assumption|]. rewrite Hv. apply Rabs_le_iff. lra. }
    assert (three_h : forall a b e1 e2, circ e1 a b -> Rabs (b - h) <= e2 -> circ (e1 + e2) a h).
    { intros a b e1 e2 [C|[C|C]] Z; apply Rabs_le_iff in C, Z; [left|right;left|right;right]; apply Rabs_le_iff; lra. }
    three.
    + destruct (close_add 2 U _ _ _ _ _ _ uo_2 (close_0 _ F0) T3) as [A B]. { fold h. rewrite Rabs_right; lra. } fold h in B.
      apply Rabs_le_iff in B.
      apply Main; auto; [lra|]. intros T HT C.
      set (t0 := if Rle_dec (h + / 3) 1 then h + / 3 else h + / 3 - 1).
      assert (t01 : 0 <= t0 <= 1) by (unfold t0; destruct Rle_dec; lra).
      rewrite (red_green h t0) by (solve [assumption | unfold t0, circ; destruct Rle_dec; [left|right;right]; apply Rabs_le_iff; lra]).
      replace (12 * U) with (6 * (2 * U)) by ring. apply (hue_circ hue_green); auto.
      unfold t0. destruct C as [C|[C|C]]; apply Rabs_le_iff in C; destruct Rle_dec;
       (left; apply Rabs_le_iff; lra) || (right; left; apply Rabs_le_iff; lra) || (right; right; apply Rabs_le_iff; lra).
    + apply Main; auto; [fold h; lra|]. intros T HT C. fold h in C.
      replace (12 * U) with (6 * (2 * U)) by ring. apply (hue_circ hue_green); auto.
      destruct C as [C|[C|C]]; apply Rabs_le_iff in C; [left|right;left|right;right]; apply Rabs_le_iff; lra.
    + destruct (close_sub 2 U _ _ _ _ _ _ uo_2 (close_0 _ F0) T3) as [A B]. { fold h. unfold Rabs; destruct Rcase_abs; lra. } fold h in B.
      apply Rabs_le_iff in B.
      apply Main; auto; [lra|]. intros T HT C.
      set (t0 := if Rle_dec 0 (h - / 3) then h - / 3 else h - / 3 + 1).
      assert (t01 : 0 <= t0 <= 1) by (unfold t0; destruct Rle_dec; lra).
      rewrite (blue_green h t0) by (solve [assumption | unfold t0, circ; destruct Rle_dec; [left|right;left]; apply Rabs_le_iff; lra]).
      replace (12 * U) with (6 * (2 * U)) by ring. apply (hue_circ hue_green); auto.
      unfold t0. destruct C as [C|[C|C]]; apply Rabs_le_iff in C; destruct Rle_dec;
       (left; apply Rabs_le_iff; lra) || (right; left; apply Rabs_le_iff; lra) || (right; right; apply Rabs_le_iff; lra).
Qed.

(** ** RGB to HSL *)
Lemma sub_rel x y : fin x -> fin y -> num 0 1 x -> num 0 1 y -> fin (fsub x y) /\ rel U (B2R (fsub x y)) (B2R x - B2R y).
Proof.
  intros Fx Fy [_ X] [_ Y]. destruct (fsub_ok x y 1) as [A B]; auto with fmt. { apply Rabs_le_iff. lra. }
  split; [exact A|]. rewrite B.
  destruct (fmt_B2R x) as [X1 _]. destruct (fmt_opp _ (fmt_B2R y)) as [Y1 _].
  destruct (@FLT_plus_error_N_ex radix2 (-149) 24 p24 (fun z => negb (Z.even z)) (B2R x) (- B2R y) X1 Y1) as [eps [He E]].
  exists (1 + eps). split; [exact E|]. replace (1 + eps - 1) with eps by ring.
  eapply Rle_trans; [exact He|]. unfold u_ro. replace (/ 2 * bpow radix2 (- (24) + 1)) with U.
  - lra.
  - change (- (24) + 1)%Z with (-23)%Z. rewrite bpow_neg. change (Z.pow_pos 2 23) with 8388608%Z. lra.
Qed.
Lemma ratio_close x y M m : num 0 1 x -> num 0 1 y -> num 0 1 M -> num 0 1 m -> 0 < B2R M - B2R m ->
  Rabs (B2R x - B2R y) <= B2R M - B2R m ->
  close (4 * U) ((B2R x - B2R y) / (B2R M - B2R m)) (fdiv (fsub x y) (fsub M m)).
Proof.
  intros X Y HM Hm P H.
  destruct (sub_rel x y (proj1 X) (proj1 Y) X Y) as (F1 & K1 & E1 & H1).
  destruct (sub_rel M m (proj1 HM) (proj1 Hm) HM Hm) as (F2 & K2 & E2 & H2).
  set (N := B2R x - B2R y) in *. set (D := B2R M - B2R m) in *.
  pose proof H2 as H2'. apply Rabs_le_iff in H2'.
  assert (NZ : B2R (fsub M m) <> 0) by (rewrite E2; nra).
  assert (HK : Rabs (K1 * / K2 - 1) <= 25 / 10 * U).
  { eapply Rle_trans; [apply rel_mul; [exact H1 | apply (rel_inv _ _ H2); lra]|]. lra. }
  assert (E : B2R (fsub x y) / B2R (fsub M m) = N / D * (K1 * / K2)).
  { rewrite E1, E2. field. split; nra. }
  assert (R : Rabs (N / D) <= 1).
  { unfold Rdiv. rewrite Rabs_mult, (Rabs_right (/ D)) by (left; apply Rinv_0_lt_compat; lra).
    apply (Rmult_le_reg_r D); [lra|]. rewrite Rmult_assoc, Rinv_l by lra. lra. }
  assert (B : Rabs (B2R (fsub x y) / B2R (fsub M m) - N / D) <= 25 / 10 * U).
  { rewrite E. replace (N / D * (K1 * / K2) - N / D) with (N / D * (K1 * / K2 - 1)) by ring.
    replace (25 / 10 * U) with (1 * (25 / 10 * U)) by ring. now apply abs_mul_le. }
  assert (B' : Rabs (B2R (fsub x y) / B2R (fsub M m)) <= 2).
  { apply Rabs_le_iff in B, R. apply Rabs_le_iff. lra. }
  destruct (fdiv_ok (fsub x y) (fsub M m) 2) as [A C]; auto with fmt.
  split; [exact A|]. rewrite C. pose proof (uo_err 2 U _ uo_2 B') as Z. apply Rabs_le_iff in B, Z. apply Rabs_le_iff. lra.
Qed.

(** The hue of a colour, when [X] is six times the hue. *)
Lemma sector r g b M m X e :
  r <= M -> g <= M -> b <= M -> m <= r -> m <= g -> m <= b -> (M = r \/ M = g \/ M = b) -> (m = r \/ m = g \/ m = b) -> m < M ->
  0 <= e ->
  (M - r <= e /\ m <> r /\ X = (g - b) / (M - m) + (if Rlt_dec g b then 6 else 0)) \/
  (M - g <= e /\ m <> g /\ X = (b - r) / (M - m) + 2) \/
  (M - b <= e /\ m <> b /\ X = (r - g) / (M - m) + 4) ->
  0 <= X <= 6 /\
  Rabs (m + (M - m) * hue_red (X / 6) - r) <= e /\ Rabs (m + (M - m) * hue_green (X / 6) - g) <= e /\
  Rabs (m + (M - m) * hue_blue (X / 6) - b) <= e.
Proof.
  intros HR HG HB hr hg hb EM Em P E0 H.
  assert (D : 0 < M - m) by lra. set (d := M - m) in *.
  assert (Q : forall u v, m <= u <= M -> m <= v <= M -> exists x, (u - v) / d = x /\ d * x = u - v /\ -1 <= x <= 1 /\ (u < v -> x < 0) /\ (v <= u -> 0 <= x)).
  { intros u v Hu Hv. exists ((u - v) / d). split; [reflexivity|]. assert (A : d * ((u - v) / d) = u - v) by (field; lra).
    split; [exact A|]. set (x := (u - v) / d) in *. clearbody x. unfold d in *. repeat split; try intros; nra. }
  destruct H as [(A & B & C)|[(A & B & C)|(A & B & C)]].
  - destruct (Q g b) as (x & -> & Qx & Xb & Xn & Xp) in C; [lra|lra|].
    destruct (Rlt_dec g b) as [L|L].
    + specialize (Xn L). assert (m = g) by (destruct Em as [|[|]]; [congruence|auto|]; lra).
      replace (hue_red (X / 6)) with 1 by (subst X; hues). replace (hue_green (X / 6)) with 0 by (subst X; hues).
      replace (hue_blue (X / 6)) with (- x) by (subst X; hues).
      split; [subst X; lra|]. unfold d in *. three; apply Rabs_le_iff; lra.
    + specialize (Xp ltac:(lra)). assert (m = b) by (destruct Em as [|[|]]; [congruence| |auto]; lra).
      replace (hue_red (X / 6)) with 1 by (subst X; hues). replace (hue_green (X / 6)) with x by (subst X; hues).
      replace (hue_blue (X / 6)) with 0 by (subst X; hues).
      split; [subst X; lra|]. unfold d in *. three; apply Rabs_le_iff; lra.
  - destruct (Q b r) as (x & -> & Qx & Xb & Xn & Xp) in C; [lra|lra|].
    destruct (Rlt_dec b r) as [L|L].
    + specialize (Xn L). assert (m = b) by (destruct Em as [|[|]]; [|congruence|auto]; lra).
      replace (hue_red (X / 6)) with (- x) by (subst X; hues). replace (hue_green (X / 6)) with 1 by (subst X; hues).
      replace (hue_blue (X / 6)) with 0 by (subst X; hues).
      split; [subst X; lra|]. unfold d in *. three; apply Rabs_le_iff; lra.
    + specialize (Xp ltac:(lra)). assert (m = r) by (destruct Em as [|[|]]; [auto|congruence| ]; lra).
      replace (hue_red (X / 6)) with 0 by (subst X; hues). replace (hue_green (X / 6)) with 1 by (subst X; hues).
      replace (hue_blue (X / 6)) with x by (subst X; hues).
      split; [subst X; lra|]. unfold d in *. three; apply Rabs_le_iff; lra.
  - destruct (Q r g) as (x & -> & Qx & Xb & Xn & Xp) in C; [lra|lra|].
    destruct (Rlt_dec r g) as [L|L].
    + specialize (Xn L). assert (m = r) by (destruct Em as [|[|]]; [auto| |congruence]; lra).
      replace (hue_red (X / 6)) with 0 by (subst X; hues). replace (hue_green (X / 6)) with (- x) by (subst X; hues).
      replace (hue_blue (X / 6)) with 1 by (subst X; hues).
      split; [subst X; lra|]. unfold d in *. three; apply Rabs_le_iff; lra.
    + specialize (Xp ltac:(lra)). assert (m = g) by (destruct Em as [|[|]]; [ |auto|congruence]; lra).
      replace (hue_red (X / 6)) with x by (subst X; hues). replace (hue_green (X / 6)) with 0 by (subst X; hues).
      replace (hue_blue (X / 6)) with 1 by (subst X; hues).
      split; [subst X; lra|]. unfold d in *. three; apply Rabs_le_iff; lra.
Qed.

Lemma near_max mx x : num 0 1 mx -> num 0 1 x -> B2R x <= B2R mx ->
  (flt (fabs (fsub mx x)) EPSILON = true -> rnd (B2R mx - B2R x) < / 32768 /\ B2R mx - B2R x <= / 32768) /\
  (flt (fabs (fsub mx x)) EPSILON = false -> B2R x < B2R mx).
Proof.
  intros [F1 M] [F2 X] H. destruct (fsub_ok mx x 1) as [A B]; auto with fmt. { apply Rabs_le_iff. lra. }
  assert (P : 0 <= rnd (B2R mx - B2R x)) by (apply rnd_lo; auto with fmt; lra).
  assert (E : B2R (fabs (fsub mx x)) = rnd (B2R mx - B2R x)) by (rewrite fabs_R, B, Rabs_right; lra).
  split; intros T.
  - apply flt_R in T; [|now apply fabs_fin|reflexivity]. rewrite E, EPS_R in T. split; [exact T|].
    destruct (Rle_lt_dec (B2R mx - B2R x) (/ 32768)) as [L|L]; [exact L|].
    exfalso. assert (/ 32768 <= rnd (B2R mx - B2R x)) by (apply rnd_lo; [apply fmt_eps | lra]). lra.
  - apply flt_Rf in T; [|now apply fabs_fin|reflexivity]. rewrite E, EPS_R in T.
    destruct H as [H|H]; [exact H|]. exfalso. rewrite H, Rminus_diag_eq, rnd_0 in T by reflexivity. lra.
Qed.

Lemma rgb_to_hsl_meaning c : in_gamut c ->
  is_hsl (/ 32768 + / 524288) (B2R (d0 (rgb_to_hsl c))) (B2R (d1 (rgb_to_hsl c))) (B2R (d2 (rgb_to_hsl c))) c.
Proof.
  intros G. destruct (rgb_to_hsl_range c G) as (R0 & R1 & R2 & _).
  destruct G as (G0 & G1 & G2 & G3).
  apply in01_num in G0, G1, G2. apply in01_num in R0, R1, R2.
  destruct (rgb_max_val c G0 G1 G2) as (NM & M0 & M1 & M2 & MX).
  destruct (rgb_min_val c G0 G1 G2) as (Nm & m0 & m1 & m2 & MN).
  revert R0 R1 R2. unfold rgb_to_hsl. cbv zeta. set (mx := rgb_max c) in *. set (mn := rgb_min c) in *. clearbody mx mn.
  set (M := B2R mx) in *. set (m := B2R mn) in *. pose proof NM as [FM HM]. pose proof Nm as [Fm Hm]. fold M in HM. fold m in Hm.
  assert (LM : m <= M) by lra.
  set (r := B2R (d0 c)) in *. set (g := B2R (d1 c)) in *. set (b := B2R (d2 c)) in *.
  pose proof G0 as [F0 H0]. pose proof G1 as [F1 H1]. pose proof G2 as [F2 H2]. fold r in H0. fold g in H1. fold b in H2.
  assert (SUM : close U (M + m) (fadd mx mn)).
  { eapply close_weak; [apply (close_add 2 U 0 0 _ _ _ _ uo_2 (close_0 _ FM) (close_0 _ Fm))|lra]. fold M m. rewrite Rabs_right; lra. }
  assert (LI : close (3 / 2 * U) ((M + m) / 2) (fdiv (fadd mx mn) f2)).
  { eapply close_weak; [apply (close_div 2 U 2 1 _ 0 _ 2 _ _ uo_2 SUM)|].
    - eapply close_eq; [apply close_0; auto with fin | apply f2_R].
    - lra. - rewrite Rabs_right; lra. - rewrite Rabs_right; lra. - lra. - lra. }
  set (lh := fdiv (fadd mx mn) f2) in *. pose proof LI as [FL EL]. apply Rabs_le_iff in EL.
  destruct (fsub_ok mx mn 1) as [FD ED]; auto with fmt. { apply Rabs_le_iff. fold M m. lra. } fold M m in ED.
  pose proof (uo_err 1 (/ 33554432) (M - m) uo_1 ltac:(apply Rabs_le_iff; lra)) as ED'. rewrite <- ED in ED'. apply Rabs_le_iff in ED'.
  destruct (flt (fsub mx mn) EPSILON) eqn:Hd.
  - intros _ _ _. cbn [d0 d1 d2]. apply flt_R in Hd; [|exact FD|reflexivity]. rewrite EPS_R in Hd.
    unfold is_hsl, hsl_channel. rewrite f0_R, !Rmult_0_l, !Rplus_0_r. fold lh.
    three; (split; [assumption|]); fold r g b; apply Rabs_le_iff; lra.
  - apply flt_Rf in Hd; [|exact FD|reflexivity]. rewrite EPS_R in Hd. cbn [d0 d1 d2]. fold lh.
    assert (P : m < M).
    { destruct LM as [L|L]; [exact L|]. exfalso. rewrite ED, L, Rminus_diag_eq, rnd_0 in Hd by reflexivity. lra. }
    set (hue := if flt (fabs (fsub mx (d0 c))) EPSILON then _ else _). set (sat := if flt (dec 1 2) lh then _ else _).
    intros [_ R0] [FS R1] [_ R2].
    (* saturation *)
    assert (SA : Rabs (B2R sat * (1 - Rabs (2 * B2R lh - 1)) - (M - m)) <= 8 * U).
    { set (den := if flt (dec 1 2) lh then fsub (fsub f2 mx) mn else fadd mx mn).
      assert (SE : sat = fdiv (fsub mx mn) den) by (unfold sat, den; destruct (flt (dec 1 2) lh); reflexivity).
      assert (DEN : fin den /\ B2R (fsub mx mn) <= B2R den <= 2 /\ Rabs (B2R den - (1 - Rabs (2 * B2R lh - 1))) <= 5 * U).
      { unfold den. destruct (flt (dec 1 2) lh) eqn:HL.
        - apply flt_R in HL; auto with fin. rewrite half_R in HL.
          destruct (fsub_num f2 mx 1 2) as [[FA NA] EA]; auto with fin fmt. { rewrite f2_R. fold M. lra. }
          destruct (fsub_num (fsub f2 mx) mn 0 2) as [[FB NB] EB]; auto with fin fmt. { fold m. lra. }
          split; [exact FB|]. split.
          + split; [|lra]. rewrite ED, EB. apply rnd_le. fold m. lra.
          + rewrite f2_R in EA. fold M in EA. fold m in EB.
            pose proof (uo_err 2 U (2 - M) uo_2 ltac:(apply Rabs_le_iff; lra)) as Q1. rewrite <- EA in Q1.
            pose proof (uo_err 2 U (B2R (fsub f2 mx) - m) uo_2 ltac:(apply Rabs_le_iff; lra)) as Q2. rewrite <- EB in Q2.
            apply Rabs_le_iff in Q1, Q2. rewrite (Rabs_right (2 * B2R lh - 1)) by lra. apply Rabs_le_iff. lra.
        - apply flt_Rf in HL; auto with fin. rewrite half_R in HL.
          destruct (fadd_num mx mn 0 2) as [[FB NB] EB]; auto with fmt. { fold M m. lra. }
          split; [exact FB|]. split.
          + split; [|lra]. rewrite ED, EB. apply rnd_le. fold M m. lra.
          + destruct SUM as [_ Q]. apply Rabs_le_iff in Q. rewrite (Rabs_left1 (2 * B2R lh - 1)) by lra. apply Rabs_le_iff. lra. }
      destruct DEN as (Fd & Bd & Ed). set (A := 1 - Rabs (2 * B2R lh - 1)) in *.
      assert (D0 : 0 < B2R den) by lra.
      assert (QB : 0 <= B2R (fsub mx mn) / B2R den <= 1) by (apply div_01; lra).
      destruct (fdiv_ok (fsub mx mn) den 1) as [FQ EQ]; auto with fmt. { lra. } { apply Rabs_le_iff; lra. }
      rewrite <- SE in EQ.
      pose proof (uo_err 1 (/ 33554432) (B2R (fsub mx mn) / B2R den) uo_1 ltac:(apply Rabs_le_iff; lra)) as Q. rewrite <- EQ in Q.
      assert (Q' : Rabs ((B2R sat - B2R (fsub mx mn) / B2R den) * B2R den) <= / 33554432 * 2).
      { apply abs_mul_le; [exact Q | rewrite Rabs_right; lra]. }
      replace ((B2R sat - B2R (fsub mx mn) / B2R den) * B2R den) with (B2R sat * B2R den - B2R (fsub mx mn)) in Q' by (field; lra).
      assert (Q2 : Rabs (B2R sat * (B2R den - A)) <= 1 * (5 * U)) by (apply abs_mul_le; [rewrite Rabs_right; lra | exact Ed]).
      apply Rabs_le_iff in Q', Q2. apply Rabs_le_iff. lra. }
    (* hue *)
    assert (HU : exists X, Rabs (6 * B2R (fdiv hue (ofZ 6)) - X) <= 15 * U /\ 
      Rabs (m + (M - m) * hue_red (X / 6) - r) <= / 32768 /\ Rabs (m + (M - m) * hue_green (X / 6) - g) <= / 32768 /\
      Rabs (m + (M - m) * hue_blue (X / 6) - b) <= / 32768).
    { assert (S6 : close 0 6 (ofZ 6)) by (eapply close_eq; [apply close_0; auto with fin | apply six_R]).
      assert (DIV : forall X, 0 <= X <= 6 -> close (8 * U) X hue -> Rabs (6 * B2R (fdiv hue (ofZ 6)) - X) <= 15 * U).
      { intros X HX C.
        destruct (close_div 2 U 6 1 _ 0 _ 6 _ _ uo_2 C S6) as [_ Z]; try lra.
        - rewrite Rabs_right; lra. - rewrite Rabs_right; lra. - apply Rabs_le_iff in Z. apply Rabs_le_iff. lra. }
      assert (RA : forall x y, num 0 1 x -> num 0 1 y -> m <= B2R x <= M -> m <= B2R y <= M ->
        close (4 * U) ((B2R x - B2R y) / (M - m)) (fdiv (fsub x y) (fsub mx mn)) /\ Rabs ((B2R x - B2R y) / (M - m)) <= 1).
      { intros x y X Y BX BY. assert (Z : Rabs (B2R x - B2R y) <= M - m) by (apply Rabs_le_iff; lra).
        split; [apply ratio_close; auto; fold M m; lra|].
        unfold Rdiv. rewrite Rabs_mult, (Rabs_right (/ (M - m))) by (left; apply Rinv_0_lt_compat; lra).
        apply (Rmult_le_reg_r (M - m)); [lra|]. rewrite Rmult_assoc, Rinv_l by lra. lra. }
      assert (ADD : forall x k kf, Rabs x <= 1 -> fin kf -> B2R kf = k -> 0 <= k <= 6 -> forall xf, close (4 * U) x xf -> close (8 * U) (x + k) (fadd xf kf)).
      { intros x k kf X Fk Ek Kb xf C. eapply close_weak; [apply (close_add 8 (4 * U) _ 0 _ k _ _ ltac:(replace (4 * U) with (/ 4194304) by lra; apply uo_8) C)|].
        - eapply close_eq; [now apply close_0 | exact Ek].
        - apply Rabs_le_iff in X. unfold Rabs; destruct Rcase_abs; lra.
        - lra. }
      destruct (near_max mx (d0 c) NM G0 M0) as [T0 T0'].
      destruct (near_max mx (d1 c) NM G1 M1) as [T1 T1'].
      fold M m r g b in T0, T0', T1, T1', RA.
      assert (EPS0 : 0 <= / 32768) by lra.
      set (X := if flt (fabs (fsub mx (d0 c))) EPSILON then (g - b) / (M - m) + (if Rlt_dec g b then 6 else 0)
                else if flt (fabs (fsub mx (d1 c))) EPSILON then (b - r) / (M - m) + 2 else (r - g) / (M - m) + 4).
      exists X. 
      assert (S : (M - r <= / 32768 /\ m <> r /\ X = (g - b) / (M - m) + (if Rlt_dec g b then 6 else 0)) \/
        (M - g <= / 32768 /\ m <> g /\ X = (b - r) / (M - m) + 2) \/
        (M - b <= / 32768 /\ m <> b /\ X = (r - g) / (M - m) + 4)).
      { unfold X. destruct (flt (fabs (fsub mx (d0 c))) EPSILON).
        - left. destruct (T0 eq_refl) as [A B]. split; [exact B|]. split; [|reflexivity]. intros E. rewrite <- E, <- ED in A. lra.
        - right. destruct (flt (fabs (fsub mx (d1 c))) EPSILON).
          + left. destruct (T1 eq_refl) as [A B]. split; [exact B|]. split; [|reflexivity]. intros E. rewrite <- E, <- ED in A. lra.
          + right. specialize (T0' eq_refl). specialize (T1' eq_refl). assert (M = b) by (destruct MX as [|[|]]; lra).
            split; [lra|]. split; [lra|reflexivity]. }
      destruct (sector r g b M m X (/ 32768)) as (X06 & K0 & K1 & K2); auto.
      split; [|auto]. apply DIV; [exact X06|]. unfold X, hue.
      destruct (flt (fabs (fsub mx (d0 c))) EPSILON).
      - destruct (RA (d1 c) (d2 c)) as [A B]; auto.
        destruct (flt (d1 c) (d2 c)) eqn:GB.
        + apply flt_R in GB; auto. fold g b in GB. destruct Rlt_dec; [|lra]. (apply ADD; auto with fin; first [apply six_R | lra]).
        + apply flt_Rf in GB; auto. fold g b in GB. destruct Rlt_dec; [lra|]. (apply ADD; auto with fin; first [apply f0_R | lra]).
      - destruct (flt (fabs (fsub mx (d1 c))) EPSILON).
        + destruct (RA (d2 c) (d0 c)) as [A B]; auto. (apply ADD; auto with fin; first [apply f2_R | lra]).
        + destruct (RA (d0 c) (d1 c)) as [A B]; auto. (apply ADD; auto with fin; first [apply four_R | lra]). }
    destruct HU as (X & HX & KR & KG & KB).
    set (h := B2R (fdiv hue (ofZ 6))) in *. set (S := B2R sat * (1 - Rabs (2 * B2R lh - 1))) in *.
    assert (Z : forall K v x, hue_fun K -> fin v -> B2R v = x -> Rabs (m + (M - m) * K (X / 6) - x) <= / 32768 ->
      close (/ 32768 + / 524288) (hsl_channel (K h) (B2R sat) (B2R lh)) v).
    { intros K v x HK Fv Ev KX. split; [exact Fv|]. rewrite Ev. unfold hsl_channel. fold S.
      assert (L : Rabs (K h - K (X / 6)) <= 6 * (15 / 6 * U)).
      { apply hue_lip; auto. apply Rabs_le_iff in HX. apply Rabs_le_iff. lra. }
      pose proof (hue_01 K h HK) as K1.
      assert (L2 : Rabs ((M - m) * (K h - K (X / 6))) <= 1 * (6 * (15 / 6 * U))) by (apply abs_mul_le; [rewrite Rabs_right; lra | exact L]).
      assert (L3 : Rabs ((S - (M - m)) * (K h - / 2)) <= 8 * U * / 2) by (apply abs_mul_le; [exact SA | apply Rabs_le_iff; lra]).
      apply Rabs_le_iff in L2, L3, KX. apply Rabs_le_iff. lra. }
    three.
    + apply (Z hue_red (d0 c) r); auto. left; reflexivity.
    + apply (Z hue_green (d1 c) g); auto. right; left; reflexivity.
    + apply (Z hue_blue (d2 c) b); auto. right; right; reflexivity.
Qed.

Lemma hsl_round_trip c : in_gamut c ->
  channelwise (/ 32768 + / 131072) (fun v => v) c (hsl_to_rgb (rgb_to_hsl c)).
Proof.
  intros G. destruct (rgb_to_hsl_meaning c G) as (A & B & C).
  destruct (hsl_to_rgb_meaning (rgb_to_hsl c)) as [(A' & B' & C') D]; [exact (rgb_to_hsl_range c G)|].
  rewrite rgb_to_hsl_alpha in D.
  assert (T : forall r x y, close (/ 32768 + / 524288) r x -> close (/ 262144) r y -> close (/ 32768 + / 131072) (B2R x) y).
  { intros r x y [_ X] [F Y]. split; [exact F|]. apply Rabs_le_iff in X, Y. apply Rabs_le_iff. lra. }
  split; [exact (T _ _ _ A A')|]. split; [exact (T _ _ _ B B')|]. split; [exact (T _ _ _ C C') | exact D].
Qed.
