(** What the conversions to and from Lab compute, and the way there and back. *)
From Coq Require Import Reals Lra Lia ZArith Bool Psatz.
From Flocq Require Import Core.Core IEEE754.BinarySingleNaN.
From Verif Require Import F32 F32Lemmas Color ColorSpec ColorProofs MeaningSpec ConvSpec Approx OpMeaningProofs HslMeaning SrgbMeaning LinearConv LabCurve.
Open Scope R_scope.

(** [r] is the float for the white [w]. *)
Definition ref_ok (r : f32) (w : R) : Prop := fin r /\ 8 / 10 <= w <= 11 / 10 /\ Rabs (B2R r - w) <= U.
Lemma ref_1 : ref_ok f1 1.
Proof. split; [auto with fin|]. rewrite f1_R. split; [lra|]. apply Rabs_le_iff. lra. Qed.
Ltac ref_dec := lazymatch goal with |- ref_ok f1 _ => exact ref_1 | |- ref_ok ?r _ => let V := fresh in fval r V; split; [assumption|]; rewrite V; split; [lra|]; apply Rabs_le_iff; lra end.
Lemma refs_ok i o : let '(r0, r1, r2) := get_refs i o in let '(w0, w1, w2) := white i o in ref_ok r0 w0 /\ ref_ok r1 w1 /\ ref_ok r2 w2.
Proof. destruct i, o; cbn [get_refs white]; (split; [|split]); ref_dec. Qed.

Lemma ratio_val x r w : fin x -> ref_ok r w -> Rabs (B2R x) <= 3 ->
  fin (fdiv x r) /\ Rabs (B2R (fdiv x r) - B2R x / w) <= 4 * U * Rabs (B2R x / w) + T.
Proof.
  intros F (Fr & W & R) X. apply Rabs_le_iff in R.
  assert (I : 0 < / B2R r <= 10 / 7). { split; [apply Rinv_0_lt_compat; lra|]. rewrite <- (Rinv_inv (10 / 7)). apply Rinv_le_contravar; lra. }
  set (q := B2R x / w). assert (Q : B2R x = q * w) by (unfold q; field; lra).
  assert (E : B2R x / B2R r = q + q * ((w - B2R r) * / B2R r)) by (rewrite Q; field; lra).
  assert (K : Rabs (q * ((w - B2R r) * / B2R r)) <= Rabs q * (U * (10 / 7))).
  { apply abs_mul_le; [lra|]. apply abs_mul_le; apply Rabs_le_iff; lra. }
  assert (QB : Rabs q <= 4).
  { unfold q, Rdiv. replace 4 with (3 * (4 / 3)) by field. apply abs_mul_le; [exact X|]. rewrite Rabs_right by (left; apply Rinv_0_lt_compat; lra).
    rewrite <- (Rinv_inv (4 / 3)). apply Rinv_le_contravar; lra. }
  assert (B : Rabs (B2R x / B2R r) <= Rabs q * (1 + U * (10 / 7))). { rewrite E. eapply Rle_trans; [apply Rabs_triang|]. lra. }
  destruct (fdiv_ok x r 10000) as [FD D]; auto. { lra. } { apply (fmt_IZR 10000). lia. } { lra. }
  split; [exact FD|]. rewrite D. pose proof (rnd_rel_abs (B2R x / B2R r)) as RR. pose proof p140 as P. rewrite E in *.
  pose proof (Rabs_pos q) as QP. apply Rabs_le_iff in K, RR. apply Rabs_le_iff. lra.
Qed.
(** The curve of a ratio. *)
Lemma ratio_curve L x r w : accurate_powf L -> accurate_powf_above L -> fin x -> ref_ok r w -> - / 200 <= B2R x <= 2 ->
  fin (lab_f L (fdiv x r)) /\ Rabs (B2R (lab_f L (fdiv x r)) - lab_curve (B2R x / w)) <= 13 / 10000000 * lab_curve (B2R x / w) + 14 / 10000000.
Proof.
  intros AL AA F W X. destruct (ratio_val x r w F W ltac:(apply Rabs_le_iff; lra)) as [FD D]. destruct W as (_ & W & _).
  assert (I : 10 / 11 <= / w <= 10 / 8). { split; [rewrite <- (Rinv_inv (10 / 11)) | rewrite <- (Rinv_inv (10 / 8))]; apply Rinv_le_contravar; lra. }
  assert (Q : - / 160 <= B2R x / w <= 5 / 2) by (unfold Rdiv; nra). set (q := B2R x / w) in *. clearbody q.
  assert (QA : Rabs q <= 5 / 2) by (apply Rabs_le_iff; lra).
  assert (B : - / 100 <= B2R (fdiv x r) <= 4) by (apply Rabs_le_iff in D; lra).
  destruct (lab_f_close L (fdiv x r) AL AA FD B) as [FL E]. split; [exact FL|].
  pose proof (curve_rel_T (B2R (fdiv x r)) q (4 * U) B ltac:(lra) ltac:(lra) D) as K.
  apply Rabs_le_iff in K, E. apply Rabs_le_iff. lra.
Qed.
(** From three values of the curve to Lab. *)
Definition lab_channels (c : col) (fx fy fz : R) (e : R) : Prop :=
  (fin (d0 c) /\ Rabs (B2R (d0 c) - (116 * fy - 16) / 100) <= 116 / 100 * e + / 3000000) /\
  (fin (d1 c) /\ Rabs (B2R (d1 c) - 500 * (fx - fy) / 128) <= 1000 / 128 * e + / 900000) /\
  (fin (d2 c) /\ Rabs (B2R (d2 c) - 200 * (fy - fz) / 128) <= 400 / 128 * e + / 2000000).
Lemma lab_assemble gx gy gz fx fy fz e a : fin gx -> fin gy -> fin gz -> 0 <= e <= / 1000 ->
  Rabs (B2R gx - fx) <= e -> Rabs (B2R gy - fy) <= e -> Rabs (B2R gz - fz) <= e ->
  0 <= fx <= 14 / 10 -> 0 <= fy <= 14 / 10 -> 0 <= fz <= 14 / 10 ->
  lab_channels (mkC (fdiv (fsub (fmul (ofZ 116) gy) (ofZ 16)) (ofZ 100)) (fdiv (fmul (ofZ 500) (fsub gx gy)) (ofZ 128)) (fdiv (fmul (ofZ 200) (fsub gy gz)) (ofZ 128)) a) fx fy fz e.
Proof.
  intros Fx Fy Fz E X Y Z BX BY BZ. apply Rabs_le_iff in X, Y, Z.
  pose proof (ofZ_val 116) as [F116 E116]; [lia|]. pose proof (ofZ_val 16) as [F16 E16]; [lia|]. pose proof (ofZ_val 100) as [F100 E100]; [lia|].
  pose proof (ofZ_val 500) as [F500 E500]; [lia|]. pose proof (ofZ_val 128) as [F128 E128]; [lia|]. pose proof (ofZ_val 200) as [F200 E200]; [lia|].
  unfold lab_channels. cbn [d0 d1 d2]. split; [|split].
  - destruct (mul_val (ofZ 116) gy 163) as [FM M]; auto; try lra. { rewrite E116. apply Rabs_le_iff. lra. } rewrite E116 in M. apply Rabs_le_iff in M.
    destruct (sub_val (fmul (ofZ 116) gy) (ofZ 16) 164) as [FS S]; auto; try lra. { rewrite E16. apply Rabs_le_iff. lra. } rewrite E16 in S. apply Rabs_le_iff in S.
    destruct (div_val (fsub (fmul (ofZ 116) gy) (ofZ 16)) (ofZ 100) 2) as [FD D]; auto; try lra. { rewrite E100. apply Rabs_le_iff. lra. } rewrite E100 in D. apply Rabs_le_iff in D.
    split; [exact FD|]. apply Rabs_le_iff. lra.
  - destruct (sub_val gx gy (15 / 10)) as [FS S]; auto; try lra. { apply Rabs_le_iff. lra. } apply Rabs_le_iff in S.
    destruct (mul_val (ofZ 500) (fsub gx gy) 760) as [FM M]; auto; try lra. { rewrite E500. apply Rabs_le_iff. lra. } rewrite E500 in M. apply Rabs_le_iff in M.
    destruct (div_val (fmul (ofZ 500) (fsub gx gy)) (ofZ 128) 6) as [FD D]; auto; try lra. { rewrite E128. apply Rabs_le_iff. lra. } rewrite E128 in D. apply Rabs_le_iff in D.
    split; [exact FD|]. apply Rabs_le_iff. lra.
  - destruct (sub_val gy gz (15 / 10)) as [FS S]; auto; try lra. { apply Rabs_le_iff. lra. } apply Rabs_le_iff in S.
    destruct (mul_val (ofZ 200) (fsub gy gz) 310) as [FM M]; auto; try lra. { rewrite E200. apply Rabs_le_iff. lra. } rewrite E200 in M. apply Rabs_le_iff in M.
    destruct (div_val (fmul (ofZ 200) (fsub gy gz)) (ofZ 128) 3) as [FD D]; auto; try lra. { rewrite E128. apply Rabs_le_iff. lra. } rewrite E128 in D. apply Rabs_le_iff in D.
    split; [exact FD|]. apply Rabs_le_iff. lra.
Qed.
Lemma ratio_range x w : 8 / 10 <= w <= 11 / 10 -> - / 200 <= x <= 2 -> - / 160 <= x / w <= 5 / 2.
Proof.
  intros W X. assert (I : 10 / 11 <= / w <= 10 / 8). { split; [rewrite <- (Rinv_inv (10 / 11)) | rewrite <- (Rinv_inv (10 / 8))]; apply Rinv_le_contravar; lra. }
  unfold Rdiv. nra.
Qed.
Lemma ratio_pos x w : 8 / 10 <= w <= 11 / 10 -> - / 200 <= x <= 2 -> 6 / 100 <= lab_curve (x / w).
Proof. intros W X. apply curve_pos. pose proof (ratio_range x w W X). lra. Qed.
Lemma to_lab_val L i o c C : accurate_powf L -> accurate_powf_above L -> xyz_range c -> 0 <= C <= 14 / 10 ->
  let '(w0, w1, w2) := white i o in let fx := lab_curve (B2R (d0 c) / w0) in let fy := lab_curve (B2R (d1 c) / w1) in let fz := lab_curve (B2R (d2 c) / w2) in
  fx <= C -> fy <= C -> fz <= C ->
  lab_channels (xyz_to_lab L i o c) fx fy fz (13 / 10000000 * C + 14 / 10000000).
Proof.
  intros AL AA ((F0 & F1 & F2) & X & Y & Z) HC. pose proof (refs_ok i o) as R. unfold xyz_to_lab.
  destruct (get_refs i o) as [[r0 r1] r2], (white i o) as [[w0 w1] w2]. destruct R as (R0 & R1 & R2).
  destruct (ratio_curve L _ _ _ AL AA F0 R0 X) as [G0 E0]. destruct (ratio_curve L _ _ _ AL AA F1 R1 Y) as [G1 E1]. destruct (ratio_curve L _ _ _ AL AA F2 R2 Z) as [G2 E2].
  destruct R0 as (_ & W0 & _), R1 as (_ & W1 & _), R2 as (_ & W2 & _).
  pose proof (ratio_pos _ _ W0 X) as P0.
  pose proof (ratio_pos _ _ W1 Y) as P1.
  pose proof (ratio_pos _ _ W2 Z) as P2.
  intros C0 C1 C2. set (fx := lab_curve (B2R (d0 c) / w0)) in *. set (fy := lab_curve (B2R (d1 c) / w1)) in *. set (fz := lab_curve (B2R (d2 c) / w2)) in *. clearbody fx fy fz.
  apply lab_assemble; auto; lra.
Qed.
Lemma curve_bound x w : 8 / 10 <= w <= 11 / 10 -> - / 200 <= x <= 2 -> lab_curve (x / w) <= 14 / 10.
Proof. intros W X. pose proof (ratio_range x w W X). apply curve_le; lra. Qed.
Lemma white_range i o : let '(w0, w1, w2) := white i o in 8 / 10 <= w0 <= 11 / 10 /\ 8 / 10 <= w1 <= 11 / 10 /\ 8 / 10 <= w2 <= 11 / 10.
Proof. destruct i, o; cbn [white]; lra. Qed.
Lemma lab_meaning L i o c : accurate_powf L -> accurate_powf_above L -> xyz_range c ->
  let '(w0, w1, w2) := white i o in let x := B2R (d0 c) / w0 in let y := B2R (d1 c) / w1 in let z := B2R (d2 c) / w2 in let lab := xyz_to_lab L i o c in
  close (/ 131072) (lab_l y) (d0 lab) /\ close (/ 32768) (lab_a x y) (d1 lab) /\ close (/ 65536) (lab_b y z) (d2 lab) /\ d3 lab = d3 c.
Proof.
  intros AL AA X. pose proof (to_lab_val L i o c (14 / 10) AL AA X ltac:(lra)) as H. pose proof (white_range i o) as W.
  assert (A : d3 (xyz_to_lab L i o c) = d3 c) by (unfold xyz_to_lab; destruct (get_refs i o) as [[? ?] ?]; reflexivity).
  destruct (white i o) as [[w0 w1] w2]. destruct W as (W0 & W1 & W2). destruct X as (_ & X & Y & Z).
  specialize (H (curve_bound _ _ W0 X) (curve_bound _ _ W1 Y) (curve_bound _ _ W2 Z)). destruct H as ((FA & EA) & (FB & EB) & (FC & EC)).
  unfold lab_l, lab_a, lab_b, close. cbv zeta. split; [|split; [|split; [|exact A]]]; (split; [assumption|lra]).
Qed.

(** ** From Lab to XYZ *)
Definition arg_y (c : col) : R := (100 * B2R (d0 c) + 16) / 116.
Definition arg_x (c : col) : R := 128 * B2R (d1 c) / 500 + arg_y c.
Definition arg_z (c : col) : R := arg_y c - 128 * B2R (d2 c) / 200.
Lemma args_val c : lab_range c ->
  let ry := fdiv (fadd (fmul (d0 c) (ofZ 100)) (ofZ 16)) (ofZ 116) in
  let rx := fadd (fdiv (fmul (d1 c) (ofZ 128)) (ofZ 500)) ry in
  let rz := fsub ry (fdiv (fmul (d2 c) (ofZ 128)) (ofZ 200)) in
  (fin rx /\ Rabs (B2R rx - arg_x c) <= / 1200000) /\ (fin ry /\ Rabs (B2R ry - arg_y c) <= / 1200000) /\ (fin rz /\ Rabs (B2R rz - arg_z c) <= / 1200000).
Proof.
  intros ((F0 & F1 & F2) & X & Y & Z). cbv zeta. unfold arg_x, arg_z, arg_y.
  pose proof (ofZ_val 116) as [F116 E116]; [lia|]. pose proof (ofZ_val 16) as [F16 E16]; [lia|]. pose proof (ofZ_val 100) as [F100 E100]; [lia|].
  pose proof (ofZ_val 500) as [F500 E500]; [lia|]. pose proof (ofZ_val 128) as [F128 E128]; [lia|]. pose proof (ofZ_val 200) as [F200 E200]; [lia|].
  destruct (mul_val (d0 c) (ofZ 100) 150) as [FM M]; auto; try lra. { rewrite E100. apply Rabs_le_iff. lra. } rewrite E100 in M. apply Rabs_le_iff in M.
  destruct (add_val (fmul (d0 c) (ofZ 100)) (ofZ 16) 167) as [FA A]; auto; try lra. { rewrite E16. apply Rabs_le_iff. lra. } rewrite E16 in A. apply Rabs_le_iff in A.
  destruct (div_val (fadd (fmul (d0 c) (ofZ 100)) (ofZ 16)) (ofZ 116) (3 / 2)) as [FD D]; auto; try lra. { rewrite E116. apply Rabs_le_iff. lra. } rewrite E116 in D. apply Rabs_le_iff in D.
  set (ry := fdiv (fadd (fmul (d0 c) (ofZ 100)) (ofZ 16)) (ofZ 116)) in *.
  destruct (mul_val (d1 c) (ofZ 128) 640) as [FN N]; auto; try lra. { rewrite E128. apply Rabs_le_iff. lra. } rewrite E128 in N. apply Rabs_le_iff in N.
  destruct (div_val (fmul (d1 c) (ofZ 128)) (ofZ 500) (13 / 10)) as [FP P]; auto; try lra. { rewrite E500. apply Rabs_le_iff. lra. } rewrite E500 in P. apply Rabs_le_iff in P.
  destruct (add_val (fdiv (fmul (d1 c) (ofZ 128)) (ofZ 500)) ry 3) as [FQ Q]; auto; try lra. { apply Rabs_le_iff. lra. } apply Rabs_le_iff in Q.
  destruct (mul_val (d2 c) (ofZ 128) 256) as [FN' N']; auto; try lra. { rewrite E128. apply Rabs_le_iff. lra. } rewrite E128 in N'. apply Rabs_le_iff in N'.
  destruct (div_val (fmul (d2 c) (ofZ 128)) (ofZ 200) (13 / 10)) as [FP' P']; auto; try lra. { rewrite E200. apply Rabs_le_iff. lra. } rewrite E200 in P'. apply Rabs_le_iff in P'.
  destruct (sub_val ry (fdiv (fmul (d2 c) (ofZ 128)) (ofZ 200)) 3) as [FQ' Q']; auto; try lra. { apply Rabs_le_iff. lra. } apply Rabs_le_iff in Q'.
  split; [|split]; (split; [assumption|]; apply Rabs_le_iff; lra).
Qed.
Lemma uncurve_bound M t : 1 <= M -> Rabs t <= M -> Rabs (lab_uncurve t) <= M * M * M.
Proof.
  intros HM H. apply Rabs_le_iff in H. assert (M2 : 1 <= M * M) by nra. assert (M3 : M <= M * M * M) by nra. unfold lab_uncurve. apply Rabs_le_iff.
  destruct Rle_dec as [L|L]; [lra|]. apply Rnot_le_lt in L. assert (0 <= t ^ 3) by (apply pow_le; lra).
  assert (t ^ 3 <= M ^ 3) by (apply pow_incr; lra). cbn [pow] in *. lra.
Qed.
Lemma back_channel L t t0 r w M d : accurate_powf L -> accurate_powf_above L -> fin t -> ref_ok r w -> 1 <= M <= 3 ->
  Rabs (B2R t - t0) <= d -> - 2 <= B2R t -> Rabs (B2R t) <= M -> Rabs t0 <= M ->
  fin (fmul (lab_finv L t) r) /\ Rabs (B2R (fmul (lab_finv L t) r) - w * lab_uncurve t0) <= 34 / 10 * (M * M) * d + 2 / 1000000 * (M * M * M).
Proof.
  intros AL AA F (Fr & W & R) HM D T2 TM T0. pose proof (uncurve_bound M (B2R t) ltac:(lra) TM) as UB.
  pose proof (uncurve_bound M t0 ltac:(lra) T0) as UB0. pose proof TM as TM'. apply Rabs_le_iff in TM', T0.
  destruct (lab_finv_close L t AL AA F ltac:(lra)) as [FI EI].
  pose proof (uncurve_lip M (B2R t) t0 ltac:(lra) ltac:(lra) ltac:(lra)) as LI.
  assert (M1 : 1 <= M * M <= 9) by nra. assert (M2 : 1 <= M * M * M <= 27) by (split; [|replace 27 with (9 * 3) by lra; apply Rmult_le_compat; lra]; replace 1 with (1 * 1) by lra; apply Rmult_le_compat; lra). set (m2 := M * M) in *. set (m3 := m2 * M) in *.
  replace (3 * M * M) with (3 * m2) in LI by (unfold m2; ring).
  assert (LI' : 3 * m2 * Rabs (B2R t - t0) <= 3 * m2 * d) by (apply Rmult_le_compat_l; lra).
  assert (DP : 0 <= d) by (pose proof (Rabs_pos (B2R t - t0)); lra). assert (MD : 0 <= m2 * d) by (apply Rmult_le_pos; lra).
  set (v := lab_uncurve t0) in *. set (u := lab_uncurve (B2R t)) in *. set (g := B2R (lab_finv L t)) in *.
  assert (K : Rabs (g - v) <= 3 * (m2 * d) + / 1000000 * m3 + 9 / 40000000).
  { apply Rabs_le_iff in EI, LI. apply Rabs_le_iff. lra. }
  assert (GB : Rabs g <= m3 * (1001 / 1000)). { pose proof UB as UB1. apply Rabs_le_iff in EI, UB1. apply Rabs_le_iff. lra. }
  apply Rabs_le_iff in R.
  assert (P1 : Rabs (g * (B2R r - w)) <= m3 * (1001 / 1000) * U) by (apply abs_mul_le; [exact GB | apply Rabs_le_iff; lra]).
  assert (P2 : Rabs ((g - v) * w) <= (3 * (m2 * d) + / 1000000 * m3 + 9 / 40000000) * (11 / 10)) by (apply abs_mul_le; [exact K | apply Rabs_le_iff; lra]).
  assert (P3 : Rabs (g * B2R r) <= m3 * (1001 / 1000) * (1101 / 1000)) by (apply abs_mul_le; [exact GB | apply Rabs_le_iff; lra]).
  destruct (mul_val (lab_finv L t) r (m3 * (1001 / 1000) * (1101 / 1000))) as [FM E]; auto; try lra. split; [exact FM|]. fold g in E.
  apply Rabs_le_iff in P1, P2, E. apply Rabs_le_iff. lra.
Qed.
Lemma from_lab L i o c M : accurate_powf L -> accurate_powf_above L -> lab_range c -> 1 <= M <= 3 ->
  Rabs (arg_x c) <= M - / 1200000 -> Rabs (arg_y c) <= M - / 1200000 -> Rabs (arg_z c) <= M - / 1200000 ->
  let '(w0, w1, w2) := white i o in let x := lab_to_xyz L i o c in let e := 34 / 10 * (M * M) * / 1200000 + 2 / 1000000 * (M * M * M) in
  (fin (d0 x) /\ Rabs (B2R (d0 x) - w0 * lab_uncurve (arg_x c)) <= e) /\
  (fin (d1 x) /\ Rabs (B2R (d1 x) - w1 * lab_uncurve (arg_y c)) <= e) /\
  (fin (d2 x) /\ Rabs (B2R (d2 x) - w2 * lab_uncurve (arg_z c)) <= e).
Proof.
  intros AL AA R HM X Y Z. destruct (args_val c R) as ((Fx & Ex) & (Fy & Ey) & (Fz & Ez)).
  assert (B : - 2 < arg_x c /\ - 2 < arg_y c /\ - 19 / 10 <= arg_z c). { destruct R as (_ & A0 & A1 & A2). unfold arg_x, arg_z, arg_y. lra. }
  pose proof (refs_ok i o) as W. unfold lab_to_xyz. destruct (get_refs i o) as [[r0 r1] r2], (white i o) as [[w0 w1] w2]. destruct W as (W0 & W1 & W2).
  cbv zeta. cbn [d0 d1 d2].
  assert (B3 : - 199 / 100 < arg_x c). { destruct R as (_ & A0 & A1 & A2). unfold arg_x, arg_y. lra. }
  assert (B4 : - 199 / 100 < arg_y c). { destruct R as (_ & A0 & A1 & A2). unfold arg_y. lra. }
  apply Rabs_le_iff in X, Y, Z. pose proof Ex as Ex'. pose proof Ey as Ey'. pose proof Ez as Ez'. apply Rabs_le_iff in Ex', Ey', Ez'.
  split; [|split]; apply back_channel; auto; try lra; try (apply Rabs_le_iff; lra).
Qed.
Lemma xyz_of_lab L i o c : accurate_powf L -> accurate_powf_above L -> lab_range c ->
  let '(w0, w1, w2) := white i o in
  let y := (100 * B2R (d0 c) + 16) / 116 in let x := y + 128 * B2R (d1 c) / 500 in let z := y - 128 * B2R (d2 c) / 200 in
  let o := lab_to_xyz L i o c in
  colour_close (/ 8192) (w0 * lab_uncurve x) (w1 * lab_uncurve y) (w2 * lab_uncurve z) o /\ d3 o = d3 c.
Proof.
  intros AL AA R. pose proof (from_lab L i o c (275 / 100) AL AA R ltac:(lra)) as H.
  assert (A : d3 (lab_to_xyz L i o c) = d3 c) by (unfold lab_to_xyz; destruct (get_refs i o) as [[? ?] ?]; reflexivity).
  destruct R as (_ & A0 & A1 & A2). unfold arg_x, arg_z, arg_y in H.
  specialize (H ltac:(apply Rabs_le_iff; lra) ltac:(apply Rabs_le_iff; lra) ltac:(apply Rabs_le_iff; lra)).
  destruct (white i o) as [[w0 w1] w2]. cbv zeta in *. destruct H as ((F0 & E0) & (F1 & E1) & (F2 & E2)).
  rewrite (Rplus_comm (128 * B2R (d1 c) / 500)) in E0.
  split; [|exact A]. unfold colour_close, close. split; [|split]; (split; [assumption|lra]).
Qed.
(** ** From XYZ to Lab, a small change, and back *)
Lemma lab_and_back L i o c lab p : accurate_powf L -> accurate_powf_above L -> xyz_range c -> 0 <= p <= / 50000 ->
  (let '(w0, w1, w2) := white i o in B2R (d0 c) / w0 <= 14 / 10 /\ B2R (d1 c) / w1 <= 14 / 10 /\ B2R (d2 c) / w2 <= 14 / 10) ->
  let lab0 := xyz_to_lab L i o c in
  (fin (d0 lab) /\ fin (d1 lab) /\ fin (d2 lab)) -> B2R (d0 lab) = B2R (d0 lab0) -> Rabs (B2R (d1 lab) - B2R (d1 lab0)) <= p -> Rabs (B2R (d2 lab) - B2R (d2 lab0)) <= p ->
  let x := lab_to_xyz L i o lab in
  close (46 / 1000000 + 12 / 10 * p) (B2R (d0 c)) (d0 x) /\ close (21 / 1000000) (B2R (d1 c)) (d1 x) /\ close (46 / 1000000 + 29 / 10 * p) (B2R (d2 c)) (d2 x).
Proof.
  intros AL AA X HP HR lab0 FL E0 E1 E2. pose proof (to_lab_val L i o c (112 / 100) AL AA X ltac:(lra)) as H. fold lab0 in H.
  pose proof (fun R => from_lab L i o lab (1125 / 1000) AL AA R ltac:(lra)) as G.
  pose proof (white_range i o) as W. destruct (white i o) as [[w0 w1] w2]. destruct W as (W0 & W1 & W2). destruct X as (_ & X & Y & Z).
  destruct HR as (H0 & H1 & H2).
  pose proof (ratio_pos _ _ W0 X) as P0. pose proof (ratio_pos _ _ W1 Y) as P1. pose proof (ratio_pos _ _ W2 Z) as P2.
  pose proof (ratio_range _ _ W0 X) as Q0. pose proof (ratio_range _ _ W1 Y) as Q1. pose proof (ratio_range _ _ W2 Z) as Q2.
  pose proof (uncurve_curve (B2R (d0 c) / w0) ltac:(lra)) as K0. pose proof (uncurve_curve (B2R (d1 c) / w1) ltac:(lra)) as K1. pose proof (uncurve_curve (B2R (d2 c) / w2) ltac:(lra)) as K2.
  assert (C0 : lab_curve (B2R (d0 c) / w0) <= 112 / 100) by (apply curve_le; lra).
  assert (C1 : lab_curve (B2R (d1 c) / w1) <= 112 / 100) by (apply curve_le; lra).
  assert (C2 : lab_curve (B2R (d2 c) / w2) <= 112 / 100) by (apply curve_le; lra).
  assert (V0 : B2R (d0 c) = w0 * (B2R (d0 c) / w0)) by (field; lra). assert (V1 : B2R (d1 c) = w1 * (B2R (d1 c) / w1)) by (field; lra). assert (V2 : B2R (d2 c) = w2 * (B2R (d2 c) / w2)) by (field; lra).
  cbv zeta in H. specialize (H C0 C1 C2). destruct H as ((_ & A0) & (_ & A1) & (_ & A2)).
  set (vx := B2R (d0 c) / w0) in *. set (vy := B2R (d1 c) / w1) in *. set (vz := B2R (d2 c) / w2) in *. clearbody vx vy vz.
  set (fx := lab_curve vx) in *. set (fy := lab_curve vy) in *. set (fz := lab_curve vz) in *. clearbody fx fy fz.
  rewrite <- E0 in A0. apply Rabs_le_iff in A0, A1, A2, E1, E2.
  assert (DY : Rabs (arg_y lab - fy) <= 32 / 10000000) by (unfold arg_y; apply Rabs_le_iff; lra).
  assert (DX : Rabs (arg_x lab - fx) <= 93 / 10000000 + 256 / 1000 * p) by (unfold arg_x, arg_y; apply Rabs_le_iff; lra).
  assert (DZ : Rabs (arg_z lab - fz) <= 93 / 10000000 + 64 / 100 * p) by (unfold arg_z, arg_y; apply Rabs_le_iff; lra).
  pose proof (proj1 (Rabs_le_iff _ _) DX) as DX'. pose proof (proj1 (Rabs_le_iff _ _) DY) as DY'. pose proof (proj1 (Rabs_le_iff _ _) DZ) as DZ'.
  assert (LR : lab_range lab). { split; [exact FL|]. lra. }
  specialize (G LR ltac:(apply Rabs_le_iff; lra) ltac:(apply Rabs_le_iff; lra) ltac:(apply Rabs_le_iff; lra)).
  cbv zeta in G. destruct G as ((G0 & B0) & (G1 & B1) & (G2 & B2)).
  pose proof (uncurve_lip (1125 / 1000) (arg_x lab) fx ltac:(lra) ltac:(lra) ltac:(lra)) as L0.
  pose proof (uncurve_lip (1125 / 1000) (arg_y lab) fy ltac:(lra) ltac:(lra) ltac:(lra)) as L1.
  pose proof (uncurve_lip (1125 / 1000) (arg_z lab) fz ltac:(lra) ltac:(lra) ltac:(lra)) as L2.
  assert (S : forall w u v f d k b, 8 / 10 <= w <= 11 / 10 -> Rabs (b - w * u) <= k -> Rabs (u - f) <= d -> Rabs (f - v) <= / 10000000 -> Rabs (b - w * v) <= k + 11 / 10 * (d + / 10000000)).
  { clear. intros w u v f d k b W B D V. replace (b - w * v) with ((b - w * u) + w * (u - v)) by ring. eapply Rle_trans; [apply Rabs_triang|].
    assert (Rabs (w * (u - v)) <= 11 / 10 * (d + / 10000000)); [|lra]. apply abs_mul_le; [apply Rabs_le_iff; lra|]. apply Rabs_le_iff in D, V. apply Rabs_le_iff. lra. }
  pose proof (S _ _ _ _ _ _ _ W0 B0 L0 K0) as R0. pose proof (S _ _ _ _ _ _ _ W1 B1 L1 K1) as R1. pose proof (S _ _ _ _ _ _ _ W2 B2 L2 K2) as R2.
  rewrite <- V0 in R0. rewrite <- V1 in R1. rewrite <- V2 in R2. unfold close.
  split; [|split]; (split; [assumption|lra]).
Qed.
(** ** From RGB to Lab and back *)
Lemma gamut_xyz c : in_gamut c -> let x := apply_matrix c RGB_TO_XYZ in xyz_range x /\
  forall i o, let '(w0, w1, w2) := white i o in B2R (d0 x) / w0 <= 135 / 100 /\ B2R (d1 x) / w1 <= 135 / 100 /\ B2R (d2 x) / w2 <= 135 / 100.
Proof.
  intros G x. pose proof (in_gamut_to c G) as TC. destruct (xyz_rows c TC) as ([Fx X] & [Fy Y] & [Fz Z]). fold x in Fx, X, Fy, Y, Fz, Z.
  destruct G as (A & B & C & _). apply in01_R in A, B, C. destruct A as [FA A], B as [FB B], C as [FC C]. unfold x_of, y_of, z_of in *.
  apply Rabs_le_iff in X, Y, Z. split; [split; [auto|lra]|]. intros i o. destruct i, o; cbn [white]; lra.
Qed.
Lemma rgb_near c x ex ey ez : in_gamut c -> let x0 := apply_matrix c RGB_TO_XYZ in
  close ex (B2R (d0 x0)) (d0 x) -> close ey (B2R (d1 x0)) (d1 x) -> close ez (B2R (d2 x0)) (d2 x) -> 0 <= ex <= / 1000 -> 0 <= ey <= / 1000 -> 0 <= ez <= / 1000 ->
  close (3241 / 1000 * ex + 1538 / 1000 * ey + 499 / 1000 * ez + / 100000) (B2R (d0 c)) (d0 (xyz_to_rgb x)) /\
  close (97 / 100 * ex + 188 / 100 * ey + 5 / 100 * ez + / 100000) (B2R (d1 c)) (d1 (xyz_to_rgb x)) /\
  close (6 / 100 * ex + 205 / 1000 * ey + 1058 / 1000 * ez + / 100000) (B2R (d2 c)) (d2 (xyz_to_rgb x)).
Proof.
  intros G x0 [F0 E0] [F1 E1] [F2 E2] H0 H1 H2. pose proof (in_gamut_to c G) as TC. destruct (xyz_rows c TC) as ([Fx X] & [Fy Y] & [Fz Z]). fold x0 in X, Y, Z.
  destruct G as (A & B & C & _). apply in01_R in A, B, C. destruct A as [FA A], B as [FB B], C as [FC C]. unfold x_of, y_of, z_of in *.
  apply Rabs_le_iff in X, Y, Z, E0, E1, E2.
  assert (Tx : channels_to (11 / 10) x). { unfold channels_to. repeat split; auto; apply Rabs_le_iff; lra. }
  destruct (rgb_rows (11 / 10) x ltac:(lra) Tx) as ([FP P] & [FQ Q] & [FS S]). unfold xyz_red, xyz_green, xyz_blue in *.
  unfold xyz_to_rgb. cbn [apply_matrix_clamped XYZ_TO_RGB d0 d1 d2 d3]. apply Rabs_le_iff in P, Q, S.
  split; [|split].
  - rewrite <- (limited_id (B2R (d0 c))) by lra. apply close_clamp. split; [exact FP|]. apply Rabs_le_iff. lra.
  - rewrite <- (limited_id (B2R (d1 c))) by lra. apply close_clamp. split; [exact FQ|]. apply Rabs_le_iff. lra.
  - rewrite <- (limited_id (B2R (d2 c))) by lra. apply close_clamp. split; [exact FS|]. apply Rabs_le_iff. lra.
Qed.
Lemma lab_alpha L i o c : d3 (xyz_to_lab L i o c) = d3 c /\ d3 (lab_to_xyz L i o c) = d3 c.
Proof. unfold xyz_to_lab, lab_to_xyz. destruct (get_refs i o) as [[? ?] ?]. split; reflexivity. Qed.
Lemma rgb_lab_rgb L i o c : accurate_powf L -> accurate_powf_above L -> in_gamut c ->
  channelwise (/ 4096) (fun v => v) c (xyz_to_rgb (lab_to_xyz L i o (xyz_to_lab L i o (apply_matrix c RGB_TO_XYZ)))).
Proof.
  intros AL AA G. destruct (gamut_xyz c G) as [XR WR]. specialize (WR i o). set (x := apply_matrix c RGB_TO_XYZ) in *.
  assert (FL : let lab := xyz_to_lab L i o x in fin (d0 lab) /\ fin (d1 lab) /\ fin (d2 lab)).
  { pose proof (lab_meaning L i o x AL AA XR) as H. destruct (white i o) as [[w0 w1] w2]. destruct H as ((A & _) & (B & _) & (C & _) & _). auto. }
  destruct (lab_and_back L i o x (xyz_to_lab L i o x) 0 AL AA XR ltac:(lra)) as (E0 & E1 & E2); auto.
  { destruct (white i o) as [[w0 w1] w2]. lra. } { rewrite Rminus_diag_eq by reflexivity. rewrite Rabs_R0. lra. } { rewrite Rminus_diag_eq by reflexivity. rewrite Rabs_R0. lra. }
  destruct (rgb_near c _ _ _ _ G E0 E1 E2) as (R0 & R1 & R2); try lra.
  unfold channelwise. split; [|split; [|split]]; try (eapply close_weak; [eassumption|lra]).
  change (d3 (lab_to_xyz L i o (xyz_to_lab L i o x)) = d3 x). now rewrite !(proj2 (lab_alpha _ _ _ _)), (proj1 (lab_alpha _ _ _ _)).
Qed.
