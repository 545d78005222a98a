(** Proofs for C104: resizing interpolates. *)
From Coq Require Import Reals Lra Lia ZArith Bool Psatz List.
From Flocq Require Import Core.Core IEEE754.BinarySingleNaN.
From Verif Require Import Base BaseLemmas PixelBuffer BufferSpec PixelBufferProofs F32 F32Lemmas Color ColorSpec ColorProofs MeaningSpec Approx OpMeaningProofs Resample ResampleProofs Resample2Proofs ResampleSpec InterpProofs.
Import ListNotations.
Open Scope R_scope.

Lemma Rabs_lt_iff a b : Rabs a < b <-> - b < a < b.
Proof. split; [intros H; apply Rabs_def2 in H; lra|intros []; now apply Rabs_def1]. Qed.
Lemma edge_read m b x y : valid b -> nonempty b -> get_pixel_clamped m b x y = Ok (edge_pixel b x y).
Proof.
  intros V N. rewrite get_pixel_clamped_eq by auto. destruct N as [Nw Nh]. pose proof (clampZ_range x (width b) Nw). pose proof (clampZ_range y (height b) Nh).
  assert (I : inside b (clampZ x (width b)) (clampZ y (height b))) by (split; assumption).
  rewrite get_pixel_eq by auto. destruct (get_pixel_inside m b _ _ V I) as [c E]. rewrite get_pixel_eq in E by auto. rewrite E. f_equal.
  unfold edge_pixel. fold (clampZ x (width b)) (clampZ y (height b)). rewrite Z.add_comm.
  unfold idx in E. destruct (_ <? _)%Z; [discriminate|]. destruct (nth_error (data b) _) as [c'|] eqn:E2; [|discriminate]. injection E as ->.
  symmetry. now apply nth_error_nth.
Qed.
Lemma edge_In b x y : valid b -> nonempty b -> In (edge_pixel b x y) (data b).
Proof. intros V N. apply (clamped_In Checked b x y); auto. now apply edge_read. Qed.
Lemma edge_inside m b x y : valid b -> inside b x y -> get_pixel m b x y = Ok (edge_pixel b x y).
Proof.
  intros V I. assert (N : nonempty b) by (destruct I as [[? ?] [? ?]]; split; lia). rewrite <- (edge_read m b x y V N), get_pixel_clamped_eq by auto.
  destruct I as [? ?]. unfold clampZ. rewrite !Z.min_l, !Z.max_r by lia. reflexivity.
Qed.

Lemma inside_nonempty {T} (b : PixelBuffer T) x y : inside b x y -> nonempty b.
Proof. intros [[? ?] [? ?]]. split; lia. Qed.

(** ** Positions *)
Lemma offset_close v : fin v -> close (/ 33554432) (B2R v - IZR (Zfloor (B2R v))) (snd (get_base_and_offset v)) /\ num 0 1 (snd (get_base_and_offset v)).
Proof.
  intros F. split; [|apply (offset_range (B2R v) (B2R v)); split; [exact F|lra]]. unfold get_base_and_offset. cbn [snd]. destruct (ffloor_val v F) as [A B].
  pose proof (floor_frac (B2R v)). eapply close_weak; [apply (close_sub 1 (/ 33554432) 0 0); auto using uo_1, close_0|lra].
  - apply (close_eq 0 (B2R (ffloor v))); [now apply close_0|exact B].
  - rewrite Rabs_pos_eq; lra.
Qed.
Lemma source_pos_close x nw w : (0 <= x < nw)%Z -> (nw <= 1073741823)%Z -> (0 < w <= 1073741823)%Z ->
  Rabs (B2R (source_pos x (fdiv (ofZ nw) (ofZ w))) - scaled_pos x nw w) <= IZR w / 2097152.
Proof.
  intros Hx Hn Hw.
  assert (Rn : 1 <= IZR nw <= 1073741823) by (split; apply IZR_le; lia).
  assert (Rw : 1 <= IZR w <= 1073741823) by (split; apply IZR_le; lia).
  assert (Rx : 0 <= IZR x <= IZR nw - 1) by (split; [apply IZR_le; lia|rewrite <- minus_IZR; apply IZR_le; lia]).
  destruct (ofZ_big x) as [Fx Bx]; [lia|]. destruct (scale_tight nw w) as (Fs & Ps & Bs); [lia|lia|]. set (s := fdiv (ofZ nw) (ofZ w)) in *.
  pose proof ee_val as EE. set (e := ee) in *. assert (He : 0 < e <= / 16777216) by lra.
  destruct (fadd_ok (ofZ x) (dec 1 2) 2147483648) as [F1 EE1]; auto using half_fin, fmt_2_31. { rewrite half_R. rewrite Rabs_pos_eq; nra. } rewrite half_R in EE1.
  assert (K1 : (1 - e) * (B2R (ofZ x) + / 2) <= B2R (fadd (ofZ x) (dec 1 2)) <= (1 + e) * (B2R (ofZ x) + / 2)) by (rewrite EE1; apply rnd_rel_pos; nra).
  unfold source_pos. set (a := fadd (ofZ x) (dec 1 2)) in *. set (q := IZR nw / IZR w) in *. assert (Pq : 0 < q) by (apply Rdiv_lt_0_compat; lra).
  set (X := IZR x + / 2) in *. assert (HX : / 2 <= X <= IZR nw - / 2) by (unfold X; lra).
  assert (A : (1 - 2 * e) * X <= B2R a <= (1 + 201 / 100 * e) * X). { unfold X. split; nra. }
  set (D := X / q). assert (ED : D = X * (IZR w / IZR nw)) by (unfold D, q; field; lra).
  assert (HD : 0 < D <= IZR w). { split; [apply Rdiv_lt_0_compat; lra|]. unfold D. apply div_le; auto. unfold q. replace (IZR w * (IZR nw / IZR w)) with (IZR nw) by (field; lra). lra. }
  assert (XD : X = D * q) by (unfold D; field; lra).
  assert (Q : (1 - 503 / 100 * e) * D <= B2R a / B2R s <= (1 + 503 / 100 * e) * D).
  { split.
    - apply le_div; auto. apply Rle_trans with ((1 - 2 * e) * X); [|lra]. rewrite XD.
      apply Rle_trans with ((1 - 503 / 100 * e) * D * ((1 + 301 / 100 * e) * q)); [apply Rmult_le_compat_l; [apply Rmult_le_pos; lra|lra]|].
      replace ((1 - 503 / 100 * e) * D * ((1 + 301 / 100 * e) * q)) with (((1 - 503 / 100 * e) * (1 + 301 / 100 * e)) * (D * q)) by ring. apply Rmult_le_compat_r; [apply Rmult_le_pos; lra|]. nra.
    - apply div_le; auto. apply Rle_trans with ((1 + 201 / 100 * e) * X); [lra|]. rewrite XD.
      apply Rle_trans with ((1 + 503 / 100 * e) * D * ((1 - 301 / 100 * e) * q)); [|apply Rmult_le_compat_l; [apply Rmult_le_pos; lra|lra]].
      replace ((1 + 503 / 100 * e) * D * ((1 - 301 / 100 * e) * q)) with (((1 + 503 / 100 * e) * (1 - 301 / 100 * e)) * (D * q)) by ring. apply Rmult_le_compat_r; [apply Rmult_le_pos; lra|]. nra. }
  assert (UB : 0 <= B2R a / B2R s <= 2147483647) by (rewrite EE in Q; lra).
  destruct (fdiv_ok a s 2147483648) as [F2 EE2]; auto; [lra|apply fmt_2_31|rewrite Rabs_pos_eq; lra|].
  pose proof (rnd_rel_abs (B2R a / B2R s)) as R1. rewrite (Rabs_pos_eq (B2R a / B2R s)) in R1 by lra. rewrite <- EE2 in R1. pose proof p140 as P140.
  set (v := fdiv a s) in *. apply Rabs_le_iff in R1. rewrite EE in Q. clear A K1 Bs XD HX Bx.
  assert (V : Rabs (B2R v - D) <= 604 / 100 * / 16777216 * D + / 1000000000000) by (apply Rabs_le_iff; lra).
  apply Rabs_le_iff in V. destruct (fsub_ok v (dec 1 2) 4294967296) as [F3 EE3]; auto using half_fin.
  { replace 4294967296 with (IZR 1 * bpow radix2 32) by (rewrite bpow_pos; change (Z.pow_pos 2 32) with 4294967296%Z; lra). apply fmt_F2R; lia. }
  { rewrite half_R. apply Rabs_le_iff. lra. }
  rewrite EE3, half_R. pose proof (rnd_rel_abs (B2R v - / 2)) as R2. assert (AV : Rabs (B2R v - / 2) <= IZR w + / 1024 * D) by (apply Rabs_le_iff; lra).
  unfold scaled_pos. fold X. rewrite <- ED. apply Rabs_le_iff in R2. apply Rabs_le_iff. lra.
Qed.

(** ** Reading between the pixels *)
Definition chan (b : PixelBuffer Rgb) (d : col -> f32) (i j : Z) : R := B2R (d (edge_pixel b i j)).
Definition channels : list (col -> f32) := [d0; d1; d2; d3].
Lemma chan_num b d i j : valid b -> nonempty b -> Forall in_gamut (data b) -> In d channels -> num 0 1 (d (edge_pixel b i j)).
Proof.
  intros V N G I. pose proof (proj1 (Forall_forall _ _) G _ (edge_In b i j V N)) as (G0 & G1 & G2 & G3). unfold channels in I. cbn [In] in I.
  destruct I as [<-|[<-|[<-|[<-|[]]]]]; now apply in01_num.
Qed.
Lemma bilinear_eq m b x y : valid b -> nonempty b -> safe (fst (get_base_and_offset x)) -> safe (fst (get_base_and_offset y)) ->
  exists r, get_pixel_bilinear m b x y = Ok r /\ forall d, In d channels -> 
    let zx := fst (get_base_and_offset x) in let zy := fst (get_base_and_offset y) in let tx := snd (get_base_and_offset x) in let ty := snd (get_base_and_offset y) in
    d r = clamp (linear_interpolate (linear_interpolate (d (edge_pixel b zx zy)) (d (edge_pixel b (zx + 1) zy)) tx)
                                    (linear_interpolate (d (edge_pixel b zx (zy + 1))) (d (edge_pixel b (zx + 1) (zy + 1))) tx) ty).
Proof.
  intros V N. unfold get_pixel_bilinear, safe. destruct (get_base_and_offset x) as (zx & tx). destruct (get_base_and_offset y) as (zy & ty). cbn [fst snd]. intros Sx Sy.
  rewrite !i32_ok by lia. cbn [bind]. rewrite !edge_read by auto. cbn [bind]. eexists. split; [reflexivity|].
  intros d I. unfold channels in I. cbn [In] in I. destruct I as [<-|[<-|[<-|[<-|[]]]]]; reflexivity.
Qed.
Lemma bicubic_eq m b x y : valid b -> nonempty b -> safe (fst (get_base_and_offset x)) -> safe (fst (get_base_and_offset y)) ->
  exists r, get_pixel_bicubic m b x y = Ok r /\ forall d, In d channels -> 
    let zx := fst (get_base_and_offset x) in let zy := fst (get_base_and_offset y) in let tx := snd (get_base_and_offset x) in let ty := snd (get_base_and_offset y) in
    let line j := cubic_hermite_interpolate (d (edge_pixel b (zx - 1) j)) (d (edge_pixel b zx j)) (d (edge_pixel b (zx + 1) j)) (d (edge_pixel b (zx + 2) j)) tx in
    d r = clamp (cubic_hermite_interpolate (line (zy - 1)%Z) (line zy) (line (zy + 1)%Z) (line (zy + 2)%Z) ty).
Proof.
  intros V N. unfold get_pixel_bicubic, safe. destruct (get_base_and_offset x) as (zx & tx). destruct (get_base_and_offset y) as (zy & ty). cbn [fst snd]. intros Sx Sy.
  rewrite !i32_ok by lia. cbn [bind]. rewrite !edge_read by auto. cbn [bind]. eexists. split; [reflexivity|].
  intros d I. cbv zeta. replace (zy + -1)%Z with (zy - 1)%Z by lia. replace (zy + 0)%Z with zy by lia. unfold channels in I. cbn [In] in I. destruct I as [<-|[<-|[<-|[<-|[]]]]]; reflexivity.
Qed.

(** ** Rounding *)
Lemma lerp_close a b t ra rb rt e et : close e ra a -> close e rb b -> close et rt t -> Rabs ra <= 1 -> Rabs (rb - ra) <= 1 -> Rabs (ra * (1 - rt) + rb * rt) <= 1 -> 0 <= rt <= 1 ->
  0 <= e <= / 1048576 -> 0 <= et <= / 1048576 -> close (3 * e + 11 / 10 * et + 3 / 16777216) (ra * (1 - rt) + rb * rt) (linear_interpolate a b t).
Proof.
  intros A B T MA MD MR RT E ET. unfold linear_interpolate. replace (ra * (1 - rt) + rb * rt) with (ra + (rb - ra) * rt) in * by ring.
  pose proof (close_sub 2 (/ 16777216) _ _ _ _ _ _ uo_2 B A ltac:(lra)) as D.
  pose proof (close_mul 2 (/ 16777216) 1 1 _ _ _ _ _ _ uo_2 D T MD ltac:(rewrite Rabs_pos_eq; lra) ltac:(nra)) as M.
  eapply close_weak; [apply (close_add 2 (/ 16777216) _ _ _ _ _ _ uo_2 A M)|]; nra.
Qed.

Lemma fneg_close e r x : close e r x -> close e (- r) (fneg x).
Proof.
  intros [F H]. destruct (near_neg r e x (conj F H)) as [F' H']. split; assumption.
Qed.
Lemma half_close M u e r x : unit_ok M u -> close e r x -> Rabs r / 2 + e / 2 <= M -> close (e / 2 + u) (r / 2) (fdiv x f2).
Proof.
  intros UO X B. assert (R2 : B2R f2 = 2) by exact f2_R. assert (F2 : fin f2) by auto with fin.
  pose proof (close_div M u 2 (Rabs r / 2) e 0 r 2 x f2 UO X) as D. eapply close_weak; [apply D|lra].
  - apply (close_eq 0 (B2R f2)); [now apply close_0|exact R2].
  - lra.
  - rewrite Rabs_pos_eq; lra.
  - unfold Rdiv. rewrite Rabs_mult. rewrite (Rabs_pos_eq (/ 2)) by lra. lra.
  - lra.
Qed.
Lemma int_close z : (0 <= z <= 100)%Z -> close 0 (IZR z) (ofZ z).
Proof. intros H. destruct (ofZ_val z) as [F E]; [lia|]. apply (close_eq 0 (B2R (ofZ z))); [now apply close_0|exact E]. Qed.
Lemma cubic_exact v1 v2 v3 v4 t : fin v1 -> fin v2 -> fin v3 -> fin v4 -> num 0 1 t ->
  Rabs (B2R v1) <= 9 / 8 + / 1024 -> Rabs (B2R v2) <= 9 / 8 + / 1024 -> Rabs (B2R v3) <= 9 / 8 + / 1024 -> Rabs (B2R v4) <= 9 / 8 + / 1024 ->
  close (/ 180000) (poly (B2R v1) (B2R v2) (B2R v3) (B2R v4) (B2R t)) (cubic_hermite_interpolate v1 v2 v3 v4 t).
Proof.
  intros F1 F2 F3 F4 [Ft T] A B C D. unfold cubic_hermite_interpolate. cbv zeta.
  apply close_0 in F1, F2, F3, F4, Ft. assert (T1 : Rabs (B2R t) <= 1) by (rewrite Rabs_pos_eq; lra).
  set (a := B2R v1) in *. set (b := B2R v2) in *. set (c := B2R v3) in *. set (d := B2R v4) in *. set (s := B2R t) in *. clearbody a b c d s.
  apply Rabs_le_iff in A, B, C, D.
  pose proof (half_close 1 (/ 33554432) _ _ _ uo_1 (fneg_close _ _ _ F1) ltac:(assert (Rabs (- a) <= 2) by (apply Rabs_le_iff; lra); lra)) as HA.
  pose proof (half_close 1 (/ 33554432) _ _ _ uo_1 F4 ltac:(assert (Rabs d <= 2) by (apply Rabs_le_iff; lra); lra)) as HD.
  pose proof (half_close 1 (/ 33554432) _ _ _ uo_1 F3 ltac:(assert (Rabs c <= 2) by (apply Rabs_le_iff; lra); lra)) as HC.
  assert (M3 : forall r x, - (9 / 8 + / 1024) <= r <= 9 / 8 + / 1024 -> close 0 r x -> close (/ 8388608) (3 * r / 2) (fdiv (fmul (ofZ 3) x) f2)).
  { intros r x R X. pose proof (close_mul 4 (/ 8388608) 3 (9 / 8 + / 1024) 0 0 3 r _ _ uo_4 (int_close 3 ltac:(lia)) X ltac:(rewrite Rabs_pos_eq; lra) ltac:(apply Rabs_le_iff; lra) ltac:(lra)) as M.
    eapply close_weak; [apply (half_close 2 (/ 16777216) _ _ _ uo_2 M)|lra]. assert (Rabs (3 * r) <= 35 / 10) by (apply Rabs_le_iff; lra). lra. }
  pose proof (M3 b v2 B F2) as M3B. pose proof (M3 c v3 C F3) as M3C. clear M3.
  pose proof (close_add 4 (/ 8388608) _ _ _ _ _ _ uo_4 HA M3B ltac:(assert (Rabs (- a / 2 + 3 * b / 2) <= 23 / 10) by (apply Rabs_le_iff; lra); lra)) as O1a.
  pose proof (close_sub 4 (/ 8388608) _ _ _ _ _ _ uo_4 O1a M3C ltac:(assert (Rabs (- a / 2 + 3 * b / 2 - 3 * c / 2) <= 3975 / 1000) by (apply Rabs_le_iff; lra); lra)) as O1b.
  pose proof (close_add 8 (/ 4194304) _ _ _ _ _ _ uo_8 O1b HD ltac:(assert (Rabs (- a / 2 + 3 * b / 2 - 3 * c / 2 + d / 2) <= 5) by (apply Rabs_le_iff; lra); lra)) as O1. clear O1a O1b M3B M3C.
  pose proof (close_mul 8 (/ 4194304) 5 (9 / 8 + / 1024) 0 0 5 b _ _ uo_8 (int_close 5 ltac:(lia)) F2 ltac:(rewrite Rabs_pos_eq; lra) ltac:(apply Rabs_le_iff; lra) ltac:(lra)) as M5.
  pose proof (half_close 4 (/ 8388608) _ _ _ uo_4 M5 ltac:(assert (Rabs (5 * b) <= 6) by (apply Rabs_le_iff; lra); lra)) as M5H. clear M5.
  pose proof (close_sub 4 (/ 8388608) _ _ _ _ _ _ uo_4 F1 M5H ltac:(assert (Rabs (a - 5 * b / 2) <= 3975 / 1000) by (apply Rabs_le_iff; lra); lra)) as O2a.
  pose proof (close_mul 4 (/ 8388608) 2 (9 / 8 + / 1024) 0 0 2 c _ _ uo_4 (int_close 2 ltac:(lia)) F3 ltac:(rewrite Rabs_pos_eq; lra) ltac:(apply Rabs_le_iff; lra) ltac:(lra)) as M2.
  pose proof (close_add 8 (/ 4194304) _ _ _ _ _ _ uo_8 O2a M2 ltac:(assert (Rabs (a - 5 * b / 2 + 2 * c) <= 7) by (apply Rabs_le_iff; lra); lra)) as O2b.
  pose proof (close_sub 8 (/ 4194304) _ _ _ _ _ _ uo_8 O2b HD ltac:(assert (Rabs (a - 5 * b / 2 + 2 * c - d / 2) <= 7) by (apply Rabs_le_iff; lra); lra)) as O2. clear O2a O2b M2 M5H.
  pose proof (close_add 2 (/ 16777216) _ _ _ _ _ _ uo_2 HA HC ltac:(assert (Rabs (- a / 2 + c / 2) <= 3 / 2) by (apply Rabs_le_iff; lra); lra)) as O3. clear HA HC HD.
  set (k1 := - a / 2 + 3 * b / 2 - 3 * c / 2 + d / 2) in *. set (k2 := a - 5 * b / 2 + 2 * c - d / 2) in *. set (k3 := - a / 2 + c / 2) in *.
  assert (K1 : Rabs k1 <= 46 / 10) by (unfold k1; apply Rabs_le_iff; lra). assert (K2 : Rabs k2 <= 68 / 10) by (unfold k2; apply Rabs_le_iff; lra).
  assert (K3 : Rabs k3 <= 12 / 10) by (unfold k3; apply Rabs_le_iff; lra).
  assert (TT : forall K e r x, Rabs r <= K -> close e r x -> K <= 68 / 10 -> 0 <= e <= / 100 -> close (e + / 4194304) (r * s) (fmul x t) /\ Rabs (r * s) <= K).
  { intros K e r x R X KK E. pose proof (Rabs_pos r). split; [|rewrite <- (Rmult_1_r K); now apply abs_mul_le].
    eapply close_weak; [apply (close_mul 8 (/ 4194304) K 1 e 0 r s x t uo_8 X Ft R T1)|]; lra. }
  destruct (TT _ _ _ _ K1 O1 ltac:(lra) ltac:(lra)) as [O11 K11]. destruct (TT _ _ _ _ K11 O11 ltac:(lra) ltac:(lra)) as [O12 K12]. destruct (TT _ _ _ _ K12 O12 ltac:(lra) ltac:(lra)) as [O13 K13].
  destruct (TT _ _ _ _ K2 O2 ltac:(lra) ltac:(lra)) as [O21 K21]. destruct (TT _ _ _ _ K21 O21 ltac:(lra) ltac:(lra)) as [O22 K22].
  destruct (TT _ _ _ _ K3 O3 ltac:(lra) ltac:(lra)) as [O31 K31]. clear TT O1 O2 O3 O11 O12 O21.
  pose proof (close_add 16 (/ 2097152) _ _ _ _ _ _ uo_16 O13 O22 ltac:(pose proof (Rabs_triang (k1 * s * s * s) (k2 * s * s)); lra)) as S1.
  pose proof (close_add 16 (/ 2097152) _ _ _ _ _ _ uo_16 S1 O31 ltac:(pose proof (Rabs_triang (k1 * s * s * s) (k2 * s * s)); pose proof (Rabs_triang (k1 * s * s * s + k2 * s * s) (k3 * s)); lra)) as S2.
  assert (BB : Rabs b <= 12 / 10) by (apply Rabs_le_iff; lra).
  pose proof (close_add 16 (/ 2097152) _ _ _ _ _ _ uo_16 S2 F2 ltac:(pose proof (Rabs_triang (k1 * s * s * s) (k2 * s * s)); pose proof (Rabs_triang (k1 * s * s * s + k2 * s * s) (k3 * s));
    pose proof (Rabs_triang (k1 * s * s * s + k2 * s * s + k3 * s) b); lra)) as S3.
  eapply close_weak; [eapply close_eq; [exact S3|]|].
  - unfold poly, k1, k2, k3. field.
  - lra.
Qed.

(** ** A pixel between the pixels *)
Lemma bilinear_at m b x y : valid b -> nonempty b -> Forall in_gamut (data b) -> num (-1) 1099999999 x -> num (-1) 1099999999 y ->
  exists r, get_pixel_bilinear m b x y = Ok r /\ forall d, In d channels -> close (/ 1048576) (surface linear (chan b d) (B2R x) (B2R y)) (d r).
Proof.
  intros V N G X Y. destruct (base_safe _ _ _ X) as [Sx Ex]; [lra|lra|]. destruct (base_safe _ _ _ Y) as [Sy Ey]; [lra|lra|].
  destruct (offset_close x ltac:(apply X)) as [Ox Rx]. destruct (offset_close y ltac:(apply Y)) as [Oy Ry].
  destruct (bilinear_eq m b x y V N Sx Sy) as (r & E & H). exists r. split; [exact E|]. intros d I. rewrite (H d I). rewrite Ex, Ey.
  assert (LR : 0 <= surface linear (chan b d) (B2R x) (B2R y) <= 1).
  { unfold surface. apply linear_range. intros j. apply linear_range. intros i. apply (chan_num b d i j V N G I). }
  rewrite <- (limited_id _ LR). apply close_clamp.
  pose proof (floor_frac (B2R x)) as FX. pose proof (floor_frac (B2R y)) as FY.
  set (zx := Zfloor (B2R x)) in *. set (zy := Zfloor (B2R y)) in *.
  assert (S : forall j, close (114 / 100 * / 33554432 + 3 / 16777216) (linear (fun i => chan b d i j) (B2R x)) (linear_interpolate (d (edge_pixel b zx j)) (d (edge_pixel b (zx + 1) j)) (snd (get_base_and_offset x)))).
  { intros j. destruct (chan_num b d zx j V N G I) as [F1 R1]. destruct (chan_num b d (zx + 1) j V N G I) as [F2 R2].
    unfold linear. fold zx. unfold chan. eapply close_weak; [apply (lerp_close _ _ _ _ _ _ 0 (/ 33554432) (close_0 _ F1) (close_0 _ F2) Ox)|]; try lra; try (apply Rabs_le_iff; nra). }
  assert (LB : forall j, 0 <= linear (fun i => chan b d i j) (B2R x) <= 1).
  { intros j. apply linear_range. intros i. apply (chan_num b d i j V N G I). }
  unfold surface, linear at 1. cbv zeta. fold zy.
  pose proof (LB zy) as L1. pose proof (LB (zy + 1)%Z) as L2.
  eapply close_weak; [apply (lerp_close _ _ _ _ _ _ _ (/ 33554432) (S zy) (S (zy + 1)%Z) Oy)|]; try lra; try (apply Rabs_le_iff; nra).
Qed.
Lemma spline_first (v : Z -> f32) p t : (forall i, num 0 1 (v i)) -> close (/ 33554432) (p - IZR (Zfloor p)) t -> num 0 1 t ->
  close (/ 180000 + / 16777216) (spline (fun i => B2R (v i)) p) (cubic_hermite_interpolate (v (Zfloor p - 1)%Z) (v (Zfloor p)) (v (Zfloor p + 1)%Z) (v (Zfloor p + 2)%Z) t).
Proof.
  intros V [Ft Ot] Rt. rewrite spline_poly. pose proof (floor_frac p) as FP.
  assert (AB : forall i, Rabs (B2R (v i)) <= 9 / 8 + / 1024) by (intros i; destruct (V i); rewrite Rabs_pos_eq; lra).
  eapply close_move; [exact (cubic_exact _ _ _ _ t (proj1 (V _)) (proj1 (V _)) (proj1 (V _)) (proj1 (V _)) Rt (AB _) (AB _) (AB _) (AB _))|].
  eapply Rle_trans; [exact (poly_lip _ _ _ _ (p - IZR (Zfloor p)) (B2R t) 0 1 FP (proj2 Rt) ltac:(lra) (proj2 (V _)) (proj2 (V _)) (proj2 (V _)) (proj2 (V _)))|]. lra.
Qed.
Lemma spline_second (v : Z -> f32) (q : Z -> R) p t : (forall i, close (/ 180000 + / 16777216) (q i) (v i)) -> (forall i, - / 8 <= q i <= 9 / 8) ->
  close (/ 33554432) (p - IZR (Zfloor p)) t -> num 0 1 t ->
  close (/ 65536) (spline q p) (cubic_hermite_interpolate (v (Zfloor p - 1)%Z) (v (Zfloor p)) (v (Zfloor p + 1)%Z) (v (Zfloor p + 2)%Z) t).
Proof.
  intros V B [Ft Ot] Rt. pose proof (floor_frac p) as FP.
  assert (SB : forall j, - / 8 - / 1024 <= B2R (v j) <= 9 / 8 + / 1024) by (intros j; pose proof (proj2 (V j)) as Q; pose proof (B j); apply Rabs_le_iff in Q; lra).
  assert (SA : forall j, Rabs (B2R (v j)) <= 9 / 8 + / 1024) by (intros j; pose proof (SB j); apply Rabs_le_iff; lra).
  eapply close_weak; [eapply close_move; [exact (cubic_exact _ _ _ _ t (proj1 (V _)) (proj1 (V _)) (proj1 (V _)) (proj1 (V _)) Rt (SA _) (SA _) (SA _) (SA _))|]|].
  - rewrite spline_poly.
    pose proof (poly_lip _ _ _ _ (p - IZR (Zfloor p)) (B2R t) (- / 8 - / 1024) (9 / 8 + / 1024) FP (proj2 Rt) ltac:(lra) (SB (Zfloor p - 1)%Z) (SB (Zfloor p)) (SB (Zfloor p + 1)%Z) (SB (Zfloor p + 2)%Z)) as L1.
    pose proof (spline_close (fun i => B2R (v i)) q p _ (fun i => proj2 (V i))) as L2. rewrite !spline_poly in L2. cbv beta in L2.
    apply Rabs_le_iff in L1, L2. apply (Rabs_le_iff _ (5 / 4 * (/ 180000 + / 16777216) + 3 * / 33554432)). lra.
  - lra.
Qed.
Lemma bicubic_at m b x y : valid b -> nonempty b -> Forall in_gamut (data b) -> num (-1) 1099999999 x -> num (-1) 1099999999 y ->
  exists r, get_pixel_bicubic m b x y = Ok r /\ forall d, In d channels -> close (/ 65536) (limited (surface spline (chan b d) (B2R x) (B2R y))) (d r).
Proof.
  intros V N G X Y. destruct (base_safe _ _ _ X) as [Sx Ex]; [lra|lra|]. destruct (base_safe _ _ _ Y) as [Sy Ey]; [lra|lra|].
  destruct (offset_close x ltac:(apply X)) as [Ox Rx]. destruct (offset_close y ltac:(apply Y)) as [Oy Ry].
  destruct (bicubic_eq m b x y V N Sx Sy) as (r & E & H). exists r. split; [exact E|]. intros d I. rewrite (H d I). rewrite Ex, Ey. apply close_clamp. clear H E r.
  assert (CN : forall i j, num 0 1 (d (edge_pixel b i j))) by (intros; now apply chan_num).
  apply (spline_second (fun j => cubic_hermite_interpolate (d (edge_pixel b (Zfloor (B2R x) - 1) j)) (d (edge_pixel b (Zfloor (B2R x)) j)) (d (edge_pixel b (Zfloor (B2R x) + 1) j)) (d (edge_pixel b (Zfloor (B2R x) + 2) j)) (snd (get_base_and_offset x)))
    (fun j => spline (fun i => chan b d i j) (B2R x)) (B2R y) (snd (get_base_and_offset y))); [| |exact Oy|exact Ry].
  - intros j. exact (spline_first (fun i => d (edge_pixel b i j)) (B2R x) (snd (get_base_and_offset x)) (fun i => CN i j) Ox Rx).
  - intros j. pose proof (spline_range (fun i => chan b d i j) (B2R x) 0 1 (fun i => proj2 (CN i j))). lra.
Qed.

(** ** Resizing *)
Lemma scaled_same x w : (0 < w)%Z -> scaled_pos x w w = IZR x.
Proof. intros H. unfold scaled_pos. assert (0 < IZR w) by (apply IZR_lt; lia). field. lra. Qed.
Lemma pos_num x nw w : (0 <= x < nw)%Z -> (nw <= 1073741823)%Z -> (0 < w <= 1073741823)%Z -> num (-1) 1099999999 (source_pos x (fdiv (ofZ nw) (ofZ w))).
Proof. intros Hx Hn Hw. destruct (source_pos_bounds x nw w Hx Hn Hw) as [F R]. assert (1 <= IZR w <= 1073741823) by (split; apply IZR_le; lia). split; [exact F|]. lra. Qed.
Lemma resize_with_at m b w h f (P : Z -> Z -> Rgb -> Prop) : valid b -> nonempty b -> valid_size w h ->
  (forall x y, (0 <= x < w)%Z -> (0 <= y < h)%Z -> exists c, f b x y (fdiv (ofZ w) (ofZ (width b))) (fdiv (ofZ h) (ofZ (height b))) = Ok c /\ P x y c) ->
  exists r, resize_with_fn m b w h f = Ok r /\ width r = w /\ height r = h /\ forall m' x y, inside r x y -> exists c, get_pixel m' r x y = Ok c /\ P x y c.
Proof.
  intros V N S H. unfold resize_with_fn. destruct (new_from_fn_ok m w h (fun x y => f b x y (fdiv (ofZ w) (ofZ (width b))) (fdiv (ofZ h) (ofZ (height b)))) S) as (r & E & Vr & Wr & Hr & A).
  { intros x y X Y. destruct (H x y X Y) as (c & C & _). eauto. }
  exists r. split; [exact E|]. split; [exact Wr|]. split; [exact Hr|]. intros m' x y I. rewrite (A m' x y I). destruct I as [I J]. rewrite Wr in I. rewrite Hr in J. apply H; assumption.
Qed.
Lemma resize_bilinear_meaning L m b w h : valid b -> nonempty b -> Forall in_gamut (data b) -> valid_size w h ->
  exists r, resize L m b w h Bilinear = Ok r /\ width r = w /\ height r = h /\ forall m' x y, inside r x y -> exists o, get_pixel m' r x y = Ok o /\
  forall d, In d channels -> close (IZR (width b + height b) / 2097152 + / 1048576) (surface linear (chan b d) (scaled_pos x w (width b)) (scaled_pos y h (height b))) (d o).
Proof.
  intros V N G S. pose proof (valid_bounds b V) as VB. pose proof (valid_size_bounds w h S) as SB. destruct N as [Nw Nh]. assert (N : nonempty b) by (split; assumption).
  assert (P0 : 0 <= IZR (width b + height b)) by (apply IZR_le; lia).
  unfold resize. destruct (_ && _) eqn:E.
  { apply andb_prop in E as (E1 & E2). apply Z.eqb_eq in E1, E2. exists b. split; [reflexivity|]. split; [exact E1|]. split; [exact E2|]. intros m' x y I. exists (edge_pixel b x y). split; [now apply edge_inside|].
    intros d Hd. rewrite <- E1, <- E2, !scaled_same by lia. unfold surface. rewrite linear_int. rewrite linear_int. eapply close_weak; [apply close_0; now apply chan_num|]. lra. }
  apply (resize_with_at m b w h (resize_pixel_bilinear m) (fun x y o => forall d, In d channels -> close (IZR (width b + height b) / 2097152 + / 1048576) (surface linear (chan b d) (scaled_pos x w (width b)) (scaled_pos y h (height b))) (d o))); auto.
  intros x y X Y. unfold resize_pixel_bilinear.
  destruct (bilinear_at m b (source_pos x (fdiv (ofZ w) (ofZ (width b)))) (source_pos y (fdiv (ofZ h) (ofZ (height b)))) V N G) as (c & C & H); [apply pos_num; lia|apply pos_num; lia|].
  exists c. split; [exact C|]. intros d Hd. eapply close_weak; [eapply close_move; [exact (H d Hd)|]|].
  - eapply Rle_trans; [apply bilinear_lip; intros i j; now apply chan_num|]. apply Rplus_le_compat; apply source_pos_close; lia.
  - rewrite plus_IZR. lra.
Qed.
Lemma resize_bicubic_meaning L m b w h f : f = Bicubic \/ f = Auto /\ (width b <= w \/ height b <= h)%Z -> valid b -> nonempty b -> Forall in_gamut (data b) -> valid_size w h ->
  exists r, resize L m b w h f = Ok r /\ width r = w /\ height r = h /\ forall m' x y, inside r x y -> exists o, get_pixel m' r x y = Ok o /\
  forall d, In d channels -> close (IZR (width b + height b) / 1048576 + / 65536) (limited (surface spline (chan b d) (scaled_pos x w (width b)) (scaled_pos y h (height b)))) (d o).
Proof.
  intros Hf V N G S. pose proof (valid_bounds b V) as VB. pose proof (valid_size_bounds w h S) as SB. destruct N as [Nw Nh]. assert (N : nonempty b) by (split; assumption).
  assert (P0 : 0 <= IZR (width b + height b)) by (apply IZR_le; lia).
  unfold resize. destruct (_ && _) eqn:E.
  { apply andb_prop in E as (E1 & E2). apply Z.eqb_eq in E1, E2. exists b. split; [reflexivity|]. split; [exact E1|]. split; [exact E2|]. intros m' x y I. exists (edge_pixel b x y). split; [now apply edge_inside|].
    intros d Hd. rewrite <- E1, <- E2, !scaled_same by lia. unfold surface. rewrite spline_int. rewrite spline_int. destruct (chan_num b d x y V N G Hd) as [F R]. rewrite limited_id by exact R.
    eapply close_weak; [apply close_0; exact F|]. lra. }
  assert (K : exists r, resize_with_fn m b w h (resize_pixel_bicubic m) = Ok r /\ width r = w /\ height r = h /\ forall m' x y, inside r x y -> exists o, get_pixel m' r x y = Ok o /\
    forall d, In d channels -> close (IZR (width b + height b) / 1048576 + / 65536) (limited (surface spline (chan b d) (scaled_pos x w (width b)) (scaled_pos y h (height b)))) (d o)).
  { apply (resize_with_at m b w h (resize_pixel_bicubic m) (fun x y o => forall d, In d channels -> close (IZR (width b + height b) / 1048576 + / 65536) (limited (surface spline (chan b d) (scaled_pos x w (width b)) (scaled_pos y h (height b)))) (d o))); auto.
    intros x y X Y. unfold resize_pixel_bicubic.
    destruct (bicubic_at m b (source_pos x (fdiv (ofZ w) (ofZ (width b)))) (source_pos y (fdiv (ofZ h) (ofZ (height b)))) V N G) as (c & C & H); [apply pos_num; lia|apply pos_num; lia|].
    exists c. split; [exact C|]. intros d Hd. eapply close_weak; [eapply close_move; [exact (H d Hd)|]|].
    - apply limited_lip_e. eapply Rle_trans; [apply bicubic_lip; intros i j; now apply chan_num|]. apply Rmult_le_compat_l; [lra|]. apply Rplus_le_compat; apply source_pos_close; lia.
    - rewrite plus_IZR. lra. }
  destruct Hf as [->|[-> Hf]]; [exact K|]. destruct (_ || _) eqn:O; [exact K|]. exfalso. apply orb_false_iff in O as [O1 O2].
  destruct Hf as [Hf|Hf]; apply Z.leb_le in Hf; [exact (eq_true_false_abs _ Hf O1)|exact (eq_true_false_abs _ Hf O2)].
Qed.

Lemma nearest_pos_close x nw w : (0 <= x < nw)%Z -> (nw <= 1073741823)%Z -> (0 < w <= 1073741823)%Z ->
  let v := fadd (fdiv (ofZ x) (fdiv (ofZ nw) (ofZ w))) (dec 1 2) in
  num 0 1099999999 v /\ Rabs (B2R v - (IZR x * (IZR w / IZR nw) + / 2)) <= IZR w / 2097152.
Proof.
  intros Hx Hn Hw.
  assert (Rn : 1 <= IZR nw <= 1073741823) by (split; apply IZR_le; lia).
  assert (Rw : 1 <= IZR w <= 1073741823) by (split; apply IZR_le; lia).
  assert (Rx : 0 <= IZR x <= IZR nw - 1) by (split; [apply IZR_le; lia|rewrite <- minus_IZR; apply IZR_le; lia]).
  destruct (ofZ_big x) as [Fx Bx]; [lia|]. destruct (scale_tight nw w) as (Fs & Ps & Bs); [lia|lia|]. set (s := fdiv (ofZ nw) (ofZ w)) in *.
  pose proof ee_val as EE. set (e := ee) in *. assert (He : 0 < e <= / 16777216) by lra.
  set (a := ofZ x) in *. set (q := IZR nw / IZR w) in *. assert (Pq : 0 < q) by (apply Rdiv_lt_0_compat; lra).
  set (X := IZR x) in *.
  set (D := X / q). assert (ED : D = X * (IZR w / IZR nw)) by (unfold D, q; field; lra).
  assert (HD : 0 <= D <= IZR w). { split; [apply Rmult_le_pos; [lra|left; now apply Rinv_0_lt_compat]|]. unfold D. apply div_le; auto. unfold q. replace (IZR w * (IZR nw / IZR w)) with (IZR nw) by (field; lra). lra. }
  assert (XD : X = D * q) by (unfold D; field; lra).
  assert (Q : (1 - 503 / 100 * e) * D <= B2R a / B2R s <= (1 + 503 / 100 * e) * D).
  { split.
    - apply le_div; auto. apply Rle_trans with ((1 - 2 * e) * X); [|nra]. rewrite XD.
      apply Rle_trans with ((1 - 503 / 100 * e) * D * ((1 + 301 / 100 * e) * q)); [apply Rmult_le_compat_l; [apply Rmult_le_pos; lra|lra]|].
      replace ((1 - 503 / 100 * e) * D * ((1 + 301 / 100 * e) * q)) with (((1 - 503 / 100 * e) * (1 + 301 / 100 * e)) * (D * q)) by ring. apply Rmult_le_compat_r; [apply Rmult_le_pos; lra|]. nra.
    - apply div_le; auto. apply Rle_trans with ((1 + 201 / 100 * e) * X); [nra|]. rewrite XD.
      apply Rle_trans with ((1 + 503 / 100 * e) * D * ((1 - 301 / 100 * e) * q)); [|apply Rmult_le_compat_l; [apply Rmult_le_pos; lra|lra]].
      replace ((1 + 503 / 100 * e) * D * ((1 - 301 / 100 * e) * q)) with (((1 + 503 / 100 * e) * (1 - 301 / 100 * e)) * (D * q)) by ring. apply Rmult_le_compat_r; [apply Rmult_le_pos; lra|]. nra. }
  assert (UB : 0 <= B2R a / B2R s <= 2147483647). { rewrite EE in Q. assert (0 <= B2R a) by nra. assert (0 <= B2R a / B2R s) by (apply Rmult_le_pos; [lra|left; now apply Rinv_0_lt_compat]). lra. }
  destruct (fdiv_ok a s 2147483648) as [F2 EE2]; auto; [lra|apply fmt_2_31|rewrite Rabs_pos_eq; lra|].
  pose proof (rnd_rel_abs (B2R a / B2R s)) as R1. rewrite (Rabs_pos_eq (B2R a / B2R s)) in R1 by lra. rewrite <- EE2 in R1. pose proof p140 as P140.
  assert (V0 : 0 <= B2R (fdiv a s)) by (rewrite EE2; apply rnd_lo; [apply fmt_0|lra]).
  set (v := fdiv a s) in *. apply Rabs_le_iff in R1. rewrite EE in Q. clear Bs XD Bx.
  assert (V : Rabs (B2R v - D) <= 604 / 100 * / 16777216 * D + / 1000000000000) by (apply Rabs_le_iff; lra).
  apply Rabs_le_iff in V. destruct (fadd_ok v (dec 1 2) 4294967296) as [F3 EE3]; auto using half_fin.
  { replace 4294967296 with (IZR 1 * bpow radix2 32) by (rewrite bpow_pos; change (Z.pow_pos 2 32) with 4294967296%Z; lra). apply fmt_F2R; lia. }
  { rewrite half_R. apply Rabs_le_iff. lra. }
  cbv zeta. rewrite half_R in EE3. pose proof (rnd_rel_abs (B2R v + / 2)) as R2. rewrite (Rabs_pos_eq (B2R v + / 2)) in R2 by lra. apply Rabs_le_iff in R2. rewrite <- EE3 in R2.
  rewrite <- ED. split; [split; [exact F3|lra]|]. apply Rabs_le_iff. lra.
Qed.
Lemma resize_nearest_meaning L m b w h : valid b -> nonempty b -> valid_size w h ->
  exists r, resize L m b w h Nearest = Ok r /\ width r = w /\ height r = h /\ forall m' x y, inside r x y -> forall i j,
  Rabs (IZR x * (IZR (width b) / IZR w) - IZR i) < / 2 - IZR (width b) / 2097152 ->
  Rabs (IZR y * (IZR (height b) / IZR h) - IZR j) < / 2 - IZR (height b) / 2097152 -> get_pixel m' r x y = Ok (edge_pixel b i j).
Proof.
  intros V N S. pose proof (valid_bounds b V) as VB. pose proof (valid_size_bounds w h S) as SB. destruct N as [Nw Nh]. assert (N : nonempty b) by (split; assumption).
  unfold resize. destruct (_ && _) eqn:E.
  { apply andb_prop in E as (E1 & E2). apply Z.eqb_eq in E1, E2. exists b. split; [reflexivity|]. split; [exact E1|]. split; [exact E2|]. intros m' x y I i j.
    assert (P1 : 1 <= IZR (width b)) by (apply IZR_le; lia). assert (P2 : 1 <= IZR (height b)) by (apply IZR_le; lia). rewrite <- E1, <- E2. unfold Rdiv at 1 3. rewrite !Rinv_r, !Rmult_1_r by lra.
    assert (K : forall a c t, 1 <= t -> Rabs (IZR a - IZR c) < / 2 - t / 2097152 -> a = c).
    { intros a c t T K. rewrite <- minus_IZR in K. apply Rabs_lt_iff in K. assert (-1 < a - c < 1)%Z by (split; apply lt_IZR; lra). lia. }
    intros K1 K2. apply K in K1, K2; [|exact P2|exact P1]. subst i j. now apply edge_inside. }
  destruct (resize_with_at m b w h (resize_pixel_nearest m) (fun x y o => forall i j, Rabs (IZR x * (IZR (width b) / IZR w) - IZR i) < / 2 - IZR (width b) / 2097152 ->
    Rabs (IZR y * (IZR (height b) / IZR h) - IZR j) < / 2 - IZR (height b) / 2097152 -> o = edge_pixel b i j)) as (r & Er & Wr & Hr & A); auto.
  - intros x y X Y. unfold resize_pixel_nearest. rewrite edge_read by auto. eexists. split; [reflexivity|]. intros i j Hi Hj.
    assert (K : forall x nw w i, (0 <= x < nw)%Z -> (nw <= 1073741823)%Z -> (0 < w <= 1073741823)%Z -> Rabs (IZR x * (IZR w / IZR nw) - IZR i) < / 2 - IZR w / 2097152 ->
      f_as_i32 (ffloor (fadd (fdiv (ofZ x) (fdiv (ofZ nw) (ofZ w))) (dec 1 2))) = i).
    { clear. intros x nw w i Hx Hn Hw H. destruct (nearest_pos_close x nw w Hx Hn Hw) as [NV CV]. destruct (base_safe _ _ _ NV) as [_ B]; [lra|lra|].
      unfold get_base_and_offset in B. cbn [fst] in B. rewrite B. apply Zfloor_imp. rewrite plus_IZR. apply Rabs_lt_iff in H. apply Rabs_le_iff in CV. lra. }
    rewrite (K x w (width b) i), (K y h (height b) j); auto; lia.
  - exists r. split; [exact Er|]. split; [exact Wr|]. split; [exact Hr|]. intros m' x y I i j Hi Hj. destruct (A m' x y I) as (c & C & P). rewrite C. f_equal. now apply P.
Qed.
