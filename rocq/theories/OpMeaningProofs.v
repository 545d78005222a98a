(** Proofs for C84: what the colour operations compute. *)
From Coq Require Import Reals Lra Lia ZArith Bool Psatz.
From Flocq Require Import Core.Core Mult_error Sterbenz IEEE754.BinarySingleNaN.
From Verif Require Import F32 F32Lemmas Color ColorSpec ColorProofs MeaningSpec Approx.
Open Scope R_scope.
Ltac three := split; [|split].

Lemma uo_big : unit_ok (bpow radix2 126) (bpow radix2 101).
Proof. exists 126%Z. split; [lia|]. split; reflexivity. Qed.
Lemma big_R : bpow radix2 126 = 2 ^ 126.
Proof. rewrite bpow_pos. rewrite (pow_IZR 2 126). f_equal. Qed.
Lemma p60 : 2 ^ 60 = 1152921504606846976. Proof. rewrite (pow_IZR 2 60). f_equal. Qed.
Lemma p126 : 2 ^ 126 = 85070591730234615865843651857942052864. Proof. rewrite (pow_IZR 2 126). f_equal. Qed.
Lemma p140 : 0 < / 2 ^ 140 <= / 1000000000000000000000000000000000000000000.
Proof. rewrite (pow_IZR 2 140). split.
  - apply Rinv_0_lt_compat. apply IZR_lt. reflexivity.
  - apply Rinv_le_contravar; apply IZR_lt || apply IZR_le; [reflexivity|]. vm_compute. discriminate. Qed.

Lemma in01_R x : in01 x -> fin x /\ 0 <= B2R x <= 1.
Proof. rewrite in01_num. intros [A B]. auto. Qed.

Lemma chans e f g c : in_gamut c -> (forall v, in01 v -> close e (f (B2R v)) (g v)) ->
  channelwise e f c (mkC (g (d0 c)) (g (d1 c)) (g (d2 c)) (alpha c)).
Proof. intros (A & B & C & D) H. repeat split; try apply H; auto. Qed.

Lemma brightness_meaning fac c : in_gamut c -> moderate fac ->
  channelwise (/ 16777216) (fun v => limited (v + B2R fac)) c (with_brightness fac c).
Proof.
  intros G [Ff Fb]. unfold with_brightness, map_channels. apply (chans _ _ (fun v => clamp (fadd v fac))); auto.
  intros v V. apply in01_R in V. destruct V as [Fv V].
  destruct (fadd_ok v fac (bpow radix2 126)) as [A B]; auto.
  - apply (uo_fmt _ _ uo_big).
  - rewrite big_R, p126. rewrite p60 in Fb. apply Rabs_le_iff in Fb. apply Rabs_le_iff. lra.
  - now apply clamp_rnd.
Qed.

Lemma invert_meaning c : in_gamut c -> channelwise (/ 33554432) (fun v => 1 - v) c (invert c).
Proof.
  intros G. unfold invert. apply (chans _ _ (fun v => fsub f1 v)); auto.
  intros v V. apply in01_R in V. destruct V as [Fv V].
  eapply close_weak; [eapply close_eq; [apply (close_sub _ _ 0 0 (B2R f1) (B2R v) _ _ uo_1)|]|].
  - apply close_0, f1_fin.
  - now apply close_0.
  - rewrite f1_R. rewrite Rabs_right; lra.
  - rewrite f1_R. reflexivity.
  - lra.
Qed.

(** [(v - 1/2) * f + 1/2] for a [w] near [v - 1/2] *)
Lemma stretch_close w r e fac : close e r w -> fin fac -> Rabs (B2R fac) <= 2 ^ 60 -> Rabs r + e <= 2 ^ 61 ->
  close ((1 + Rabs (B2R fac)) * (e + (Rabs r + e + 2) / 16777216)) (limited (r * B2R fac + / 2)) (clamp (fadd (fmul w fac) (dec 1 2))).
Proof.
  intros [Fw E] Ff Fb Hr. pose proof half_R as HR.
  set (F := Rabs (B2R fac)) in *. assert (F0 : 0 <= F) by apply Rabs_pos.
  assert (e0 : 0 <= e) by (eapply Rle_trans; [apply Rabs_pos | exact E]).
  set (R0 := Rabs r) in *. assert (R00 : 0 <= R0) by apply Rabs_pos.
  assert (W : Rabs (B2R w) <= R0 + e).
  { replace (B2R w) with (r + (B2R w - r)) by ring. eapply Rle_trans; [apply Rabs_triang|]. unfold R0. lra. }
  assert (P : Rabs (B2R w * B2R fac) <= (R0 + e) * F) by (apply abs_mul_le; [exact W | apply Rle_refl]).
  assert (Pb : (R0 + e) * F <= 2 ^ 121).
  { replace (2 ^ 121) with (2 ^ 61 * 2 ^ 60) by (rewrite <- pow_add; reflexivity).
    apply Rmult_le_compat; lra. }
  assert (p121 : 2 ^ 121 <= 2 ^ 126 / 32) by (rewrite p126; rewrite (pow_IZR 2 121); change (2 ^ Z.of_nat 121)%Z with 2658455991569831745807614120560689152%Z; lra).
  destruct (fmul_ok w fac (bpow radix2 126)) as [A B]; auto. { apply (uo_fmt _ _ uo_big). } { rewrite big_R. rewrite p126 in *. lra. }
  pose proof (rnd_rel_abs (B2R w * B2R fac)) as Er. rewrite <- B in Er.
  assert (Er' : Rabs (B2R (fmul w fac) - r * B2R fac) <= e * F + / 16777216 * ((R0 + e) * F) + / 2 ^ 140).
  { replace (B2R (fmul w fac) - r * B2R fac) with ((B2R (fmul w fac) - B2R w * B2R fac) + (B2R w - r) * B2R fac) by ring.
    eapply Rle_trans; [apply Rabs_triang|].
    assert (Rabs ((B2R w - r) * B2R fac) <= e * F) by (apply abs_mul_le; [exact E|apply Rle_refl]). lra. }
  assert (Q : Rabs (B2R (fmul w fac)) <= 2 ^ 122).
  { replace (B2R (fmul w fac)) with (B2R w * B2R fac + (B2R (fmul w fac) - B2R w * B2R fac)) by ring.
    eapply Rle_trans; [apply Rabs_triang|]. replace (2 ^ 122) with (2 * 2 ^ 121) by (change 122%nat with (S 121); reflexivity).
    pose proof p140. assert (1 <= 2 ^ 121) by (apply pow_R1_Rle; lra). lra. }
  destruct (fadd_ok (fmul w fac) (dec 1 2) (bpow radix2 126)) as [C D]; auto. { apply half_fin. } { apply (uo_fmt _ _ uo_big). }
  { rewrite big_R, HR. replace (2 ^ 122) with (2 ^ 126 / 16) in Q by (rewrite p126, (pow_IZR 2 122); change (2 ^ Z.of_nat 122)%Z with 5316911983139663491615228241121378304%Z; lra).
    rewrite p126 in *. apply Rabs_le_iff in Q. apply Rabs_le_iff. lra. }
  pose proof (clamp_rnd _ _ C D) as K. rewrite HR in K.
  eapply close_weak; [apply (close_move _ _ (limited (r * B2R fac + / 2)) (e * F + / 16777216 * ((R0 + e) * F) + / 2 ^ 140) _ K)|].
  - apply limited_lip_e. replace (B2R (fmul w fac) + / 2 - (r * B2R fac + / 2)) with (B2R (fmul w fac) - r * B2R fac) by ring. exact Er'.
  - pose proof p140. nra.
Qed.

Lemma contrast_meaning fac c : in_gamut c -> moderate fac ->
  channelwise ((4 + 4 * Rabs (B2R fac)) / 16777216) (fun v => limited ((v - / 2) * B2R fac + / 2)) c (with_contrast fac c).
Proof.
  intros G [Ff Fb]. unfold with_contrast, map_channels.
  apply (chans _ _ (fun v => clamp (fadd (fmul (fsub v (dec 1 2)) fac) (dec 1 2)))); auto.
  intros v V. apply in01_R in V. destruct V as [Fv V].
  assert (W : close (/ 67108864) (B2R v - / 2) (fsub v (dec 1 2))).
  { eapply close_weak; [eapply close_eq; [apply (close_sub _ _ 0 0 (B2R v) (B2R (dec 1 2)) _ _ uo_h)|]|].
    - now apply close_0.
    - apply close_0, half_fin.
    - rewrite half_R. unfold Rabs. destruct Rcase_abs; lra.
    - rewrite half_R. reflexivity.
    - lra. }
  assert (Rb : Rabs (B2R v - / 2) <= / 2) by (apply Rabs_le_iff; lra).
  eapply close_weak; [apply (stretch_close _ _ _ _ W); auto|].
  - assert (2 <= 2 ^ 61) by (rewrite (pow_IZR 2 61); apply IZR_le; vm_compute; discriminate). lra.
  - pose proof (Rabs_pos (B2R fac)). nra.
Qed.

Lemma brightness_contrast_meaning br fac c : in_gamut c -> moderate br -> moderate fac ->
  channelwise ((1 + Rabs (B2R fac)) * (8 + 5 * Rabs (B2R br)) / 16777216)
    (fun v => limited ((v + B2R br - / 2) * B2R fac + / 2)) c (with_brightness_contrast br fac c).
Proof.
  intros G [Fbr Bb] [Ff Fb]. unfold with_brightness_contrast, map_channels.
  apply (chans _ _ (fun v => clamp (fadd (fmul (fsub (fadd v br) (dec 1 2)) fac) (dec 1 2)))); auto.
  intros v V. apply in01_R in V. destruct V as [Fv V].
  set (Bf := Rabs (B2R br)) in *. assert (B0 : 0 <= Bf) by apply Rabs_pos.
  assert (S1 : Rabs (B2R v + B2R br) <= 1 + Bf).
  { eapply Rle_trans; [apply Rabs_triang|]. rewrite (Rabs_right (B2R v)) by lra. unfold Bf. lra. }
  rewrite p60 in Bb.
  destruct (fadd_ok v br (bpow radix2 126)) as [A B]; auto. { apply (uo_fmt _ _ uo_big). } { rewrite big_R, p126. lra. }
  pose proof (rnd_rel_abs (B2R v + B2R br)) as E1. rewrite <- B in E1. pose proof p140 as P.
  assert (E1' : Rabs (B2R (fadd v br) - (B2R v + B2R br)) <= (2 + Bf) / 16777216) by lra.
  assert (S2 : Rabs (B2R (fadd v br) - / 2) <= 2 + 2 * Bf).
  { apply Rabs_le_iff in S1, E1'. apply Rabs_le_iff. lra. }
  destruct (fsub_ok (fadd v br) (dec 1 2) (bpow radix2 126)) as [C D]; auto. { apply half_fin. } { apply (uo_fmt _ _ uo_big). } { rewrite half_R, big_R, p126. lra. }
  rewrite half_R in D.
  pose proof (rnd_rel_abs (B2R (fadd v br) - / 2)) as E2. rewrite <- D in E2.
  assert (W : close ((5 + 3 * Bf) / 16777216) (B2R v + B2R br - / 2) (fsub (fadd v br) (dec 1 2))).
  { split; [exact C|]. apply Rabs_le_iff in E1', E2. apply Rabs_le_iff. lra. }
  assert (Rb : Rabs (B2R v + B2R br - / 2) <= / 2 + Bf).
  { unfold Bf. apply Rabs_le_iff. unfold Rabs. destruct Rcase_abs; lra. }
  assert (R61 : 2 ^ 61 = 2305843009213693952) by (rewrite (pow_IZR 2 61); f_equal).
  eapply close_weak; [apply (stretch_close _ _ _ _ W); auto|].
  - rewrite R61. lra.
  - pose proof (Rabs_pos (B2R fac)) as F0. unfold Rdiv. rewrite Rmult_assoc. apply Rmult_le_compat_l; [lra|]. lra.
Qed.

Lemma difference_meaning c o : in_gamut c -> in_gamut o ->
  colour_close (/ 33554432) (Rabs (B2R (d0 c) - B2R (d0 o))) (Rabs (B2R (d1 c) - B2R (d1 o))) (Rabs (B2R (d2 c) - B2R (d2 o)))
    (difference c o).
Proof.
  intros (A & B & C & _) (A' & B' & C' & _). unfold difference, rgb_new, colour_close.
  assert (H : forall v w, in01 v -> in01 w -> close (/ 33554432) (Rabs (B2R v - B2R w)) (clamp (fabs (fsub v w)))).
  { intros v w V W. apply in01_R in V, W. destruct V as [Fv V], W as [Fw W].
    assert (Rb : Rabs (B2R v - B2R w) <= 1) by (apply Rabs_le_iff; lra).
    rewrite <- (limited_id (Rabs (B2R v - B2R w))).
    - apply close_clamp, close_abs. eapply close_weak; [apply (close_sub _ _ 0 0 _ _ _ _ uo_1)|]; try (now apply close_0); lra.
    - split; [apply Rabs_pos | exact Rb]. }
  three; apply H; assumption.
Qed.

Lemma close_prod M u a b v k : unit_ok M u -> fin v -> fin k -> Rabs (B2R v) <= a -> Rabs (B2R k) <= b -> a * b <= M ->
  close u (B2R v * B2R k) (fmul v k).
Proof. intros U V K Ha Hb H. eapply close_weak; [apply (close_mul M u a b 0 0 _ _ _ _ U)|]; try (now apply close_0); auto; try lra. Qed.

(** A weighted sum of three channels; the weights are constants near [A B C]. *)
Lemma weighted_close e A B C kA kB kC r g b :
  close e A kA -> close e B kB -> close e C kC -> 0 <= A <= 1 -> 0 <= B <= 1 -> 0 <= C <= 1 -> A + B + C <= 3 / 2 ->
  e <= / 16777216 -> in01 r -> in01 g -> in01 b ->
  close (3 * e + 10 / 33554432) (A * B2R r + B * B2R g + C * B2R b) (fadd (fadd (fmul r kA) (fmul g kB)) (fmul b kC)).
Proof.
  intros HA HB HC RA RB RC S He R G Bb. apply in01_R in R, G, Bb. destruct R as [Fr R], G as [Fg G], Bb as [Fb Bb].
  assert (e0 : 0 <= e) by (destruct HA as [_ H]; eapply Rle_trans; [apply Rabs_pos | exact H]).
  assert (P : forall K k v, close e K k -> 0 <= K <= 1 -> fin v -> 0 <= B2R v <= 1 -> close (e + 2 * / 33554432) (K * B2R v) (fmul v k)).
  { intros K k v HK RK Fv V. rewrite (Rmult_comm K). eapply close_weak.
    - apply (close_mul 2 (/ 16777216) 1 1 0 e _ _ _ _ uo_2 (close_0 v Fv) HK); try (apply Rabs_le_iff; lra). lra.
    - lra. }
  pose proof (P _ _ _ HA RA Fr R) as PA. pose proof (P _ _ _ HB RB Fg G) as PB. pose proof (P _ _ _ HC RC Fb Bb) as PC.
  assert (XA : 0 <= A * B2R r <= A) by nra. assert (XB : 0 <= B * B2R g <= B) by nra. assert (XC : 0 <= C * B2R b <= C) by nra.
  eapply close_weak.
  - eapply (close_add 2 (/ 16777216) _ _ _ _ _ _ uo_2).
    + apply (close_add 2 (/ 16777216) _ _ _ _ _ _ uo_2 PA PB). rewrite Rabs_right by lra. lra.
    + exact PC.
    + rewrite Rabs_right by lra. lra.
  - lra.
Qed.

Lemma Some_inj (A : Type) (a b : A) : Some a = Some b -> a = b.
Proof. intros H. inversion H. reflexivity. Qed.
Arguments Some_inj {A a b}.
Ltac close_const := match goal with |- close ?e ?r ?c => let H := fresh in fval c H; split; [assumption|rewrite H; apply Rabs_le_iff; lra] end.

Lemma gray_meaning i c r : in_gamut c -> gray_formula i (B2R (d0 c)) (B2R (d1 c)) (B2R (d2 c)) = Some r ->
  colour_close (/ 2097152) r r r (to_gray_with_intensity i c) /\ d3 (to_gray_with_intensity i c) = d3 c.
Proof.
  intros (G0 & G1 & G2 & G3) E. split; [|reflexivity].
  enough (H : close (/ 2097152) r (gray_value i c)) by (three; exact H).
  assert (N0 := in01_R _ G0). assert (N1 := in01_R _ G1). assert (N2 := in01_R _ G2).
  destruct N0 as [F0 N0], N1 as [F1 N1], N2 as [F2 N2].
  assert (M : B2R (rgb_max c) = Rmax (B2R (d0 c)) (Rmax (B2R (d1 c)) (B2R (d2 c))) /\ fin (rgb_max c)).
  { destruct (rgb_max_val c) as ([Fm _] & A & B & C & D); try (apply in01_num; assumption). split; [|exact Fm].
    unfold Rmax. repeat destruct Rle_dec; lra. }
  assert (m : B2R (rgb_min c) = Rmin (B2R (d0 c)) (Rmin (B2R (d1 c)) (B2R (d2 c))) /\ fin (rgb_min c)).
  { destruct (rgb_min_val c) as ([Fm _] & A & B & C & D); try (apply in01_num; assumption). split; [|exact Fm].
    unfold Rmin. repeat destruct Rle_dec; lra. }
  destruct M as [M FM], m as [m Fm].
  assert (Mb : 0 <= B2R (rgb_max c) <= 1) by (rewrite M; unfold Rmax; repeat destruct Rle_dec; lra).
  assert (mb : 0 <= B2R (rgb_min c) <= 1) by (rewrite m; unfold Rmin; repeat destruct Rle_dec; lra).
  assert (X : forall x, fin x -> close (/ 2097152) (B2R x) x).
  { intros x Hx. eapply close_weak; [now apply close_0|lra]. }
  destruct i; unfold gray_formula in E; try discriminate E; apply Some_inj in E; subst r; unfold gray_value.
  - eapply close_weak.
    + apply (close_div 2 (/ 16777216) 3 1 (3 / 16777216) 0 _ 3 _ _ uo_2).
      * eapply close_weak; [apply (close_add 4 (/ 8388608) (/ 16777216) 0 _ _ _ _ uo_4)|].
        -- eapply close_weak; [apply (close_add 2 (/ 16777216) 0 0 _ _ _ _ uo_2); try (now apply close_0)|]; [|lra].
           rewrite Rabs_right; lra.
        -- now apply close_0.
        -- rewrite Rabs_right; lra.
        -- lra.
      * eapply close_eq; [apply close_0, ofZ_fin; lia | rewrite ofZ_R; [reflexivity|lia]].
      * lra.
      * rewrite Rabs_right; lra.
      * rewrite Rabs_right; lra.
      * lra.
    + lra.
  - eapply close_weak; [apply (weighted_close (/ 33554432)); auto; try close_const; lra|lra].
  - eapply close_weak; [apply (weighted_close (/ 33554432)); auto; try close_const; lra|lra].
  - rewrite <- M. auto.
  - rewrite <- M, <- m. eapply close_weak.
    + apply (close_div 2 (/ 16777216) 2 1 (/ 16777216) 0 _ 2 _ _ uo_2).
      * eapply close_weak; [apply (close_add 2 (/ 16777216) 0 0 _ _ _ _ uo_2); try (now apply close_0)|]; [|lra].
        rewrite Rabs_right; lra.
      * eapply close_eq; [apply close_0, f2_fin | apply f2_R].
      * lra.
      * rewrite Rabs_right; lra.
      * rewrite Rabs_right; lra.
      * lra.
    + lra.
  - auto.
  - auto.
  - auto.
Qed.

Lemma sepia_meaning c : in_gamut c ->
  colour_close (/ 2097152)
    (limited (393 / 1000 * B2R (d0 c) + 769 / 1000 * B2R (d1 c) + 189 / 1000 * B2R (d2 c)))
    (limited (349 / 1000 * B2R (d0 c) + 686 / 1000 * B2R (d1 c) + 168 / 1000 * B2R (d2 c)))
    (limited (272 / 1000 * B2R (d0 c) + 534 / 1000 * B2R (d1 c) + 131 / 1000 * B2R (d2 c)))
    (with_sepia c).
Proof.
  intros (G0 & G1 & G2 & G3). unfold with_sepia.
  three; apply close_clamp;
    (eapply close_weak; [apply (weighted_close (/ 33554432)); auto; try close_const; lra|lra]).
Qed.

Lemma mix_close a x y : in01 a -> in01 x -> in01 y ->
  close (/ 4194304) (B2R x * B2R a + (1 - B2R a) * B2R y) (fadd (fmul x a) (fmul (fsub f1 a) y)).
Proof.
  intros A X Y. apply in01_R in A, X, Y. destruct A as [Fa A], X as [Fx X], Y as [Fy Y].
  assert (C1 : close (/ 33554432) (B2R x * B2R a) (fmul x a)).
  { apply (close_prod 1 _ 1 1); auto using uo_1; try (apply Rabs_le_iff; lra). lra. }
  assert (C2 : close (/ 33554432) (1 - B2R a) (fsub f1 a)).
  { eapply close_weak; [eapply close_eq; [apply (close_sub _ _ 0 0 (B2R f1) (B2R a) _ _ uo_1)|]|].
    - apply close_0, f1_fin.
    - now apply close_0.
    - rewrite f1_R. rewrite Rabs_right; lra.
    - rewrite f1_R. reflexivity.
    - lra. }
  assert (C3 : close (3 / 33554432) ((1 - B2R a) * B2R y) (fmul (fsub f1 a) y)).
  { eapply close_weak; [apply (close_mul 2 _ 1 1 _ 0 _ _ _ _ uo_2 C2 (close_0 _ Fy)); try (apply Rabs_le_iff; lra)|]; lra. }
  assert (0 <= B2R x * B2R a <= B2R a) by nra. assert (0 <= (1 - B2R a) * B2R y <= 1 - B2R a) by nra.
  eapply close_weak; [apply (close_add 2 _ _ _ _ _ _ _ uo_2 C1 C3); rewrite Rabs_right; lra | lra].
Qed.

Lemma alpha_blend_meaning c o : in_gamut c -> in_gamut o ->
  let a := B2R (d3 o) in
  let mix b t := t * a + (1 - a) * b in
  colour_close (/ 4194304) (mix (B2R (d0 c)) (B2R (d0 o))) (mix (B2R (d1 c)) (B2R (d1 o))) (mix (B2R (d2 c)) (B2R (d2 o)))
    (alpha_blend c o) /\
  close (/ 4194304) (Rmin (B2R (d3 c) + a) 1) (d3 (alpha_blend c o)).
Proof.
  intros (A & B & C & D) (A' & B' & C' & D'). cbv zeta. unfold alpha_blend, alpha, rgb_new_with_alpha.
  assert (M : forall x y, in01 x -> in01 y ->
    close (/ 4194304) (B2R x * B2R (d3 o) + (1 - B2R (d3 o)) * B2R y) (clamp (fadd (fmul x (d3 o)) (fmul (fsub f1 (d3 o)) y)))).
  { intros x y X Y. rewrite <- (limited_id (_ + _)).
    - apply close_clamp, mix_close; auto.
    - apply in01_R in X, Y, D'. destruct X as [_ X], Y as [_ Y], D' as [_ D'].
      assert (0 <= B2R x * B2R (d3 o) <= B2R (d3 o)) by nra. assert (0 <= (1 - B2R (d3 o)) * B2R y <= 1 - B2R (d3 o)) by nra. lra. }
  split; [three; apply M; assumption|].
  apply in01_R in D, D'. destruct D as [F D], D' as [F' D'].
  assert (K : close (/ 16777216) (B2R (d3 c) + B2R (d3 o)) (fadd (d3 c) (d3 o))).
  { eapply close_weak; [apply (close_add 2 _ 0 0 _ _ _ _ uo_2); try (now apply close_0)|lra]. rewrite Rabs_right; lra. }
  destruct K as [K1 K2]. destruct (fmin_val (fadd (d3 c) (d3 o)) f1 K1 f1_fin) as [E1 E2].
  cbn [d3]. rewrite <- (limited_id (Rmin _ 1)); [|unfold Rmin; destruct Rle_dec; lra].
  apply close_clamp. split; [exact E1|]. rewrite E2, f1_R. apply Rabs_le_iff in K2. apply Rabs_le_iff.
  unfold Rmin. repeat destruct Rle_dec; lra.
Qed.

(** ** Powers *)
Lemma ln_le_0 x : 0 < x <= 1 -> ln x <= 0.
Proof. intros [A [B|B]]; [|subst; rewrite ln_1; lra]. rewrite <- ln_1. left. now apply ln_increasing. Qed.
Lemma exp_ge x : 1 + x <= exp x.
Proof. destruct (Req_dec x 0) as [->|H]; [rewrite exp_0; lra|]. left. now apply exp_ineq1. Qed.
Lemma Rpower_01 x a : 0 < x <= 1 -> 0 <= a -> 0 < Rpower x a <= 1.
Proof. intros H A. split; [apply exp_pos|]. unfold Rpower. rewrite <- exp_0.
  assert (a * ln x <= 0) by (pose proof (ln_le_0 x H); nra). destruct H0 as [H0|H0]; [left; now apply exp_increasing | rewrite H0; lra]. Qed.
Lemma Rpower_near x a b : 0 < x <= 1 -> 0 < a <= b -> 0 <= Rpower x a - Rpower x b <= (b - a) / a.
Proof.
  intros Hx [A B].
  replace b with (a + (b - a)) at 1 2 by ring. rewrite Rpower_plus.
  pose proof (Rpower_01 x a Hx ltac:(lra)) as P. pose proof (Rpower_01 x (b - a) Hx ltac:(lra)) as Q.
  split; [nra|].
  assert (E : 1 - Rpower x (b - a) <= (b - a) * - ln x).
  { unfold Rpower. pose proof (exp_ge ((b - a) * ln x)). lra. }
  set (u := a * - ln x). assert (U : 0 <= u) by (unfold u; pose proof (ln_le_0 x Hx); nra).
  assert (V : Rpower x a * u <= 1).
  { unfold Rpower. replace (a * ln x) with (- u) by (unfold u; ring). rewrite exp_Ropp.
    pose proof (exp_ge u). pose proof (exp_pos u). apply (Rmult_le_reg_l (exp u)); [lra|].
    replace (exp u * (/ exp u * u)) with u by (field; lra). lra. }
  replace (Rpower x a - Rpower x a * Rpower x (b - a)) with (Rpower x a * (1 - Rpower x (b - a))) by ring.
  apply Rle_trans with (Rpower x a * ((b - a) * - ln x)).
  - apply Rmult_le_compat_l; lra.
  - replace (Rpower x a * ((b - a) * - ln x)) with ((Rpower x a * u) * ((b - a) / a)) by (unfold u; field; lra).
    assert (0 <= (b - a) / a) by (apply Rmult_le_pos; [lra|]; left; apply Rinv_0_lt_compat; lra). nra.
Qed.
Lemma Rpower_rel x a b d : 0 < x <= 1 -> 0 < a -> 0 <= d <= / 2 -> Rabs (b - a) <= d * a ->
  Rabs (Rpower x b - Rpower x a) <= 2 * d.
Proof.
  intros Hx A D H. apply Rabs_le_iff in H. apply Rabs_le_iff. destruct (Rle_dec a b) as [L|L].
  - pose proof (Rpower_near x a b Hx ltac:(lra)) as E.
    assert ((b - a) / a <= d) by (apply (Rmult_le_reg_r a); [lra|]; unfold Rdiv; rewrite Rmult_assoc, Rinv_l by lra; lra). lra.
  - assert (B : a / 2 <= b) by nra.
    pose proof (Rpower_near x b a Hx ltac:(lra)) as E.
    assert ((a - b) / b <= 2 * d) by (apply (Rmult_le_reg_r b); [lra|]; unfold Rdiv; rewrite Rmult_assoc, Rinv_l by lra; nra). lra.
Qed.

Lemma clamp_01 v : fin v -> 0 <= B2R v <= 1 -> fin (clamp v) /\ B2R (clamp v) = B2R v.
Proof. intros F H. destruct (clamp_R v F) as [A B]. split; auto. rewrite B. now apply limited_id. Qed.

Lemma gamma_formula_01 g v : 0 <= v <= 1 -> 0 < g -> 0 <= gamma_formula g v <= 1.
Proof. intros V G. unfold gamma_formula. destruct Req_EM_T; [lra|]. pose proof (Rpower_01 v (/ g) ltac:(lra)).
  assert (0 < / g) by now apply Rinv_0_lt_compat. lra. Qed.

Lemma p100 : 0 < / 2 ^ 100 <= / 1000000000000000000000.
Proof. rewrite (pow_IZR 2 100). split.
  - apply Rinv_0_lt_compat. apply IZR_lt. reflexivity.
  - apply Rinv_le_contravar; apply IZR_lt || apply IZR_le; [reflexivity|]. vm_compute. discriminate. Qed.

(** One power with an exponent [y] close to [1/g]. *)
Lemma pow_close L v y g : accurate_powf L -> fin v -> 0 <= B2R v <= 1 -> fin y -> B2R y <= 1000 -> / 1000 <= g <= 1000 ->
  Rabs (B2R y - / g) <= 2 / 16777216 * / g ->
  close (/ 524288 - / 8388608) (gamma_formula g (B2R v)) (powf L v y).
Proof.
  intros AL Fv V Fy Y1 G H.
  assert (g0 : 0 < / g) by (apply Rinv_0_lt_compat; lra).
  assert (Y0 : 0 < B2R y) by (apply Rabs_le_iff in H; lra).
  destruct (AL v y Fv Fy (conj Y0 Y1)) as [K0 K1]. unfold gamma_formula. destruct Req_EM_T as [E|E].
  - eapply close_weak; [exact (K1 E)|lra].
  - assert (V' : 0 < B2R v <= 1) by lra. specialize (K0 V').
    pose proof (Rpower_01 (B2R v) (B2R y) V' ltac:(lra)) as P.
    pose proof (Rpower_rel (B2R v) (/ g) (B2R y) (2 / 16777216) V' g0 ltac:(lra) H) as Q.
    eapply close_weak; [apply (close_move _ _ _ _ _ K0 Q)|]. pose proof p100. lra.
Qed.
Lemma inv_close g : usual_gamma g -> fin (fdiv f1 g) /\ B2R (fdiv f1 g) <= 1000 /\ Rabs (B2R (fdiv f1 g) - / B2R g) <= 2 / 16777216 * / B2R g.
Proof.
  intros [F G].
  assert (I : / 1000 <= / B2R g <= 1000).
  { split; [apply Rinv_le_contravar; lra|]. rewrite <- (Rinv_inv 1000). apply Rinv_le_contravar; lra. }
  destruct (fdiv_ok f1 g 1000) as [A B]; auto with fin. { lra. } { apply fmt_IZR; lia. }
  { rewrite f1_R. unfold Rdiv. rewrite Rmult_1_l, Rabs_right; lra. }
  rewrite f1_R in B. unfold Rdiv in B. rewrite Rmult_1_l in B. split; [exact A|]. split.
  - rewrite B. apply rnd_hi; [apply fmt_IZR; lia | lra].
  - rewrite B. pose proof (rnd_rel_abs (/ B2R g)) as R. rewrite (Rabs_right (/ B2R g)) in R by lra. pose proof p140. lra.
Qed.

Lemma gamma_meaning L g c : accurate_powf L -> in_gamut c -> usual_gamma g ->
  channelwise (/ 524288) (gamma_formula (B2R g)) c (with_gamma L g c).
Proof.
  intros AL G U. unfold with_gamma, map_channels.
  apply (chans _ _ (fun v => clamp (powf L (clamp v) (fdiv f1 g)))); auto.
  intros v V. apply in01_R in V. destruct V as [Fv V]. destruct (clamp_01 v Fv V) as [C1 C2].
  destruct (inv_close g U) as (I1 & I2 & I3). destruct U as [U1 U2].
  rewrite <- (limited_id (gamma_formula (B2R g) (B2R v))) by (apply gamma_formula_01; lra).
  apply close_clamp. rewrite <- C2. eapply close_weak; [apply pow_close; auto; rewrite ?C2; auto | lra].
Qed.

Lemma double_exact x : fin x -> 0 <= B2R x <= 1 -> fin (fmul x f2) /\ B2R (fmul x f2) = 2 * B2R x.
Proof.
  intros F H. destruct (fmul_ok x f2 2) as [A B]; auto with fin fmt. { rewrite f2_R. apply Rabs_le_iff. lra. }
  split; [exact A|]. rewrite B, f2_R. rewrite rnd_id; [ring|].
  split.
  - change 2 with (bpow radix2 1). apply (mult_bpow_pos_exact_FLT radix2 (-149)%Z 24%Z); [apply fmt_B2R|lia].
  - apply Rle_lt_trans with 2; [apply Rabs_le_iff; lra|]. apply (bpow_lt radix2 1 128). lia.
Qed.
Lemma minus_half_exact x : fin x -> / 2 <= B2R x <= 1 -> fin (fsub x (dec 1 2)) /\ B2R (fsub x (dec 1 2)) = B2R x - / 2.
Proof.
  intros F H. destruct (fsub_ok x (dec 1 2) 1) as [A B]; auto with fin fmt. { rewrite half_R. apply Rabs_le_iff. lra. }
  split; [exact A|]. rewrite B, half_R. apply rnd_id. split.
  - apply sterbenz; [typeclasses eauto|typeclasses eauto|apply fmt_B2R|apply fmt_half|lra].
  - apply Rle_lt_trans with 2; [apply Rabs_le_iff; lra|]. apply (bpow_lt radix2 1 128). lia.
Qed.

Lemma gamma_opt_meaning L g c : accurate_powf L -> in_gamut c -> usual_gamma g ->
  channelwise (/ 524288) (gamma_opt_formula (B2R g)) c (with_gamma_opt L g c).
Proof.
  intros AL G U. unfold with_gamma_opt, map_channels.
  apply (chans _ _ (fun v => clamp (if flt (dec 1 2) v
    then fadd (fdiv (powf L (clamp (fmul (fsub v (dec 1 2)) f2)) (fdiv f1 g)) f2) (dec 1 2)
    else fdiv (powf L (clamp (fmul v f2)) (fmul f1 g)) f2))); auto.
  intros v V. apply in01_R in V. destruct V as [Fv V].
  destruct (inv_close g U) as (I1 & I2 & I3). destruct U as [U1 U2].
  assert (C2 : close 0 2 f2) by (eapply close_eq; [apply close_0, f2_fin | apply f2_R]).
  assert (half : forall e r x, 0 <= r <= 1 -> close e r x -> e <= / 4 -> close (e / 2 + / 33554432) (r / 2) (fdiv x f2)).
  { intros e r x R X E0. assert (0 <= e) by (destruct X as [_ X]; eapply Rle_trans; [apply Rabs_pos|exact X]).
    eapply close_weak; [apply (close_div 1 _ 2 (/ 2) _ 0 _ _ _ _ uo_1 X C2)|]; try lra.
    - rewrite Rabs_right; lra.
    - rewrite Rabs_right; lra. }
  destruct (flt (dec 1 2) v) eqn:T.
  - apply flt_R in T; auto with fin. rewrite half_R in T.
    destruct (minus_half_exact v Fv ltac:(lra)) as [A1 A2].
    destruct (double_exact (fsub v (dec 1 2)) A1 ltac:(lra)) as [B1 B2].
    destruct (clamp_01 _ B1 ltac:(lra)) as [D1 D2].
    unfold gamma_opt_formula. destruct (Rlt_dec (/ 2) (B2R v)) as [H|H]; [|lra].
    assert (N : 2 * B2R v - 1 = B2R (clamp (fmul (fsub v (dec 1 2)) f2))) by lra.
    assert (G01 : 0 <= gamma_formula (B2R g) (2 * B2R v - 1) <= 1) by (apply gamma_formula_01; lra).
    rewrite <- (limited_id (_ + / 2)) by lra. apply close_clamp.
    assert (P := pow_close L (clamp (fmul (fsub v (dec 1 2)) f2)) (fdiv f1 g) (B2R g) AL D1 ltac:(lra) I1 I2 U2 I3).
    rewrite <- N in P. apply half in P; [|lra|lra].
    eapply close_weak; [apply (close_add 2 _ _ 0 _ _ _ _ uo_2 P)|].
    + eapply close_eq; [apply close_0, half_fin | apply half_R].
    + rewrite Rabs_right; lra.
    + lra.
  - apply flt_Rf in T; auto with fin. rewrite half_R in T.
    destruct (double_exact v Fv ltac:(lra)) as [B1 B2].
    destruct (clamp_01 _ B1 ltac:(lra)) as [D1 D2].
    unfold gamma_opt_formula. destruct (Rlt_dec (/ 2) (B2R v)) as [H|H]; [lra|].
    assert (G01 : 0 <= gamma_formula (/ B2R g) (2 * B2R v) <= 1) by (apply gamma_formula_01; [lra|apply Rinv_0_lt_compat; lra]).
    rewrite <- (limited_id (_ / 2)) by lra. apply close_clamp.
    destruct (fmul_exact f1 g) as [E1 E2]; auto with fin. { rewrite f1_R, Rmult_1_l. apply fmt_B2R. } rewrite f1_R, Rmult_1_l in E2.
    assert (I : / 1000 <= / B2R g <= 1000).
    { split; [apply Rinv_le_contravar; lra|]. rewrite <- (Rinv_inv 1000). apply Rinv_le_contravar; lra. }
    assert (P := pow_close L (clamp (fmul v f2)) (fmul f1 g) (/ B2R g) AL D1 ltac:(lra) E1 ltac:(lra) I).
    rewrite Rinv_inv, E2, D2, B2 in P. specialize (P ltac:(rewrite Rminus_diag_eq, Rabs_R0; lra)).
    apply half in P; [|lra|lra]. eapply close_weak; [exact P|lra].
Qed.

(** [a] is [b] up to a relative error [k] *)
Definition rel (k a b : R) : Prop := exists K, a = b * K /\ Rabs (K - 1) <= k.
Lemma rel_mul k1 k2 K1 K2 : Rabs (K1 - 1) <= k1 -> Rabs (K2 - 1) <= k2 -> Rabs (K1 * K2 - 1) <= k1 + k2 + k1 * k2.
Proof.
  intros A B. replace (K1 * K2 - 1) with ((K1 - 1) + (K2 - 1) + (K1 - 1) * (K2 - 1)) by ring.
  eapply Rle_trans; [apply Rabs_triang|]. apply Rplus_le_compat; [|now apply abs_mul_le].
  eapply Rle_trans; [apply Rabs_triang|]. lra.
Qed.
Lemma rel_rnd r : / 33554432 <= Rabs r -> rel (101 / 100 / 16777216) (rnd r) r.
Proof.
  intros H. pose proof (rnd_rel_abs r) as E. pose proof p140 as P.
  assert (r <> 0) by (intros ->; rewrite Rabs_R0 in H; lra).
  exists (rnd r / r). split; [field; auto|].
  replace (rnd r / r - 1) with ((rnd r - r) / r) by (field; auto). unfold Rdiv at 1. rewrite Rabs_mult, Rabs_inv.
  apply (Rmult_le_reg_r (Rabs r)); [lra|]. rewrite Rmult_assoc, Rinv_l, Rmult_1_r by lra. lra.
Qed.
Lemma rel_inv k K : Rabs (K - 1) <= k -> k <= / 100 -> Rabs (/ K - 1) <= 102 / 100 * k.
Proof.
  intros H Hk. apply Rabs_le_iff in H. assert (K0 : 99 / 100 <= K) by lra.
  replace (/ K - 1) with ((1 - K) * / K) by (field; lra).
  assert (0 < / K <= 102 / 100).
  { split; [apply Rinv_0_lt_compat; lra|]. apply Rle_trans with (/ (99 / 100)); [apply Rinv_le_contravar; lra|]. lra. }
  rewrite (Rmult_comm (102 / 100)). apply abs_mul_le; apply Rabs_le_iff; lra.
Qed.

(** A clamped quotient of differences *)
Lemma stretch_level b w v : in01 v -> in01 b -> in01 w -> / 1048576 <= B2R w - B2R b ->
  let f := fdiv f1 (fsub w b) in
  close (/ 1048576) (limited ((B2R v - B2R b) / (B2R w - B2R b))) (clamp (fmul (fsub v b) f)) /\
  flt (fabs (fsub w b)) f32_EPSILON = false.
Proof.
  intros Hv Hb Hw D. cbv zeta. apply in01_R in Hv, Hb, Hw. destruct Hv as [Fv V], Hb as [Fb B], Hw as [Fw W].
  pose proof p140 as P140.
  set (D0 := B2R w - B2R b) in *. assert (D01 : / 1048576 <= D0 <= 1) by (unfold D0 in *; lra).
  destruct (fsub_ok w b 1) as [A1 A2]; auto with fin fmt. { apply Rabs_le_iff. lra. }
  fold D0 in A2. destruct (rel_rnd D0) as (K1 & E1 & H1). { rewrite Rabs_right; lra. }
  rewrite E1 in A2. clear E1. set (d := fsub w b) in *.
  pose proof H1 as H1'. apply Rabs_le_iff in H1'.
  assert (d1 : / 2097152 <= B2R d <= 2) by (rewrite A2; nra).
  split.
  2:{ apply flt_Rf; [now apply fabs_fin|reflexivity|]. rewrite fabs_R, Rabs_right by lra. fval f32_EPSILON H. rewrite H. lra. }
  assert (J : / 2 <= / B2R d <= 2097152).
  { split; [apply Rinv_le_contravar; lra|]. rewrite <- (Rinv_inv 2097152). apply Rinv_le_contravar; lra. }
  destruct (fdiv_ok f1 d 2097152) as [A3 A4]; auto with fin. { lra. } { apply fmt_IZR; lia. }
  { rewrite f1_R. unfold Rdiv. rewrite Rmult_1_l, Rabs_right; lra. }
  rewrite f1_R in A4. unfold Rdiv in A4. rewrite Rmult_1_l in A4.
  destruct (rel_rnd (/ B2R d)) as (K2 & E2 & H2). { rewrite Rabs_right; lra. }
  rewrite E2 in A4. clear E2. set (f := fdiv f1 d) in *.
  assert (Ff : 0 <= B2R f <= 4194304) by (rewrite A4; apply Rabs_le_iff in H2; nra).
  destruct (fsub_ok v b 1) as [A5 A6]; auto with fin fmt. { apply Rabs_le_iff. lra. }
  set (N0 := B2R v - B2R b) in *. assert (N01 : Rabs N0 <= 1) by (apply Rabs_le_iff; unfold N0; lra).
  pose proof (rnd_rel_abs N0) as E3. rewrite <- A6 in E3. set (n := fsub v b) in *.
  assert (N1 : Rabs (B2R n) <= 2).
  { apply Rabs_le_iff in E3, N01. apply Rabs_le_iff. assert (Rabs N0 <= 1) by (apply Rabs_le_iff; lra). lra. }
  assert (NF : Rabs (B2R n * B2R f) <= 8388608).
  { replace 8388608 with (2 * 4194304) by ring. apply abs_mul_le; [exact N1|]. rewrite Rabs_right; lra. }
  destruct (fmul_ok n f 8388608) as [A7 A8]; auto. { apply fmt_IZR; lia. }
  pose proof (rnd_rel_abs (B2R n * B2R f)) as E4. rewrite <- A8 in E4.
  destruct (clamp_R (fmul n f) A7) as [C1 C2]. split; [exact C1|]. rewrite C2.
  set (p := B2R (fmul n f)) in *. set (X := N0 / D0).
  (* f is the inverse of D0 up to a relative error *)
  set (K := / K1 * K2).
  assert (HK : Rabs (K - 1) <= 21 / 10 / 16777216).
  { eapply Rle_trans; [apply rel_mul; [apply (rel_inv _ _ H1); lra | exact H2]|]. lra. }
  assert (EF : B2R f = / D0 * K) by (rewrite A4, A2; unfold K; field; nra).
  assert (X1 : Rabs X <= 1048576).
  { unfold X, Rdiv. replace 1048576 with (1 * 1048576) by ring. apply abs_mul_le; [exact N01|].
    rewrite Rabs_right by (left; apply Rinv_0_lt_compat; lra). rewrite <- (Rinv_inv 1048576). apply Rinv_le_contravar; lra. }
  assert (E5 : Rabs (B2R n * B2R f - X) <= 32 / 10 / 16777216 * Rabs X + / 1000000000000).
  { replace (B2R n * B2R f - X) with ((B2R n - N0) * B2R f + X * (K - 1)) by (rewrite EF; unfold X; field; lra).
    eapply Rle_trans; [apply Rabs_triang|].
    assert (Rabs (X * (K - 1)) <= Rabs X * (21 / 10 / 16777216)) by (apply abs_mul_le; [apply Rle_refl|exact HK]).
    assert (Q : Rabs ((B2R n - N0) * B2R f) <= (/ 16777216 * Rabs N0 + / 2 ^ 140) * B2R f).
    { apply abs_mul_le; [exact E3|]. rewrite Rabs_right; lra. }
    assert (Q2 : Rabs N0 * B2R f <= Rabs X * (1 + 21 / 10 / 16777216)).
    { rewrite EF. unfold X. unfold Rdiv at 1. rewrite Rabs_mult, (Rabs_right (/ D0)) by (left; apply Rinv_0_lt_compat; lra).
      rewrite <- Rmult_assoc. apply Rmult_le_compat_l; [|apply Rabs_le_iff in HK; lra].
      apply Rmult_le_pos; [apply Rabs_pos | left; apply Rinv_0_lt_compat; lra]. }
    assert (Q3 : / 2 ^ 140 * B2R f <= / 1000000000000) by nra.
    pose proof (Rabs_pos X). nra. }
  assert (E6 : Rabs (B2R n * B2R f) <= Rabs X * (1 + / 1000) + / 1000000000000).
  { replace (B2R n * B2R f) with (X + (B2R n * B2R f - X)) by ring. eapply Rle_trans; [apply Rabs_triang|]. pose proof (Rabs_pos X). lra. }
  assert (E7 : Rabs (p - X) <= 5 / 16777216 * Rabs X + / 100000000000).
  { replace (p - X) with ((p - B2R n * B2R f) + (B2R n * B2R f - X)) by ring. eapply Rle_trans; [apply Rabs_triang|]. pose proof (Rabs_pos X). lra. }
  destruct (Rle_dec (Rabs X) 2) as [H|H].
  - apply limited_lip_e. lra.
  - apply Rabs_le_iff in E7. revert E7 H. unfold Rabs. destruct (Rcase_abs X); intros E7 H.
    + rewrite (limited_lo p), (limited_lo X) by lra. destruct Rcase_abs; lra.
    + rewrite (limited_hi p), (limited_hi X) by lra. destruct Rcase_abs; lra.
Qed.

Lemma level_meaning L b w g v : accurate_powf L -> in01 v -> in01 b -> in01 w -> / 1048576 <= B2R w - B2R b -> usual_gamma g ->
  exists t, 0 <= t <= 1 /\ Rabs (t - limited ((B2R v - B2R b) / (B2R w - B2R b))) <= / 1048576 /\
  close (/ 524288) (gamma_formula (B2R g) t) (clamp (level_value L b w g v)).
Proof.
  intros AL Hv Hb Hw D U. destruct (stretch_level b w v Hv Hb Hw D) as [[C1 C2] T].
  destruct (inv_close g U) as (I1 & I2 & I3). destruct U as [U1 U2].
  unfold level_value. cbv zeta. rewrite T. set (x := clamp (fmul (fsub v b) (fdiv f1 (fsub w b)))) in *.
  assert (X : 0 <= B2R x <= 1).
  { destruct (in01_R x) as [_ E]; [|exact E]. destruct (is_nan (fmul (fsub v b) (fdiv f1 (fsub w b)))) eqn:N.
    - apply clamp_nan in N. unfold x in C1. destruct clamp; discriminate.
    - now apply clamp_in01. }
  exists (B2R x). split; [exact X|]. split; [exact C2|].
  rewrite <- (limited_id (gamma_formula (B2R g) (B2R x))) by (apply gamma_formula_01; lra).
  apply close_clamp. eapply close_weak; [apply pow_close; auto | lra].
Qed.
