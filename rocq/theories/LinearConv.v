(** The conversions that are matrices: XYZ and YUV. *)
From Coq Require Import Reals Lra Lia ZArith Bool.
From Flocq Require Import Core.Core IEEE754.BinarySingleNaN.
From Verif Require Import F32 F32Lemmas Color ColorSpec ColorProofs MeaningSpec ConvSpec Approx OpMeaningProofs.
Open Scope R_scope.

(** One row, from the exact values of the coefficients. *)
Lemma prod_val x k : fin x -> fin k -> Rabs (B2R x * B2R k) <= 1000 ->
  fin (fmul x k) /\ Rabs (B2R (fmul x k) - B2R x * B2R k) <= / 16777216 * Rabs (B2R x * B2R k) + / 2 ^ 140.
Proof.
  intros Fx Fk H. destruct (fmul_ok x k 1000) as [F E]; auto. { apply (fmt_IZR 1000). lia. }
  split; auto. rewrite E. apply rnd_rel_abs.
Qed.
Lemma sum_val x y M : fin x -> fin y -> Rabs (B2R x + B2R y) <= M -> M <= 10000 ->
  fin (fadd x y) /\ Rabs (B2R (fadd x y) - (B2R x + B2R y)) <= / 16777216 * M + / 2 ^ 140.
Proof.
  intros Fx Fy H G. destruct (fadd_ok x y 10000) as [F E]; auto. { apply (fmt_IZR 10000). lia. } { lra. }
  split; auto. rewrite E. assert (R := rnd_rel_abs (B2R x + B2R y)). lra.
Qed.
Lemma dot3_val c a b e S : fin (d0 c) -> fin (d1 c) -> fin (d2 c) -> fin a -> fin b -> fin e ->
  Rabs (B2R (d0 c) * B2R a) + Rabs (B2R (d1 c) * B2R b) + Rabs (B2R (d2 c) * B2R e) <= S -> S <= 900 ->
  fin (dot3 c (a, b, e)) /\
  Rabs (B2R (dot3 c (a, b, e)) - (B2R (d0 c) * B2R a + B2R (d1 c) * B2R b + B2R (d2 c) * B2R e)) <= S / 5000000 + / 1000000000000.
Proof.
  intros F0 F1 F2 Fa Fb Fe H HS. cbn [dot3]. assert (T := p140).
  set (x := B2R (d0 c) * B2R a) in *. set (y := B2R (d1 c) * B2R b) in *. set (z := B2R (d2 c) * B2R e) in *.
  assert (X := Rabs_pos x). assert (Y := Rabs_pos y). assert (Z := Rabs_pos z).
  destruct (prod_val (d0 c) a) as [P0 E0]; auto. { fold x. lra. }
  destruct (prod_val (d1 c) b) as [P1 E1]; auto. { fold y. lra. }
  destruct (prod_val (d2 c) e) as [P2 E2]; auto. { fold z. lra. }
  fold x in E0. fold y in E1. fold z in E2.
  set (p := fmul (d0 c) a) in *. set (q := fmul (d1 c) b) in *. set (r := fmul (d2 c) e) in *.
  set (t := / 2 ^ 140) in *.
  assert (BX : - Rabs x <= x <= Rabs x) by (apply Rabs_le_iff; lra).
  assert (BY : - Rabs y <= y <= Rabs y) by (apply Rabs_le_iff; lra).
  assert (BZ : - Rabs z <= z <= Rabs z) by (apply Rabs_le_iff; lra).
  apply Rabs_le_iff in E0. apply Rabs_le_iff in E1. apply Rabs_le_iff in E2.
  destruct (sum_val p q ((1 + / 16777216) * (Rabs x + Rabs y) + 2 * t)) as [Q1 G1]; auto. { apply Rabs_le_iff. lra. } { lra. }
  fold t in G1. apply Rabs_le_iff in G1. set (s := fadd p q) in *.
  destruct (sum_val s r ((1 + / 16777216) * (1 + / 16777216) * (Rabs x + Rabs y + Rabs z) + 5 * t)) as [Q2 G2]; auto. { apply Rabs_le_iff. lra. } { lra. }
  fold t in G2. apply Rabs_le_iff in G2. split; [exact Q2|]. apply Rabs_le_iff. lra.
Qed.
(** The value of a constant coefficient. *)
Ltac kval a V :=
  lazymatch a with
  | f0 => assert (V : B2R f0 = 0) by exact f0_R
  | f1 => assert (V : B2R f1 = 1) by exact f1_R
  | _ => fval a V; try rewrite opp_IZR in V
  end.
Ltac row c a b e S :=
  let F := fresh "F" in let E := fresh "E" in
  let Va := fresh "Va" in let Vb := fresh "Vb" in let Ve := fresh "Ve" in
  kval a Va; kval b Vb; kval e Ve;
  destruct (dot3_val c a b e S) as [F E]; auto with fin;
  [rewrite ?Va, ?Vb, ?Ve; rewrite (Rabs_mult (B2R (d0 c))), (Rabs_mult (B2R (d1 c))), (Rabs_mult (B2R (d2 c)));
   repeat match goal with |- context [Rabs (?n * / ?d)] => first [rewrite (Rabs_pos_eq (n * / d)) by lra | rewrite (Rabs_left (n * / d)) by lra] end;
   rewrite ?Rabs_R0, ?Rabs_R1
  | | rewrite ?Va, ?Vb, ?Ve in E; clear Va Vb Ve; apply Rabs_le_iff in E].

Lemma xyz_rows c : channels_to 1 c ->
  close (/ 2097152) (x_of (B2R (d0 c)) (B2R (d1 c)) (B2R (d2 c))) (d0 (apply_matrix c RGB_TO_XYZ)) /\
  close (/ 2097152) (y_of (B2R (d0 c)) (B2R (d1 c)) (B2R (d2 c))) (d1 (apply_matrix c RGB_TO_XYZ)) /\
  close (/ 2097152) (z_of (B2R (d0 c)) (B2R (d1 c)) (B2R (d2 c))) (d2 (apply_matrix c RGB_TO_XYZ)).
Proof.
  intros ((F0 & F1 & F2) & A & B & C). cbn [apply_matrix RGB_TO_XYZ d0 d1 d2]. unfold x_of, y_of, z_of.
  pose proof (proj1 (Rabs_le_iff _ _) A) as A'. pose proof (proj1 (Rabs_le_iff _ _) B) as B'. pose proof (proj1 (Rabs_le_iff _ _) C) as C'.
  split; [|split].
  - row c (dec 412453 1000000) (dec 357580 1000000) (dec 180423 1000000) (951 / 1000); [lra | lra |].
    split; [exact F|]. apply Rabs_le_iff. lra.
  - row c (dec 212671 1000000) (dec 715160 1000000) (dec 72169 1000000) (1001 / 1000); [lra | lra |].
    split; [exact F|]. apply Rabs_le_iff. lra.
  - row c (dec 19334 1000000) (dec 119193 1000000) (dec 950227 1000000) (1090 / 1000); [lra | lra |].
    split; [exact F|]. apply Rabs_le_iff. lra.
Qed.
Lemma yuv_rows c : channels_to 1 c ->
  close (/ 2097152) (luma (B2R (d0 c)) (B2R (d1 c)) (B2R (d2 c))) (d0 (apply_matrix c RGB_TO_YUV)) /\
  close (/ 2097152) (u_of (B2R (d0 c)) (B2R (d1 c)) (B2R (d2 c))) (d1 (apply_matrix c RGB_TO_YUV)) /\
  close (/ 2097152) (v_of (B2R (d0 c)) (B2R (d1 c)) (B2R (d2 c))) (d2 (apply_matrix c RGB_TO_YUV)).
Proof.
  intros ((F0 & F1 & F2) & A & B & C). cbn [apply_matrix RGB_TO_YUV d0 d1 d2]. unfold u_of, v_of, luma.
  pose proof (proj1 (Rabs_le_iff _ _) A) as A'. pose proof (proj1 (Rabs_le_iff _ _) B) as B'. pose proof (proj1 (Rabs_le_iff _ _) C) as C'.
  split; [|split].
  - row c (dec 299 1000) (dec 587 1000) (dec 114 1000) (1001 / 1000); [lra | lra |].
    split; [exact F|]. apply Rabs_le_iff. lra.
  - row c (dec (-14714119) 100000000) (dec (-28886917) 100000000) (dec 43601036 100000000) (873 / 1000); [lra | lra |].
    split; [exact F|]. apply Rabs_le_iff. lra.
  - row c (dec 6149754 10000000) (dec (-5149651) 10000000) (dec (-10001026) 100000000) (1231 / 1000); [lra | lra |].
    split; [exact F|]. apply Rabs_le_iff. lra.
Qed.
Lemma rgb_rows M c : 1 <= M <= 100 -> channels_to M c ->
  close (M / 524288) (xyz_red (B2R (d0 c)) (B2R (d1 c)) (B2R (d2 c))) (dot3 c (dec 3240479 1000000, dec (-153715) 100000, dec (-498535) 1000000)) /\
  close (M / 524288) (xyz_green (B2R (d0 c)) (B2R (d1 c)) (B2R (d2 c))) (dot3 c (dec (-969256) 1000000, dec 1875991 1000000, dec 41556 1000000)) /\
  close (M / 524288) (xyz_blue (B2R (d0 c)) (B2R (d1 c)) (B2R (d2 c))) (dot3 c (dec 55648 1000000, dec (-204043) 1000000, dec 1057311 1000000)).
Proof.
  intros HM ((F0 & F1 & F2) & A & B & C). unfold xyz_red, xyz_green, xyz_blue.
  pose proof (proj1 (Rabs_le_iff _ _) A) as A'. pose proof (proj1 (Rabs_le_iff _ _) B) as B'. pose proof (proj1 (Rabs_le_iff _ _) C) as C'.
  split; [|split].
  - row c (dec 3240479 1000000) (dec (-153715) 100000) (dec (-498535) 1000000) (528 / 100 * M); [lra | lra |].
    split; [exact F|]. apply Rabs_le_iff. lra.
  - row c (dec (-969256) 1000000) (dec 1875991 1000000) (dec 41556 1000000) (290 / 100 * M); [lra | lra |].
    split; [exact F|]. apply Rabs_le_iff. lra.
  - row c (dec 55648 1000000) (dec (-204043) 1000000) (dec 1057311 1000000) (132 / 100 * M); [lra | lra |].
    split; [exact F|]. apply Rabs_le_iff. lra.
Qed.
Lemma srgb_rows M c : 1 <= M <= 100 -> channels_to M c ->
  let y := B2R (d0 c) in let u := B2R (d1 c) in let v := B2R (d2 c) in
  close (M / 1048576) (yuv_red y v) (d0 (apply_matrix c YUV_TO_RGB)) /\
  close (M / 1048576) (yuv_green y u v) (d1 (apply_matrix c YUV_TO_RGB)) /\
  close (M / 1048576) (yuv_blue y u) (d2 (apply_matrix c YUV_TO_RGB)).
Proof.
  intros HM ((F0 & F1 & F2) & A & B & C) y u v. unfold y, u, v. cbn [apply_matrix YUV_TO_RGB d0 d1 d2]. unfold yuv_red, yuv_green, yuv_blue.
  pose proof (proj1 (Rabs_le_iff _ _) A) as A'. pose proof (proj1 (Rabs_le_iff _ _) B) as B'. pose proof (proj1 (Rabs_le_iff _ _) C) as C'.
  split; [|split].
  - row c f1 f0 (dec 1139883 1000000) (214 / 100 * M); [lra | lra |].
    split; [exact F|]. apply Rabs_le_iff. lra.
  - row c f1 (dec (-39464232) 100000000) (dec (-58062184) 100000000) (198 / 100 * M); [lra | lra |].
    split; [exact F|]. apply Rabs_le_iff. lra.
  - row c f1 (dec 20320618 10000000) f0 (304 / 100 * M); [lra | lra |].
    split; [exact F|]. apply Rabs_le_iff. lra.
Qed.
(** ** XYZ and back *)
Lemma in_gamut_to c : in_gamut c -> channels_to 1 c.
Proof.
  intros (A & B & C & _). apply in01_R in A, B, C. destruct A as [FA A], B as [FB B], C as [FC C]. unfold channels_to.
  repeat split; auto; apply Rabs_le_iff; lra.
Qed.
Lemma xyz_back c : in_gamut c -> channelwise (/ 131072) (fun v => v) c (xyz_to_rgb (apply_matrix c RGB_TO_XYZ)).
Proof.
  intros G. pose proof (in_gamut_to c G) as T. destruct (xyz_rows c T) as (X & Y & Z).
  destruct G as (A & B & C & _). apply in01_R in A, B, C. destruct A as [FA A], B as [FB B], C as [FC C].
  set (x := apply_matrix c RGB_TO_XYZ) in *. unfold x_of, y_of, z_of in *.
  assert (Tx : channels_to (11 / 10) x).
  { destruct X as [Fx X], Y as [Fy Y], Z as [Fz Z]. apply Rabs_le_iff in X, Y, Z. unfold channels_to. repeat split; auto; apply Rabs_le_iff; lra. }
  destruct (rgb_rows (11 / 10) x ltac:(lra) Tx) as (P & Q & S). unfold xyz_red, xyz_green, xyz_blue in *.
  destruct X as [_ X], Y as [_ Y], Z as [_ Z]. apply Rabs_le_iff in X, Y, Z.
  unfold channelwise, xyz_to_rgb. cbn [apply_matrix_clamped XYZ_TO_RGB d0 d1 d2 d3].
  repeat split.
  all: match goal with |- is_finite (clamp ?v) = _ => destruct (clamp_R v) as [V _]; [first [apply P | apply Q | apply S] | exact V] | _ => idtac end.
  - pose proof (close_clamp _ _ _ P) as [_ P']. rewrite <- (limited_id (B2R (d0 c))) by lra. revert P'. match goal with |- Rabs (_ - limited ?r) <= _ -> _ => assert (Rabs (limited r - limited (B2R (d0 c))) <= 5 / 1000000) by (apply limited_lip_e; apply Rabs_le_iff; lra) end.
    intros P'. apply Rabs_le_iff in P'. apply Rabs_le_iff in H. apply Rabs_le_iff. lra.
  - pose proof (close_clamp _ _ _ Q) as [_ P']. rewrite <- (limited_id (B2R (d1 c))) by lra. revert P'. match goal with |- Rabs (_ - limited ?r) <= _ -> _ => assert (Rabs (limited r - limited (B2R (d1 c))) <= 5 / 1000000) by (apply limited_lip_e; apply Rabs_le_iff; lra) end.
    intros P'. apply Rabs_le_iff in P'. apply Rabs_le_iff in H. apply Rabs_le_iff. lra.
  - pose proof (close_clamp _ _ _ S) as [_ P']. rewrite <- (limited_id (B2R (d2 c))) by lra. revert P'. match goal with |- Rabs (_ - limited ?r) <= _ -> _ => assert (Rabs (limited r - limited (B2R (d2 c))) <= 5 / 1000000) by (apply limited_lip_e; apply Rabs_le_iff; lra) end.
    intros P'. apply Rabs_le_iff in P'. apply Rabs_le_iff in H. apply Rabs_le_iff. lra.
Qed.
