(** Rounded operations keep the order, also where they overflow. *)
From Coq Require Import ZArith Bool Lia Reals Lra Psatz.
From Flocq Require Import Core.Core IEEE754.BinarySingleNaN.
From Verif Require Import F32 Color F32Lemmas.
Open Scope R_scope.

Definition top : R := bpow radix2 128.
Lemma top_pos : 0 < top. Proof. apply bpow_gt_0. Qed.
Definition key (x : f32) : R :=
  match x with B754_infinity s => if s then - top else top | _ => B2R x end.
Definition sat (r : R) : R := Rmax (- top) (Rmin r top).
Lemma sat_mono a b : a <= b -> sat a <= sat b.
Proof. intros H. unfold sat, Rmax, Rmin. repeat destruct Rle_dec; lra. Qed.
Lemma sat_id r : Rabs r <= top -> sat r = r.
Proof. intros H. apply Rabs_le_inv in H. unfold sat. rewrite Rmin_left, Rmax_right; lra. Qed.
Lemma sat_hi r : top <= r -> sat r = top.
Proof. intros H. pose proof top_pos. unfold sat. rewrite Rmin_right, Rmax_right; lra. Qed.
Lemma sat_lo r : r <= - top -> sat r = - top.
Proof. intros H. pose proof top_pos. unfold sat. rewrite Rmin_left, Rmax_left; lra. Qed.

Lemma fin_not_nan x : fin x -> is_nan x = false.
Proof. destruct x; try reflexivity; discriminate. Qed.
Lemma key_fin x : fin x -> key x = B2R x.
Proof. destruct x; try reflexivity; discriminate. Qed.
Lemma fin_top (x : f32) : Rabs (B2R x) < top.
Proof. apply abs_B2R_lt_emax. Qed.
Lemma key_bound x : - top <= key x <= top.
Proof.
  pose proof top_pos. destruct x as [s|[]| |s a b c] eqn:E; cbn [key]; try (cbn; lra).
  pose proof (fin_top x) as F. subst x. apply Rabs_def2 in F. lra.
Qed.
Lemma fle_key x y : is_nan x = false -> is_nan y = false -> (fle x y = true <-> key x <= key y).
Proof.
  intros Nx Ny. destruct (is_finite x) eqn:Fx; destruct (is_finite y) eqn:Fy.
  - rewrite fle_R, !key_fin by auto. reflexivity.
  - destruct y as [|s| |]; try discriminate. rewrite (key_fin x Fx). pose proof (fin_top x) as B. apply Rabs_def2 in B. cbn [key].
    destruct s; destruct x as [|[]| |[]]; try discriminate; cbn - [B2R] in *; split; intros; try discriminate; try reflexivity; try (cbn in *; lra).
  - destruct x as [|s| |]; try discriminate. rewrite (key_fin y Fy). pose proof (fin_top y) as B. apply Rabs_def2 in B. cbn [key].
    destruct s; destruct y as [|[]| |[]]; try discriminate; cbn - [B2R] in *; split; intros; try discriminate; try reflexivity; try (cbn in *; lra).
  - pose proof top_pos. destruct x as [|s| |], y as [|t| |]; try discriminate. destruct s, t; cbn; split; intros; try discriminate; try reflexivity; lra.
Qed.

(** Sums, products and quotients of numbers. *)
Lemma Bsign_pos x : fin x -> Bsign x = false -> 0 <= B2R x.
Proof. intros F S. destruct x as [| | |s a b c]; try discriminate; cbn; [lra|]. cbn in S. subst s. apply F2R_ge_0. cbn. lia. Qed.
Lemma Bsign_neg x : fin x -> Bsign x = true -> B2R x <= 0.
Proof. intros F S. destruct x as [| | |s a b c]; try discriminate; cbn; [lra|]. cbn in S. subst s. apply F2R_le_0. cbn. lia. Qed.
Lemma overflow_inf (z : f32) s : B2SF z = binary_overflow 24 128 mode_NE s -> z = B754_infinity s.
Proof. intros H. change (binary_overflow 24 128 mode_NE s) with (SpecFloat.S754_infinity s) in H. destruct z; try discriminate H. cbn in H. injection H as ->. reflexivity. Qed.
Lemma sat_big r s : top <= Rabs (rnd r) -> (if s : bool then r <= 0 else 0 <= r) -> sat (rnd r) = if s then - top else top.
Proof.
  intros B S. destruct s.
  - apply sat_lo. rewrite Rabs_left1 in B; [lra|]. rewrite <- rnd_0. apply rnd_le. exact S.
  - apply sat_hi. rewrite Rabs_pos_eq in B; [lra|]. rewrite <- rnd_0. apply rnd_le. exact S.
Qed.
Lemma fadd_key x y : fin x -> fin y -> is_nan (fadd x y) = false /\ key (fadd x y) = sat (rnd (B2R x + B2R y)).
Proof.
  intros Fx Fy. pose proof (Bplus_correct 24 128 p24 e128 mode_NE x y Fx Fy) as B. fold (rnd (B2R x + B2R y)) top in B.
  revert B. case Rlt_bool_spec; intros H B.
  - destruct B as (A & F & _). fold fadd in A, F. split; [apply fin_not_nan, F|]. rewrite (key_fin _ F), A. symmetry. apply sat_id. left. exact H.
  - destruct B as (A & S). apply overflow_inf in A. fold fadd in A. rewrite A. split; [reflexivity|]. cbn [key]. symmetry. apply sat_big; [exact H|].
    destruct (Bsign x) eqn:Sx; symmetry in S.
    + pose proof (Bsign_neg x Fx Sx). pose proof (Bsign_neg y Fy S). lra.
    + pose proof (Bsign_pos x Fx Sx). pose proof (Bsign_pos y Fy S). lra.
Qed.
Lemma fsub_key x y : fin x -> fin y -> is_nan (fsub x y) = false /\ key (fsub x y) = sat (rnd (B2R x - B2R y)).
Proof.
  intros Fx Fy. pose proof (Bminus_correct 24 128 p24 e128 mode_NE x y Fx Fy) as B. fold (rnd (B2R x - B2R y)) top in B.
  revert B. case Rlt_bool_spec; intros H B.
  - destruct B as (A & F & _). fold fsub in A, F. split; [apply fin_not_nan, F|]. rewrite (key_fin _ F), A. symmetry. apply sat_id. left. exact H.
  - destruct B as (A & S). apply overflow_inf in A. fold fsub in A. rewrite A. split; [reflexivity|]. cbn [key]. symmetry. apply sat_big; [exact H|].
    destruct (Bsign x) eqn:Sx; symmetry in S.
    + pose proof (Bsign_neg x Fx Sx). pose proof (Bsign_pos y Fy ltac:(destruct (Bsign y); [discriminate S|reflexivity])). lra.
    + pose proof (Bsign_pos x Fx Sx). pose proof (Bsign_neg y Fy ltac:(destruct (Bsign y); [reflexivity|discriminate S])). lra.
Qed.
Lemma fmul_key x y : fin x -> fin y -> is_nan (fmul x y) = false /\ key (fmul x y) = sat (rnd (B2R x * B2R y)).
Proof.
  intros Fx Fy. pose proof (Bmult_correct 24 128 p24 e128 mode_NE x y) as B. fold (rnd (B2R x * B2R y)) top in B.
  revert B. case Rlt_bool_spec; intros H B.
  - destruct B as (A & F & _). fold fmul in A, F. unfold fin in Fx, Fy. rewrite Fx, Fy in F. split; [apply fin_not_nan, F|]. rewrite (key_fin _ F), A. symmetry. apply sat_id. left. exact H.
  - apply overflow_inf in B. fold fmul in B. rewrite B. split; [reflexivity|]. cbn [key]. symmetry. apply sat_big; [exact H|].
    destruct (Bsign x) eqn:Sx, (Bsign y) eqn:Sy; cbn [xorb];
      [pose proof (Bsign_neg x Fx Sx); pose proof (Bsign_neg y Fy Sy)|pose proof (Bsign_neg x Fx Sx); pose proof (Bsign_pos y Fy Sy)
      |pose proof (Bsign_pos x Fx Sx); pose proof (Bsign_neg y Fy Sy)|pose proof (Bsign_pos x Fx Sx); pose proof (Bsign_pos y Fy Sy)]; nra.
Qed.
Lemma fdiv_key x y : fin x -> fin y -> 0 < B2R y -> is_nan (fdiv x y) = false /\ key (fdiv x y) = sat (rnd (B2R x / B2R y)).
Proof.
  intros Fx Fy P. pose proof (Bdiv_correct 24 128 p24 e128 mode_NE x y ltac:(lra)) as B. fold (rnd (B2R x / B2R y)) top in B.
  revert B. case Rlt_bool_spec; intros H B.
  - destruct B as (A & F & _). fold fdiv in A, F. unfold fin in Fx. rewrite Fx in F. split; [apply fin_not_nan, F|]. rewrite (key_fin _ F), A. symmetry. apply sat_id. left. exact H.
  - apply overflow_inf in B. fold fdiv in B. rewrite B. split; [reflexivity|]. cbn [key]. symmetry. apply sat_big; [exact H|].
    assert (Sy : Bsign y = false) by (destruct (Bsign y) eqn:S; [pose proof (Bsign_neg y Fy S); lra|reflexivity]).
    pose proof (Rinv_0_lt_compat _ P). rewrite Sy. destruct (Bsign x) eqn:Sx; cbn [xorb]; unfold Rdiv.
    + pose proof (Bsign_neg x Fx Sx). nra.
    + pose proof (Bsign_pos x Fx Sx). nra.
Qed.

Definition num_or_inf (x : f32) : Prop := is_nan x = false.
Lemma fadd_inf s y : fin y -> fadd (B754_infinity s) y = B754_infinity s.
Proof. destruct y; try discriminate; reflexivity. Qed.
Lemma fadd_key_inf x y : is_nan x = false -> fin y -> is_nan (fadd x y) = false.
Proof. intros N F. destruct x as [| | |] eqn:E; try discriminate; try (rewrite fadd_inf by auto; reflexivity); rewrite <- E; apply fadd_key; auto; subst x; reflexivity. Qed.

(** Monotonicity. *)
Lemma fadd_le x x' y : fin x -> fin x' -> fin y -> fle x x' = true -> fle (fadd x y) (fadd x' y) = true.
Proof.
  intros F F' Fy H. destruct (fadd_key x y F Fy) as [N K], (fadd_key x' y F' Fy) as [N' K'].
  apply fle_key; auto. rewrite K, K'. apply sat_mono, rnd_le. apply fle_R in H; auto. lra.
Qed.
Lemma fadd_le2 x x' y y' : fin x -> fin x' -> fin y -> fin y' -> fle x x' = true -> fle y y' = true -> fle (fadd x y) (fadd x' y') = true.
Proof.
  intros F F' Fy Fy' H Hy. destruct (fadd_key x y F Fy) as [N K], (fadd_key x' y' F' Fy') as [N' K'].
  apply fle_key; auto. rewrite K, K'. apply sat_mono, rnd_le. apply fle_R in H, Hy; auto. lra.
Qed.
(** ... where the first operand may be infinite. *)
Lemma fadd_le_inf x x' y : is_nan x = false -> is_nan x' = false -> fin y -> fle x x' = true -> fle (fadd x y) (fadd x' y) = true.
Proof.
  intros N N' Fy H. pose proof (fadd_key_inf x y N Fy) as A. pose proof (fadd_key_inf x' y N' Fy) as A'.
  apply fle_key; auto. apply fle_key in H; auto.
  assert (K : forall z, is_nan z = false -> key (fadd z y) = match z with B754_infinity s => if s then - top else top | _ => sat (rnd (B2R z + B2R y)) end).
  { intros z Nz. destruct z as [s|s| |s a b c] eqn:E; try discriminate; [|rewrite fadd_inf by auto; reflexivity|]; rewrite <- E; apply fadd_key; auto; subst z; reflexivity. }
  rewrite (K x N), (K x' N').
  assert (S : forall r, - top <= sat r <= top) by (intros r; pose proof top_pos; unfold sat, Rmax, Rmin; repeat destruct Rle_dec; lra).
  destruct x as [s|s| |s a b c] eqn:E, x' as [s'|s'| |s' a' b' c'] eqn:E'; try discriminate; rewrite <- ?E, <- ?E' in *; 
    try (apply sat_mono, rnd_le; rewrite !key_fin in H by (subst; reflexivity); lra).
  all: try (destruct s'); try (destruct s); cbn [key] in *; try apply S; try lra.
  all: rewrite <- ?E, <- ?E' in *; pose proof (fin_top x) as B; pose proof (fin_top x') as B'; apply Rabs_def2 in B, B'; subst; cbn [B2R key] in *; try lra.
Qed.
Lemma fsub_le x x' y : fin x -> fin x' -> fin y -> fle x x' = true -> fle (fsub x y) (fsub x' y) = true.
Proof.
  intros F F' Fy H. destruct (fsub_key x y F Fy) as [N K], (fsub_key x' y F' Fy) as [N' K'].
  apply fle_key; auto. rewrite K, K'. apply sat_mono, rnd_le. apply fle_R in H; auto. lra.
Qed.
Lemma fsub_le_r x x' y : fin x -> fin x' -> fin y -> fle x x' = true -> fle (fsub y x') (fsub y x) = true.
Proof.
  intros F F' Fy H. destruct (fsub_key y x Fy F) as [N K], (fsub_key y x' Fy F') as [N' K'].
  apply fle_key; auto. rewrite K, K'. apply sat_mono, rnd_le. apply fle_R in H; auto. lra.
Qed.
Lemma fmul_le x x' k : fin x -> fin x' -> fin k -> 0 <= B2R k -> fle x x' = true -> fle (fmul x k) (fmul x' k) = true.
Proof.
  intros F F' Fy P H. destruct (fmul_key x k F Fy) as [N K], (fmul_key x' k F' Fy) as [N' K'].
  apply fle_key; auto. rewrite K, K'. apply sat_mono, rnd_le. apply fle_R in H; auto. nra.
Qed.
Lemma fmul_ge x x' k : fin x -> fin x' -> fin k -> B2R k <= 0 -> fle x x' = true -> fle (fmul x' k) (fmul x k) = true.
Proof.
  intros F F' Fy P H. destruct (fmul_key x k F Fy) as [N K], (fmul_key x' k F' Fy) as [N' K'].
  apply fle_key; auto. rewrite K, K'. apply sat_mono, rnd_le. apply fle_R in H; auto. nra.
Qed.
Lemma fmul_le_l x x' k : fin x -> fin x' -> fin k -> 0 <= B2R k -> fle x x' = true -> fle (fmul k x) (fmul k x') = true.
Proof.
  intros F F' Fy P H. destruct (fmul_key k x Fy F) as [N K], (fmul_key k x' Fy F') as [N' K'].
  apply fle_key; auto. rewrite K, K'. apply sat_mono, rnd_le. apply fle_R in H; auto. nra.
Qed.
Lemma fdiv_le x x' k : fin x -> fin x' -> fin k -> 0 < B2R k -> fle x x' = true -> fle (fdiv x k) (fdiv x' k) = true.
Proof.
  intros F F' Fy P H. destruct (fdiv_key x k F Fy P) as [N K], (fdiv_key x' k F' Fy P) as [N' K'].
  apply fle_key; auto. rewrite K, K'. apply sat_mono, rnd_le. apply fle_R in H; auto. unfold Rdiv. pose proof (Rinv_0_lt_compat _ P). nra.
Qed.
Lemma clamp_key v : is_nan v = false -> is_nan (clamp v) = false /\ key (clamp v) = Rmax 0 (Rmin (key v) 1).
Proof.
  intros N. unfold clamp, fclamp.
  assert (C : forall x y, is_nan x = false -> is_nan y = false -> (flt x y = true <-> key x < key y)).
  { intros x y Nx Ny. pose proof (fle_key y x Ny Nx) as Q. unfold fle, flt, Bleb, Bltb, SpecFloat.SFleb, SpecFloat.SFltb in *.
    assert (Sw : forall a b, SpecFloat.SFcompare b a = match SpecFloat.SFcompare a b with Some c => Some (CompOpp c) | None => None end).
    { intros [[]|[]| |[] ? ?] [[]|[]| |[] ? ?]; try reflexivity; cbn; rewrite (Z.compare_antisym e0 e); destruct (e0 ?= e)%Z; cbn; try reflexivity; rewrite ?(Pos.compare_cont_antisym); cbn; destruct (Pos.compare_cont Eq _ _); reflexivity. }
    rewrite (Sw (B2SF x) (B2SF y)) in Q. destruct (SpecFloat.SFcompare (B2SF x) (B2SF y)) as [[]|] eqn:E; cbn in Q.
    - split; [discriminate|]. intros. exfalso. assert (key y <= key x) by (apply Q; reflexivity). lra.
    - split; [|reflexivity]. intros _. destruct (Rlt_le_dec (key x) (key y)) as [|G]; [auto|]. apply Q in G. discriminate G.
    - split; [discriminate|]. intros. exfalso. assert (key y <= key x) by (apply Q; reflexivity). lra.
    - exfalso. destruct x as [|[]| |[]], y as [|[]| |[]]; try discriminate; cbn in E; try (destruct (e ?= e1)%Z); discriminate. }
  destruct (flt v f0) eqn:A.
  - apply C in A; auto. change (key f0) with (B2R f0) in A. rewrite f0_R in A. split; [reflexivity|]. change (key f0) with (B2R f0). rewrite f0_R, Rmin_left, Rmax_left by lra. reflexivity.
  - assert (A' : 0 <= key v).
    { destruct (Rle_lt_dec 0 (key v)) as [|G]; [auto|]. rewrite <- f0_R in G. change (B2R f0) with (key f0) in G. apply C in G; auto. rewrite G in A. discriminate A. }
    destruct (flt f1 v) eqn:B.
    + apply C in B; auto. change (key f1) with (B2R f1) in B. rewrite f1_R in B. split; [reflexivity|]. change (key f1) with (B2R f1). rewrite f1_R, Rmin_right, Rmax_right by lra. reflexivity.
    + assert (B' : key v <= 1).
      { destruct (Rle_lt_dec (key v) 1) as [|G]; [auto|]. rewrite <- f1_R in G. change (B2R f1) with (key f1) in G. apply C in G; auto. rewrite G in B. discriminate B. }
      split; [auto|]. rewrite Rmin_left, Rmax_right by lra. reflexivity.
Qed.
Lemma clamp_le x x' : is_nan x = false -> is_nan x' = false -> fle x x' = true -> fle (clamp x) (clamp x') = true.
Proof.
  intros N N' H. destruct (clamp_key x N) as [A K], (clamp_key x' N') as [A' K']. apply fle_key in H; auto. apply fle_key; auto.
  rewrite K, K'. unfold Rmax, Rmin. repeat destruct Rle_dec; lra.
Qed.
