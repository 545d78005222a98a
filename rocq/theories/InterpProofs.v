(** Interpolating curves on real numbers. *)
From Coq Require Import Reals Lra Lia ZArith Psatz List.
From Flocq Require Import Core.Core.
From Verif Require Import ResampleSpec Approx.
Open Scope R_scope.

Lemma floor_frac p : 0 <= p - IZR (Zfloor p) <= 1.
Proof. pose proof (Zfloor_lb p). pose proof (Zfloor_ub p). lra. Qed.

(** Pieces that fit together and change slowly. *)
Lemma pieces (G : Z -> R -> R) K : (forall k p q, IZR k <= p -> p <= q -> q <= IZR (k + 1) -> Rabs (G k q - G k p) <= K * (q - p)) ->
  (forall k, G k (IZR (k + 1)) = G (k + 1)%Z (IZR (k + 1))) -> forall p q, Rabs (G (Zfloor q) q - G (Zfloor p) p) <= K * Rabs (q - p).
Proof.
  intros HG HC. assert (M : forall n p q, (Zfloor q - Zfloor p = Z.of_nat n)%Z -> p <= q -> Rabs (G (Zfloor q) q - G (Zfloor p) p) <= K * (q - p)).
  { induction n as [|n IH]; intros p q E L.
    - assert (EF : Zfloor q = Zfloor p) by lia. rewrite EF. apply HG; auto; [apply Zfloor_lb|]. rewrite <- EF, plus_IZR. left. apply Zfloor_ub.
    - set (m := Zfloor p) in *. assert (F : Zfloor (IZR (m + 1)) = (m + 1)%Z) by apply Zfloor_IZR.
      assert (L2 : IZR (m + 1) <= q). { eapply Rle_trans; [|apply Zfloor_lb]. apply IZR_le. lia. }
      assert (L1 : p <= IZR (m + 1)). { rewrite plus_IZR. left. unfold m. apply Zfloor_ub. }
      assert (L0 : IZR m <= p) by apply Zfloor_lb.
      pose proof (HG m p (IZR (m + 1)) L0 L1 ltac:(lra)) as H1. rewrite HC in H1.
      pose proof (IH (IZR (m + 1)) q ltac:(rewrite F; lia) L2) as H2. rewrite F in H2.
      apply Rabs_le_iff in H1, H2. apply Rabs_le_iff. lra. }
  assert (M2 : forall p q, p <= q -> Rabs (G (Zfloor q) q - G (Zfloor p) p) <= K * (q - p)).
  { intros p q L. apply (M (Z.to_nat (Zfloor q - Zfloor p))); auto. rewrite Z2Nat.id; [reflexivity|]. pose proof (Zfloor_le p q L). lia. }
  intros p q. destruct (Rle_lt_dec p q) as [L|L].
  - rewrite (Rabs_pos_eq (q - p)) by lra. auto.
  - rewrite Rabs_minus_sym, (Rabs_minus_sym q p), (Rabs_pos_eq (p - q)) by lra. apply M2. lra.
Qed.

(** ** Straight lines *)
Lemma linear_range f p lo hi : (forall k, lo <= f k <= hi) -> lo <= linear f p <= hi.
Proof. intros H. unfold linear. pose proof (floor_frac p). pose proof (H (Zfloor p)). pose proof (H (Zfloor p + 1)%Z). nra. Qed.
Lemma linear_lip f K p q : (forall k, Rabs (f (k + 1)%Z - f k) <= K) -> Rabs (linear f p - linear f q) <= K * Rabs (p - q).
Proof.
  intros H. apply (pieces (fun k p => f k * (1 - (p - IZR k)) + f (k + 1)%Z * (p - IZR k))).
  - intros k a b A B C. replace (_ - _) with ((f (k + 1)%Z - f k) * (b - a)) by ring. rewrite Rabs_mult. rewrite (Rabs_pos_eq (b - a)) by lra.
    apply Rmult_le_compat_r; [lra|apply H].
  - intros k. rewrite plus_IZR. ring.
Qed.
Lemma linear_close f g p e : (forall k, Rabs (f k - g k) <= e) -> Rabs (linear f p - linear g p) <= e.
Proof.
  intros H. unfold linear. pose proof (floor_frac p). pose proof (H (Zfloor p)) as A. pose proof (H (Zfloor p + 1)%Z) as B. apply Rabs_le_iff in A, B. apply Rabs_le_iff. nra.
Qed.
Lemma linear_int f z : linear f (IZR z) = f z.
Proof. unfold linear. rewrite Zfloor_IZR. ring. Qed.
Lemma bilinear_lip v p q p' q' : (forall i j, 0 <= v i j <= 1) -> Rabs (surface linear v p q - surface linear v p' q') <= Rabs (p - p') + Rabs (q - q').
Proof.
  intros H. unfold surface.
  assert (A : Rabs (linear (fun j => linear (fun i => v i j) p) q - linear (fun j => linear (fun i => v i j) p') q) <= Rabs (p - p')).
  { apply linear_close. intros j. rewrite <- (Rmult_1_l (Rabs (p - p'))). apply linear_lip. intros k. pose proof (H k j). pose proof (H (k + 1)%Z j). apply Rabs_le_iff. lra. }
  assert (B : Rabs (linear (fun j => linear (fun i => v i j) p') q - linear (fun j => linear (fun i => v i j) p') q') <= Rabs (q - q')).
  { rewrite <- (Rmult_1_l (Rabs (q - q'))). apply linear_lip. intros k. pose proof (linear_range (fun i => v i k) p' 0 1 (fun i => H i _)). pose proof (linear_range (fun i => v i (k + 1)%Z) p' 0 1 (fun i => H i _)). apply Rabs_le_iff. lra. }
  replace (_ - _) with ((linear (fun j => linear (fun i => v i j) p) q - linear (fun j => linear (fun i => v i j) p') q) + (linear (fun j => linear (fun i => v i j) p') q - linear (fun j => linear (fun i => v i j) p') q')) by ring.
  eapply Rle_trans; [apply Rabs_triang|]. lra.
Qed.

(** ** Splines *)
Definition poly (a b c d t : R) : R := b + / 2 * t * (c - a) + / 2 * t ^ 2 * (2 * a - 5 * b + 4 * c - d) + / 2 * t ^ 3 * (3 * (b - c) + d - a).
Lemma spline_poly f p : spline f p = poly (f (Zfloor p - 1)%Z) (f (Zfloor p)) (f (Zfloor p + 1)%Z) (f (Zfloor p + 2)%Z) (p - IZR (Zfloor p)).
Proof.
  unfold spline, poly. replace (Zfloor p + 1 + 1)%Z with (Zfloor p + 2)%Z by lia. replace (Zfloor p + 1 - 1)%Z with (Zfloor p) by lia. set (t := p - _). field.
Qed.
Lemma poly_range a b c d t lo hi : 0 <= t <= 1 -> lo <= a <= hi -> lo <= b <= hi -> lo <= c <= hi -> lo <= d <= hi ->
  lo - (hi - lo) / 8 <= poly a b c d t <= hi + (hi - lo) / 8.
Proof.
  intros T A B C D. set (w1 := t * (1 - t) ^ 2 / 2). set (w4 := t ^ 2 * (1 - t) / 2). set (w2 := (2 - 5 * t ^ 2 + 3 * t ^ 3) / 2). set (w3 := (t + 4 * t ^ 2 - 3 * t ^ 3) / 2).
  assert (W1 : 0 <= w1) by (unfold w1; assert (0 <= (1 - t) ^ 2) by (apply pow_le; lra); nra).
  assert (W4 : 0 <= w4) by (unfold w4; assert (0 <= t ^ 2) by (apply pow_le; lra); nra).
  assert (W2 : 0 <= w2). { unfold w2. replace (2 - 5 * t ^ 2 + 3 * t ^ 3) with ((1 - t) * (2 + 2 * t - 3 * t * t)) by ring. assert (0 <= (1 - t) * (2 + 2 * t - 3 * t * t)) by (apply Rmult_le_pos; nra). lra. }
  assert (W3 : 0 <= w3). { unfold w3. replace (t + 4 * t ^ 2 - 3 * t ^ 3) with (t * (1 + 4 * t - 3 * t * t)) by ring. assert (0 <= t * (1 + 4 * t - 3 * t * t)) by (apply Rmult_le_pos; nra). lra. }
  assert (S : w2 + w3 = 1 + w1 + w4) by (unfold w1, w2, w3, w4; field).
  assert (N : w1 + w4 <= / 8). { unfold w1, w4. replace (t * (1 - t) ^ 2 / 2 + t ^ 2 * (1 - t) / 2) with (t * (1 - t) / 2) by field. pose proof (Rle_0_sqr (t - / 2)) as Q. unfold Rsqr in Q. lra. }
  assert (E : poly a b c d t = w2 * b + w3 * c - w1 * a - w4 * d) by (unfold poly, w1, w2, w3, w4; field). rewrite E. clearbody w1 w2 w3 w4. clear E. split; nra.
Qed.
Lemma poly_lip_up a b c d s t : 0 <= s <= 1 -> 0 <= t <= 1 -> 0 <= a <= 1 -> 0 <= b <= 1 -> 0 <= c <= 1 -> 0 <= d <= 1 ->
  let k := s * s + s * t + t * t in let g := s + t in
  a * ((- 1 + 2 * g - k) / 2) + b * ((- 5 * g + 3 * k) / 2) + c * ((1 + 4 * g - 3 * k) / 2) + d * ((k - g) / 2) <= 3 / 2.
Proof.
  intros S T A B C D k g. assert (G : 0 <= g <= 2) by (unfold g; lra). pose proof (Rle_0_sqr (s - t)) as Q1. unfold Rsqr in Q1. assert (Q2 : 0 <= s * t) by nra. assert (Q3 : 0 <= (1 - s) * (1 - t)) by nra.
  assert (K1 : 3 * g * g / 4 <= k) by (unfold k, g; lra).
  assert (K2 : k <= g * g) by (unfold k, g; lra). assert (K3 : k <= g * g - g + 1) by (unfold k, g; lra). clearbody k g. clear S T Q1 Q2 Q3 s t. pose proof (Rle_0_sqr (g - 1)) as Q1. pose proof (Rle_0_sqr (g - 8 / 9)) as Q2. pose proof (Rle_0_sqr (g - 10 / 9)) as Q3. unfold Rsqr in Q1, Q2, Q3.
  set (c1 := (- 1 + 2 * g - k) / 2). set (c2 := (- 5 * g + 3 * k) / 2). set (c3 := (1 + 4 * g - 3 * k) / 2). set (c4 := (k - g) / 2).
  assert (N2 : c2 <= 0) by (unfold c2; destruct (Rle_lt_dec g 1); nra). assert (N3 : 0 <= c3) by (unfold c3; destruct (Rle_lt_dec g 1); nra).
  assert (P3 : c3 <= 3 / 2) by (unfold c3; lra). assert (P13 : c1 + c3 <= 3 / 2) by (unfold c1, c3; lra). assert (P34 : c3 + c4 <= 3 / 2) by (unfold c3, c4; lra).
  assert (P134 : c1 + c3 + c4 <= 3 / 2) by (unfold c1, c3, c4; lra). clearbody c1 c2 c3 c4.
  destruct (Rle_lt_dec c1 0); destruct (Rle_lt_dec c4 0); nra.
Qed.
Lemma poly_lip a b c d s t lo hi : 0 <= s <= 1 -> 0 <= t <= 1 -> lo < hi -> lo <= a <= hi -> lo <= b <= hi -> lo <= c <= hi -> lo <= d <= hi ->
  Rabs (poly a b c d t - poly a b c d s) <= 3 / 2 * (hi - lo) * Rabs (t - s).
Proof.
  intros S T L A B C D. set (n x := (x - lo) / (hi - lo)).
  assert (NR : forall x, lo <= x <= hi -> 0 <= n x <= 1 /\ x = lo + (hi - lo) * n x).
  { intros x X. unfold n. split; [|field; lra]. split; [apply Rmult_le_pos; [lra|left; apply Rinv_0_lt_compat; lra]|].
    apply Rmult_le_reg_r with (hi - lo); [lra|]. unfold Rdiv. rewrite Rmult_assoc, Rinv_l by lra. lra. }
  destruct (NR a A) as [NA EA], (NR b B) as [NB EB], (NR c C) as [NC EC], (NR d D) as [ND ED].
  set (k := s * s + s * t + t * t). set (g := s + t).
  set (Q := n a * ((- 1 + 2 * g - k) / 2) + n b * ((- 5 * g + 3 * k) / 2) + n c * ((1 + 4 * g - 3 * k) / 2) + n d * ((k - g) / 2)).
  assert (E : poly a b c d t - poly a b c d s = (hi - lo) * Q * (t - s)).
  { rewrite EA, EB, EC, ED. unfold poly, Q, k, g. field. }
  assert (Q1 : Q <= 3 / 2) by (apply poly_lip_up; assumption).
  assert (Q2 : - Q <= 3 / 2).
  { pose proof (poly_lip_up (1 - n a) (1 - n b) (1 - n c) (1 - n d) s t S T ltac:(lra) ltac:(lra) ltac:(lra) ltac:(lra)) as H. cbv zeta in H. fold k g in H. unfold Q. lra. }
  rewrite E, Rabs_mult. apply Rmult_le_compat_r; [apply Rabs_pos|]. rewrite Rabs_mult, (Rabs_pos_eq (hi - lo)) by lra.
  rewrite (Rmult_comm (3 / 2)). apply Rmult_le_compat_l; [lra|]. apply Rabs_le_iff. lra.
Qed.
Lemma poly_ends a b c d : poly a b c d 0 = b /\ poly a b c d 1 = c.
Proof. unfold poly. split; field. Qed.
Lemma spline_range f p lo hi : (forall k, lo <= f k <= hi) -> lo - (hi - lo) / 8 <= spline f p <= hi + (hi - lo) / 8.
Proof. intros H. rewrite spline_poly. apply poly_range; auto using floor_frac. Qed.
Lemma spline_lip f lo hi p q : lo < hi -> (forall k, lo <= f k <= hi) -> Rabs (spline f p - spline f q) <= 3 / 2 * (hi - lo) * Rabs (p - q).
Proof.
  intros L H. rewrite !spline_poly. apply (pieces (fun k p => poly (f (k - 1)%Z) (f k) (f (k + 1)%Z) (f (k + 2)%Z) (p - IZR k))).
  - intros k a b A B C. rewrite plus_IZR in C. eapply Rle_trans; [apply (poly_lip _ _ _ _ (a - IZR k) (b - IZR k) lo hi); auto; lra|].
    replace (b - IZR k - (a - IZR k)) with (b - a) by ring. rewrite (Rabs_pos_eq (b - a)) by lra. lra.
  - intros k. replace (IZR (k + 1) - IZR k) with 1 by (rewrite plus_IZR; ring). replace (IZR (k + 1) - IZR (k + 1)) with 0 by ring.
    rewrite (proj2 (poly_ends _ _ _ _)), (proj1 (poly_ends _ _ _ _)). reflexivity.
Qed.
Lemma spline_close f g p e : (forall k, Rabs (f k - g k) <= e) -> Rabs (spline f p - spline g p) <= 5 / 4 * e.
Proof.
  intros H. rewrite !spline_poly. set (k := Zfloor p). set (t := p - IZR k).
  replace (_ - _) with (poly (f (k - 1)%Z - g (k - 1)%Z) (f k - g k) (f (k + 1)%Z - g (k + 1)%Z) (f (k + 2)%Z - g (k + 2)%Z) t) by (unfold poly; ring).
  assert (H' : forall k, - e <= f k - g k <= e) by (intros; apply Rabs_le_iff; auto).
  pose proof (poly_range (f (k - 1)%Z - g (k - 1)%Z) (f k - g k) (f (k + 1)%Z - g (k + 1)%Z) (f (k + 2)%Z - g (k + 2)%Z) t (- e) e (floor_frac p) (H' _) (H' _) (H' _) (H' _)).
  apply Rabs_le_iff. lra.
Qed.
Lemma spline_int f z : spline f (IZR z) = f z.
Proof. rewrite spline_poly, Zfloor_IZR. replace (IZR z - IZR z) with 0 by ring. apply poly_ends. Qed.
Lemma bicubic_lip v p q p' q' : (forall i j, 0 <= v i j <= 1) -> Rabs (surface spline v p q - surface spline v p' q') <= 2 * (Rabs (p - p') + Rabs (q - q')).
Proof.
  intros H. unfold surface.
  assert (A : Rabs (spline (fun j => spline (fun i => v i j) p) q - spline (fun j => spline (fun i => v i j) p') q) <= 5 / 4 * (3 / 2 * (1 - 0) * Rabs (p - p'))).
  { apply spline_close. intros j. apply spline_lip; [lra|auto]. }
  assert (B : Rabs (spline (fun j => spline (fun i => v i j) p') q - spline (fun j => spline (fun i => v i j) p') q') <= 3 / 2 * (9 / 8 - - / 8) * Rabs (q - q')).
  { apply spline_lip; [lra|]. intros k. pose proof (spline_range (fun i => v i k) p' 0 1 (fun i => H i _)). lra. }
  replace (_ - _) with ((spline (fun j => spline (fun i => v i j) p) q - spline (fun j => spline (fun i => v i j) p') q) + (spline (fun j => spline (fun i => v i j) p') q - spline (fun j => spline (fun i => v i j) p') q')) by ring.
  pose proof (Rabs_pos (p - p')). pose proof (Rabs_pos (q - q')). eapply Rle_trans; [apply Rabs_triang|]. lra.
Qed.
