(** Proofs about the text form of colours. *)
From Coq Require Import Reals ZArith List Bool String Ascii Lra Lia.
From Flocq Require Import Core.Core IEEE754.BinarySingleNaN.
From Verif Require Import Base F32 Color Text TextSpec.
From Verif Require Import F32Lemmas ColorProofs Approx ResampleProofs PctProofs.
Import ListNotations.
Local Open Scope string_scope.
Local Open Scope R_scope.

(** ** Strings *)

Lemma app_assoc_s (a b c : string) : (a ++ b) ++ c = a ++ (b ++ c).
Proof. induction a as [|x a IH]; simpl; [reflexivity|now rewrite IH]. Qed.
Lemma app_nil_s (a : string) : a ++ "" = a.
Proof. induction a as [|x a IH]; simpl; [reflexivity|now rewrite IH]. Qed.
Lemma contains_app c a b : contains c (a ++ b) = contains c a || contains c b.
Proof. induction a as [|x a IH]; simpl; [reflexivity|now rewrite IH, orb_assoc]. Qed.
Lemma pop_last a c : pop (a ++ String c "") = a.
Proof.
  induction a as [|x a IH]; [reflexivity|]. simpl in *. destruct (a ++ String c "") eqn:E.
  - destruct a; discriminate.
  - now rewrite IH.
Qed.
Lemma pop_comma a : pop (pop (a ++ ", ")) = a.
Proof. change ", " with (String "," "" ++ String " " ""). rewrite <- app_assoc_s, pop_last. apply pop_last. Qed.

(** ** Digits *)

Definition digit_char (z : Z) : ascii := ascii_of_N (Z.to_N (48 + z)).
Lemma digit_of_char z : (0 <= z <= 9)%Z -> digit (digit_char z) = Some z.
Proof.
  intros H. unfold digit, digit_char. rewrite N_ascii_embedding by lia. rewrite Z2N.id by lia.
  replace (48 <=? 48 + z)%Z with true by (symmetry; apply Z.leb_le; lia).
  replace (48 + z <=? 57)%Z with true by (symmetry; apply Z.leb_le; lia). cbn [andb]. f_equal. lia.
Qed.
Lemma digits_app acc s t n : digits_val acc s = Some n -> digits_val acc (s ++ t) = digits_val n t.
Proof.
  revert acc. induction s as [|c s IH]; intros acc H; simpl in *; [congruence|].
  destruct (digit c); [auto|discriminate].
Qed.
Lemma digits_no_point acc s n : digits_val acc s = Some n -> contains "." s = false.
Proof.
  revert acc. induction s as [|c s IH]; intros acc H; simpl in *; [reflexivity|].
  destruct (digit c) eqn:E; [|discriminate]. apply orb_false_iff. split; [|eauto].
  apply Ascii.eqb_neq. intros ->. vm_compute in E. discriminate.
Qed.
Lemma digits_ge acc s n : (0 <= acc)%Z -> digits_val acc s = Some n -> (0 <= n)%Z.
Proof.
  revert acc. induction s as [|c s IH]; intros acc A H; cbn [digits_val] in H; [injection H; lia|].
  destruct (digit c) eqn:E; [|discriminate]. eapply IH; [|exact H].
  unfold digit in E. destruct ((48 <=? Z.of_N (N_of_ascii c))%Z && (Z.of_N (N_of_ascii c) <=? 57)%Z) eqn:F; [|discriminate].
  apply andb_true_iff in F as [F _]. apply Z.leb_le in F. injection E as <-. lia.
Qed.

(** ** Printing *)

Fixpoint digs (fuel : nat) (z : Z) (acc : string) : string :=
  match fuel with
  | O => acc
  | S f => let acc := String (digit_char (z mod 10)) acc in if (z / 10 =? 0)%Z then acc else digs f (z / 10) acc
  end.
Fixpoint fixed (k : nat) (z : Z) (acc : string) : string :=
  match k with O => acc | S k => fixed k (z / 10) (String (digit_char (z mod 10)) acc) end.
Lemma digs_val f : forall z acc, (0 <= z < 10 ^ Z.of_nat f)%Z -> (0 < f)%nat -> digits_val 0 (digs f z acc) = digits_val z acc.
Proof.
  induction f as [|f IH]; intros z acc H F; [lia|]. cbn [digs]. cbv zeta.
  assert (D := Z.div_mod z 10 ltac:(lia)). assert (M := Z.mod_pos_bound z 10 ltac:(lia)).
  assert (X : forall a, digits_val a (String (digit_char (z mod 10)) acc) = digits_val (10 * a + z mod 10) acc).
  { intros a. cbn [digits_val]. rewrite digit_of_char by lia. reflexivity. }
  destruct (Z.eqb_spec (z / 10) 0) as [E|E].
  - rewrite X. f_equal. lia.
  - rewrite Nat2Z.inj_succ, Z.pow_succ_r in H by lia.
    assert (0 <= z / 10 < 10 ^ Z.of_nat f)%Z by (split; [apply Z.div_pos; lia|apply Z.div_lt_upper_bound; lia]).
    rewrite IH, X by (destruct f; simpl in *; lia). f_equal. lia.
Qed.
Lemma fixed_val k : forall z acc, (0 <= z < 10 ^ Z.of_nat k)%Z -> digits_val 0 (fixed k z acc) = digits_val z acc.
Proof.
  induction k as [|k IH]; intros z acc H; cbn [fixed].
  - simpl in H. replace z with 0%Z by lia. reflexivity.
  - assert (D := Z.div_mod z 10 ltac:(lia)). assert (M := Z.mod_pos_bound z 10 ltac:(lia)).
    rewrite Nat2Z.inj_succ, Z.pow_succ_r in H by lia.
    rewrite IH by (split; [apply Z.div_pos; lia|apply Z.div_lt_upper_bound; lia]).
    cbn [digits_val]. rewrite digit_of_char by lia. f_equal. lia.
Qed.
Lemma fixed_length k : forall z acc, String.length (fixed k z acc) = (k + String.length acc)%nat.
Proof. induction k as [|k IH]; intros z acc; cbn [fixed]; [reflexivity|]. rewrite IH. simpl. lia. Qed.
Lemma digs_nonempty f z acc : (0 < f)%nat -> digs f z acc <> "".
Proof.
  revert z acc. induction f as [|f IH]; intros z acc H; [lia|]. cbn [digs]. cbv zeta.
  destruct (z / 10 =? 0)%Z; [discriminate|]. destruct f; [discriminate|]. apply IH. lia.
Qed.
(** [m / 10^k] *)
Definition print (k : nat) (m : Z) : string :=
  let p := (10 ^ Z.of_nat k)%Z in
  let n := (m / p)%Z in
  let s := digs (S (Z.to_nat n)) n "" in
  match k with O => s | _ => s ++ "." ++ fixed k (m mod p) "" end.
Lemma pow_le z : (0 <= z)%Z -> (z < 10 ^ Z.of_nat (S (Z.to_nat z)))%Z.
Proof.
  intros H. rewrite Nat2Z.inj_succ, Z2Nat.id by lia.
  apply Z.lt_le_trans with (10 ^ z)%Z; [apply Z.pow_gt_lin_r; lia|apply Z.pow_le_mono_r; lia].
Qed.
Lemma print_unsigned k m : (0 <= m)%Z -> unsigned (print k m) (IZR m / 10 ^ k) k.
Proof.
  intros H. unfold print. set (p := (10 ^ Z.of_nat k)%Z).
  assert (P : (0 < p)%Z) by (apply Z.pow_pos_nonneg; lia).
  assert (Q : 10 ^ k = IZR p) by (unfold p; now rewrite <- pow_IZR).
  assert (N : (0 <= m / p)%Z) by (apply Z.div_pos; lia).
  assert (A : natural (digs (S (Z.to_nat (m / p))) (m / p) "") (m / p)).
  { split; [apply digs_nonempty; lia|]. rewrite digs_val; [reflexivity| |lia]. split; [lia|now apply pow_le]. }
  assert (D := Z.div_mod m p ltac:(lia)). assert (M := Z.mod_pos_bound m p P).
  destruct k as [|k].
  - replace (IZR m / 10 ^ 0) with (IZR (m / p)); [now apply whole|].
    unfold p. change (Z.of_nat 0) with 0%Z. rewrite Z.pow_0_r, Z.div_1_r. simpl. lra.
  - assert (B : natural (fixed (S k) (m mod p) "") (m mod p)).
    { split; [|rewrite fixed_val; auto]. intros E. apply (f_equal String.length) in E. rewrite fixed_length in E. discriminate. }
    assert (U := fraction _ _ _ _ A B). rewrite fixed_length, Nat.add_0_r in U.
    replace (IZR m / 10 ^ S k) with (IZR (m / p) + IZR (m mod p) / 10 ^ S k); [exact U|].
    rewrite Q. rewrite D at 3. rewrite plus_IZR, mult_IZR. field. apply not_0_IZR. lia.
Qed.
Definition print_signed (k : nat) (m : Z) : string := if (m <? 0)%Z then "-" ++ print k (- m) else print k m.
Lemma print_decimal k m : decimal (print_signed k m) (IZR m / 10 ^ k) k.
Proof.
  unfold print_signed. destruct (Z.ltb_spec m 0) as [H|H].
  - replace (IZR m / 10 ^ k) with (- (IZR (- m) / 10 ^ k)) by (rewrite opp_IZR; unfold Rdiv; ring).
    apply negative, print_unsigned. lia.
  - now apply positive, print_unsigned.
Qed.
Lemma pow10_pos k : 0 < 10 ^ k.
Proof. apply pow_lt. lra. Qed.
Lemma unsigned_int s r d : unsigned s r d -> exists n, r = IZR n / 10 ^ d.
Proof.
  intros [s' n N|s' t n m N M]; [exists n; simpl; lra|].
  exists (n * 10 ^ Z.of_nat (String.length t) + m)%Z. rewrite plus_IZR, mult_IZR, <- pow_IZR.
  field. apply Rgt_not_eq, pow10_pos.
Qed.
Lemma decimal_int s r d : decimal s r d -> exists n, r = IZR n / 10 ^ d.
Proof.
  intros [s' r' d' U|s' r' d' U]; apply unsigned_int in U as (n & ->); [now exists n|].
  exists (- n)%Z. rewrite opp_IZR. unfold Rdiv. ring.
Qed.

(** ** [to_string] exists *)

Definition reads (k : nat) (m : Z) (v : f32) : bool := if Req_EM_T (nearest (IZR m / 10 ^ k)) (B2R v) then true else false.
Lemma reads_iff k m v : reads k m v = true <-> nearest (IZR m / 10 ^ k) = B2R v.
Proof. unfold reads. destruct (Req_EM_T _ _); split; auto; discriminate. Qed.
Definition down (k : nat) (v : f32) : Z := Zfloor (B2R v * 10 ^ k).
Definition up (k : nat) (v : f32) : Z := Zceil (B2R v * 10 ^ k).
Definition enough (v : f32) (k : nat) : bool := reads k (down k v) v || reads k (up k v) v.
Definition shortest (v : f32) : string :=
  match v with
  | B754_nan => "NaN" | B754_infinity false => "inf" | B754_infinity true => "-inf"
  | _ => match find (enough v) (seq 0 150) with
         | Some k => print_signed k (if reads k (down k v) v then down k v else up k v)
         | None => ""
         end
  end.
Lemma finite_dyadic (v : f32) : exists m e, B2R v = IZR m * bpow radix2 e /\ (-149 <= e)%Z.
Proof.
  destruct v as [s|s| |s m e H]; simpl; try (exists 0%Z, 0%Z; simpl; split; [lra|lia]).
  exists (cond_Zopp s (Zpos m)), e. split; [reflexivity|].
  unfold SpecFloat.bounded, SpecFloat.canonical_mantissa in H. apply andb_prop in H as [H _].
  apply Zeq_bool_eq in H. unfold SpecFloat.fexp, SpecFloat.emin in H. lia.
Qed.
Lemma enough_long v k : (149 <= Z.of_nat k)%Z -> enough v k = true.
Proof.
  intros K. unfold enough. apply orb_true_iff. left. apply reads_iff.
  assert (E : exists z, B2R v * 10 ^ k = IZR z).
  { destruct (finite_dyadic v) as (m & e & -> & He).
    exists (m * (2 ^ (e + Z.of_nat k) * 5 ^ Z.of_nat k))%Z. rewrite !mult_IZR.
    replace (10 ^ k) with (bpow radix2 (Z.of_nat k) * IZR (5 ^ Z.of_nat k)).
    - rewrite (IZR_Zpower radix2) by lia. rewrite bpow_plus. ring.
    - rewrite <- (IZR_Zpower radix2) by lia. rewrite <- mult_IZR, <- Z.pow_mul_l. symmetry. apply pow_IZR. }
  destruct E as (z & E). unfold down. rewrite E, Zfloor_IZR, <- E.
  replace (B2R v * 10 ^ k / 10 ^ k) with (B2R v) by (field; apply pow_nonzero; lra).
  apply (rnd_id (B2R v)), fmt_B2R.
Qed.
Lemma enough_min v s r d : decimal s r d -> nearest r = B2R v -> enough v d = true.
Proof.
  intros D N. apply decimal_int in D as (n & ->). unfold enough. apply orb_true_iff. rewrite !reads_iff.
  assert (P := pow10_pos d).
  assert (V : nearest (B2R v) = B2R v) by (apply (rnd_id (B2R v)), fmt_B2R).
  assert (Q : B2R v = B2R v * 10 ^ d / 10 ^ d) by (field; lra).
  destruct (Rle_dec (B2R v) (IZR n / 10 ^ d)) as [H|H].
  - right. apply Rle_antisym.
    + rewrite <- N. apply (rnd_le (IZR (up d v) / 10 ^ d)). apply Rmult_le_compat_r; [left; now apply Rinv_0_lt_compat|].
      apply IZR_le, Zceil_glb. apply Rmult_le_reg_r with (/ 10 ^ d); [now apply Rinv_0_lt_compat|]. fold (B2R v * 10 ^ d / 10 ^ d). rewrite <- Q. exact H.
    + apply Rle_trans with (nearest (B2R v)); [rewrite V; lra|]. apply (rnd_le (B2R v)). rewrite Q at 1. apply Rmult_le_compat_r; [left; now apply Rinv_0_lt_compat|]. apply Zceil_ub.
  - left. apply Rle_antisym.
    + apply Rle_trans with (nearest (B2R v)); [|rewrite V; lra]. apply (rnd_le (IZR (down d v) / 10 ^ d)). rewrite Q. apply Rmult_le_compat_r; [left; now apply Rinv_0_lt_compat|]. apply Zfloor_lb.
    + rewrite <- N. apply (rnd_le (IZR n / 10 ^ d)). apply Rmult_le_compat_r; [left; now apply Rinv_0_lt_compat|].
      apply IZR_le, Zfloor_lub. apply Rmult_le_reg_r with (/ 10 ^ d); [now apply Rinv_0_lt_compat|]. fold (B2R v * 10 ^ d / 10 ^ d). rewrite <- Q.
      fold (IZR n / 10 ^ d). lra.
Qed.
Lemma find_first {A} (f : A -> bool) l k : find f l = Some k -> exists a b, l = (a ++ k :: b)%list /\ forallb (fun x => negb (f x)) a = true /\ f k = true.
Proof.
  induction l as [|x l IH]; simpl; [discriminate|]. destruct (f x) eqn:E.
  - intros H. injection H as <-. exists [], l. auto.
  - intros H. apply IH in H as (a & b & -> & F & G). exists (x :: a), b. simpl. rewrite E, F. auto.
Qed.
Lemma find_seq (f : nat -> bool) n k : find f (seq 0 n) = Some k -> f k = true /\ forall j, (j < k)%nat -> f j = false.
Proof.
  intros H. apply find_first in H as (a & b & E & F & G). split; auto. intros j J.
  assert (L : (List.length a < n)%nat).
  { apply (f_equal (@List.length nat)) in E. rewrite seq_length, app_length in E. simpl in E. lia. }
  assert (K : k = List.length a).
  { apply (f_equal (fun l => nth (List.length a) l 0%nat)) in E.
    rewrite app_nth2, Nat.sub_diag in E by lia. cbn [nth] in E. rewrite seq_nth in E by lia. simpl in E. congruence. }
  assert (I : In j a).
  { replace j with (nth j (seq 0 n) 0%nat).
    - rewrite E, app_nth1 by lia. apply nth_In. lia.
    - apply seq_nth. lia. }
  rewrite forallb_forall in F. specialize (F j I). now apply negb_true_iff in F.
Qed.
Lemma shortest_prints : prints shortest.
Proof.
  split; try reflexivity. intros v F.
  destruct (find (enough v) (seq 0 150)) as [k|] eqn:E.
  - exists (IZR (if reads k (down k v) v then down k v else up k v) / 10 ^ k), k.
    replace (shortest v) with (print_signed k (if reads k (down k v) v then down k v else up k v))
      by (unfold shortest; destruct v; try discriminate; rewrite E; reflexivity).
    apply find_seq in E as [E M]. split; [apply print_decimal|split].
    + destruct (reads k (down k v) v) eqn:R; [now apply reads_iff|].
      unfold enough in E. rewrite R in E. now apply reads_iff in E.
    + intros s r d D N. apply (enough_min v s r d D) in N. destruct (Nat.le_gt_cases k d) as [G|G]; auto.
      rewrite (M d G) in N. discriminate.
  - exfalso. assert (X := find_none _ _ E 149%nat). rewrite enough_long in X by lia. discriminate X. apply in_seq. lia.
Qed.

(** ** One number *)

Lemma unsigned_point s r d : unsigned s r d -> contains "." s = negb (Nat.eqb d 0).
Proof.
  intros [s' n [N E]|s' t n m [N E] [M G]].
  - now apply digits_no_point in E.
  - rewrite !contains_app. cbn [contains]. destruct t; [congruence|]. rewrite orb_comm. reflexivity.
Qed.
Lemma decimal_point s r d : decimal s r d -> contains "." s = negb (Nat.eqb d 0).
Proof. intros [s' r' d' U|s' r' d' U]; [eapply unsigned_point; eauto|]. apply unsigned_point in U. exact U. Qed.
Lemma add_point s r : decimal s r 0 -> decimal (s ++ ".0") r 1.
Proof.
  assert (Z : natural "0" 0) by (split; [discriminate|reflexivity]).
  assert (X : forall s r, unsigned s r 0 -> unsigned (s ++ ".0") r 1).
  { intros u q U. inversion U as [s' n N|s' t n m N M]; subst.
    - assert (W := fraction _ _ _ _ N Z). simpl in W. replace (IZR n) with (IZR n + 0 / (10 * 1)) by lra. exact W.
    - destruct M as [M _]. destruct t; [congruence|discriminate]. }
  intros D. inversion D as [s' r' d' U|s' r' d' U]; subst.
  - now apply positive, X.
  - apply (negative _ _ _ (X _ _ U)).
Qed.

Lemma ten4 : fin (ofZ 10000) /\ B2R (ofZ 10000) = 10000.
Proof. apply (ofZ_val 10000). reflexivity. Qed.
Lemma pow_lit : 2 ^ 22 = 4194304. Proof. rewrite (pow_IZR 2 22). reflexivity. Qed.
Lemma tiny_lit : 0 <= / 2 ^ 140 <= / 1000000000000.
Proof.
  assert (P : 1000000000000 < 2 ^ 140) by (rewrite (pow_IZR 2 140); apply IZR_lt; reflexivity). split.
  - left. apply Rinv_0_lt_compat. lra.
  - apply Rinv_le; lra.
Qed.
Lemma rounded v : fin v -> Rabs (B2R v) <= bpow radix2 100 ->
  exists K, let w := fdiv (fround (fmul v (ofZ 10000))) (ofZ 10000) in
  fin w /\ B2R w = rnd (IZR K / 10000) /\ Rabs (IZR K / 10000 - B2R v) <= / 20000 + Rabs (B2R v) / 16777216 + / 2 ^ 140.
Proof.
  intros F B. destruct ten4 as [Ft Et]. cbv zeta.
  assert (B2 : Rabs (B2R v * 10000) <= bpow radix2 114).
  { rewrite Rabs_mult, (Rabs_pos_eq 10000) by lra. change 114%Z with (100 + 14)%Z. rewrite bpow_plus.
    change (bpow radix2 14) with 16384. assert (0 <= bpow radix2 100) by apply bpow_ge_0. nra. }
  assert (F14 : forall e, (-149 <= e < 128)%Z -> fmt (bpow radix2 e)).
  { intros e E. rewrite <- (Rmult_1_l (bpow radix2 e)). change 1 with (IZR 1). 
    split.
    - rewrite Rmult_1_l. apply generic_format_bpow. unfold SpecFloat.fexp, SpecFloat.emin. lia.
    - rewrite Rmult_1_l, Rabs_pos_eq by apply bpow_ge_0. apply bpow_lt. lia. }
  destruct (fmul_ok v (ofZ 10000) (bpow radix2 114)) as [Fp Ep]; auto. { apply F14. lia. } { now rewrite Et. }
  rewrite Et in Ep. destruct (fround_val _ Fp) as [Fq Eq].
  assert (Bp : Rabs (B2R (fmul v (ofZ 10000))) <= bpow radix2 114).
  { rewrite Ep, rnd_abs. apply rnd_hi; auto. apply F14. lia. }
  assert (N := Znearest_half (Z.leb 0) (B2R (fmul v (ofZ 10000)))).
  set (K := ZnearestA (B2R (fmul v (ofZ 10000)))) in *. fold K in N.
  change (Znearest (Z.leb 0) (B2R (fmul v (ofZ 10000)))) with K in N.
  destruct (fdiv_ok (fround (fmul v (ofZ 10000))) (ofZ 10000) (bpow radix2 115)) as [Fw Ew]; auto.
  { rewrite Et. lra. } { apply F14. lia. }
  { rewrite Et, Eq. unfold Rdiv. rewrite Rabs_mult, (Rabs_pos_eq (/ 10000)) by lra.
    assert (Rabs (IZR K) <= Rabs (B2R (fmul v (ofZ 10000))) + / 2) by (unfold Rabs in *; repeat destruct (Rcase_abs _); lra).
    assert (1 <= bpow radix2 114) by (apply (bpow_le radix2 0); lia).
    change 115%Z with (114 + 1)%Z. rewrite bpow_plus. change (bpow radix2 1) with 2. assert (0 <= Rabs (IZR K)) by apply Rabs_pos. lra. }
  exists K. split; [exact Fw|]. rewrite Ew, Eq, Et. split; [reflexivity|].
  assert (R := rnd_rel_abs (B2R v * 10000)). rewrite <- Ep in R. rewrite (Rabs_mult (B2R v)), (Rabs_pos_eq 10000) in R by lra.
  assert (T := tiny_lit). apply Rabs_le_iff in N. apply Rabs_le_iff in R. apply Rabs_le. lra.
Qed.
Lemma shown_close K v r : Rabs (IZR K / 10000 - v) <= / 20000 + Rabs v / 16777216 + / 2 ^ 140 ->
  rnd r = rnd (IZR K / 10000) -> Rabs (r - v) <= / 19999 + Rabs v / 4194304.
Proof.
  intros H E. assert (A := rnd_rel_abs (IZR K / 10000)). assert (B := rnd_rel_abs r). rewrite E in B.
  clear E. set (q := IZR K / 10000) in *. set (w := rnd q) in *. assert (T := tiny_lit). set (t := / 2 ^ 140) in *.
  assert (V := Rabs_pos v).
  assert (Q : Rabs q <= Rabs v + / 20000 + Rabs v / 16777216 + t) by (assert (X := Rabs_triang (q - v) v); replace (q - v + v) with q in X by lra; lra).
  assert (W : Rabs w <= Rabs q + / 16777216 * Rabs q + t) by (assert (X := Rabs_triang (w - q) q); replace (w - q + q) with w in X by lra; lra).
  assert (P : Rabs r <= Rabs w + / 16777216 * Rabs r + t).
  { assert (X := Rabs_triang w (- (w - r))). rewrite Rabs_Ropp in X. replace (w + - (w - r)) with r in X by lra. lra. }
  apply Rabs_le_iff in H. apply Rabs_le_iff in A. apply Rabs_le_iff in B. apply Rabs_le. lra.
Qed.
Lemma format_number show v : prints show -> fin v -> Rabs (B2R v) <= bpow radix2 100 -> four_places (format_f32 show v) v.
Proof.
  intros P F B. destruct (rounded v F B) as (K & Fw & Ew & C). unfold format_f32.
  set (w := fdiv _ _) in *. destruct (shows_finite show P w Fw) as (r & d & D & N & M).
  assert (d <= 4)%nat.
  { apply (M _ _ _ (print_decimal 4 K)). rewrite Ew. unfold nearest. f_equal. replace (10 ^ 4) with 10000 by ring. reflexivity. }
  assert (Cl : Rabs (r - B2R v) <= / 19999 + Rabs (B2R v) / 2 ^ 22).
  { rewrite pow_lit. apply (shown_close K); auto. rewrite <- Ew. exact N. }
  rewrite (decimal_point _ _ _ D). destruct d as [|d]; cbn [Nat.eqb negb].
  - exists r, 1%nat. split; [now apply add_point|]. split; [lia|auto].
  - exists r, (S d). split; auto. split; [lia|auto].
Qed.

(** ** A colour *)

Lemma opaque_iff a : fin a -> Rabs (B2R a) <= bpow radix2 100 ->
  (flt EPSILON (fabs (fsub f1 a)) = true <-> / 32768 < Rabs (1 - B2R a)).
Proof.
  intros F B.
  destruct (fsub_ok f1 a (bpow radix2 101)) as [Fs Es]; auto using f1_fin.
  { split; [apply generic_format_bpow; unfold SpecFloat.fexp, SpecFloat.emin; lia|].
    rewrite Rabs_pos_eq by apply bpow_ge_0. apply bpow_lt. lia. }
  { rewrite f1_R. assert (X := Rabs_triang 1 (- B2R a)). rewrite Rabs_Ropp, Rabs_R1 in X. unfold Rminus.
    change 101%Z with (100 + 1)%Z. rewrite bpow_plus. change (bpow radix2 1) with 2.
    assert (1 <= bpow radix2 100) by (apply (bpow_le radix2 0); lia). lra. }
  rewrite f1_R in Es. rewrite flt_R; auto using EPS_fin, fabs_fin. rewrite EPS_R, fabs_R, Es.
  destruct (Rle_dec (/ 2) (B2R a)) as [G|G]; [destruct (Rle_dec (B2R a) 2) as [G2|G2]|].
  - assert (X : rnd (1 - B2R a) = 1 - B2R a).
    { apply rnd_id. split.
      - apply (Sterbenz.sterbenz radix2 fx); [apply fmt_1|apply fmt_B2R|lra].
      - apply Rle_lt_trans with 2; [apply Rabs_le; lra|]. apply (bpow_lt radix2 1). lia. }
    rewrite X. tauto.
  - rewrite rnd_abs. assert (/ 2 <= rnd (Rabs (1 - B2R a))) by (apply rnd_lo; [apply fmt_half|rewrite Rabs_left; lra]).
    assert (/ 2 <= Rabs (1 - B2R a)) by (rewrite Rabs_left; lra). split; intros; lra.
  - rewrite rnd_abs. assert (/ 2 <= rnd (Rabs (1 - B2R a))) by (apply rnd_lo; [apply fmt_half|rewrite Rabs_pos_eq; lra]).
    assert (/ 2 <= Rabs (1 - B2R a)) by (rewrite Rabs_pos_eq; lra). split; intros; lra.
Qed.
Lemma type_name_table k : type_name k = fst (names k).
Proof. destruct k as [| | | | | |[] []|[] []]; reflexivity. Qed.
Lemma format_shape show k c : format_color show k c =
  (type_name k ++ (if has_transparency c then "a" else "") ++ "(" ++ format_f32 show (d0 c) ++ ", " ++ format_f32 show (d1 c) ++ ", " ++
   format_f32 show (d2 c) ++ (if has_transparency c then ", " ++ format_f32 show (d3 c) else "") ++ ")").
Proof.
  unfold format_color. change ("" ++ type_name k) with (type_name k). cbn [fold_left]. unfold alpha.
  generalize (type_name k) (format_f32 show (d0 c)) (format_f32 show (d1 c)) (format_f32 show (d2 c)) (format_f32 show (d3 c)).
  intros n a b e f. destruct (has_transparency c).
  - rewrite !app_assoc_s. reflexivity.
  - replace ((((n ++ "(") ++ a ++ ", ") ++ b ++ ", ") ++ e ++ ", ")
      with ((n ++ "(" ++ a ++ ", " ++ b ++ ", " ++ e) ++ ", ") by (rewrite !app_assoc_s; reflexivity).
    rewrite pop_comma. rewrite !app_assoc_s. reflexivity.
Qed.

(** ** Reading the text back *)

Lemma split_unique c a a' b b' : contains c a = false -> contains c a' = false -> a ++ String c b = a' ++ String c b' -> a = a' /\ b = b'.
Proof.
  revert a'. induction a as [|x a IH]; intros [|x' a'] H H' E; simpl in *.
  - injection E. auto.
  - injection E as -> _. rewrite Ascii.eqb_refl in H'. discriminate.
  - injection E as -> _. rewrite Ascii.eqb_refl in H. discriminate.
  - injection E as -> E. apply orb_false_iff in H as [_ H]. apply orb_false_iff in H' as [_ H'].
    destruct (IH a' H H' E) as [-> ->]. auto.
Qed.
Lemma digits_no c acc s n : digit c = None -> digits_val acc s = Some n -> contains c s = false.
Proof.
  intros C. revert acc. induction s as [|x s IH]; intros acc H; simpl in *; [reflexivity|].
  destruct (digit x) eqn:E; [|discriminate]. apply orb_false_iff. split; [|eauto].
  apply Ascii.eqb_neq. intros ->. congruence.
Qed.
Lemma decimal_no c s r d : digit c = None -> c <> "."%char -> c <> "-"%char -> decimal s r d -> contains c s = false.
Proof.
  intros C P M. assert (U : forall s r d, unsigned s r d -> contains c s = false).
  { intros u q e [s' n [_ N]|s' t n m [_ N] [_ N']].
    - eapply digits_no; eauto.
    - rewrite !contains_app. cbn [contains]. rewrite (digits_no c 0 s' n), (digits_no c 0 t m) by auto.
      replace (Ascii.eqb "." c) with false by (symmetry; apply Ascii.eqb_neq; auto). reflexivity. }
  intros [s' r' d' D|s' r' d' D]; [eauto|]. rewrite contains_app. cbn [contains]. rewrite (U _ _ _ D).
  replace (Ascii.eqb "-" c) with false by (symmetry; apply Ascii.eqb_neq; auto). reflexivity.
Qed.
Lemma unsigned_fun s r d r' d' : unsigned s r d -> unsigned s r' d' -> r = r'.
Proof.
  intros A B. assert (PA := unsigned_point _ _ _ A). assert (PB := unsigned_point _ _ _ B).
  inversion A as [s1 n1 [_ N1]|s1 t1 n1 m1 [_ N1] [T1 M1]]; subst; inversion B as [s2 n2 [_ N2]|s2 t2 n2 m2 [_ N2] [T2 M2]]; subst.
  - congruence.
  - rewrite PA in PB. destruct t2; [congruence|discriminate].
  - rewrite PA in PB. destruct t1; [congruence|discriminate].
  - destruct (split_unique "." s2 s1 t2 t1) as [-> ->]; eauto using digits_no_point. congruence.
Qed.
Lemma decimal_fun s r d r' d' : decimal s r d -> decimal s r' d' -> r = r'.
Proof.
  assert (X : forall s r d, ~ unsigned (String "-" s) r d).
  { intros u q e U. inversion U as [s1 n1 [_ N1]|s1 t1 n1 m1 [_ N1] [T1 M1] E]; subst; [discriminate|].
    destruct s1 as [|x s1]; [discriminate|]. injection E as -> _. discriminate. }
  intros A B. inversion A as [s1 r1 d1 U|s1 r1 d1 U]; subst; inversion B as [s2 r2 d2 V|s2 r2 d2 V]; subst.
  - eapply unsigned_fun; eauto.
  - now apply X in U.
  - now apply X in V.
  - f_equal. eapply unsigned_fun; eauto.
Qed.
Lemma four_places_no c t v : digit c = None -> c <> "."%char -> c <> "-"%char -> four_places t v -> contains c t = false.
Proof. intros C P M (r & d & D & _). eapply decimal_no; eauto. Qed.
Lemma four_places_near t v w : four_places t v -> four_places t w ->
  Rabs (B2R v - B2R w) <= 2 / 19999 + (Rabs (B2R v) + Rabs (B2R w)) / 2 ^ 22.
Proof.
  intros (r & d & D & _ & A) (r' & d' & D' & _ & B). rewrite <- (decimal_fun _ _ _ _ _ D D') in B.
  apply Rabs_le_iff in A. apply Rabs_le_iff in B. apply Rabs_le. lra.
Qed.
Lemma name_no_paren k (b : bool) : contains "(" (type_name k ++ if b then "a" else "") = false.
Proof. destruct k as [| | | | | |[] []|[] []], b; reflexivity. Qed.
Lemma name_inj k k' (b b' : bool) : type_name k ++ (if b then "a" else "") = type_name k' ++ (if b' then "a" else "") -> k = k' /\ b = b'.
Proof. destruct k as [| | | | | |[] []|[] []], b, k' as [| | | | | |[] []|[] []], b'; intros E; try discriminate E; split; reflexivity. Qed.
Lemma printable_R c v : printable c -> In v [d0 c; d1 c; d2 c; d3 c] -> fin v /\ Rabs (B2R v) <= bpow radix2 100.
Proof.
  intros H I. destruct (H v I) as [A B]. split; auto. rewrite <- (IZR_Zpower radix2) by lia.
  rewrite (pow_IZR 2 100) in B. exact B.
Qed.
Lemma printed show c v : prints show -> printable c -> In v [d0 c; d1 c; d2 c; d3 c] -> four_places (format_f32 show v) v.
Proof. intros P H I. destruct (printable_R c v H I). now apply format_number. Qed.
Lemma same_text show k k' c c' : prints show -> printable c -> printable c' -> format_color show k c = format_color show k' c' ->
  k = k' /\ forall p, Rabs (B2R (get p c) - B2R (get p c')) <= 2 / 19999 + (Rabs (B2R (get p c)) + Rabs (B2R (get p c'))) / 2 ^ 22.
Proof.
  intros P H H' E. rewrite !format_shape in E.
  assert (F0 := printed show c (d0 c) P H ltac:(simpl; auto)). assert (F0' := printed show c' (d0 c') P H' ltac:(simpl; auto)).
  assert (F1 := printed show c (d1 c) P H ltac:(simpl; auto)). assert (F1' := printed show c' (d1 c') P H' ltac:(simpl; auto)).
  assert (F2 := printed show c (d2 c) P H ltac:(simpl; auto)). assert (F2' := printed show c' (d2 c') P H' ltac:(simpl; auto)).
  assert (F3 := printed show c (d3 c) P H ltac:(simpl; auto)). assert (F3' := printed show c' (d3 c') P H' ltac:(simpl; auto)).
  destruct (printable_R c (d3 c) H ltac:(simpl; auto)) as [A3 B3]. destruct (printable_R c' (d3 c') H' ltac:(simpl; auto)) as [A3' B3'].
  assert (O := opaque_iff (d3 c) A3 B3). assert (O' := opaque_iff (d3 c') A3' B3').
  change (flt EPSILON (fabs (fsub f1 (d3 c)))) with (has_transparency c) in O.
  change (flt EPSILON (fabs (fsub f1 (d3 c')))) with (has_transparency c') in O'.
  revert E F0 F0' F1 F1' F2 F2' F3 F3'.
  generalize (format_f32 show (d0 c)) (format_f32 show (d0 c')) (format_f32 show (d1 c)) (format_f32 show (d1 c'))
    (format_f32 show (d2 c)) (format_f32 show (d2 c')) (format_f32 show (d3 c)) (format_f32 show (d3 c')).
  intros t0 u0 t1 u1 t2 u2 t3 u3 E F0 F0' F1 F1' F2 F2' F3 F3'.
  rewrite <- 2!(app_assoc_s (type_name _)) in E.
  apply split_unique in E as [E G]; try apply name_no_paren. apply name_inj in E as [-> T]. split; [reflexivity|].
  assert (N : forall t v, four_places t v -> contains "," t = false) by (intros; eapply four_places_no; eauto; discriminate).
  assert (N' : forall t v, four_places t v -> contains ")" t = false) by (intros; eapply four_places_no; eauto; discriminate).
  apply split_unique in G as [-> G]; eauto. injection G as G.
  apply split_unique in G as [-> G]; eauto. injection G as G.
  destruct (has_transparency c); rewrite <- T in G.
  - apply split_unique in G as [-> G]; eauto. injection G as G. apply split_unique in G as [-> G]; eauto.
    intros []; cbn [get]; eapply four_places_near; eauto.
  - apply split_unique in G as [-> G]; eauto.
    intros []; cbn [get]; try (eapply four_places_near; eauto; fail).
    rewrite <- T in O'. assert (L : ~ / 32768 < Rabs (1 - B2R (d3 c))) by (intros X; apply O in X; discriminate).
    assert (L' : ~ / 32768 < Rabs (1 - B2R (d3 c'))) by (intros X; apply O' in X; discriminate).
    apply Rnot_lt_le, Rabs_le_iff in L. apply Rnot_lt_le, Rabs_le_iff in L'.
    assert (0 <= (Rabs (B2R (d3 c)) + Rabs (B2R (d3 c'))) / 2 ^ 22).
    { rewrite pow_lit. assert (X := Rabs_pos (B2R (d3 c))). assert (Y := Rabs_pos (B2R (d3 c'))). lra. }
    apply Rabs_le. lra.
Qed.
