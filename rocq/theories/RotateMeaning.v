(** Proofs for C105: free rotation. *)
From Coq Require Import Reals Lra Lia ZArith Bool Psatz List.
From Flocq Require Import Core.Core IEEE754.BinarySingleNaN.
From Verif Require Import Base BaseLemmas PixelBuffer BufferSpec PixelBufferProofs F32 F32Lemmas Color ColorSpec ColorProofs MeaningSpec Approx OpMeaningProofs LchMeaning BlendMeaning Resample ResampleProofs Resample2Proofs ResampleSpec InterpProofs ResampleMeaning.
Import ListNotations.
Open Scope R_scope.

(** ** Float arithmetic with errors relative to a size [S] *)
Lemma fmt_2_32 : fmt 4294967296.
Proof. replace 4294967296 with (IZR 1 * bpow radix2 32) by (rewrite bpow_pos; change (Z.pow_pos 2 32) with 4294967296%Z; lra). apply fmt_F2R; lia. Qed.
Lemma rnd_S S r : 1 <= S <= 2147483648 -> Rabs r <= 102 / 100 * S -> Rabs (rnd r - r) <= S / 16000000.
Proof. intros HS H. pose proof (rnd_rel_abs r) as K. pose proof p140. eapply Rle_trans; [exact K|]. lra. Qed.
Lemma add_S S e1 e2 r1 r2 x y : 1 <= S <= 2147483648 -> close e1 r1 x -> close e2 r2 y -> Rabs (r1 + r2) <= 101 / 100 * S -> e1 + e2 <= S / 100 -> close (e1 + e2 + S / 16000000) (r1 + r2) (fadd x y).
Proof.
  intros HS [F1 C1] [F2 C2] H E. apply Rabs_le_iff in C1, C2. apply Rabs_le_iff in H.
  assert (B : Rabs (B2R x + B2R y) <= 102 / 100 * S) by (apply Rabs_le_iff; lra).
  destruct (fadd_ok x y 4294967296) as [F EE]; auto using fmt_2_32; [lra|]. split; [exact F|]. rewrite EE.
  pose proof (rnd_S S _ HS B) as K. apply Rabs_le_iff in K. apply Rabs_le_iff. lra.
Qed.
Lemma sub_S S e1 e2 r1 r2 x y : 1 <= S <= 2147483648 -> close e1 r1 x -> close e2 r2 y -> Rabs (r1 - r2) <= 101 / 100 * S -> e1 + e2 <= S / 100 -> close (e1 + e2 + S / 16000000) (r1 - r2) (fsub x y).
Proof.
  intros HS [F1 C1] [F2 C2] H E. apply Rabs_le_iff in C1, C2. apply Rabs_le_iff in H.
  assert (B : Rabs (B2R x - B2R y) <= 102 / 100 * S) by (apply Rabs_le_iff; lra).
  destruct (fsub_ok x y 4294967296) as [F EE]; auto using fmt_2_32; [lra|]. split; [exact F|]. rewrite EE.
  pose proof (rnd_S S _ HS B) as K. apply Rabs_le_iff in K. apply Rabs_le_iff. lra.
Qed.
(** A coordinate times a sine or cosine. *)
Lemma mul_S S n e1 e2 r1 r2 x y : 1 <= S <= 2147483648 -> close e1 r1 x -> close e2 r2 y -> Rabs r1 <= n / 2 -> n <= S -> Rabs r2 <= 1 -> 0 <= e1 <= S / 1000000 -> 0 <= e2 <= / 100000 ->
  close (100001 / 100000 * e1 + n / 2 * e2 + S / 16000000) (r1 * r2) (fmul x y).
Proof.
  intros HS [F1 C1] [F2 C2] H1 N H2 E1 E2. 
  assert (P : Rabs (B2R x * B2R y - r1 * r2) <= 100001 / 100000 * e1 + n / 2 * e2).
  { replace (B2R x * B2R y - r1 * r2) with ((B2R x - r1) * B2R y + r1 * (B2R y - r2)) by ring. eapply Rle_trans; [apply Rabs_triang|]. rewrite !Rabs_mult.
    apply Rplus_le_compat.
    - rewrite Rmult_comm. apply Rmult_le_compat; auto using Rabs_pos. apply Rabs_le_iff in C2, H2. apply Rabs_le_iff. lra.
    - apply Rmult_le_compat; auto using Rabs_pos. }
  assert (Q : Rabs (r1 * r2) <= n / 2). { rewrite Rabs_mult, <- (Rmult_1_r (n / 2)). apply Rmult_le_compat; auto using Rabs_pos. }
  assert (N0 : 0 <= n) by (pose proof (Rabs_pos r1); lra).
  assert (NE : n / 2 * e2 <= n / 2 * / 100000) by (apply Rmult_le_compat_l; lra).
  apply Rabs_le_iff in P, Q.
  assert (B : Rabs (B2R x * B2R y) <= 102 / 100 * S) by (apply Rabs_le_iff; lra).
  destruct (fmul_ok x y 4294967296) as [F EE]; auto using fmt_2_32; [lra|]. split; [exact F|]. rewrite EE.
  pose proof (rnd_S S _ HS B) as K. apply Rabs_le_iff in K. apply Rabs_le_iff. lra.
Qed.
Lemma ofZ_S S z : 1 <= S <= 2147483648 -> (0 <= z)%Z -> IZR z <= S -> close (S / 16000000) (IZR z) (ofZ z).
Proof.
  intros HS Hz H. assert (z <= 2147483648)%Z by (apply le_IZR; lra). destruct (ofZ_big z) as [F B]; [lia|]. split; [exact F|]. rewrite ee_val in B. assert (0 <= IZR z) by (apply IZR_le; lia). apply Rabs_le_iff. lra.
Qed.

(** ** The angle *)
Lemma angle_close d : fin d -> Rabs (B2R d) <= 360 -> close (69 / 100 * / 1048576) (- (B2R d * PI / 180)) (fmul (fdiv d (ofZ (-180))) fPI).
Proof.
  intros F H. destruct fPI_val as [FP EP]. pose proof PI_bounds as PB. destruct (ofZ_val (-180)) as [F1 EE1]; [lia|].
  assert (Q : close (/ 16777216) (- (B2R d / 180)) (fdiv d (ofZ (-180)))).
  { assert (R : B2R d / B2R (ofZ (-180)) = - (B2R d / 180)) by (rewrite EE1; change (IZR (-180)) with (-180); field).
    apply Rabs_le_iff in H. destruct (fdiv_ok d (ofZ (-180)) 2) as [F2 EE2]; auto with fmt. { rewrite EE1. change (IZR (-180)) with (-180). lra. } { rewrite R. apply Rabs_le_iff. lra. }
    rewrite R in EE2. split; [exact F2|]. rewrite EE2. apply (uo_err 2); [apply uo_2|apply Rabs_le_iff; lra]. }
  assert (P : close (11 / 100000000) PI fPI) by (split; [exact FP|rewrite EP; apply Rabs_le_iff; lra]).
  replace (- (B2R d * PI / 180)) with (- (B2R d / 180) * PI) by field. apply Rabs_le_iff in H.
  eapply close_weak; [apply (close_mul 8 (/ 4194304) 2 (314159267 / 100000000) _ _ _ _ _ _ uo_8 Q P)|]; (lra || (apply Rabs_le_iff; lra)).
Qed.
Lemma trig_close L d : accurate_turn L -> fin d -> Rabs (B2R d) <= 360 -> let t := B2R d * PI / 180 in let v := fmul (fdiv d (ofZ (-180))) fPI in
  close (17 / 10 * / 1048576) (- sin t) (fsin L v) /\ close (17 / 10 * / 1048576) (cos t) (fcos L v).
Proof.
  intros AL F H t v. destruct (angle_close d F H) as [Fv Cv]. fold v in Fv, Cv. fold t in Cv. apply Rabs_le_iff in H. pose proof PI_bounds as PB.
  assert (T : - 63 / 10 <= t <= 63 / 10) by (unfold t; split; nra).
  destruct (AL v Fv) as [SA CA]. { apply Rabs_le_iff in Cv. apply Rabs_le_iff. lra. }
  rewrite (pow_IZR 2 20) in SA, CA. change (IZR (2 ^ Z.of_nat 20)) with 1048576 in SA, CA.
  split; (eapply close_weak; [eapply close_move; [eassumption|]|]).
  - rewrite <- sin_neg. eapply Rle_trans; [apply sin_lip|exact Cv].
  - lra.
  - rewrite <- (cos_neg t). eapply Rle_trans; [apply cos_lip|exact Cv].
  - lra.
Qed.
Lemma sc_bound t : Rabs (sin t) <= 1 /\ Rabs (cos t) <= 1.
Proof. split; apply Rabs_le_iff; [apply SIN_bound|apply COS_bound]. Qed.

(** ** The position *)
Definition rotated_x (s c : f32) (w h x y : Z) : f32 :=
  let cx := fdiv (ofZ (w + 1)) f2 in let cy := fdiv (ofZ (h + 1)) f2 in let a := fsub (fadd (ofZ x) f1) cx in let k := fsub (fadd (ofZ y) f1) cy in
  fsub (fadd (fsub (fmul a c) (fmul k s)) cx) f1.
Definition rotated_y (s c : f32) (w h x y : Z) : f32 :=
  let cx := fdiv (ofZ (w + 1)) f2 in let cy := fdiv (ofZ (h + 1)) f2 in let a := fsub (fadd (ofZ x) f1) cx in let k := fsub (fadd (ofZ y) f1) cy in
  fsub (fadd (fadd (fmul a s) (fmul k c)) cy) f1.
Section position.
Variables (S : R) (w h x y : Z).
Hypotheses (ES : S = IZR w + IZR h) (HS : 1 <= S <= 2147483648) (HW : (1 <= w)%Z) (HH : (1 <= h)%Z) (HX : (0 <= x < w)%Z) (HY : (0 <= y < h)%Z).
Lemma centre_close n : (1 <= n)%Z -> IZR n + 1 <= S -> close (2 * (S / 16000000)) ((IZR n + 1) / 2) (fdiv (ofZ (n + 1)) f2).
Proof.
  intros Hn B. assert (R : 1 <= IZR n) by (apply IZR_le; lia). destruct (ofZ_S S (n + 1) HS) as [F C]; [lia|rewrite plus_IZR; exact B|]. rewrite plus_IZR in C. apply Rabs_le_iff in C.
  assert (BB : Rabs (B2R (ofZ (n + 1)) / B2R f2) <= 102 / 100 * S) by (rewrite f2_R; apply Rabs_le_iff; lra).
  destruct (fdiv_ok (ofZ (n + 1)) f2 4294967296) as [F2 EE]; auto using fmt_2_32. { apply f2_fin. } { rewrite f2_R; lra. } { lra. }
  split; [exact F2|]. rewrite EE. pose proof (rnd_S S _ HS BB) as K. rewrite f2_R in *. apply Rabs_le_iff in K. apply Rabs_le_iff. lra.
Qed.
Lemma offset_S z n : (0 <= z < n)%Z -> IZR n + 1 <= S -> close (5 * (S / 16000000)) (IZR z - (IZR n - 1) / 2) (fsub (fadd (ofZ z) f1) (fdiv (ofZ (n + 1)) f2)).
Proof.
  intros Hz B. assert (R : 0 <= IZR z <= IZR n - 1) by (split; [apply IZR_le; lia|rewrite <- minus_IZR; apply IZR_le; lia]).
  assert (Cz : close (S / 16000000) (IZR z) (ofZ z)) by (apply ofZ_S; [exact HS|lia|lra]).
  assert (C1 : close 0 1 f1) by (split; [apply f1_fin|rewrite f1_R; apply Rabs_le_iff; lra]).
  pose proof (add_S S _ _ _ _ _ _ HS Cz C1 ltac:(apply Rabs_le_iff; lra) ltac:(lra)) as A.
  pose proof (centre_close n ltac:(lia) B) as D.
  pose proof (sub_S S _ _ _ _ _ _ HS A D ltac:(apply Rabs_le_iff; lra) ltac:(lra)) as E.
  replace (IZR z - (IZR n - 1) / 2) with (IZR z + 1 - (IZR n + 1) / 2) by field. eapply close_weak; [exact E|]. lra.
Qed.
Variables (s c : f32) (rs rc : R).
Hypotheses (Cs : close (17 / 10 * / 1048576) (- rs) s) (Cc : close (17 / 10 * / 1048576) rc c) (Bs : Rabs rs <= 1) (Bc : Rabs rc <= 1).
Lemma rotated_close :
  close (S / 524288) ((IZR w - 1) / 2 + ((IZR x - (IZR w - 1) / 2) * rc + (IZR y - (IZR h - 1) / 2) * rs)) (rotated_x s c w h x y) /\
  close (S / 524288) ((IZR h - 1) / 2 + ((IZR y - (IZR h - 1) / 2) * rc - (IZR x - (IZR w - 1) / 2) * rs)) (rotated_y s c w h x y).
Proof.
  assert (Rw : 1 <= IZR w) by (apply IZR_le; lia). assert (Rh : 1 <= IZR h) by (apply IZR_le; lia).
  assert (Rx : 0 <= IZR x <= IZR w - 1) by (split; [apply IZR_le; lia|rewrite <- minus_IZR; apply IZR_le; lia]).
  assert (Ry : 0 <= IZR y <= IZR h - 1) by (split; [apply IZR_le; lia|rewrite <- minus_IZR; apply IZR_le; lia]).
  pose proof (offset_S x w HX ltac:(lra)) as A. pose proof (offset_S y h HY ltac:(lra)) as K. pose proof (centre_close w HW ltac:(lra)) as CX. pose proof (centre_close h HH ltac:(lra)) as CY.
  unfold rotated_x, rotated_y. cbv zeta. set (fa := fsub (fadd (ofZ x) f1) _) in *. set (fk := fsub (fadd (ofZ y) f1) _) in *. set (fx := fdiv (ofZ (w + 1)) f2) in *. set (fy := fdiv (ofZ (h + 1)) f2) in *. clearbody fa fk fx fy.
  set (ra := IZR x - (IZR w - 1) / 2) in *. set (rk := IZR y - (IZR h - 1) / 2) in *.
  assert (Ba : Rabs ra <= IZR w / 2) by (apply Rabs_le_iff; unfold ra; lra). assert (Bk : Rabs rk <= IZR h / 2) by (apply Rabs_le_iff; unfold rk; lra). clearbody ra rk.
  assert (Bs' : Rabs (- rs) <= 1) by (now rewrite Rabs_Ropp).
  assert (MM : forall n r1 r2 f g, close (5 * (S / 16000000)) r1 f -> close (17 / 10 * / 1048576) r2 g -> Rabs r1 <= n / 2 -> Rabs r2 <= 1 -> n <= S -> Rabs (r1 * r2) <= n / 2 /\ close (n * (85 / 100 * / 1048576) + 601 / 100 * (S / 16000000)) (r1 * r2) (fmul f g)).
  { intros n r1 r2 f g C1 C2 H1 H2 HN. split.
    - rewrite Rabs_mult, <- (Rmult_1_r (n / 2)). apply Rmult_le_compat; auto using Rabs_pos.
    - eapply close_weak; [apply (mul_S S n _ _ _ _ _ _ HS C1 C2); auto; lra|]. lra. }
  assert (C1 : close 0 1 f1) by (split; [apply f1_fin|rewrite f1_R; apply Rabs_le_iff; lra]).
  destruct (MM (IZR w) _ _ _ _ A Cc Ba Bc ltac:(lra)) as [N1 M1]. destruct (MM (IZR h) _ _ _ _ K Cs Bk Bs' ltac:(lra)) as [N2 M2].
  destruct (MM (IZR w) _ _ _ _ A Cs Ba Bs' ltac:(lra)) as [N3 M3]. destruct (MM (IZR h) _ _ _ _ K Cc Bk Bc ltac:(lra)) as [N4 M4].
  apply Rabs_le_iff in N1, N2, N3, N4. clear MM.
  split.
  - pose proof (sub_S S _ _ _ _ _ _ HS M1 M2 ltac:(apply Rabs_le_iff; lra) ltac:(lra)) as Q1.
    pose proof (add_S S _ _ _ _ _ _ HS Q1 CX ltac:(apply Rabs_le_iff; lra) ltac:(lra)) as Q2.
    pose proof (sub_S S _ _ _ _ _ _ HS Q2 C1 ltac:(apply Rabs_le_iff; lra) ltac:(lra)) as Q3.
    replace ((IZR w - 1) / 2 + (ra * rc + rk * rs)) with (ra * rc - rk * - rs + (IZR w + 1) / 2 - 1) by field. eapply close_weak; [exact Q3|]. lra.
  - pose proof (add_S S _ _ _ _ _ _ HS M3 M4 ltac:(apply Rabs_le_iff; lra) ltac:(lra)) as Q1.
    pose proof (add_S S _ _ _ _ _ _ HS Q1 CY ltac:(apply Rabs_le_iff; lra) ltac:(lra)) as Q2.
    pose proof (sub_S S _ _ _ _ _ _ HS Q2 C1 ltac:(apply Rabs_le_iff; lra) ltac:(lra)) as Q3.
    replace ((IZR h - 1) / 2 + (rk * rc - ra * rs)) with (ra * - rs + rk * rc + (IZR h + 1) / 2 - 1) by field. eapply close_weak; [exact Q3|]. lra.
Qed.
End position.

(** ** Inside and outside *)
Lemma as_int v : fin v -> f_as_i32 (fround v) = Z.max (-2147483648) (Z.min 2147483647 (ZnearestA (B2R v))).
Proof. intros F. destruct (fround_val v F) as [A B]. unfold f_as_i32. now rewrite (cast_int _ _ _ _ A B). Qed.
Lemma nearA r : - / 2 <= IZR (ZnearestA r) - r <= / 2.
Proof. pose proof (Znearest_half (Zle_bool 0) r) as K. apply Rabs_le_iff in K. lra. Qed.
Lemma round_at i v : fin v -> Rabs (B2R v - IZR i) < / 2 -> (Z.abs i <= 2147483647)%Z -> f_as_i32 (fround v) = i.
Proof.
  intros F H B. rewrite as_int by exact F. pose proof (nearA (B2R v)) as K. apply Rabs_lt_iff in H.
  assert (-1 < ZnearestA (B2R v) - i < 1)%Z by (split; apply lt_IZR; rewrite minus_IZR; lra). lia.
Qed.
Lemma round_in n v : fin v -> (0 < n <= 1073741823)%Z -> - / 2 < B2R v < IZR n - / 2 -> (0 <= f_as_i32 (fround v) < n)%Z.
Proof.
  intros F N H. rewrite as_int by exact F. pose proof (nearA (B2R v)) as K.
  assert (-1 < ZnearestA (B2R v) < n)%Z by (split; apply lt_IZR; lra). lia.
Qed.
Lemma round_out n v : fin v -> (0 < n <= 1073741823)%Z -> B2R v < - / 2 \/ IZR n - / 2 < B2R v -> ~ (0 <= f_as_i32 (fround v) < n)%Z.
Proof.
  intros F N H. rewrite as_int by exact F. pose proof (nearA (B2R v)) as K.
  assert (ZnearestA (B2R v) < 0 \/ n - 1 < ZnearestA (B2R v))%Z by (destruct H; [left|right]; apply lt_IZR; rewrite ?minus_IZR; lra). lia.
Qed.

(** ** Reading *)
Definition rotate_fn (L : libm) (m : build) (f : filter_mode) : PixelBuffer Rgb -> f32 -> f32 -> res (option Rgb) :=
  match f with
  | Nearest => rotate_pixel_nearest m
  | Bilinear => rotate_pixel_with (get_pixel_bilinear m)
  | Bicubic | Auto => rotate_pixel_with (get_pixel_bicubic m)
  | Lanczos3 => rotate_pixel_with (get_pixel_lanczos3 L m)
  end.
Definition size_of (b : PixelBuffer Rgb) : R := IZR (width b + height b) / 524288.
Lemma full_turn d : fin d -> flt (fabs (fsub d (ofZ 360))) f32_EPSILON = true -> Rabs (B2R d) <= 360 -> Rabs (B2R d - 360) <= / 4194304.
Proof.
  intros F H B. destruct (ofZ_val 360) as [F1 EE1]; [lia|]. apply Rabs_le_iff in B.
  assert (F0 : fmt 1024) by (replace 1024 with (IZR 1024) by reflexivity; apply fmt_IZR; lia). destruct (fsub_ok d (ofZ 360) 1024 F F1 F0) as [F2 EE2]. { rewrite EE1. change (IZR 360) with 360. apply Rabs_le_iff. lra. }
  rewrite EE1 in EE2. change (IZR 360) with 360 in EE2.
  assert (FE : fin f32_EPSILON /\ B2R f32_EPSILON = / 8388608) by (fval f32_EPSILON H0; rewrite H0; split; [assumption|lra]). destruct FE as [FE EE].
  assert (FA : fin (fabs (fsub d (ofZ 360))) /\ B2R (fabs (fsub d (ofZ 360))) = Rabs (B2R (fsub d (ofZ 360)))) by (unfold fabs; split; [unfold fin; now rewrite is_finite_Babs|apply B2R_Babs]). destruct FA as [FA EA].
  apply flt_R in H; auto. rewrite EE, EA, EE2 in H.
  destruct (Rle_lt_dec (Rabs (B2R d - 360)) (/ 4194304)) as [L|G]; [exact L|]. exfalso.
  assert (F4 : fmt (- / 4194304)). { replace (- / 4194304) with (IZR (-1) * bpow radix2 (-22)) by (change (bpow radix2 (-22)) with (/ 4194304); lra). apply fmt_F2R; lia. }
  apply Rabs_lt_iff in H. assert (K : B2R d - 360 <= - / 4194304). { rewrite Rabs_left1 in G by lra. lra. }
  pose proof (rnd_hi (B2R d - 360) (- / 4194304) F4 K). lra.
Qed.
Lemma turn_small d : Rabs (d - 360) <= / 4194304 -> Rabs (cos (d * PI / 180) - 1) <= / 8388608 /\ Rabs (sin (d * PI / 180)) <= / 8388608.
Proof.
  intros H. pose proof PI_bounds as PB. assert (K : Rabs (d * PI / 180 - 2 * PI) <= / 8388608).
  { replace (d * PI / 180 - 2 * PI) with ((d - 360) * (PI / 180)) by field. rewrite Rabs_mult, (Rabs_pos_eq (PI / 180)) by lra. pose proof (Rabs_pos (d - 360)). nra. }
  split.
  - rewrite <- cos_2PI at 1. eapply Rle_trans; [apply cos_lip|exact K].
  - rewrite <- (Rminus_0_r (sin (d * PI / 180))), <- sin_2PI. eapply Rle_trans; [apply sin_lip|exact K].
Qed.
Lemma rotate_read L m b d bg f r m' x y : accurate_turn L -> valid b -> fin d -> Rabs (B2R d) <= 360 -> rotate L m b d bg f = Ok r -> inside r x y ->
  inside b x y /\
  let p := fst (turned_back (width b) (height b) (B2R d) x y) in let q := snd (turned_back (width b) (height b) (B2R d) x y) in
  (r = b /\ Rabs (p - IZR x) <= size_of b /\ Rabs (q - IZR y) <= size_of b) \/
  exists u v, close (size_of b) p u /\ close (size_of b) q v /\ get_pixel m' r x y = bind (rotate_fn L m f b u v) (fun o => Ok (match o with Some c => c | None => bg end)).
Proof.
  intros AL V F D H I. pose proof (valid_bounds b V) as VB.
  assert (IB : inside b x y).
  { destruct (rotate_ok L m b d bg f V) as (r' & E & _ & W & Hh). rewrite H in E. injection E as <-. unfold inside in *. now rewrite W, Hh in I. }
  split; [exact IB|]. cbv zeta. unfold turned_back. cbn [fst snd]. destruct IB as [Ix Iy].
  assert (Rw : 1 <= IZR (width b)) by (apply IZR_le; lia). assert (Rh : 1 <= IZR (height b)) by (apply IZR_le; lia).
  assert (Rx : 0 <= IZR x <= IZR (width b) - 1) by (split; [apply IZR_le; lia|rewrite <- minus_IZR; apply IZR_le; lia]).
  assert (Ry : 0 <= IZR y <= IZR (height b) - 1) by (split; [apply IZR_le; lia|rewrite <- minus_IZR; apply IZR_le; lia]).
  unfold rotate in H. destruct (flt _ _) eqn:Et.
  - left. injection H as <-. split; [reflexivity|]. destruct (turn_small _ (full_turn d F Et D)) as [C S]. unfold size_of. rewrite plus_IZR.
    set (cs := cos _) in *. set (sn := sin _) in *. clearbody cs sn.
    set (ra := IZR x - (IZR (width b) - 1) / 2). set (rk := IZR y - (IZR (height b) - 1) / 2).
    assert (Ba : Rabs ra <= IZR (width b) / 2) by (apply Rabs_le_iff; unfold ra; lra). assert (Bk : Rabs rk <= IZR (height b) / 2) by (apply Rabs_le_iff; unfold rk; lra).
    assert (P : forall n r e, Rabs r <= n / 2 -> Rabs e <= / 8388608 -> - (n / 2 * / 8388608) <= r * e <= n / 2 * / 8388608).
    { intros n r1 e1 H1 H2. apply Rabs_le_iff. rewrite Rabs_mult. apply Rmult_le_compat; auto using Rabs_pos. }
    pose proof (P _ _ _ Ba C) as P1. pose proof (P _ _ _ Bk S) as P2. pose proof (P _ _ _ Bk C) as P3. pose proof (P _ _ _ Ba S) as P4.
    split; apply Rabs_le_iff.
    + replace ((IZR (width b) - 1) / 2 + (ra * cs + rk * sn) - IZR x) with (ra * (cs - 1) + rk * sn) by (unfold ra; field). lra.
    + replace ((IZR (height b) - 1) / 2 + (rk * cs - ra * sn) - IZR y) with (rk * (cs - 1) - ra * sn) by (unfold rk; field). lra.
  - right. destruct (trig_close L d AL F D) as [Cs Cc]. destruct (sc_bound (B2R d * PI / 180)) as [Bs Bc].
    destruct (rotated_close (IZR (width b) + IZR (height b)) (width b) (height b) x y eq_refl) with (s := fsin L (fmul (fdiv d (ofZ (-180))) fPI)) (c := fcos L (fmul (fdiv d (ofZ (-180))) fPI)) (rs := sin (B2R d * PI / 180)) (rc := cos (B2R d * PI / 180)) as [U W]; auto; try lia.
    { rewrite <- plus_IZR. split; apply IZR_le; nia. }
    unfold size_of. rewrite plus_IZR. eexists. eexists. split; [exact U|]. split; [exact W|]. clear U W.
    assert (H' : rotate_with_fn L m b d bg (rotate_fn L m f) = Ok r) by (destruct f; exact H). clear H. unfold rotate_with_fn in H'.
    rewrite u32_ok in H' by lia. cbn [bind] in H'. rewrite u32_ok in H' by lia. cbn [bind] in H'.
    destruct (new_from_fn_inv _ _ _ _ _ (proj1 V) H') as (_ & _ & _ & G). rewrite (G m' x y I). reflexivity.
Qed.
Lemma rotate_outside L m b d bg f r x y : accurate_turn L -> valid b -> fin d -> Rabs (B2R d) <= 360 -> rotate L m b d bg f = Ok r -> inside r x y ->
  let p := fst (turned_back (width b) (height b) (B2R d) x y) in let q := snd (turned_back (width b) (height b) (B2R d) x y) in
  p < - / 2 - size_of b \/ IZR (width b) - / 2 + size_of b < p \/ q < - / 2 - size_of b \/ IZR (height b) - / 2 + size_of b < q -> get_pixel m r x y = Ok bg.
Proof.
  intros AL V F D H I p q O. pose proof (valid_bounds b V) as VB. pose proof (rotate_read L m b d bg f r m x y AL V F D H I) as RR. cbv zeta in RR. fold p q in RR. clearbody p q. destruct RR as [IB [(_ & P & Q)|(u & v & [Fu U] & [Fv W] & ->)]].
  - exfalso. destruct IB as [Ix Iy]. assert (Rx : 0 <= IZR x <= IZR (width b) - 1) by (split; [apply IZR_le; lia|rewrite <- minus_IZR; apply IZR_le; lia]).
    assert (Ry : 0 <= IZR y <= IZR (height b) - 1) by (split; [apply IZR_le; lia|rewrite <- minus_IZR; apply IZR_le; lia]). apply Rabs_le_iff in P, Q. lra.
  - assert (NI : is_in_image b (f_as_i32 (fround u)) (f_as_i32 (fround v)) = false).
    { apply not_true_is_false. intros T. apply is_in_image_spec in T; [|exact V]. destruct T as [T1 T2]. apply Rabs_le_iff in U, W.
      destruct IB as [Ix Iy]. destruct O as [O|[O|[O|O]]].
      - apply (round_out (width b) u Fu); [lia|left; lra|exact T1].
      - apply (round_out (width b) u Fu); [lia|right; lra|exact T1].
      - apply (round_out (height b) v Fv); [lia|left; lra|exact T2].
      - apply (round_out (height b) v Fv); [lia|right; lra|exact T2]. }
    unfold rotate_fn. destruct f; unfold rotate_pixel_with; rewrite ?NI; try reflexivity. unfold rotate_pixel_nearest. cbv zeta. rewrite get_pixel_optional_out; auto.
    intros C. apply is_in_image_spec in C; auto. congruence.
Qed.
Lemma rotate_nearest_at L m b d bg r x y i j : accurate_turn L -> valid b -> fin d -> Rabs (B2R d) <= 360 -> rotate L m b d bg Nearest = Ok r -> inside r x y -> inside b i j ->
  Rabs (fst (turned_back (width b) (height b) (B2R d) x y) - IZR i) < / 2 - size_of b -> Rabs (snd (turned_back (width b) (height b) (B2R d) x y) - IZR j) < / 2 - size_of b ->
  get_pixel m r x y = get_pixel m b i j.
Proof.
  intros AL V F D H I IJ Hi Hj. pose proof (valid_bounds b V) as VB. destruct (rotate_read L m b d bg Nearest r m x y AL V F D H I) as [IB [(-> & P & Q)|(u & v & [Fu U] & [Fv W] & ->)]];
    set (p := fst _) in *; set (q := snd _) in *; clearbody p q; apply Rabs_lt_iff in Hi, Hj.
  - apply Rabs_le_iff in P, Q. assert (i = x). { assert (-1 < i - x < 1)%Z by (split; apply lt_IZR; rewrite minus_IZR; lra). lia. }
    assert (j = y). { assert (-1 < j - y < 1)%Z by (split; apply lt_IZR; rewrite minus_IZR; lra). lia. } now subst.
  - apply Rabs_le_iff in U, W. destruct IJ as [Ii Ij]. unfold rotate_fn, rotate_pixel_nearest. cbv zeta. rewrite (round_at i u Fu), (round_at j v Fv); try lia; try (apply Rabs_lt_iff; lra).
    rewrite get_pixel_optional_in; [|exact V|split; assumption]. destruct (get_pixel_inside m b i j V) as (c & E); [split; assumption|]. rewrite E. reflexivity.
Qed.
Lemma rotate_inside_at L m b d bg f r x y g s k k0 : accurate_turn L -> valid b -> fin d -> Rabs (B2R d) <= 360 -> rotate L m b d bg f = Ok r -> inside r x y -> Forall in_gamut (data b) ->
  rotate_fn L m f = rotate_pixel_with g ->
  (forall u v, nonempty b -> num (-1) 1099999999 u -> num (-1) 1099999999 v -> exists c, g b u v = Ok c /\ forall e, In e channels -> close k0 (s e (B2R u) (B2R v)) (e c)) ->
  (forall e i j, inside b i j -> In e channels -> close k0 (s e (IZR i) (IZR j)) (e (edge_pixel b i j))) ->
  (forall e p q p' q', nonempty b -> In e channels -> Rabs (s e p q - s e p' q') <= k * (Rabs (p - p') + Rabs (q - q'))) -> 0 <= k ->
  let p := fst (turned_back (width b) (height b) (B2R d) x y) in let q := snd (turned_back (width b) (height b) (B2R d) x y) in
  - / 2 + size_of b < p < IZR (width b) - / 2 - size_of b -> - / 2 + size_of b < q < IZR (height b) - / 2 - size_of b ->
  exists o, get_pixel m r x y = Ok o /\ forall e, In e channels -> close (k0 + k * (2 * size_of b)) (s e p q) (e o).
Proof.
  intros AL V F D H I G Ef Hg Hi Lip K p q Bp Bq. pose proof (valid_bounds b V) as VB. pose proof (rotate_read L m b d bg f r m x y AL V F D H I) as RR. cbv zeta in RR. fold p q in RR. clearbody p q. destruct RR as [IB [(-> & P & Q)|(u & v & [Fu U] & [Fv W] & ->)]].
  - assert (N : nonempty b) by (destruct IB as [[? ?] [? ?]]; split; lia).
    exists (edge_pixel b x y). split; [now apply edge_inside|]. intros e He. eapply close_move; [apply (Hi e x y IB He)|].
    eapply Rle_trans; [now apply Lip|]. apply Rmult_le_compat_l; [exact K|]. rewrite (Rabs_minus_sym (IZR x)), (Rabs_minus_sym (IZR y)). lra.
  - assert (N : nonempty b) by (destruct IB as [[? ?] [? ?]]; split; lia). destruct N as [Nw Nh]. assert (N : nonempty b) by (split; assumption).
    pose proof U as U'. pose proof W as W'. apply Rabs_le_iff in U, W.
    assert (BW : IZR (width b) <= 1073741823) by (apply IZR_le; lia). assert (BH : IZR (height b) <= 1073741823) by (apply IZR_le; lia).
    assert (II : is_in_image b (f_as_i32 (fround u)) (f_as_i32 (fround v)) = true).
    { apply is_in_image_spec; [exact V|]. split; apply round_in; auto; try lia; lra. }
    rewrite Ef. unfold rotate_pixel_with. rewrite II.
    destruct (Hg u v N) as (c & E & A); [split; [exact Fu|lra]|split; [exact Fv|lra]|]. rewrite E. cbn [bind]. exists c. split; [reflexivity|]. intros e He.
    eapply close_move; [exact (A e He)|]. eapply Rle_trans; [now apply Lip|]. apply Rmult_le_compat_l; [exact K|]. lra.
Qed.
