(** Lemmas for C130. *)
From Coq Require Import Reals ZArith List Bool Lia Lra Permutation FinFun.
From Flocq Require Import IEEE754.BinarySingleNaN.
From Verif Require Import Base BaseLemmas PixelBuffer BufferSpec PixelBufferProofs F32 F32Lemmas Color ColorSpec MeaningSpec EnhanceSpec ResampleSpec ResampleMeaning Kernel KernelSpec Resample Ops
  GaussSpec GaussMeaning GaussMeaning2 GaussMeanThm Image StepsSpec StepsProofs DirectionSpec Gauss2Proofs.
Import ListNotations.
Open Scope R_scope.

Lemma abs_inv x e : Rabs x <= e -> - e <= x <= e. Proof. unfold Rabs. destruct (Rcase_abs x); lra. Qed.

(** ** Pixels at the edges of turned images *)
Definition limit (v n : Z) : Z := Z.max 0 (Z.min v (n - 1)).
Lemma limit_range v n : (0 < n)%Z -> (0 <= limit v n < n)%Z. Proof. unfold limit. lia. Qed.
Lemma edge_limit b x y : (0 < width b)%Z -> (0 < height b)%Z -> edge_pixel b (limit x (width b)) (limit y (height b)) = edge_pixel b x y.
Proof. intros W H. unfold edge_pixel, limit. do 2 f_equal. rewrite !(Z.min_l (Z.max _ _)), !(Z.max_r 0 (Z.max _ _)) by lia. reflexivity. Qed.
Lemma edge_turned t (b b' : PixelBuffer Rgb) m : valid b -> op_of t m RGB_NONE b = Ok b' -> nonempty b' ->
  forall x y, edge_pixel b' x y = edge_pixel b (from_x t (width b) (height b) x y) (from_y t (width b) (height b) x y).
Proof.
  intros V E [Nw Nh] x y. destruct (op_spec t m RGB_NONE b V) as (b2 & E2 & V2 & W2 & H2 & P). rewrite E in E2. apply Ok_inj in E2. subst b2.
  rewrite <- (edge_limit b' x y Nw Nh). pose proof (limit_range x _ Nw) as Rx. pose proof (limit_range y _ Nh) as Ry.
  assert (I : inside b' (limit x (width b')) (limit y (height b'))) by (split; assumption).
  destruct (P m _ _ I) as [J G]. rewrite !edge_inside in G by auto. apply Ok_inj in G. unfold Rgb in *. rewrite G.
  assert (N : (0 < width b /\ 0 < height b)%Z) by (destruct J as [[? ?] [? ?]]; lia). destruct N as [N1 N2].
  rewrite <- (edge_limit b _ _ N1 N2). rewrite <- (edge_limit b (from_x t (width b) (height b) x y) _ N1 N2).
  unfold Rgb in *. rewrite W2, H2. unfold limit, width_of, height_of. f_equal; destruct t; cbn [swaps from_x from_y]; lia.
Qed.

(** Where an offset in a turned image comes from. *)
Definition off_x (t : turning) (i j : Z) : Z := match t with Quarter => j | Half => - i | ThreeQuarters => - j | LeftRight => - i | UpsideDown => i end.
Definition off_y (t : turning) (i j : Z) : Z := match t with Quarter => - i | Half => - j | ThreeQuarters => i | LeftRight => j | UpsideDown => - j end.
Lemma from_off t w h x y i j : from_x t w h (x + i) (y + j) = (from_x t w h x y + off_x t i j)%Z /\ from_y t w h (x + i) (y + j) = (from_y t w h x y + off_y t i j)%Z.
Proof. destruct t; cbn; lia. Qed.

(** ** Sums *)
Lemma sum_ext {A} (f g : A -> R) l : (forall a, In a l -> f a = g a) -> sum_of f l = sum_of g l.
Proof. intros H. induction l as [|a l IH]; [reflexivity|]. cbn. rewrite (H a (or_introl eq_refl)). f_equal. apply IH. intros x I. apply H. right. exact I. Qed.
Lemma sum_perm {A} (f : A -> R) l l' : Permutation l l' -> sum_of f l = sum_of f l'.
Proof. induction 1; cbn in *; try lra. unfold sum_of in *. lra. Qed.
Lemma sum_plus {A} (f g : A -> R) l : sum_of (fun a => f a + g a) l = sum_of f l + sum_of g l.
Proof. induction l as [|a l IH]; cbn in *; [lra|]. unfold sum_of in *. rewrite IH. lra. Qed.
Lemma around_iff r i j : (0 <= r)%Z -> In (i, j) (around r) <-> (- r <= i <= r)%Z /\ (- r <= j <= r)%Z.
Proof.
  intros Hr. split; [apply (around_In r (i, j) Hr)|]. intros [Hi Hj]. unfold around. apply in_map_iff. exists (i + r, j + r)%Z. split; [f_equal; lia|]. apply row_major_In. lia.
Qed.
Lemma around_NoDup r : NoDup (around r).
Proof. unfold around. apply Injective_map_NoDup; [|apply row_major_NoDup]. intros [a b] [c d] H. inversion H. f_equal; lia. Qed.
Lemma around_turned t r : (0 <= r)%Z -> Permutation (map (fun o => (off_x t (fst o) (snd o), off_y t (fst o) (snd o))) (around r)) (around r).
Proof.
  intros Hr. apply NoDup_Permutation_bis.
  - apply Injective_map_NoDup; [|apply around_NoDup]. intros [a b] [c d] H. inversion H. destruct t; cbn in *; f_equal; lia.
  - rewrite map_length. lia.
  - intros [i j] H. apply in_map_iff in H as ([a b] & E & H). apply around_iff in H; [|exact Hr]. inversion E. subst. apply around_iff; [exact Hr|]. destruct t; cbn; lia.
Qed.
Lemma bell_turned t s i j : bell_curve s (off_x t i j) (off_y t i j) = bell_curve s i j.
Proof. unfold bell_curve. f_equal. f_equal. f_equal. destruct t; cbn [off_x off_y]; rewrite ?opp_IZR; ring. Qed.
Lemma mean_turned t s r v : (0 <= r)%Z -> bell_mean s r (fun i j => v (off_x t i j) (off_y t i j)) = bell_mean s r v.
Proof.
  intros Hr. unfold bell_mean. f_equal. rewrite <- (sum_perm (fun o => bell_curve s (fst o) (snd o) * v (fst o) (snd o)) _ _ (around_turned t r Hr)). rewrite sum_of_map. apply sum_ext. intros [i j] _. cbn [fst snd].
  rewrite bell_turned. reflexivity.
Qed.
Lemma mean_ext s r v v' : (forall i j, v i j = v' i j) -> bell_mean s r v = bell_mean s r v'.
Proof. intros H. unfold bell_mean. f_equal. apply sum_ext. intros [i j] _. cbn [fst snd]. rewrite H. reflexivity. Qed.

(** ** Filters given by a formula on the surroundings *)
Definition chan (k : nat) : Rgb -> f32 := match k with 0%nat => d0 | 1%nat => d1 | 2%nat => d2 | _ => d3 end.
Lemma chan_is k : channel (chan k). Proof. unfold channel. destruct k as [|[|[|k]]]; cbn; tauto. Qed.
Lemma chan_all (P : (Rgb -> f32) -> Prop) : (forall k, P (chan k)) -> forall pick, channel pick -> P pick.
Proof. intros H pick [->|[->|[->| ->]]]; [apply (H 0%nat)|apply (H 1%nat)|apply (H 2%nat)|apply (H 3%nat)]. Qed.

Definition by_formula (m : build) (e : R) (F : nat -> (Z -> Z -> R) -> R) (op : PixelBuffer Rgb -> res (PixelBuffer Rgb)) : Prop :=
  forall b, valid b -> in_range b -> exists out, op b = Ok out /\ valid out /\ width out = width b /\ height out = height b /\
    forall k x y, inside b x y -> exists o, get_pixel m out x y = Ok o /\ close e (F k (fun i j => B2R (chan k (edge_pixel b (x + i) (y + j))))) (chan k o).
Definition no_direction (F : nat -> (Z -> Z -> R) -> R) : Prop :=
  (forall k v v', (forall i j, v i j = v' i j) -> F k v = F k v') /\ forall k t v, F k (fun i j => v (off_x t i j) (off_y t i j)) = F k v.

Lemma pixel_builds m m' (b : PixelBuffer Rgb) x y : valid b -> inside b x y -> get_pixel m b x y = get_pixel m' b x y.
Proof. intros V I. rewrite !edge_inside by auto. reflexivity. Qed.

Lemma turned_range t m (b b' : PixelBuffer Rgb) : valid b -> op_of t m RGB_NONE b = Ok b' -> in_range b -> in_range b'.
Proof. intros V E H c I. apply H. exact (Permutation_in _ (turn_perm t m RGB_NONE b b' V E) I). Qed.

Lemma inside_same {A B} (a : PixelBuffer A) (b : PixelBuffer B) x y : inside a x y -> width a = width b -> height a = height b -> inside b x y.
Proof. unfold inside. intros H <- <-. exact H. Qed.
Lemma formula_turns m e F op t i : by_formula m e F op -> no_direction F -> valid (buffer i) -> in_range (buffer i) ->
  exists a b, then_ (fun j => with_meta j (op (buffer j))) (turned m t) i = Ok a /\ then_ (turned m t) (fun j => with_meta j (op (buffer j))) i = Ok b /\
    bg_color a = bg_color b /\ alike (2 * e) (buffer a) (buffer b).
Proof.
  intros BF [FE FT] V G. destruct (BF _ V G) as (o1 & E1 & V1 & W1 & H1 & P1).
  destruct (op_spec t m RGB_NONE (buffer i) V) as (b1 & E2 & V2 & W2 & H2 & P2).
  destruct (op_spec t m RGB_NONE o1 V1) as (a & E3 & V3 & W3 & H3 & P3).
  destruct (BF b1 V2 (turned_range t m _ _ V E2 G)) as (b & E4 & V4 & W4 & H4 & P4).
  exists (mkImage a (bg_color i)), (mkImage b (bg_color i)). unfold then_. rewrite turned_eq. unfold with_meta. rewrite E1, E2. cbn [bind].
  rewrite turned_eq. unfold with_meta. cbn [buffer new_from_buffer_with_meta bg_color]. unfold Rgb in *. rewrite E3, E4. cbn [bind].
  split; [reflexivity|]. split; [reflexivity|]. split; [reflexivity|]. cbn [buffer].
  assert (Wab : width a = width b) by (rewrite W3, W4, W2, W1, H1; reflexivity). assert (Hab : height a = height b) by (rewrite H3, H4, H2, W1, H1; reflexivity).
  split; [exact Wab|]. split; [exact Hab|]. intros m' x y I.
  assert (I4 : inside b x y) by (exact (inside_same _ _ _ _ I Wab Hab)).
  assert (I2 : inside b1 x y) by (exact (inside_same _ _ _ _ I4 W4 H4)).
  destruct (P3 m _ _ I) as [J3 Q3]. rewrite W1, H1 in J3, Q3. set (x0 := from_x t (width (buffer i)) (height (buffer i)) x y) in *. set (y0 := from_y t (width (buffer i)) (height (buffer i)) x y) in *.
  assert (J1 : inside (buffer i) x0 y0) by (exact (inside_same _ _ _ _ J3 W1 H1)).
  destruct (get_pixel_inside m a x y V3 I) as [c Ec]. destruct (get_pixel_inside m b x y V4 I4) as [d Ed]. exists c, d.
  rewrite !(pixel_builds m' m) by auto. split; [exact Ec|]. split; [exact Ed|]. apply chan_all. intros k.
  destruct (P1 k x0 y0 J1) as (o & Eo & Fo & Co). pose proof (eq_trans Q3 Eo) as Eo'. unfold Rgb in *. rewrite Ec in Eo'. apply Ok_inj in Eo'. subst o. clear Eo.
  destruct (P4 k x y I2) as (o & Eo & Fd & Cd). unfold Rgb in *. rewrite Ed in Eo. apply Ok_inj in Eo. subst o.
  split; [exact Fo|]. split; [exact Fd|].
  assert (N1 : nonempty b1) by (destruct I2 as [[? ?] [? ?]]; split; lia).
  assert (K : F k (fun i0 j => B2R (chan k (edge_pixel b1 (x + i0) (y + j)))) = F k (fun i0 j => B2R (chan k (edge_pixel (buffer i) (x0 + i0) (y0 + j))))).
  { rewrite <- (FT k t (fun i0 j => B2R (chan k (edge_pixel (buffer i) (x0 + i0) (y0 + j))))). apply FE. intros i0 j0.
    rewrite (edge_turned t (buffer i) b1 m V E2 N1). destruct (from_off t (width (buffer i)) (height (buffer i)) x y i0 j0) as [-> ->]. reflexivity. }
  rewrite K in Cd. clear - Co Cd. apply Rabs_le. apply abs_inv in Co, Cd. lra.
Qed.

(** ** The filters *)
Definition blur_F (s : R) (r : Z) (k : nat) (v : Z -> Z -> R) : R := bell_mean s r v.
Definition unsharp_F (s : R) (r : Z) (f : R) (k : nat) (v : Z -> Z -> R) : R := limited (v 0%Z 0%Z + f * (v 0%Z 0%Z - bell_mean s r v)).
Definition sobel_F (k : nat) (v : Z -> Z -> R) : R := match k with S (S (S _)) => 1 | _ => limited (sqrt (slope_x v ^ 2 + slope_y v ^ 2)) end.

Lemma blur_by L m r sigma : exp_ok L -> accurate_exp L -> (0 <= r <= 500)%Z -> sigma_ok r sigma ->
  by_formula m (IZR ((2 * r + 1) * (2 * r + 1)) / 2 ^ 17) (blur_F (blur_sigma sigma r) r) (fun b => gaussian_blur L m b r sigma).
Proof.
  intros X A Hr S b V G. destruct (blur_formula L m b r sigma X A V Hr S G) as (out & E & V1 & W & H & P). exists out. do 4 (split; [assumption|]).
  intros k x y I. exact (P x y (chan k) I (chan_is k)).
Qed.
Lemma unsharp_by L m r f sigma : exp_ok L -> accurate_exp L -> (0 <= r <= 500)%Z -> sigma_ok r sigma -> is_finite f = true -> Rabs (B2R f) <= 32 ->
  by_formula m ((Rabs (B2R f) + 2) * IZR ((2 * r + 1) * (2 * r + 1)) / 2 ^ 16) (unsharp_F (blur_sigma sigma r) r (B2R f)) (fun b => unsharp L m b r f sigma).
Proof.
  intros X A Hr S Ff Rf b V G. destruct (unsharp_formula L m b r f sigma X A V Hr S Ff Rf G) as (out & E & V1 & W & H & P). exists out. do 4 (split; [assumption|]).
  intros k x y I. destruct (P x y (chan k) I (chan_is k)) as (c & o & Ec & Eo & C). exists o. split; [exact Eo|]. unfold unsharp_F. cbv zeta in C.
  rewrite !Z.add_0_r. rewrite (edge_inside m b x y V I) in Ec. apply Ok_inj in Ec. subst c. exact C.
Qed.
Lemma sobel_by m : by_formula m (/ 2 ^ 12) sobel_F (fun b => edge_detection m b Sobel).
Proof.
  intros b V G. destruct (sobel_formula m b V G) as (out & E & V1 & W & H & P). exists out. do 4 (split; [assumption|]).
  intros k x y I. destruct (P x y I) as (o & Eo & A & C). exists o. split; [exact Eo|]. unfold sobel_F.
  destruct k as [|[|[|k]]]; cbn [chan]; [apply (C d0); auto|apply (C d1); auto|apply (C d2); auto|].
  rewrite A. split; [reflexivity|]. rewrite f1_R. rewrite Rminus_diag_eq, Rabs_R0 by reflexivity. lra.
Qed.
Lemma blur_free s r : (0 <= r)%Z -> no_direction (blur_F s r).
Proof. intros Hr. split; intros k; [intros v v' H; apply mean_ext; exact H|intros t v; apply mean_turned; exact Hr]. Qed.
Lemma unsharp_free s r f : (0 <= r)%Z -> no_direction (unsharp_F s r f).
Proof.
  intros Hr. split; intros k; unfold unsharp_F.
  - intros v v' H. rewrite (mean_ext s r v v' H), H. reflexivity.
  - intros t v. rewrite (mean_turned t s r v Hr). destruct t; reflexivity.
Qed.
Lemma sobel_free : no_direction sobel_F.
Proof.
  split; intros k; unfold sobel_F.
  - intros v v' H. unfold slope_y, slope_x. rewrite !H. reflexivity.
  - intros t v. destruct k as [|[|[|k]]]; try reflexivity; do 2 f_equal; destruct t; unfold slope_y, slope_x, off_x, off_y; cbn [Z.opp]; ring.
Qed.

(** ** Mixtures *)
Lemma bell_total s r : 0 < s -> (0 <= r)%Z -> 0 < sum_of (fun o => bell_curve s (fst o) (snd o)) (around r).
Proof.
  intros Hs Hr. pose proof (fun o : Z * Z => bell_range s (fst o) (snd o) Hs) as B. apply Rlt_le_trans with (bell_curve s 0 0); [apply (B (0, 0)%Z)|].
  apply (sum_In (fun o : Z * Z => bell_curve s (fst o) (snd o)) (around r) (0, 0)%Z); [intros o _; apply Rlt_le, B|apply around_center; auto].
Qed.
Lemma mean_const s r c : 0 < s -> (0 <= r)%Z -> bell_mean s r (fun _ _ => c) = c.
Proof.
  intros Hs Hr. unfold bell_mean. pose proof (bell_total s r Hs Hr) as P. rewrite (sum_ext _ (fun o => c * bell_curve s (fst o) (snd o))) by (intros; ring).
  rewrite sum_scale. field. lra.
Qed.
Lemma mean_mono s r v v' : 0 < s -> (0 <= r)%Z -> (forall i j, (- r <= i <= r)%Z -> (- r <= j <= r)%Z -> v i j <= v' i j) -> bell_mean s r v <= bell_mean s r v'.
Proof.
  intros Hs Hr H. unfold bell_mean. pose proof (bell_total s r Hs Hr) as P. apply Rmult_le_compat_r; [apply Rlt_le, Rinv_0_lt_compat; exact P|].
  apply sum_mono. intros [i j] I. apply around_iff in I; [|exact Hr]. cbn [fst snd]. pose proof (bell_range s i j Hs). apply Rmult_le_compat_l; [lra|apply H; lia].
Qed.
Lemma mean_lin s r v v' a b : bell_mean s r (fun i j => a * v i j + b * v' i j) = a * bell_mean s r v + b * bell_mean s r v'.
Proof.
  unfold bell_mean. rewrite (sum_ext _ (fun o => a * (bell_curve s (fst o) (snd o) * v (fst o) (snd o)) + b * (bell_curve s (fst o) (snd o) * v' (fst o) (snd o)))) by (intros; ring).
  rewrite sum_plus, !sum_scale. unfold Rdiv. ring.
Qed.
Lemma mean_near s r v v' e : 0 < s -> (0 <= r)%Z -> (forall i j, Rabs (v i j - v' i j) <= e) -> Rabs (bell_mean s r v - bell_mean s r v') <= e.
Proof.
  intros Hs Hr H. assert (K : bell_mean s r v <= bell_mean s r (fun i j => 1 * v' i j + e * 1)).
  { apply mean_mono; auto. intros i j _ _. specialize (H i j). apply abs_inv in H. lra. }
  assert (K' : bell_mean s r (fun i j => 1 * v' i j + (- e) * 1) <= bell_mean s r v).
  { apply mean_mono; auto. intros i j _ _. specialize (H i j). apply abs_inv in H. lra. }
  rewrite (mean_lin s r v' (fun _ _ => 1)), mean_const in K, K' by auto. apply Rabs_le. lra.
Qed.

Lemma edge_mixture e t (a b c : PixelBuffer Rgb) : valid a -> valid b -> valid c -> nonempty c -> mixture e t a b c ->
  forall x y pick, channel pick -> Rabs (B2R (pick (edge_pixel c x y)) - (t * B2R (pick (edge_pixel a x y)) + (1 - t) * B2R (pick (edge_pixel b x y)))) <= e.
Proof.
  intros Va Vb Vc [Nw Nh] (W1 & H1 & W2 & H2 & P) x y pick Cp.
  rewrite <- (edge_limit c x y Nw Nh). rewrite <- (edge_limit a x y), <- (edge_limit b x y) by (unfold Rgb in *; lia). rewrite W1, H1, W2, H2.
  set (x0 := limit x (width c)). set (y0 := limit y (height c)). assert (I : inside c x0 y0) by (split; apply limit_range; assumption).
  destruct (P Checked x0 y0 I) as (p & q & o & Ep & Eq & Eo & K).
  rewrite edge_inside in Ep by (auto; exact (inside_same _ _ _ _ I (eq_sym W1) (eq_sym H1))).
  rewrite edge_inside in Eq by (auto; exact (inside_same _ _ _ _ I (eq_sym W2) (eq_sym H2))).
  rewrite edge_inside in Eo by auto. apply Ok_inj in Ep, Eq, Eo. subst p q o. exact (proj2 (K pick Cp)).
Qed.

Section Blur.
Context (L : libm) (m : build) (r : Z) (sigma : option f32) (X : exp_ok L) (A : accurate_exp L) (Hr : (0 <= r <= 500)%Z) (S : sigma_ok r sigma).
Lemma sigma_pos : 0 < blur_sigma sigma r.
Proof.
  destruct (sigma_ok_range r sigma ltac:(lia) S) as [_ Rs]. cbv zeta in Rs. rewrite sigma_real in Rs by lia. unfold sig_lo in Rs. lra.
Qed.
Lemma blur_mixture e t a b c : valid a -> valid b -> valid c -> in_range a -> in_range b -> in_range c -> 0 <= t <= 1 -> mixture e t a b c ->
  exists a' b' c', gaussian_blur L m a r sigma = Ok a' /\ gaussian_blur L m b r sigma = Ok b' /\ gaussian_blur L m c r sigma = Ok c' /\
    mixture (e + IZR ((2 * r + 1) * (2 * r + 1)) / 2 ^ 16) t a' b' c'.
Proof.
  intros Va Vb Vc Ga Gb Gc Ht M. pose proof M as (W1 & H1 & W2 & H2 & _).
  destruct (blur_by L m r sigma X A Hr S a Va Ga) as (a' & Ea & Va' & Wa & Ha & Pa).
  destruct (blur_by L m r sigma X A Hr S b Vb Gb) as (b' & Eb & Vb' & Wb & Hb & Pb).
  destruct (blur_by L m r sigma X A Hr S c Vc Gc) as (c' & Ec & Vc' & Wc & Hc & Pc).
  exists a', b', c'. split; [exact Ea|]. split; [exact Eb|]. split; [exact Ec|]. unfold mixture. unfold Rgb in *.
  split; [lia|]. split; [lia|]. split; [lia|]. split; [lia|]. intros m' x y I.
  assert (Ic : inside c x y) by exact (inside_same _ _ _ _ I Wc Hc).
  assert (Ia : inside a x y) by exact (inside_same _ _ _ _ Ic (eq_sym W1) (eq_sym H1)). assert (Ib : inside b x y) by exact (inside_same _ _ _ _ Ic (eq_sym W2) (eq_sym H2)).
  assert (Ia' : inside a' x y) by exact (inside_same _ _ _ _ Ia (eq_sym Wa) (eq_sym Ha)). assert (Ib' : inside b' x y) by exact (inside_same _ _ _ _ Ib (eq_sym Wb) (eq_sym Hb)).
  destruct (get_pixel_inside m a' x y Va' Ia') as [p Ep]. destruct (get_pixel_inside m b' x y Vb' Ib') as [q Eq]. destruct (get_pixel_inside m c' x y Vc' I) as [o Eo].
  exists p, q, o. rewrite !(pixel_builds m' m) by auto. split; [exact Ep|]. split; [exact Eq|]. split; [exact Eo|]. apply chan_all. intros k.
  destruct (Pa k x y Ia) as (p' & Ep' & Fp & Cp). unfold Rgb in *. rewrite Ep in Ep'. apply Ok_inj in Ep'. subst p'.
  destruct (Pb k x y Ib) as (q' & Eq' & Fq & Cq). unfold Rgb in *. rewrite Eq in Eq'. apply Ok_inj in Eq'. subst q'.
  destruct (Pc k x y Ic) as (o' & Eo' & Fo & Co). unfold Rgb in *. rewrite Eo in Eo'. apply Ok_inj in Eo'. subst o'.
  split; [exact Fo|]. unfold blur_F in *.
  assert (N : nonempty c) by (destruct Ic as [[? ?] [? ?]]; split; lia).
  pose proof (mean_near (blur_sigma sigma r) r (fun i j => B2R (chan k (edge_pixel c (x + i) (y + j))))
    (fun i j => t * B2R (chan k (edge_pixel a (x + i) (y + j))) + (1 - t) * B2R (chan k (edge_pixel b (x + i) (y + j)))) e sigma_pos ltac:(lia)
    (fun i j => edge_mixture e t a b c Va Vb Vc N M (x + i)%Z (y + j)%Z (chan k) (chan_is k))) as K.
  rewrite mean_lin in K. set (Ma := bell_mean _ _ (fun i j => B2R (chan k (edge_pixel a _ _)))) in *. set (Mb := bell_mean _ _ (fun i j => B2R (chan k (edge_pixel b _ _)))) in *.
  set (Mc := bell_mean _ _ (fun i j => B2R (chan k (edge_pixel c _ _)))) in *. set (n := IZR ((2 * r + 1) * (2 * r + 1))) in *.
  clearbody Ma Mb Mc n. apply abs_inv in K, Cp, Cq, Co.
  set (u := B2R (chan k p)) in *. set (v := B2R (chan k q)) in *. set (w := B2R (chan k o)) in *. clearbody u v w.
  assert (K1 : - (t * (n / 2 ^ 17)) <= t * (u - Ma) <= t * (n / 2 ^ 17)) by (split; nra).
  assert (K2 : - ((1 - t) * (n / 2 ^ 17)) <= (1 - t) * (v - Mb) <= (1 - t) * (n / 2 ^ 17)) by (split; nra).
  assert (K3 : n / 2 ^ 16 = 2 * (n / 2 ^ 17)) by (simpl; lra). apply Rabs_le. rewrite K3. lra.
Qed.
Lemma blur_alike e a b : valid a -> valid b -> in_range a -> in_range b -> alike e a b ->
  exists a' b', gaussian_blur L m a r sigma = Ok a' /\ gaussian_blur L m b r sigma = Ok b' /\ alike (e + IZR ((2 * r + 1) * (2 * r + 1)) / 2 ^ 16) a' b'.
Proof.
  intros Va Vb Ga Gb (W & H & P).
  assert (M : mixture e 1 b b a).
  { unfold mixture. do 4 (split; [auto|]). intros m' x y I. destruct (P m' x y I) as (c & d & Ec & Ed & K). exists d, d, c. split; [exact Ed|]. split; [exact Ed|]. split; [exact Ec|].
    intros pick Cp. destruct (K pick Cp) as (F1 & F2 & D). split; [exact F1|]. replace (_ - _) with (B2R (pick c) - B2R (pick d)) by ring. exact D. }
  destruct (blur_mixture e 1 b b a Vb Vb Va Gb Gb Ga ltac:(lra) M) as (b1 & b2 & a' & E1 & E2 & E3 & (W1 & H1 & W2 & H2 & Q)).
  rewrite E1 in E2. apply Ok_inj in E2. subst b2. exists a', b1. split; [exact E3|]. split; [exact E1|].
  destruct (blur_by L m r sigma X A Hr S b Vb Gb) as (b1' & Eb & Vb' & Wb & Hb & Pb). rewrite E1 in Eb. apply Ok_inj in Eb. subst b1'.
  split; [auto|]. split; [auto|]. intros m' x y I. destruct (Q m' x y I) as (p & q & o & Ep & Eq & Eo & K). exists o, p. split; [exact Eo|]. split; [exact Ep|].
  apply chan_all. intros k. destruct (K (chan k) (chan_is k)) as (F & D). split; [exact F|].
  assert (Ib1 : inside b1 x y) by exact (inside_same _ _ _ _ I (eq_sym W1) (eq_sym H1)). assert (Ib : inside b x y) by exact (inside_same _ _ _ _ Ib1 Wb Hb).
  destruct (Pb k x y Ib) as (p' & Ep' & Fp & _). rewrite (pixel_builds m' m) in Ep by auto. unfold Rgb in *. rewrite Ep in Ep'. apply Ok_inj in Ep'. subst p'.
  split; [exact Fp|]. rewrite Ep in Eq || rewrite (pixel_builds m' m) in Eq by auto. unfold Rgb in *. rewrite Ep in Eq. apply Ok_inj in Eq. subst q.
  replace (B2R (chan k o) - B2R (chan k p)) with (B2R (chan k o) - (1 * B2R (chan k p) + (1 - 1) * B2R (chan k p))) by ring. exact D.
Qed.
Lemma blur_between b out x y lo hi pick : valid b -> in_range b -> channel pick -> inside b x y ->
  (forall i j, (- r <= i <= r)%Z -> (- r <= j <= r)%Z -> lo <= B2R (pick (edge_pixel b (x + i) (y + j))) <= hi) ->
  gaussian_blur L m b r sigma = Ok out -> exists o, get_pixel m out x y = Ok o /\
    lo - IZR ((2 * r + 1) * (2 * r + 1)) / 2 ^ 17 <= B2R (pick o) <= hi + IZR ((2 * r + 1) * (2 * r + 1)) / 2 ^ 17.
Proof.
  intros V G Cp I B E. destruct (blur_formula L m b r sigma X A V Hr S G) as (out' & E' & V1 & W & H & P). rewrite E in E'. apply Ok_inj in E'. subst out'.
  destruct (P x y pick I Cp) as (o & Eo & Fo & Co). exists o. split; [exact Eo|]. apply abs_inv in Co.
  assert (K1 : lo <= bell_mean (blur_sigma sigma r) r (fun i j => B2R (pick (edge_pixel b (x + i) (y + j))))).
  { rewrite <- (mean_const (blur_sigma sigma r) r lo sigma_pos ltac:(lia)) at 1. apply mean_mono; [apply sigma_pos|lia|]. intros i j Hi Hj. apply (B i j Hi Hj). }
  assert (K2 : bell_mean (blur_sigma sigma r) r (fun i j => B2R (pick (edge_pixel b (x + i) (y + j)))) <= hi).
  { rewrite <- (mean_const (blur_sigma sigma r) r hi sigma_pos ltac:(lia)) at 1. apply mean_mono; [apply sigma_pos|lia|]. intros i j Hi Hj. apply (B i j Hi Hj). }
  lra.
Qed.
End Blur.

(** ** Edges *)
Lemma length_near a b c d e : Rabs (a - c) <= 8 * e -> Rabs (b - d) <= 8 * e -> Rabs (sqrt (a ^ 2 + b ^ 2) - sqrt (c ^ 2 + d ^ 2)) <= 12 * e.
Proof.
  intros H1 H2. assert (He : 0 <= e) by (pose proof (Rabs_pos (a - c)); lra).
  assert (D : forall u v, dist_euc u v 0 0 = sqrt (u ^ 2 + v ^ 2)) by (intros; unfold dist_euc, Rsqr; f_equal; ring).
  assert (K : dist_euc a b c d <= 12 * e).
  { unfold dist_euc. rewrite <- (sqrt_Rsqr (12 * e)) by lra. apply sqrt_le_1_alt. apply abs_inv in H1, H2. unfold Rsqr. nra. }
  pose proof (triangle a b 0 0 c d) as T1. pose proof (triangle c d 0 0 a b) as T2. rewrite (distance_symm c d a b) in T2. rewrite !D in *. apply Rabs_le. lra.
Qed.
Lemma limited_near a b e : Rabs (a - b) <= e -> Rabs (limited a - limited b) <= e.
Proof. intros H. apply abs_inv in H. apply Rabs_le. unfold limited, Rmax, Rmin. repeat (destruct (Rle_dec _ _)); lra. Qed.

Lemma edge_pairs P (a b : PixelBuffer Rgb) : valid a -> valid b -> nonempty a -> channel_pairs P a b ->
  forall x y pick, channel pick -> P (B2R (pick (edge_pixel a x y))) (B2R (pick (edge_pixel b x y))).
Proof.
  intros Va Vb [Nw Nh] (W & H & Q) x y pick Cp. rewrite <- (edge_limit a x y Nw Nh). rewrite <- (edge_limit b x y) by (unfold Rgb in *; lia). rewrite <- W, <- H.
  set (x0 := limit x (width a)). set (y0 := limit y (height a)). assert (I : inside a x0 y0) by (split; apply limit_range; assumption).
  destruct (Q Checked x0 y0 I) as (c & d & Ec & Ed & K). rewrite edge_inside in Ec by auto. rewrite edge_inside in Ed by (auto; exact (inside_same _ _ _ _ I W H)).
  apply Ok_inj in Ec, Ed. subst c d. exact (proj2 (proj2 (K pick Cp))).
Qed.
Lemma slopes_near u v d k : (forall i j : Z, Rabs (v i j - (u i j + k)) <= d) -> Rabs (slope_x v - slope_x u) <= 8 * d /\ Rabs (slope_y v - slope_y u) <= 8 * d.
Proof.
  intros H. assert (K : forall i j, - d <= v i j - (u i j + k) <= d) by (intros; apply abs_inv, H).
  pose proof (K (-1) (-1))%Z. pose proof (K (-1) 0)%Z. pose proof (K (-1) 1)%Z. pose proof (K 0 (-1))%Z. pose proof (K 0 1)%Z. pose proof (K 1 (-1))%Z. pose proof (K 1 0)%Z. pose proof (K 1 1)%Z.
  split; apply Rabs_le; unfold slope_y, slope_x; lra.
Qed.
Lemma sobel_pairs m d k a b : valid a -> valid b -> in_range a -> in_range b -> 0 <= d -> channel_pairs (fun u v => Rabs (v - (u + k)) <= d) a b ->
  exists a' b', edge_detection m a Sobel = Ok a' /\ edge_detection m b Sobel = Ok b' /\ alike (12 * d + / 2 ^ 11) a' b'.
Proof.
  intros Va Vb Ga Gb Hd M. pose proof M as (W & H & _).
  destruct (sobel_by m a Va Ga) as (a' & Ea & Va' & Wa & Ha & Pa). destruct (sobel_by m b Vb Gb) as (b' & Eb & Vb' & Wb & Hb & Pb).
  exists a', b'. split; [exact Ea|]. split; [exact Eb|]. unfold alike, channel_pairs. unfold Rgb in *. split; [lia|]. split; [lia|]. intros m' x y I.
  assert (Ia : inside a x y) by exact (inside_same _ _ _ _ I Wa Ha). assert (Ib : inside b x y) by exact (inside_same _ _ _ _ Ia W H).
  assert (Ib' : inside b' x y) by exact (inside_same _ _ _ _ Ib (eq_sym Wb) (eq_sym Hb)).
  destruct (get_pixel_inside m a' x y Va' I) as [p Ep]. destruct (get_pixel_inside m b' x y Vb' Ib') as [q Eq].
  exists p, q. rewrite !(pixel_builds m' m) by auto. split; [exact Ep|]. split; [exact Eq|]. apply chan_all. intros c.
  destruct (Pa c x y Ia) as (p' & Ep' & Fp & Cp). unfold Rgb in *. rewrite Ep in Ep'. apply Ok_inj in Ep'. subst p'.
  destruct (Pb c x y Ib) as (q' & Eq' & Fq & Cq). unfold Rgb in *. rewrite Eq in Eq'. apply Ok_inj in Eq'. subst q'.
  split; [exact Fp|]. split; [exact Fq|]. assert (N : nonempty a) by (destruct Ia as [[? ?] [? ?]]; split; lia).
  set (u := fun i j => B2R (chan c (edge_pixel a (x + i) (y + j)))) in *. set (v := fun i j => B2R (chan c (edge_pixel b (x + i) (y + j)))) in *.
  assert (K : Rabs (sobel_F c v - sobel_F c u) <= 12 * d).
  { destruct (slopes_near u v d k (fun i j => edge_pairs _ a b Va Vb N M (x + i)%Z (y + j)%Z (chan c) (chan_is c))) as [S1 S2].
    destruct c as [|[|[|c]]]; unfold sobel_F; try (apply limited_near, length_near; assumption). rewrite Rminus_diag_eq, Rabs_R0 by reflexivity. lra. }
  apply abs_inv in K, Cp, Cq. apply Rabs_le. replace (/ 2 ^ 11) with (/ 2 ^ 12 + / 2 ^ 12) by (simpl; lra). lra.
Qed.
