(** Lemmas for C135. *)
From Coq Require Import Reals ZArith List Lia Lra.
From Flocq Require Import Core.Core IEEE754.BinarySingleNaN.
From Verif Require Import Base PixelBuffer BufferSpec BaseLemmas PixelBufferProofs F32 F32Lemmas Color ColorSpec ColorProofs MeaningSpec Approx Blend BlendProofs BlendThm LayerSpec.
Import ListNotations.
Open Scope R_scope.

Lemma same_f1 x : same x f1 -> x = f1.
Proof. intros S. destruct (same_1 x S) as [F E]. apply f_inj_nz; auto with fin; rewrite ?f1_R; lra. Qed.
Lemma opaque_intro a b c : num 0 1 a -> num 0 1 b -> num 0 1 c -> opaque (mkC a b c f1).
Proof. intros A B C. apply in01_num in A, B, C. split; [|reflexivity]. split; [exact A|]. split; [exact B|]. split; [exact C|]. split; reflexivity. Qed.
Lemma at_one f c1 c2 : (forall v1 v2, num 0 1 v1 -> num 0 1 v2 -> fin (f v1 v2)) -> opaque c1 -> opaque c2 ->
  exists x y z, blend_color c1 c2 f1 f = mkC x y z f1 /\ num 0 1 x /\ num 0 1 y /\ num 0 1 z /\
    B2R x = limited (B2R (f (d0 c1) (d0 c2))) /\ B2R y = limited (B2R (f (d1 c1) (d1 c2))) /\ B2R z = limited (B2R (f (d2 c1) (d2 c2))).
Proof.
  intros H [G1 A1] [G2 A2]. apply same_f1 in A1, A2. destruct (gamut_num _ G1) as (P0 & P1 & P2 & _). destruct (gamut_num _ G2) as (Q0 & Q1 & Q2 & _).
  assert (T : fmul f1 f1 = f1) by (apply same_f1; vm_compute; reflexivity).
  assert (K : forall v1 v2, num 0 1 v1 -> num 0 1 v2 -> let o := clamp (apply_intensity v1 (f v1 v2) f1) in num 0 1 o /\ B2R o = limited (B2R (f v1 v2))).
  { intros v1 v2 N1 N2. destruct (intensity_1 v1 (f v1 v2) f1 (proj1 N1) (H _ _ N1 N2) f1_fin f1_R) as [F E]. cbv zeta.
    destruct (clamp_R _ F) as [F' E']. rewrite E in E'. split; [split; [exact F'|rewrite E'; apply limited_range]|exact E']. }
  destruct (K _ _ P0 Q0) as [K0 E0]. destruct (K _ _ P1 Q1) as [K1 E1]. destruct (K _ _ P2 Q2) as [K2 E2].
  eexists _, _, _. split.
  - unfold blend_color. rewrite A2, T. unfold rgb_new_with_alpha. assert (CL : clamp f1 = f1) by (apply same_f1; vm_compute; reflexivity). rewrite ?CL. reflexivity.
  - split; [exact K0|]. split; [exact K1|]. split; [exact K2|]. split; [exact E0|]. split; [exact E1|exact E2].
Qed.

Lemma min_fin v1 v2 : num 0 1 v1 -> num 0 1 v2 -> fin (fmin v1 v2) /\ B2R (fmin v1 v2) = Rmin (B2R v1) (B2R v2).
Proof. intros A B. apply fmin_val; [apply A|apply B]. Qed.
Lemma max_fin v1 v2 : num 0 1 v1 -> num 0 1 v2 -> fin (fmax v1 v2) /\ B2R (fmax v1 v2) = Rmax (B2R v1) (B2R v2).
Proof. intros A B. apply fmax_val; [apply A|apply B]. Qed.
Lemma add_fin v1 v2 : num 0 1 v1 -> num 0 1 v2 -> fin (fadd v1 v2) /\ B2R (fadd v1 v2) = rnd (B2R v1 + B2R v2).
Proof. intros [A A'] [B B']. destruct (fadd_num v1 v2 0 2 A B) as [[F _] E]; auto with fmt; lra. Qed.
Lemma sub_fin v1 v2 : num 0 1 v1 -> num 0 1 v2 -> fin (fsub v1 v2) /\ B2R (fsub v1 v2) = rnd (B2R v1 - B2R v2).
Proof. intros [A A'] [B B']. destruct (fsub_num v1 v2 (-1) 1 A B) as [[F _] E]; auto with fmt; lra. Qed.

(** The real function of an operation at full intensity. *)
Definition channel (op : blend_op) (a b : R) : R :=
  match op with Addition => limited (rnd (a + b)) | Subtract => limited (rnd (a - b)) | Darken => Rmin a b | Lighten => Rmax a b | _ => 0 end.
Lemma layer_op L op c1 c2 : In op [Addition; Subtract; Darken; Lighten] -> opaque c1 -> opaque c2 ->
  exists x y z, blend_func L op c1 c2 f1 = mkC x y z f1 /\ num 0 1 x /\ num 0 1 y /\ num 0 1 z /\
    B2R x = channel op (B2R (d0 c1)) (B2R (d0 c2)) /\ B2R y = channel op (B2R (d1 c1)) (B2R (d1 c2)) /\ B2R z = channel op (B2R (d2 c1)) (B2R (d2 c2)).
Proof.
  intros I O1 O2. pose proof (gamut_num _ (proj1 O1)) as (P0 & P1 & P2 & _). pose proof (gamut_num _ (proj1 O2)) as (Q0 & Q1 & Q2 & _).
  assert (MN : forall a b, num 0 1 a -> num 0 1 b -> limited (Rmin (B2R a) (B2R b)) = Rmin (B2R a) (B2R b)).
  { intros a b [_ A] [_ B]. apply limited_id. unfold Rmin. destruct (Rle_dec _ _); lra. }
  assert (MX : forall a b, num 0 1 a -> num 0 1 b -> limited (Rmax (B2R a) (B2R b)) = Rmax (B2R a) (B2R b)).
  { intros a b [_ A] [_ B]. apply limited_id. unfold Rmax. destruct (Rle_dec _ _); lra. }
  destruct I as [<-|[<-|[<-|[<-|[]]]]]; cbn [blend_func channel].
  - destruct (at_one fadd c1 c2 (fun a b A B => proj1 (add_fin a b A B)) O1 O2) as (x & y & z & E & X & Y & Z & EX & EY & EZ). exists x, y, z.
    rewrite (proj2 (add_fin _ _ P0 Q0)) in EX. rewrite (proj2 (add_fin _ _ P1 Q1)) in EY. rewrite (proj2 (add_fin _ _ P2 Q2)) in EZ. repeat (split; [assumption|]). exact EZ.
  - destruct (at_one fsub c1 c2 (fun a b A B => proj1 (sub_fin a b A B)) O1 O2) as (x & y & z & E & X & Y & Z & EX & EY & EZ). exists x, y, z.
    rewrite (proj2 (sub_fin _ _ P0 Q0)) in EX. rewrite (proj2 (sub_fin _ _ P1 Q1)) in EY. rewrite (proj2 (sub_fin _ _ P2 Q2)) in EZ. repeat (split; [assumption|]). exact EZ.
  - destruct (at_one fmin c1 c2 (fun a b A B => proj1 (min_fin a b A B)) O1 O2) as (x & y & z & E & X & Y & Z & EX & EY & EZ). exists x, y, z.
    rewrite (proj2 (min_fin _ _ P0 Q0)), MN in EX by assumption. rewrite (proj2 (min_fin _ _ P1 Q1)), MN in EY by assumption. rewrite (proj2 (min_fin _ _ P2 Q2)), MN in EZ by assumption.
    repeat (split; [assumption|]). exact EZ.
  - destruct (at_one fmax c1 c2 (fun a b A B => proj1 (max_fin a b A B)) O1 O2) as (x & y & z & E & X & Y & Z & EX & EY & EZ). exists x, y, z.
    rewrite (proj2 (max_fin _ _ P0 Q0)), MX in EX by assumption. rewrite (proj2 (max_fin _ _ P1 Q1)), MX in EY by assumption. rewrite (proj2 (max_fin _ _ P2 Q2)), MX in EZ by assumption.
    repeat (split; [assumption|]). exact EZ.
Qed.
Lemma layer_opaque L op c1 c2 : In op [Addition; Subtract; Darken; Lighten] -> opaque c1 -> opaque c2 -> opaque (blend_func L op c1 c2 f1).
Proof. intros I A B. destruct (layer_op L op c1 c2 I A B) as (x & y & z & -> & X & Y & Z & _). apply opaque_intro; assumption. Qed.
Lemma opaque_form c : opaque c -> exists x y z, c = mkC x y z f1 /\ num 0 1 x /\ num 0 1 y /\ num 0 1 z.
Proof. intros [G A]. apply same_f1 in A. destruct (gamut_num _ G) as (P0 & P1 & P2 & _). destruct c as [x y z a]. cbn in A. subst a. exists x, y, z. auto. Qed.
Lemma same_num x y : num 0 1 x -> num 0 1 y -> B2R x = B2R y -> same x y.
Proof. intros [A _] [B _]. apply same_R; assumption. Qed.
(** Two opaque colours with equal real channels. *)
Lemma same_opaque x y z x' y' z' : num 0 1 x -> num 0 1 y -> num 0 1 z -> num 0 1 x' -> num 0 1 y' -> num 0 1 z' ->
  B2R x = B2R x' -> B2R y = B2R y' -> B2R z = B2R z' -> same_color (mkC x y z f1) (mkC x' y' z' f1).
Proof. intros. split; [apply same_num; assumption|]. split; [apply same_num; assumption|]. split; [apply same_num; assumption|reflexivity]. Qed.

Lemma commute_colour L op a b : In op [Addition; Darken; Lighten] -> opaque a -> opaque b -> same_color (blend_func L op a b f1) (blend_func L op b a f1).
Proof.
  intros I A B. assert (I' : In op [Addition; Subtract; Darken; Lighten]) by (cbn [In] in *; tauto).
  destruct (layer_op L op a b I' A B) as (x & y & z & -> & X & Y & Z & EX & EY & EZ). destruct (layer_op L op b a I' B A) as (x' & y' & z' & -> & X' & Y' & Z' & EX' & EY' & EZ').
  assert (C : forall u v, channel op u v = channel op v u).
  { intros u v. destruct I as [<-|[<-|[<-|[]]]]; cbn [channel]; [rewrite Rplus_comm|apply Rmin_comm|apply Rmax_comm]; reflexivity. }
  apply same_opaque; auto; [rewrite EX, EX'|rewrite EY, EY'|rewrite EZ, EZ']; apply C.
Qed.
Lemma associate_colour L op a b c : In op [Darken; Lighten] -> opaque a -> opaque b -> opaque c ->
  same_color (blend_func L op (blend_func L op a b f1) c f1) (blend_func L op a (blend_func L op b c f1) f1).
Proof.
  intros I A B C. assert (I' : In op [Addition; Subtract; Darken; Lighten]) by (cbn [In] in *; tauto).
  pose proof (layer_opaque L op a b I' A B) as AB. pose proof (layer_opaque L op b c I' B C) as BC.
  destruct (layer_op L op _ c I' AB C) as (x & y & z & -> & X & Y & Z & EX & EY & EZ). destruct (layer_op L op a _ I' A BC) as (x' & y' & z' & -> & X' & Y' & Z' & EX' & EY' & EZ').
  destruct (layer_op L op a b I' A B) as (u & v & w & E1 & _ & _ & _ & U & V & W). destruct (layer_op L op b c I' B C) as (u' & v' & w' & E2 & _ & _ & _ & U' & V' & W').
  rewrite E1 in EX, EY, EZ. rewrite E2 in EX', EY', EZ'. cbn [d0 d1 d2] in *. rewrite U in EX. rewrite V in EY. rewrite W in EZ. rewrite U' in EX'. rewrite V' in EY'. rewrite W' in EZ'.
  assert (K : forall p q r, channel op (channel op p q) r = channel op p (channel op q r)).
  { intros p q r. destruct I as [<-|[<-|[]]]; cbn [channel]; unfold Rmin, Rmax; repeat destruct (Rle_dec _ _); lra. }
  apply same_opaque; auto; [rewrite EX, EX'|rewrite EY, EY'|rewrite EZ, EZ']; apply K.
Qed.
Lemma idempotent_colour L op a : In op [Darken; Lighten] -> opaque a -> same_color (blend_func L op a a f1) a.
Proof.
  intros I A. assert (I' : In op [Addition; Subtract; Darken; Lighten]) by (cbn [In] in *; tauto).
  destruct (layer_op L op a a I' A A) as (x & y & z & -> & X & Y & Z & EX & EY & EZ). destruct (opaque_form a A) as (u & v & w & -> & U & V & W). cbn [d0 d1 d2] in *.
  assert (K : forall p, channel op p p = p) by (intros p; destruct I as [<-|[<-|[]]]; cbn [channel]; unfold Rmin, Rmax; repeat destruct (Rle_dec _ _); lra).
  apply same_opaque; auto; [rewrite EX|rewrite EY|rewrite EZ]; apply K.
Qed.
Lemma absorb_colour L a b : opaque a -> opaque b -> same_color (blend_func L Lighten a (blend_func L Darken a b f1) f1) a /\ same_color (blend_func L Darken a (blend_func L Lighten a b f1) f1) a.
Proof.
  intros A B. assert (ID : In Darken [Addition; Subtract; Darken; Lighten]) by (cbn; tauto). assert (IL : In Lighten [Addition; Subtract; Darken; Lighten]) by (cbn; tauto).
  pose proof (layer_opaque L Darken a b ID A B) as D. pose proof (layer_opaque L Lighten a b IL A B) as Li.
  destruct (opaque_form a A) as (u & v & w & Ea & U & V & W). split.
  - destruct (layer_op L Lighten a _ IL A D) as (x & y & z & -> & X & Y & Z & EX & EY & EZ). destruct (layer_op L Darken a b ID A B) as (p & q & r & E & _ & _ & _ & P & Q & R).
    rewrite E in EX, EY, EZ. cbn [d0 d1 d2 channel] in *. rewrite P in EX. rewrite Q in EY. rewrite R in EZ. rewrite Ea in *. cbn [d0 d1 d2] in *.
    apply same_opaque; auto; [rewrite EX|rewrite EY|rewrite EZ]; unfold Rmin, Rmax; repeat destruct (Rle_dec _ _); lra.
  - destruct (layer_op L Darken a _ ID A Li) as (x & y & z & -> & X & Y & Z & EX & EY & EZ). destruct (layer_op L Lighten a b IL A B) as (p & q & r & E & _ & _ & _ & P & Q & R).
    rewrite E in EX, EY, EZ. cbn [d0 d1 d2 channel] in *. rewrite P in EX. rewrite Q in EY. rewrite R in EZ. rewrite Ea in *. cbn [d0 d1 d2] in *.
    apply same_opaque; auto; [rewrite EX|rewrite EY|rewrite EZ]; unfold Rmin, Rmax; repeat destruct (Rle_dec _ _); lra.
Qed.
Lemma rnd_fin x : fin x -> rnd (B2R x) = B2R x.
Proof. intros F. apply rnd_id. auto with fmt. Qed.
Lemma unit_colour L a : opaque a ->
  same_color (blend_func L Addition a RGB_BLACK f1) a /\ same_color (blend_func L Subtract a RGB_BLACK f1) a /\ same_color (blend_func L Lighten a RGB_BLACK f1) a /\
  same_color (blend_func L Darken a RGB_WHITE f1) a /\ same_color (blend_func L Subtract a a f1) RGB_BLACK /\ same_color (blend_func L Darken a RGB_BLACK f1) RGB_BLACK /\
  same_color (blend_func L Addition a RGB_WHITE f1) RGB_WHITE /\ same_color (blend_func L Lighten a RGB_WHITE f1) RGB_WHITE.
Proof.
  intros A. assert (N0 : num 0 1 f0) by (split; [reflexivity|rewrite f0_R; lra]). assert (N1 : num 0 1 f1) by (split; [reflexivity|rewrite f1_R; lra]).
  assert (OB : opaque RGB_BLACK) by (apply opaque_intro; exact N0). assert (OW : opaque RGB_WHITE) by (apply opaque_intro; exact N1).
  assert (RL : forall x, 1 <= x -> limited (rnd x) = 1). { intros x X. apply limited_hi. apply rnd_lo; auto with fmt. }
  assert (GO : forall op b o, In op [Addition; Subtract; Darken; Lighten] -> opaque b -> opaque o ->
    (forall u v, num 0 1 u -> num 0 1 v -> True) ->
    channel op (B2R (d0 a)) (B2R (d0 b)) = B2R (d0 o) -> channel op (B2R (d1 a)) (B2R (d1 b)) = B2R (d1 o) -> channel op (B2R (d2 a)) (B2R (d2 b)) = B2R (d2 o) -> same_color (blend_func L op a b f1) o).
  { intros op b o I B O _ E0 E1 E2. destruct (layer_op L op a b I A B) as (x & y & z & -> & X & Y & Z & EX & EY & EZ). destruct (opaque_form o O) as (u & v & w & -> & U & V & W). cbn [d0 d1 d2] in *.
    apply same_opaque; auto; congruence. }
  destruct (opaque_form a A) as (u & v & w & E & U & V & W).
  assert (Q : forall x, num 0 1 x -> limited (rnd (B2R x + 0)) = B2R x /\ limited (rnd (B2R x - 0)) = B2R x /\ Rmax (B2R x) 0 = B2R x /\ Rmin (B2R x) 1 = B2R x /\
     limited (rnd (B2R x - B2R x)) = 0 /\ Rmin (B2R x) 0 = 0 /\ limited (rnd (B2R x + 1)) = 1 /\ Rmax (B2R x) 1 = 1).
  { intros x [F X]. rewrite Rplus_0_r, Rminus_0_r, (rnd_fin x F), (limited_id (B2R x)) by exact X. unfold Rminus. rewrite Rplus_opp_r, rnd_0, (RL (B2R x + 1)) by lra.
    rewrite limited_id by lra. unfold Rmax, Rmin. repeat split; destruct (Rle_dec _ _); lra. }
  destruct (Q u U) as (U1 & U2 & U3 & U4 & U5 & U6 & U7 & U8). destruct (Q v V) as (V1 & V2 & V3 & V4 & V5 & V6 & V7 & V8). destruct (Q w W) as (W1 & W2 & W3 & W4 & W5 & W6 & W7 & W8).
  assert (T : forall u v : f32, num 0 1 u -> num 0 1 v -> True) by auto.
  repeat split; try (apply GO; [cbn; tauto|assumption|assumption|exact T| | |]; rewrite ?E; change RGB_BLACK with (mkC f0 f0 f0 f1); change RGB_WHITE with (mkC f1 f1 f1 f1); cbn [channel d0 d1 d2]; rewrite ?f0_R, ?f1_R; assumption).
Qed.

(** Adding three layers, and taking one away again. *)
Lemma near_sum a b : 0 <= a <= 1 -> 0 <= b <= 1 -> Rabs (limited (rnd (a + b)) - limited (a + b)) <= / 2 ^ 24.
Proof.
  intros A B. apply limited_lip_e. pose proof (rnd_err (a + b) 1 ltac:(lia)) as E.
  eapply Rle_trans; [apply E; rewrite Rabs_pos_eq; [|lra]; change (bpow radix2 1) with (IZR 2); lra|].
  change (bpow radix2 (1 - 25)) with (/ IZR (Z.pow_pos 2 24)). change (Z.pow_pos 2 24) with 16777216%Z. lra.
Qed.
Lemma limited_twice a b c : 0 <= a <= 1 -> 0 <= b <= 1 -> 0 <= c <= 1 -> limited (limited (a + b) + c) = limited (a + b + c).
Proof. intros. unfold limited, Rmax, Rmin. repeat destruct Rle_dec; lra. Qed.
Lemma sum_of_three a b c : 0 <= a <= 1 -> 0 <= b <= 1 -> 0 <= c <= 1 ->
  Rabs (limited (rnd (limited (rnd (a + b)) + c)) - limited (a + b + c)) <= / 2 ^ 23.
Proof.
  intros A B C. rewrite <- limited_twice by assumption. pose proof (near_sum a b A B) as E1. pose proof (limited_range (rnd (a + b))) as R1.
  pose proof (near_sum (limited (rnd (a + b))) c R1 C) as E2.
  assert (E3 : Rabs (limited (limited (rnd (a + b)) + c) - limited (limited (a + b) + c)) <= / 2 ^ 24).
  { apply limited_lip_e. replace (limited (rnd (a + b)) + c - (limited (a + b) + c)) with (limited (rnd (a + b)) - limited (a + b)) by ring. exact E1. }
  replace (_ - _) with ((limited (rnd (limited (rnd (a + b)) + c)) - limited (limited (rnd (a + b)) + c)) + (limited (limited (rnd (a + b)) + c) - limited (limited (a + b) + c))) by ring.
  eapply Rle_trans; [apply Rabs_triang|]. eapply Rle_trans; [apply Rplus_le_compat; [exact E2|exact E3]|]. lra.
Qed.
Lemma add_three L a b c : opaque a -> opaque b -> opaque c ->
  nearly (/ 2 ^ 22) (blend_func L Addition (blend_func L Addition a b f1) c f1) (blend_func L Addition a (blend_func L Addition b c f1) f1).
Proof.
  intros A B C. assert (I : In Addition [Addition; Subtract; Darken; Lighten]) by (cbn; tauto).
  pose proof (layer_opaque L Addition a b I A B) as AB. pose proof (layer_opaque L Addition b c I B C) as BC.
  destruct (layer_op L Addition _ c I AB C) as (x & y & z & -> & X & Y & Z & EX & EY & EZ). destruct (layer_op L Addition a _ I A BC) as (x' & y' & z' & -> & X' & Y' & Z' & EX' & EY' & EZ').
  destruct (layer_op L Addition a b I A B) as (u & v & w & E1 & _ & _ & _ & U & V & W). destruct (layer_op L Addition b c I B C) as (u' & v' & w' & E2 & _ & _ & _ & U' & V' & W').
  rewrite E1 in EX, EY, EZ. rewrite E2 in EX', EY', EZ'. cbn [d0 d1 d2 channel] in *. rewrite U in EX. rewrite V in EY. rewrite W in EZ. rewrite U' in EX'. rewrite V' in EY'. rewrite W' in EZ'.
  destruct (gamut_num _ (proj1 A)) as ((_ & A0) & (_ & A1) & (_ & A2) & _). destruct (gamut_num _ (proj1 B)) as ((_ & B0) & (_ & B1) & (_ & B2) & _). destruct (gamut_num _ (proj1 C)) as ((_ & C0) & (_ & C1) & (_ & C2) & _).
  assert (K : forall p q r, 0 <= p <= 1 -> 0 <= q <= 1 -> 0 <= r <= 1 -> Rabs (limited (rnd (limited (rnd (p + q)) + r)) - limited (rnd (p + limited (rnd (q + r))))) <= / 2 ^ 22).
  { intros p q r P Q S. pose proof (sum_of_three p q r P Q S) as K1. pose proof (sum_of_three q r p Q S P) as K2. rewrite (Rplus_comm p (limited _)). replace (q + r + p) with (p + q + r) in K2 by ring.
    apply Rabs_le. apply Rabs_le_inv in K1, K2. lra. }
  split; [cbn [d0]; rewrite EX, EX'; apply K; assumption|]. split; [cbn [d1]; rewrite EY, EY'; apply K; assumption|]. split; [cbn [d2]; rewrite EZ, EZ'; apply K; assumption|reflexivity].
Qed.
Lemma take_away L a b : opaque a -> opaque b -> room a b -> nearly (/ 2 ^ 23) (blend_func L Subtract (blend_func L Addition a b f1) b f1) a.
Proof.
  intros A B (R0 & R1 & R2). assert (I : In Addition [Addition; Subtract; Darken; Lighten]) by (cbn; tauto). assert (IS : In Subtract [Addition; Subtract; Darken; Lighten]) by (cbn; tauto).
  pose proof (layer_opaque L Addition a b I A B) as AB. destruct (layer_op L Subtract _ b IS AB B) as (x & y & z & -> & X & Y & Z & EX & EY & EZ).
  destruct (layer_op L Addition a b I A B) as (u & v & w & E1 & _ & _ & _ & U & V & W). rewrite E1 in EX, EY, EZ. cbn [d0 d1 d2 channel] in *. rewrite U in EX. rewrite V in EY. rewrite W in EZ.
  destruct (gamut_num _ (proj1 A)) as ((_ & A0) & (_ & A1) & (_ & A2) & _). destruct (gamut_num _ (proj1 B)) as ((_ & B0) & (_ & B1) & (_ & B2) & _).
  assert (K : forall p q, 0 <= p <= 1 -> 0 <= q <= 1 -> p + q <= 1 -> Rabs (limited (rnd (limited (rnd (p + q)) - q)) - p) <= / 2 ^ 23).
  { intros p q P Q S. pose proof (near_sum p q P Q) as K1. rewrite (limited_id (p + q)) in K1 by lra. pose proof (limited_range (rnd (p + q))) as R.
    pose proof (rnd_err (limited (rnd (p + q)) - q) 0 ltac:(lia)) as E. change (bpow radix2 0) with 1 in E. change (bpow radix2 (0 - 25)) with (/ IZR (Z.pow_pos 2 25)) in E. change (Z.pow_pos 2 25) with 33554432%Z in E.
    assert (E' : Rabs (rnd (limited (rnd (p + q)) - q) - (limited (rnd (p + q)) - q)) <= / 33554432) by (apply E; apply Rabs_le; lra).
    rewrite <- (limited_id p P) at 2. apply limited_lip_e. apply Rabs_le. apply Rabs_le_inv in K1, E'. lra. }
  destruct (opaque_form a A) as (p & q & r & Ea & _). 
  split; [cbn [d0]; rewrite EX; apply K; assumption|]. split; [cbn [d1]; rewrite EY; apply K; assumption|]. split; [cbn [d2]; rewrite EZ; apply K; assumption|rewrite Ea; reflexivity].
Qed.

(** From pixels to images. *)
Open Scope Z_scope.
Lemma Forall2_idx {A B} (P : A -> B -> Prop) l : forall l', zlen l = zlen l' -> (forall i, 0 <= i < zlen l -> exists a b, idx l i = Ok a /\ idx l' i = Ok b /\ P a b) -> Forall2 P l l'.
Proof.
  induction l as [|a l IH]; intros [|b l'] E H.
  - constructor.
  - exfalso. rewrite zlen_cons in E. change (zlen (@nil A)) with 0 in E. pose proof (zlen_nonneg l'). lia.
  - exfalso. rewrite zlen_cons in E. change (zlen (@nil B)) with 0 in E. pose proof (zlen_nonneg l). lia.
  - rewrite !zlen_cons in *. constructor.
    + destruct (H 0) as (a' & b' & A1 & B1 & P1); [pose proof (zlen_nonneg l); lia|]. change (Ok a = Ok a') in A1. change (Ok b = Ok b') in B1. injection A1 as ->. injection B1 as ->. exact P1.
    + apply IH; [lia|]. intros i Hi. destruct (H (i + 1)) as (a' & b' & A1 & B1 & P1); [lia|]. exists a', b'. clear H IH. rewrite idx_nth in A1 by lia. rewrite idx_nth in B1 by lia. rewrite !idx_nth by lia. replace (Z.to_nat (i + 1)) with (S (Z.to_nat i)) in A1, B1 by lia. auto.
Qed.
Lemma alike_by m a b : valid a -> valid b -> width a = width b -> height a = height b ->
  (forall x y, inside a x y -> exists c d, get_pixel m a x y = Ok c /\ get_pixel m b x y = Ok d /\ same_color c d) -> alike a b.
Proof.
  intros VA VB W H P. split; [exact W|]. split; [exact H|]. assert (ZE : zlen (data a) = zlen (data b)) by (destruct VA as [_ ->], VB as [_ ->]; rewrite W, H; reflexivity).
  apply Forall2_idx; [exact ZE|]. intros i Hi. destruct (get_pixel_data m a i VA Hi) as [GA IA]. destruct (get_pixel_data m b i VB) as [GB IB]; [rewrite <- ZE; exact Hi|]. rewrite <- W in GB.
  destruct (P _ _ IA) as (c & d & C & D & S). exists c, d. split; [exact (eq_trans (eq_sym GA) C)|]. split; [exact (eq_trans (eq_sym GB) D)|exact S].
Qed.
Lemma layer_pixel m a x y c : layer a -> inside a x y -> get_pixel m a x y = Ok c -> opaque c.
Proof. intros [V O] I G. rewrite get_pixel_eq in G by assumption. apply idx_In in G. exact (proj1 (Forall_forall _ _) O c G). Qed.
Lemma inside_dec {T} (a : PixelBuffer T) x y : inside a x y \/ ~ inside a x y.
Proof. unfold inside. lia. Qed.
Lemma same_color_id c : in_gamut c -> same_color c c.
Proof. intros G. destruct (gamut_num _ G) as (A & B & C & D). split; [apply same_num; auto|]. split; [apply same_num; auto|]. split; apply same_num; auto. Qed.
Lemma none_id : same_color (mkC f0 f0 f0 f0) (mkC f0 f0 f0 f0).
Proof. repeat split. Qed.

Lemma commute_images L m op a b : In op [Addition; Darken; Lighten] -> layer a -> layer b -> valid_size (Z.max (width a) (width b)) (Z.max (height a) (height b)) ->
  exists r r', blend_image L m a b op f1 = Ok r /\ blend_image L m b a op f1 = Ok r' /\ alike r r'.
Proof.
  intros I LA LB VS. destruct (blend_overlap L m a b op f1 (proj1 LA) (proj1 LB) VS) as (r & E & V & W & H & P).
  rewrite (Z.max_comm (width a)), (Z.max_comm (height a)) in VS. destruct (blend_overlap L m b a op f1 (proj1 LB) (proj1 LA) VS) as (r' & E' & V' & W' & H' & P').
  exists r, r'. split; [exact E|]. split; [exact E'|]. unfold Rgb in *. assert (EW : width r = width r') by lia. assert (EH : height r = height r') by lia.
  apply (alike_by m); auto. intros x y IN. assert (IN' : inside r' x y) by (unfold inside, Rgb in *; lia).
  destruct (P x y IN) as (P1 & P2 & P3 & P4). destruct (P' x y IN') as (Q1 & Q2 & Q3 & Q4).
  destruct (inside_dec a x y) as [IA|IA]; destruct (inside_dec b x y) as [IB|IB].
  - destruct (get_pixel_inside m a x y (proj1 LA) IA) as (c1 & G1). destruct (get_pixel_inside m b x y (proj1 LB) IB) as (c2 & G2). eexists _, _. split; [apply P1; eassumption|]. split; [apply Q1; eassumption|].
    apply commute_colour; [exact I|eapply layer_pixel; [exact LA|exact IA|exact G1]|eapply layer_pixel; [exact LB|exact IB|exact G2]].
  - destruct (get_pixel_inside m a x y (proj1 LA) IA) as (c1 & G1). exists c1, c1. rewrite P2, Q3 by assumption. split; [exact G1|]. split; [exact G1|]. apply same_color_id. exact (proj1 (layer_pixel m a x y c1 LA IA G1)).
  - destruct (get_pixel_inside m b x y (proj1 LB) IB) as (c1 & G1). exists c1, c1. rewrite P3, Q2 by assumption. split; [exact G1|]. split; [exact G1|]. apply same_color_id. exact (proj1 (layer_pixel m b x y c1 LB IB G1)).
  - eexists _, _. rewrite P4, Q4 by assumption. split; [reflexivity|]. split; [reflexivity|]. exact none_id.
Qed.

(** Images of one size. *)
Lemma one_size L m op a b : In op [Addition; Subtract; Darken; Lighten] -> layer a -> layer b -> width b = width a -> height b = height a ->
  exists r, blend_image L m a b op f1 = Ok r /\ layer r /\ width r = width a /\ height r = height a /\
    forall x y c1 c2, inside a x y -> get_pixel m a x y = Ok c1 -> get_pixel m b x y = Ok c2 -> get_pixel m r x y = Ok (blend_func L op c1 c2 f1).
Proof.
  intros I LA LB W H. destruct (blend_overlap L m a b op f1 (proj1 LA) (proj1 LB)) as (r & E & V & W' & H' & P).
  { rewrite W, H, !Z.max_id. exact (proj1 (proj1 LA)). }
  rewrite W, Z.max_id in W'. rewrite H, Z.max_id in H'. exists r. split; [exact E|].
  assert (PX : forall x y c1 c2, inside a x y -> get_pixel m a x y = Ok c1 -> get_pixel m b x y = Ok c2 -> get_pixel m r x y = Ok (blend_func L op c1 c2 f1)).
  { intros x y c1 c2 IN G1 G2. apply P; auto; unfold inside, Rgb in *; lia. }
  split; [|auto]. split; [exact V|]. apply Forall_forall. intros c IN. apply In_idx in IN as (i & Hi & G). destruct (get_pixel_data m r i V Hi) as [GR IR]. rewrite G in GR.
  set (x := i mod width r) in *. set (y := i / width r) in *. assert (IA : inside a x y) by (unfold inside, Rgb in *; lia). assert (IB : inside b x y) by (unfold inside, Rgb in *; lia).
  destruct (get_pixel_inside m a x y (proj1 LA) IA) as (c1 & G1). destruct (get_pixel_inside m b x y (proj1 LB) IB) as (c2 & G2). rewrite (PX x y c1 c2 IA G1 G2) in GR. injection GR as <-.
  apply layer_opaque; [exact I|eapply layer_pixel; [exact LA|exact IA|exact G1]|eapply layer_pixel; [exact LB|exact IB|exact G2]].
Qed.
Lemma associate_images L m op a b c : In op [Darken; Lighten] -> layer a -> layer b -> layer c -> width b = width a -> height b = height a -> width c = width a -> height c = height a ->
  exists ab bc r r', blend_image L m a b op f1 = Ok ab /\ blend_image L m ab c op f1 = Ok r /\ blend_image L m b c op f1 = Ok bc /\ blend_image L m a bc op f1 = Ok r' /\ alike r r'.
Proof.
  intros I LA LB LC WB HB WC HC. assert (I' : In op [Addition; Subtract; Darken; Lighten]) by (cbn [In] in *; tauto).
  destruct (one_size L m op a b I' LA LB WB HB) as (ab & E1 & L1 & W1 & H1 & P1). destruct (one_size L m op b c I' LB LC) as (bc & E2 & L2 & W2 & H2 & P2); [unfold Rgb in *; lia|unfold Rgb in *; lia|].
  destruct (one_size L m op ab c I' L1 LC) as (r & E3 & L3 & W3 & H3 & P3); [unfold Rgb in *; lia|unfold Rgb in *; lia|]. destruct (one_size L m op a bc I' LA L2) as (r' & E4 & L4 & W4 & H4 & P4); [unfold Rgb in *; lia|unfold Rgb in *; lia|].
  exists ab, bc, r, r'. repeat (split; [assumption|]). apply (alike_by m); [apply L3|apply L4|unfold Rgb in *; lia|unfold Rgb in *; lia|]. intros x y IN.
  assert (IA : inside a x y) by (unfold inside, Rgb in *; lia). assert (IB : inside b x y) by (unfold inside, Rgb in *; lia). assert (IC : inside c x y) by (unfold inside, Rgb in *; lia). assert (IAB : inside ab x y) by (unfold inside, Rgb in *; lia).
  destruct (get_pixel_inside m a x y (proj1 LA) IA) as (c1 & G1). destruct (get_pixel_inside m b x y (proj1 LB) IB) as (c2 & G2). destruct (get_pixel_inside m c x y (proj1 LC) IC) as (c3 & G3).
  eexists _, _. split; [eapply P3; [exact IAB|apply P1; eassumption|exact G3]|]. split; [eapply P4; [exact IA|exact G1|apply P2; eassumption]|].
  apply associate_colour; [exact I|eapply layer_pixel; [exact LA|exact IA|exact G1]|eapply layer_pixel; [exact LB|exact IB|exact G2]|eapply layer_pixel; [exact LC|exact IC|exact G3]].
Qed.
Lemma twice_images L m op a : In op [Darken; Lighten] -> layer a -> exists r, blend_image L m a a op f1 = Ok r /\ alike r a.
Proof.
  intros I LA. assert (I' : In op [Addition; Subtract; Darken; Lighten]) by (cbn [In] in *; tauto). destruct (one_size L m op a a I' LA LA eq_refl eq_refl) as (r & E & LR & W & H & P).
  exists r. split; [exact E|]. apply (alike_by m); [apply LR|apply LA|unfold Rgb in *; lia|unfold Rgb in *; lia|]. intros x y IN. assert (IA : inside a x y) by (unfold inside, Rgb in *; lia). destruct (get_pixel_inside m a x y (proj1 LA) IA) as (c & G).
  eexists _, _. split; [eapply P; eassumption|]. split; [exact G|]. apply idempotent_colour; [exact I|eapply layer_pixel; [exact LA|exact IA|exact G]].
Qed.
Lemma difference_images L m a : layer a -> exists r, blend_image L m a a Subtract f1 = Ok r /\ width r = width a /\ height r = height a /\ Forall (fun c => same_color c RGB_BLACK) (data r).
Proof.
  intros LA. assert (I' : In Subtract [Addition; Subtract; Darken; Lighten]) by (cbn [In]; tauto). destruct (one_size L m Subtract a a I' LA LA eq_refl eq_refl) as (r & E & LR & W & H & P).
  exists r. split; [exact E|]. split; [exact W|]. split; [exact H|]. apply Forall_forall. intros c IN. apply In_idx in IN as (i & Hi & G). destruct (get_pixel_data m r i (proj1 LR) Hi) as [GR IR]. unfold Rgb in *. rewrite G in GR.
  set (x := i mod width r) in *. set (y := i / width r) in *. assert (IA : inside a x y) by (unfold inside, Rgb in *; lia).
  destruct (get_pixel_inside m a x y (proj1 LA) IA) as (c1 & G1). rewrite (P x y c1 c1 IA G1 G1) in GR. injection GR as <-.
  apply (unit_colour L c1). eapply layer_pixel; [exact LA|exact IA|exact G1].
Qed.
Lemma pixels_by m (P : Rgb -> Rgb -> Prop) a b : valid a -> valid b -> width a = width b -> height a = height b ->
  (forall x y, inside a x y -> exists c d, get_pixel m a x y = Ok c /\ get_pixel m b x y = Ok d /\ P c d) -> Forall2 P (data a) (data b).
Proof.
  intros VA VB W H K. assert (ZE : zlen (data a) = zlen (data b)) by (destruct VA as [_ ->], VB as [_ ->]; rewrite W, H; reflexivity).
  apply Forall2_idx; [exact ZE|]. intros i Hi. destruct (get_pixel_data m a i VA Hi) as [GA IA]. destruct (get_pixel_data m b i VB) as [GB IB]; [rewrite <- ZE; exact Hi|]. rewrite <- W in GB.
  destruct (K _ _ IA) as (c & d & C & D & S). exists c, d. split; [exact (eq_trans (eq_sym GA) C)|]. split; [exact (eq_trans (eq_sym GB) D)|exact S].
Qed.
Lemma add_three_images L m a b c : layer a -> layer b -> layer c -> width b = width a -> height b = height a -> width c = width a -> height c = height a ->
  exists ab bc r r', blend_image L m a b Addition f1 = Ok ab /\ blend_image L m ab c Addition f1 = Ok r /\ blend_image L m b c Addition f1 = Ok bc /\ blend_image L m a bc Addition f1 = Ok r' /\
    width r = width r' /\ height r = height r' /\ Forall2 (nearly (/ 2 ^ 22)) (data r) (data r').
Proof.
  intros LA LB LC WB HB WC HC. assert (I' : In Addition [Addition; Subtract; Darken; Lighten]) by (cbn [In]; tauto).
  destruct (one_size L m Addition a b I' LA LB WB HB) as (ab & E1 & L1 & W1 & H1 & P1). destruct (one_size L m Addition b c I' LB LC) as (bc & E2 & L2 & W2 & H2 & P2); [unfold Rgb in *; lia|unfold Rgb in *; lia|].
  destruct (one_size L m Addition ab c I' L1 LC) as (r & E3 & L3 & W3 & H3 & P3); [unfold Rgb in *; lia|unfold Rgb in *; lia|]. destruct (one_size L m Addition a bc I' LA L2) as (r' & E4 & L4 & W4 & H4 & P4); [unfold Rgb in *; lia|unfold Rgb in *; lia|].
  exists ab, bc, r, r'. repeat (split; [assumption|]). assert (EW : width r = width r') by (unfold Rgb in *; lia). assert (EH : height r = height r') by (unfold Rgb in *; lia). split; [exact EW|]. split; [exact EH|].
  apply (pixels_by m); [apply L3|apply L4|exact EW|exact EH|]. intros x y IN.
  assert (IA : inside a x y) by (unfold inside, Rgb in *; lia). assert (IB : inside b x y) by (unfold inside, Rgb in *; lia). assert (IC : inside c x y) by (unfold inside, Rgb in *; lia). assert (IAB : inside ab x y) by (unfold inside, Rgb in *; lia).
  destruct (get_pixel_inside m a x y (proj1 LA) IA) as (c1 & G1). destruct (get_pixel_inside m b x y (proj1 LB) IB) as (c2 & G2). destruct (get_pixel_inside m c x y (proj1 LC) IC) as (c3 & G3).
  eexists _, _. split; [eapply P3; [exact IAB|apply P1; eassumption|exact G3]|]. split; [eapply P4; [exact IA|exact G1|apply P2; eassumption]|].
  apply add_three; [eapply layer_pixel; [exact LA|exact IA|exact G1]|eapply layer_pixel; [exact LB|exact IB|exact G2]|eapply layer_pixel; [exact LC|exact IC|exact G3]].
Qed.
Lemma take_away_images L m a b : layer a -> layer b -> width b = width a -> height b = height a -> Forall2 room (data a) (data b) ->
  exists ab r, blend_image L m a b Addition f1 = Ok ab /\ blend_image L m ab b Subtract f1 = Ok r /\ width r = width a /\ height r = height a /\ Forall2 (nearly (/ 2 ^ 23)) (data r) (data a).
Proof.
  intros LA LB WB HB RM. assert (I' : In Addition [Addition; Subtract; Darken; Lighten]) by (cbn [In]; tauto). assert (IS : In Subtract [Addition; Subtract; Darken; Lighten]) by (cbn [In]; tauto).
  destruct (one_size L m Addition a b I' LA LB WB HB) as (ab & E1 & L1 & W1 & H1 & P1). destruct (one_size L m Subtract ab b IS L1 LB) as (r & E3 & L3 & W3 & H3 & P3); [unfold Rgb in *; lia|unfold Rgb in *; lia|].
  exists ab, r. assert (EW : width r = width a) by (unfold Rgb in *; lia). assert (EH : height r = height a) by (unfold Rgb in *; lia). repeat (split; [assumption|]).
  apply (pixels_by m); [apply L3|apply LA|exact EW|exact EH|]. intros x y IN.
  assert (IA : inside a x y) by (unfold inside, Rgb in *; lia). assert (IB : inside b x y) by (unfold inside, Rgb in *; lia). assert (IAB : inside ab x y) by (unfold inside, Rgb in *; lia).
  destruct (get_pixel_inside m a x y (proj1 LA) IA) as (c1 & G1). destruct (get_pixel_inside m b x y (proj1 LB) IB) as (c2 & G2).
  eexists _, _. split; [eapply P3; [exact IAB|apply P1; eassumption|exact G2]|]. split; [exact G1|].
  apply take_away; [eapply layer_pixel; [exact LA|exact IA|exact G1]|eapply layer_pixel; [exact LB|exact IB|exact G2]|].
  rewrite (get_pixel_eq m a x y (proj1 LA) IA) in G1. rewrite (get_pixel_eq m b x y (proj1 LB) IB) in G2. unfold Rgb in *. rewrite WB in G2. revert G1 G2. destruct IA as [IX IY]. rewrite !idx_nth by nia.
  generalize (Z.to_nat (x + y * width a)). revert RM. clear. induction 1 as [|p q l l' R RM IH]; intros [|n]; cbn [nth_error]; intros A B; try discriminate; [congruence|eapply IH; eassumption].
Qed.
