(** Lemmas for C137. *)
From Coq Require Import Reals ZArith List Lia Lra.
From Flocq Require Import Core.Core IEEE754.BinarySingleNaN.
From Verif Require Import Base PixelBuffer BufferSpec BaseLemmas PixelBufferProofs F32 F32Lemmas Color ColorSpec ColorProofs ColorThm MeaningSpec Approx OpMeaningProofs Blend BlendProofs BlendThm LayerSpec LayerProofs OverSpec.
Import ListNotations.
Open Scope R_scope.

(** Over an opaque colour nothing but the colour on top and what it lets through counts. *)
Lemma over_opaque v t a : over (v, 1) (t, a) = (t * a + (1 - a) * v, 1).
Proof. unfold over, over_opacity. cbn [fst snd]. replace (a + (1 - a) * 1) with 1 by ring. f_equal. field. Qed.
Lemma blend_step b c : opaque b -> in_gamut c -> opaque (alpha_blend b c) /\
  forall pick, rgb_channel pick -> Rabs (B2R (pick (alpha_blend b c)) - (B2R (pick c) * B2R (alpha c) + (1 - B2R (alpha c)) * B2R (pick b))) <= / 4194304.
Proof.
  intros [G A] C. destruct (ColorThm.blend_in_gamut b c G C) as (G' & LE & _). split.
  - split; [exact G'|]. destruct (same_1 _ A) as [FA EA]. destruct (gamut_num _ G') as (_ & _ & _ & [F' R']). apply fle_R in LE; [|exact FA|exact F']. change (d3 (alpha_blend b c)) with (alpha (alpha_blend b c)) in *.
    apply same_R; [exact F'|exact f1_fin|]. rewrite f1_R. lra.
  - destruct (alpha_blend_meaning b c G C) as ((M0 & M1 & M2) & _). intros pick [->|[->| ->]]; [apply M0|apply M1|apply M2].
Qed.
(** With an intensity the opacity is rounded once more. *)
Lemma lay_step L b c i : opaque b -> in_gamut c -> in01 i -> opaque (blend_func L Normal b c i) /\
  forall pick, rgb_channel pick -> Rabs (B2R (pick (blend_func L Normal b c i)) - (B2R (pick c) * (B2R (alpha c) * B2R i) + (1 - B2R (alpha c) * B2R i) * B2R (pick b))) <= / 2097152.
Proof.
  intros O C I. cbn [blend_func]. unfold blend_normal. apply in01_num in I. destruct (gamut_num _ C) as (C0 & C1 & C2 & C3). destruct C3 as [F3 R3]. destruct I as [FI RI].
  assert (P : 0 <= B2R (d3 c) * B2R i <= 1) by nra.
  destruct (fmul_num (d3 c) i 0 1 F3 FI) as [N E]; auto with fmt.
  set (t := fmul (alpha c) i). change (fmul (d3 c) i) with t in *.
  assert (G : in_gamut (with_alpha c t)). { destruct C as (K0 & K1 & K2 & _). unfold with_alpha. split; [exact K0|]. split; [exact K1|]. split; [exact K2|]. apply in01_num. exact N. }
  destruct (blend_step b (with_alpha c t) O G) as [O' M]. split; [exact O'|]. intros pick PK. specialize (M pick PK).
  assert (PC : B2R (pick (with_alpha c t)) = B2R (pick c)) by (destruct PK as [->|[->| ->]]; reflexivity). rewrite PC in M. change (alpha (with_alpha c t)) with t in M.
  pose proof (rnd_err (B2R (d3 c) * B2R i) 0 ltac:(lia)) as RE. change (bpow radix2 0) with 1 in RE. change (bpow radix2 (0 - 25)) with (/ IZR (Z.pow_pos 2 25)) in RE. change (Z.pow_pos 2 25) with 33554432%Z in RE.
  rewrite <- E in RE. assert (RE' : Rabs (B2R t - B2R (alpha c) * B2R i) <= / 33554432) by (apply RE; rewrite Rabs_pos_eq; apply P).
  assert (RC : 0 <= B2R (pick c) <= 1) by (destruct PK as [->|[->| ->]]; [apply C0|apply C1|apply C2]).
  assert (RB : 0 <= B2R (pick b) <= 1) by (destruct (gamut_num _ (proj1 O)) as ([_ B0] & [_ B1] & [_ B2] & _); destruct PK as [->|[->| ->]]; [apply B0|apply B1|apply B2]).
  set (p := B2R (pick c)) in *. set (q := B2R (pick b)) in *. set (x := B2R t) in *. set (y := B2R (alpha c) * B2R i) in *.
  set (z := B2R (pick (alpha_blend b (with_alpha c t)))) in *.
  replace (z - (p * y + (1 - y) * q)) with ((z - (p * x + (1 - x) * q)) + (p - q) * (x - y)) by ring.
  eapply Rle_trans; [apply Rabs_triang|]. rewrite Rabs_mult. assert (D : Rabs (p - q) <= 1) by (apply Rabs_le; lra).
  assert (Rabs (p - q) * Rabs (x - y) <= 1 * / 33554432) by (apply Rmult_le_compat; auto using Rabs_pos). lra.
Qed.
(** An error below a layer does not grow through it. *)
Lemma through v w p a e d z : 0 <= a <= 1 -> Rabs (v - w) <= e -> Rabs (z - (p * a + (1 - a) * v)) <= d -> Rabs (z - (p * a + (1 - a) * w)) <= e + d.
Proof.
  intros A E D. replace (z - (p * a + (1 - a) * w)) with ((1 - a) * (v - w) + (z - (p * a + (1 - a) * v))) by ring.
  eapply Rle_trans; [apply Rabs_triang|]. apply Rplus_le_compat; [|exact D]. rewrite Rabs_mult, (Rabs_pos_eq (1 - a)) by lra. pose proof (Rabs_pos (v - w)). nra.
Qed.
Lemma pile_colours pick : rgb_channel pick -> forall layers b v e, opaque b -> Forall in_gamut layers -> Rabs (B2R (pick b) - v) <= e ->
  opaque (fold_left alpha_blend layers b) /\ snd (pile (v, 1) (map (point pick) layers)) = 1 /\
  Rabs (B2R (pick (fold_left alpha_blend layers b)) - fst (pile (v, 1) (map (point pick) layers))) <= e + INR (length layers) * / 4194304.
Proof.
  intros PK. induction layers as [|c layers IH]; intros b v e O F E.
  - cbn [fold_left map pile length INR fst snd]. unfold pile. cbn [fold_left map fst snd]. split; [exact O|]. split; [reflexivity|]. lra.
  - inversion F as [|? ? C F']; subst. destruct (blend_step b c O C) as [O' M]. specialize (M pick PK).
    destruct (gamut_num _ C) as (_ & _ & _ & [_ R3]).
    pose proof (through _ v _ _ e _ _ R3 E M) as T. unfold pile. cbn [fold_left map]. unfold point at 2 4. rewrite over_opaque.
    change (length (c :: layers)) with (S (length layers)). rewrite S_INR. destruct (IH _ _ _ O' F' T) as (X & Y & Z). split; [exact X|]. split; [exact Y|]. unfold pile in Z. change (d3 c) with (alpha c) in *. lra.
Qed.

(** Whole images. *)
Lemma lay_image L m b s : layer b -> sheet b s -> exists r, blend_image L m b (fst s) Normal (snd s) = Ok r /\ layer r /\ width r = width b /\ height r = height b /\
  forall x y c, inside b x y -> get_pixel m b x y = Ok c -> exists p, get_pixel m (fst s) x y = Ok p /\ in_gamut p /\ get_pixel m r x y = Ok (blend_func L Normal c p (snd s)).
Proof.
  intros LB (V & G & W & H & I). destruct s as [t i]. cbn [fst snd] in *. unfold Rgb in *.
  destruct (blend_overlap L m b t Normal i (proj1 LB) V) as (r & E & VR & W' & H' & P). { unfold Rgb in *. rewrite W, H, !Z.max_id. exact (proj1 (proj1 LB)). }
  unfold Rgb in *. rewrite W, Z.max_id in W'. rewrite H, Z.max_id in H'. exists r. split; [exact E|].
  assert (PX : forall x y c, inside b x y -> get_pixel m b x y = Ok c -> exists p, get_pixel m t x y = Ok p /\ in_gamut p /\ get_pixel m r x y = Ok (blend_func L Normal c p i)).
  { intros x y c IN GB. assert (IT : inside t x y) by (unfold inside in *; lia). assert (IR : inside r x y) by (unfold inside in *; lia).
    destruct (get_pixel_inside m t x y V IT) as (p & GP). exists p. split; [exact GP|]. split.
    - rewrite get_pixel_eq in GP by assumption. apply idx_In in GP. exact (proj1 (Forall_forall _ _) G p GP).
    - destruct (P x y IR) as (P1 & _). exact (P1 c p IN IT GB GP). }
  split; [|auto]. split; [exact VR|]. apply Forall_forall. intros c IN. apply In_idx in IN as (k & Hk & GK). destruct (get_pixel_data m r k VR Hk) as [GR IR]. unfold Rgb in *. rewrite GK in GR.
  set (x := (k mod width r)%Z) in *. set (y := (k / width r)%Z) in *. assert (IB : inside b x y) by (unfold inside in *; lia).
  destruct (get_pixel_inside m b x y (proj1 LB) IB) as (c1 & G1). destruct (PX x y c1 IB G1) as (p & GP & CP & GR'). rewrite GR' in GR. injection GR as <-.
  apply (lay_step L c1 p i); [eapply layer_pixel; [exact LB|exact IB|exact G1]|exact CP|exact I].
Qed.
Lemma pile_images L m : forall sheets b, layer b -> Forall (sheet b) sheets ->
  exists r, fold_left (lay_on L m) sheets (Ok b) = Ok r /\ layer r /\ width r = width b /\ height r = height b /\
  forall pick x y c v e, rgb_channel pick -> inside b x y -> get_pixel m b x y = Ok c -> Rabs (B2R (pick c) - v) <= e ->
    exists o seen, get_pixel m r x y = Ok o /\ Forall2 (fun s q => exists p, get_pixel m (fst s) x y = Ok p /\ q = faded pick p (snd s)) sheets seen /\
      snd (pile (v, 1) seen) = 1 /\ Rabs (B2R (pick o) - fst (pile (v, 1) seen)) <= e + INR (length sheets) * / 2097152.
Proof.
  induction sheets as [|s sheets IH]; intros b LB F.
  - exists b. split; [reflexivity|]. split; [exact LB|]. split; [reflexivity|]. split; [reflexivity|]. intros pick x y c v e PK IN G E. exists c, []. split; [exact G|]. split; [constructor|]. split; [reflexivity|].
    unfold pile. cbn [fold_left fst length INR]. lra.
  - inversion F as [|? ? S F']; subst. destruct (lay_image L m b s LB S) as (b1 & E1 & L1 & W1 & H1 & P1).
    assert (F1 : Forall (sheet b1) sheets). { eapply Forall_impl; [|exact F']. intros s' (V & G & W & H & I). unfold sheet. rewrite W1, H1. auto. }
    destruct (IH b1 L1 F1) as (r & E & LR & W & H & P). exists r. split; [cbn [fold_left]; change (lay_on L m (Ok b) s) with (blend_image L m b (fst s) Normal (snd s)); rewrite E1; exact E|]. split; [exact LR|]. split; [congruence|]. split; [congruence|].
    intros pick x y c v e PK IN G ER. destruct (P1 x y c IN G) as (p & GP & CP & G1). assert (IN1 : inside b1 x y) by (unfold inside in *; rewrite W1, H1; exact IN).
    assert (OC : opaque c) by (eapply layer_pixel; [exact LB|exact IN|exact G]). destruct S as (_ & _ & _ & _ & I). destruct (lay_step L c p (snd s) OC CP I) as [_ M]. specialize (M pick PK).
    apply in01_num in I. destruct (gamut_num _ CP) as (_ & _ & _ & [_ R3]). destruct I as [_ RI]. assert (RA : 0 <= B2R (alpha p) * B2R (snd s) <= 1) by (unfold alpha; nra).
    pose proof (through _ v _ _ e _ _ RA ER M) as T. destruct (P pick x y _ _ _ PK IN1 G1 T) as (o & seen & GO & FS & S1 & D).
    exists o, (faded pick p (snd s) :: seen). split; [exact GO|]. split; [constructor; [exists p; auto|exact FS]|]. unfold pile in *. cbn [fold_left]. unfold faded at 1 2. rewrite over_opaque. split; [exact S1|].
    change (length (s :: sheets)) with (Datatypes.S (length sheets)). rewrite S_INR. lra.
Qed.

(** Opacities are added, which is more than what can be seen through both. *)
Lemma opacity_excess a b : Rmin (a + b) 1 = over_opacity a b + Rmin (a * b) ((1 - a) * (1 - b)).
Proof. unfold over_opacity, Rmin. destruct (Rle_dec (a + b) 1), (Rle_dec (a * b) ((1 - a) * (1 - b))); nra. Qed.
