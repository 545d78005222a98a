(** C137: translucent layers one over the other. *)
From Coq Require Import Reals ZArith List.
From Flocq Require Import IEEE754.BinarySingleNaN.
From Verif Require Import Base PixelBuffer BufferSpec F32 Color ColorSpec MeaningSpec Blend LayerSpec OverSpec.
Import ListNotations.
Open Scope R_scope.

(* PROPERTIES *)
From Coq Require Import Lia Lra.
From Flocq Require Import Core.Core.
From Verif Require Import F32Lemmas ColorProofs Approx OpMeaningProofs BlendProofs LayerProofs OverProofs.
Open Scope R_scope.

(** C137: any number of translucent colours, one after the other over an opaque one, give the colour of the pile. *)
Lemma pile_on_opaque_colour : forall base layers pick, opaque base -> Forall in_gamut layers -> rgb_channel pick ->
  let r := fold_left alpha_blend layers base in
  opaque r /\ snd (pile (point pick base) (map (point pick) layers)) = 1 /\
  Rabs (B2R (pick r) - fst (pile (point pick base) (map (point pick) layers))) <= INR (length layers) * / 2 ^ 22.
Proof.
  intros base layers pick O F PK r. assert (P : point pick base = (B2R (pick base), 1)) by (unfold point; rewrite (proj2 (same_1 _ (proj2 O))); reflexivity). rewrite P.
  destruct (pile_colours pick PK layers base (B2R (pick base)) 0 O F) as (A & B & C); [rewrite Rminus_diag_eq, Rabs_R0 by reflexivity; lra|]. split; [exact A|]. split; [exact B|]. fold r in C.
  replace (2 ^ 22) with 4194304 by ring. rewrite Rplus_0_l in C. exact C.
Qed.
(** C137: the same for images of one size that are laid on an opaque image by Normal, each with its intensity. *)
Lemma pile_on_opaque_image : forall L m base sheets, layer base -> Forall (sheet base) sheets ->
  exists r, fold_left (lay_on L m) sheets (Ok base) = Ok r /\ layer r /\ width r = width base /\ height r = height base /\
  forall pick x y c, rgb_channel pick -> inside base x y -> get_pixel m base x y = Ok c ->
    exists o seen, get_pixel m r x y = Ok o /\ Forall2 (fun s q => exists p, get_pixel m (fst s) x y = Ok p /\ q = faded pick p (snd s)) sheets seen /\
      Rabs (B2R (pick o) - fst (pile (point pick c) seen)) <= INR (length sheets) * / 2 ^ 21.
Proof.
  intros L m base sheets LB F. destruct (pile_images L m sheets base LB F) as (r & E & LR & W & H & P). exists r. split; [exact E|]. split; [exact LR|]. split; [exact W|]. split; [exact H|].
  intros pick x y c PK IN G. assert (OC : opaque c) by (eapply layer_pixel; [exact LB|exact IN|exact G]). assert (PE : point pick c = (B2R (pick c), 1)) by (unfold point; rewrite (proj2 (same_1 _ (proj2 OC))); reflexivity). rewrite PE.
  destruct (P pick x y c (B2R (pick c)) 0 PK IN G) as (o & seen & GO & FS & _ & D); [rewrite Rminus_diag_eq, Rabs_R0 by reflexivity; lra|]. exists o, seen. split; [exact GO|]. split; [exact FS|].
  replace (2 ^ 21) with 2097152 by ring. rewrite Rplus_0_l in D. exact D.
Qed.
(** C137: for translucent layers as such, which may be put together first in any grouping, the pile is the same. *)
Lemma layers_in_groups : forall a b c, 0 <= snd a <= 1 -> 0 < snd b <= 1 -> 0 <= snd c <= 1 -> over (over a b) c = over a (over b c).
Proof.
  intros [a x] [b y] [c z] A B C. unfold over, over_opacity. cbn [fst snd] in *.
  assert (K : forall u v, 0 <= u <= 1 -> 0 < v <= 1 -> 0 < u + (1 - u) * v <= 1).
  { intros u v U V. replace (u + (1 - u) * v) with (v + u * (1 - v)) by ring. assert (0 <= u * (1 - v)) by (apply Rmult_le_pos; lra). assert (u * (1 - v) <= 1 * (1 - v)) by (apply Rmult_le_compat_r; lra). lra. }
  assert (D1 : 0 < y + (1 - y) * x <= 1) by (replace (y + (1 - y) * x) with (x + (1 - x) * y) by ring; apply K; assumption). pose proof (K z y C B) as D2. pose proof (K z _ C D1) as D3.
  assert (D4 : z + (1 - z) * y + (1 - (z + (1 - z) * y)) * x <> 0) by (replace (z + (1 - z) * y + (1 - (z + (1 - z) * y)) * x) with (z + (1 - z) * (y + (1 - y) * x)) by ring; lra).
  f_equal; [field|ring]. repeat split; lra.
Qed.
(** C137: alpha_blend adds opacities: one translucent colour over another gets less transparent than a pile, by the smaller of the products of what both cover and of what both let through. *)
Lemma opacity_of_two : forall lower upper, in_gamut lower -> in_gamut upper ->
  let a := B2R (alpha lower) in let b := B2R (alpha upper) in
  close (/ 2 ^ 22) (over_opacity a b + Rmin (a * b) ((1 - a) * (1 - b))) (alpha (alpha_blend lower upper)).
Proof.
  intros lower upper G1 G2 a b. destruct (alpha_blend_meaning lower upper G1 G2) as (_ & M). unfold a, b. rewrite <- opacity_excess. replace (2 ^ 22) with 4194304 by ring. exact M.
Qed.
(** C137: a translucent colour over nothing is darkened to black by what it lets through, where a pile would show it as it is. *)
Lemma layer_on_nothing : forall c pick, in_gamut c -> rgb_channel pick -> 0 < B2R (alpha c) ->
  over (point pick (mkC f0 f0 f0 f0)) (point pick c) = point pick c /\
  close (/ 2 ^ 22) (B2R (pick c) * B2R (alpha c)) (pick (alpha_blend (mkC f0 f0 f0 f0) c)).
Proof.
  intros c pick G PK A. assert (Z : point pick (mkC f0 f0 f0 f0) = (0, 0)) by (unfold point, alpha; cbn [d3]; rewrite f0_R; destruct PK as [->|[->| ->]]; cbn [d0 d1 d2]; rewrite f0_R; reflexivity). split.
  - rewrite Z. unfold over, over_opacity, point. cbn [fst snd]. f_equal; [field; lra|ring].
  - assert (G0 : in_gamut (mkC f0 f0 f0 f0)) by (repeat split). destruct (alpha_blend_meaning _ c G0 G) as ((M0 & M1 & M2) & _). cbn [d0 d1 d2] in *. rewrite f0_R, Rmult_0_r, Rplus_0_r in *.
    replace (2 ^ 22) with 4194304 by ring. destruct PK as [->|[->| ->]]; [exact M0|exact M1|exact M2].
Qed.
(** C137: so translucent layers are not a pile: red on nothing becomes dark red, ... *)
Lemma layer_on_nothing_refuted : exists c, in_gamut c /\ same (d0 c) f1 /\ same (alpha c) (dec 1 2) /\ same (d0 (alpha_blend (mkC f0 f0 f0 f0) c)) (dec 1 2).
Proof. exists (mkC f1 f0 f0 (dec 1 2)). split; [vm_compute; repeat split|]. split; [reflexivity|]. split; vm_compute; reflexivity. Qed.
(** C137: ... and two half transparent layers that are put together first hide what is below, of which a quarter is seen if they are laid on one by one. *)
Lemma layers_in_groups_refuted : exists base l1 l2, opaque base /\ in_gamut l1 /\ in_gamut l2 /\
  same (d0 (alpha_blend (alpha_blend base l1) l2)) (dec 1 4) /\ same (d0 (alpha_blend base (alpha_blend l1 l2))) f0 /\ same (alpha (alpha_blend l1 l2)) f1.
Proof.
  exists RGB_WHITE, (mkC f0 f0 f0 (dec 1 2)), (mkC f0 f0 f0 (dec 1 2)). split; [repeat split|]. split; [vm_compute; repeat split|]. split; [vm_compute; repeat split|].
  split; [|split]; vm_compute; reflexivity.
Qed.

Example pile_example : let c := mkC f1 f0 f0 (dec 1 2) in
  opaque RGB_WHITE /\ Forall in_gamut [c; c] /\ rgb_channel d1 /\
  layer (mkPB 1 1 [RGB_WHITE]) /\ Forall (sheet (mkPB 1 1 [RGB_WHITE])) [(mkPB 1 1 [c], f1); (mkPB 1 1 [c], dec 1 2)] /\
  same (d1 (fold_left alpha_blend [c; c] RGB_WHITE)) (dec 1 4) /\ 0 < B2R (alpha c).
Proof.
  intros c. assert (G : in_gamut c) by (vm_compute; repeat split). assert (O : opaque RGB_WHITE) by (repeat split).
  split; [exact O|]. split; [repeat constructor; apply G|]. split; [right; left; reflexivity|].
  split; [split; [split; [right; cbn; lia|reflexivity]|constructor; [exact O|constructor]]|].
  split; [constructor; [|constructor; [|constructor]]; (split; [split; [right; cbn; lia|reflexivity]|]; split; [constructor; [exact G|constructor]|]; split; [reflexivity|]; split; [reflexivity|]; vm_compute; repeat split)|].
  split; [vm_compute; reflexivity|]. assert (E : flt f0 (dec 1 2) = true) by (vm_compute; reflexivity). unfold alpha, c. cbn [d3]. apply flt_R in E; [rewrite f0_R in E; exact E|reflexivity|vm_compute; reflexivity].
Qed.
