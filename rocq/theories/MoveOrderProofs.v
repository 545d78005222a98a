(** Turns, flips and crops and the order of images (C124). *)
From Coq Require Import ZArith List Bool Lia.
From Verif Require Import Base PixelBuffer Geometry BufferSpec F32 Color ColorSpec OrderSpec PixelBufferProofs StepsProofs GeometryThm.
Import ListNotations.
Open Scope Z_scope.

Lemma turn_order t m (d : Rgb) b b' : valid b -> valid b' -> image_not_brighter m b b' ->
  exists r r', op_of t m d b = Ok r /\ op_of t m d b' = Ok r' /\ image_not_brighter m r r'.
Proof.
  intros V V' (W & H & Q). destruct (op_spec t m d b V) as (r & E & Vr & Wr & Hr & P). destruct (op_spec t m d b' V') as (r' & E' & Vr' & Wr' & Hr' & P').
  exists r, r'. split; [exact E|]. split; [exact E'|]. unfold Rgb in *. rewrite <- W, <- H in Wr', Hr'. split; [unfold Rgb in *; congruence|]. split; [unfold Rgb in *; congruence|].
  intros x y I. assert (I' : inside r' x y) by (unfold inside, Rgb in *; lia). destruct (P m x y I) as [J G]. destruct (P' m x y I') as [J' G'].
  unfold Rgb in *. rewrite G, G', <- W, <- H. exact (Q _ _ J).
Qed.
Lemma crop_order m (d : Rgb) b b' ox oy w h : valid b -> valid b' -> is_u32 ox -> is_u32 oy -> is_u32 w -> is_u32 h -> image_not_brighter m b b' ->
  exists r r', crop m d b ox oy w h = Ok r /\ crop m d b' ox oy w h = Ok r' /\ image_not_brighter m r r'.
Proof.
  intros V V' Ux Uy Uw Uh (W & H & Q). destruct (crop_intersection _ m d b ox oy w h V Ux Uy Uw Uh) as (r & E & Vr & In1 & P). destruct (crop_intersection _ m d b' ox oy w h V' Ux Uy Uw Uh) as (r' & E' & Vr' & In1' & P').
  pose proof (crop_size _ m d b ox oy w h r V Ux Uy Uw Uh E) as S. pose proof (crop_size _ m d b' ox oy w h r' V' Ux Uy Uw Uh E') as S'. cbv zeta in S, S'. unfold Rgb in *.
  rewrite <- W, <- H in S'. rewrite <- S in S'. injection S' as S1 S2.
  exists r, r'. split; [exact E|]. split; [exact E'|]. split; [unfold Rgb in *; congruence|]. split; [unfold Rgb in *; congruence|]. intros x y I. assert (I' : inside r' x y) by (unfold inside, Rgb in *; lia).
  unfold Rgb in *. rewrite P, P' by assumption. apply Q. apply In1 in I. tauto.
Qed.
