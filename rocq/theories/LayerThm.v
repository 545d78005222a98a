(** C135: the algebra of opaque layers. *)
From Coq Require Import Reals ZArith List.
From Flocq Require Import IEEE754.BinarySingleNaN.
From Verif Require Import Base PixelBuffer BufferSpec F32 Color ColorSpec Blend LayerSpec.
Import ListNotations.
Open Scope R_scope.

(* PROPERTIES *)
From Coq Require Import Lia Lra.
From Flocq Require Import Core.Core.
From Verif Require Import F32Lemmas ColorProofs BlendThm LayerProofs.
Open Scope R_scope.

(** C135: the order of two opaque images, of whatever sizes, makes no difference for addition, darken and lighten. *)
Lemma order_of_layers : forall L m op a b, In op [Addition; Darken; Lighten] -> layer a -> layer b ->
  valid_size (Z.max (width a) (width b)) (Z.max (height a) (height b)) ->
  exists r r', blend_image L m a b op f1 = Ok r /\ blend_image L m b a op f1 = Ok r' /\ alike r r'.
Proof. exact commute_images. Qed.
(** C135: a stack of opaque images of one size can be darkened or lightened from either end. *)
Lemma stack_of_layers : forall L m op a b c, In op [Darken; Lighten] -> layer a -> layer b -> layer c ->
  width b = width a -> height b = height a -> width c = width a -> height c = height a ->
  exists ab bc r r', blend_image L m a b op f1 = Ok ab /\ blend_image L m ab c op f1 = Ok r /\ blend_image L m b c op f1 = Ok bc /\ blend_image L m a bc op f1 = Ok r' /\ alike r r'.
Proof. exact associate_images. Qed.
(** C135: a layer that is there already changes nothing; an image minus itself is black. *)
Lemma same_layer_twice : forall L m op a, In op [Darken; Lighten] -> layer a -> exists r, blend_image L m a a op f1 = Ok r /\ alike r a.
Proof. exact twice_images. Qed.
Lemma layer_minus_itself : forall L m a, layer a ->
  exists r, blend_image L m a a Subtract f1 = Ok r /\ width r = width a /\ height r = height a /\ Forall (fun c => same_color c RGB_BLACK) (data r).
Proof. exact difference_images. Qed.
(** C135: two opaque images of one size give an opaque image of that size with the channels in range. *)
Lemma layers_give_layers : forall L m op a b, In op [Addition; Subtract; Darken; Lighten] -> layer a -> layer b -> width b = width a -> height b = height a ->
  exists r, blend_image L m a b op f1 = Ok r /\ layer r /\ width r = width a /\ height r = height a.
Proof. intros L m op a b I A B W H. destruct (one_size L m op a b I A B W H) as (r & E & LR & W' & H' & _). exists r. auto. Qed.
(** C135: darken and lighten absorb each other. *)
Lemma layers_absorb : forall L a b, opaque a -> opaque b ->
  same_color (blend_func L Lighten a (blend_func L Darken a b f1) f1) a /\ same_color (blend_func L Darken a (blend_func L Lighten a b f1) f1) a.
Proof. exact absorb_colour. Qed.
(** C135: black and white as layers. *)
Lemma black_and_white_layers : forall L a, opaque a ->
  same_color (blend_func L Addition a RGB_BLACK f1) a /\ same_color (blend_func L Subtract a RGB_BLACK f1) a /\ same_color (blend_func L Lighten a RGB_BLACK f1) a /\
  same_color (blend_func L Darken a RGB_WHITE f1) a /\ same_color (blend_func L Subtract a a f1) RGB_BLACK /\ same_color (blend_func L Darken a RGB_BLACK f1) RGB_BLACK /\
  same_color (blend_func L Addition a RGB_WHITE f1) RGB_WHITE /\ same_color (blend_func L Lighten a RGB_WHITE f1) RGB_WHITE.
Proof. exact unit_colour. Qed.
(** C135: three layers can be added from either end, up to rounding. *)
Lemma three_layers_added : forall L a b c, opaque a -> opaque b -> opaque c ->
  nearly (/ 2 ^ 22) (blend_func L Addition (blend_func L Addition a b f1) c f1) (blend_func L Addition a (blend_func L Addition b c f1) f1).
Proof. exact add_three. Qed.
(** C135: a layer that was added is taken away again by subtract, up to rounding, when nothing was cut off. *)
Lemma layer_taken_away : forall L a b, opaque a -> opaque b -> room a b -> nearly (/ 2 ^ 23) (blend_func L Subtract (blend_func L Addition a b f1) b f1) a.
Proof. exact take_away. Qed.
(** C135: both for whole images. *)
Lemma three_images_added : forall L m a b c, layer a -> layer b -> layer c -> width b = width a -> height b = height a -> width c = width a -> height c = height a ->
  exists ab bc r r', blend_image L m a b Addition f1 = Ok ab /\ blend_image L m ab c Addition f1 = Ok r /\ blend_image L m b c Addition f1 = Ok bc /\ blend_image L m a bc Addition f1 = Ok r' /\
    width r = width r' /\ height r = height r' /\ Forall2 (nearly (/ 2 ^ 22)) (data r) (data r').
Proof. exact add_three_images. Qed.
Lemma image_taken_away : forall L m a b, layer a -> layer b -> width b = width a -> height b = height a -> Forall2 room (data a) (data b) ->
  exists ab r, blend_image L m a b Addition f1 = Ok ab /\ blend_image L m ab b Subtract f1 = Ok r /\ width r = width a /\ height r = height a /\ Forall2 (nearly (/ 2 ^ 23)) (data r) (data a).
Proof. exact take_away_images. Qed.
(** C135: not so when something was cut off: white plus white minus white is black. *)
Lemma layer_taken_away_refuted : forall L, exists a b, opaque a /\ opaque b /\ ~ nearly (/ 2) (blend_func L Subtract (blend_func L Addition a b f1) b f1) a.
Proof.
  intros L. exists RGB_WHITE, RGB_WHITE. assert (O : opaque RGB_WHITE) by (repeat split). split; [exact O|]. split; [exact O|].
  intros (H & _). assert (E : feq (d0 (blend_func L Subtract (blend_func L Addition RGB_WHITE RGB_WHITE f1) RGB_WHITE f1)) f0 = true) by (vm_compute; reflexivity).
  set (x := d0 (blend_func L Subtract _ _ _)) in *. clearbody x. assert (F : fin x) by (destruct x as [|[]| |]; try discriminate E; reflexivity).
  apply feq_R in E; auto with fin. rewrite E, f0_R in H. change (d0 RGB_WHITE) with f1 in H. rewrite f1_R in H. apply Rabs_le_inv in H. lra.
Qed.
(** C135: with transparency the order matters: the result has the transparency of the second image. *)
Lemma order_of_transparent_layers_refuted : forall L op, In op [Addition; Darken; Lighten] ->
  exists a b, in_gamut a /\ in_gamut b /\ same (alpha (blend_func L op a b f1)) (alpha b) /\ same (alpha (blend_func L op b a f1)) (alpha a) /\ ~ same (alpha a) (alpha b).
Proof.
  intros L op I. exists RGB_WHITE, (mkC f0 f0 f0 (dec 1 2)). split; [repeat split|]. split; [vm_compute; repeat split|].
  destruct I as [<-|[<-|[<-|[]]]]; (split; [vm_compute; reflexivity|]; split; [vm_compute; reflexivity|]); vm_compute; discriminate.
Qed.
(** C135: with images of different sizes the grouping matters: the corner that belongs to no image, transparent black, takes part in the next step as black. *)
Lemma stack_of_sizes_refuted : forall L m, exists a b c ab bc r r', layer a /\ layer b /\ layer c /\
  blend_image L m a b Darken f1 = Ok ab /\ blend_image L m ab c Darken f1 = Ok r /\ blend_image L m b c Darken f1 = Ok bc /\ blend_image L m a bc Darken f1 = Ok r' /\
  width r = width r' /\ height r = height r' /\
  exists p q, get_pixel m r 1 1 = Ok p /\ get_pixel m r' 1 1 = Ok q /\ same_color p RGB_BLACK /\ same_color q RGB_WHITE.
Proof.
  intros L m. exists (mkPB 2 1 (repeat RGB_WHITE 2)), (mkPB 1 2 (repeat RGB_WHITE 2)), (mkPB 2 2 (repeat RGB_WHITE 4)).
  assert (O : opaque RGB_WHITE) by (repeat split).
  assert (K : forall w h n, valid_size w h -> (Z.of_nat n = w * h)%Z -> layer (mkPB w h (repeat RGB_WHITE n))).
  { intros w h n V E. split; [split; [exact V|unfold zlen; cbn [data]; rewrite repeat_length; exact E]|]. apply Forall_forall. intros c I. apply repeat_spec in I. subst c. exact O. }
  set (a := mkPB 2 1 _). set (b := mkPB 1 2 _). set (c := mkPB 2 2 _).
  assert (LA : layer a) by (apply K; [right; lia|reflexivity]). assert (LB : layer b) by (apply K; [right; lia|reflexivity]). assert (LC : layer c) by (apply K; [right; lia|reflexivity]).
  assert (VS : valid_size 2 2) by (right; lia).
  destruct (blend_overlap L m a b Darken f1 (proj1 LA) (proj1 LB) VS) as (ab & E1 & V1 & W1 & H1 & P1). change (width ab = 2)%Z in W1. change (height ab = 2)%Z in H1.
  destruct (blend_overlap L m b c Darken f1 (proj1 LB) (proj1 LC) VS) as (bc & E2 & V2 & W2 & H2 & P2). change (width bc = 2)%Z in W2. change (height bc = 2)%Z in H2.
  destruct (blend_overlap L m ab c Darken f1 V1 (proj1 LC)) as (r & E3 & V3 & W3 & H3 & P3); [rewrite W1, H1; exact VS|]. rewrite W1 in W3. rewrite H1 in H3. change (width r = 2)%Z in W3. change (height r = 2)%Z in H3.
  destruct (blend_overlap L m a bc Darken f1 (proj1 LA) V2) as (r' & E4 & V4 & W4 & H4 & P4); [rewrite W2, H2; exact VS|]. rewrite W2 in W4. rewrite H2 in H4. change (width r' = 2)%Z in W4. change (height r' = 2)%Z in H4.
  exists ab, bc, r, r'. repeat (split; [assumption|]). split; [rewrite W3, W4; reflexivity|]. split; [rewrite H3, H4; reflexivity|].
  assert (NA : ~ inside a 1 1) by (unfold inside; cbn; lia). assert (NB : ~ inside b 1 1) by (unfold inside; cbn; lia). assert (IC : inside c 1 1) by (unfold inside; cbn; lia).
  assert (I1 : inside ab 1 1) by (unfold inside; rewrite W1, H1; lia). assert (I2 : inside bc 1 1) by (unfold inside; rewrite W2, H2; lia). assert (I3 : inside r 1 1) by (unfold inside; rewrite W3, H3; lia). assert (I4 : inside r' 1 1) by (unfold inside; rewrite W4, H4; lia).
  assert (GC : get_pixel m c 1 1 = Ok RGB_WHITE) by (destruct m; reflexivity).
  destruct (P1 1%Z 1%Z I1) as (_ & _ & _ & Q1). destruct (P2 1%Z 1%Z I2) as (_ & _ & Q2 & _). destruct (P3 1%Z 1%Z I3) as (Q3 & _). destruct (P4 1%Z 1%Z I4) as (_ & _ & Q4 & _).
  eexists _, _. split; [apply Q3; [exact I1|exact IC|apply Q1; assumption|exact GC]|]. split; [rewrite Q4, Q2 by assumption; exact GC|].
  split; [vm_compute; repeat split|repeat split].
Qed.

Example layers_example :
  let a := mkPB 2 1 [RGB_RED; RGB_BLUE] in let b := mkPB 1 2 [RGB_BLUE; RGB_WHITE] in
  layer a /\ layer b /\ valid_size (Z.max (width a) (width b)) (Z.max (height a) (height b)) /\ room RGB_RED RGB_BLUE.
Proof.
  cbv zeta. assert (O : forall c, In c [RGB_RED; RGB_BLUE; RGB_WHITE] -> opaque c) by (intros c [<-|[<-|[<-|[]]]]; vm_compute; repeat split).
  split; [split; [split; [right; cbn; lia|reflexivity]|repeat constructor; apply O; cbn; tauto]|].
  split; [split; [split; [right; cbn; lia|reflexivity]|repeat constructor; apply O; cbn; tauto]|]. split; [right; cbn; lia|].
  unfold room, RGB_RED, RGB_BLUE. cbn [d0 d1 d2]. rewrite ?f0_R, ?f1_R. lra.
Qed.
