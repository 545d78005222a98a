(** Proofs for C76: the steps of a drawing. *)
From Coq Require Import ZArith List Bool Lia.
From Verif Require Import Base BaseLemmas PixelBuffer BufferSpec PixelBufferProofs F32 Color ColorSpec Kernel KernelSpec FilterProofs DrawingProofs RecipeSpec.
Import ListNotations.
Open Scope Z_scope.

Lemma map_each (f g : Rgb -> Rgb) (b : PixelBuffer Rgb) : valid b -> (forall c, f c = g c) ->
  exists r, map_pure f b = Ok r /\ each b g r /\ valid r /\ width r = width b /\ height r = height b.
Proof.
  intros V E. destruct (map_pure_ok f b V) as (r & A & _ & Vr & W & H & P). exists r. unfold each.
  repeat (split; [assumption|]). split; [|auto]. repeat (split; [assumption|]). intros m x y c I Hc. rewrite (P m x y I), Hc. cbn [bind]. rewrite E. reflexivity.
Qed.
Lemma compose_both m (a b : PixelBuffer Rgb) d (f g : Rgb -> Rgb -> Rgb) : valid a -> valid b -> width b = width a -> height b = height a ->
  (forall c1 c2, f c1 c2 = g c1 c2) ->
  exists r, compose2 m a b d f = Ok r /\ both m a b g r /\ valid r /\ width r = width a /\ height r = height a.
Proof.
  intros V1 V2 W H E. destruct (compose2_ok m a b d f V1 V2 (eq_sym W) (eq_sym H)) as (r & A & Vr & Wr & Hr & P). exists r. unfold both.
  repeat (split; [assumption|]). split; [|auto]. repeat (split; [assumption|]). intros x y c1 c2 I H1 H2.
  destruct (P x y I) as (c1' & c2' & E1 & E2 & E3). rewrite H1 in E1. rewrite H2 in E2.
  assert (c1 = c1') by (clear - E1; inversion E1; reflexivity). assert (c2 = c2') by (clear - E2; inversion E2; reflexivity). subst c1' c2'. rewrite E3, E. reflexivity.
Qed.
Lemma line_eq s n : drawing_pixel s n = line s n.
Proof.
  unfold drawing_pixel, line. change (gray_value Average s) with (average s). change (gray_value Average n) with (average n).
  generalize (average s) (average n). intros ga gb. unfold rgb_new, rgb_new_with_alpha.
  destruct (flt (dec 5 100) ga || flt gb (dec 95 100)); destruct (flt (dec 8 10) (d0 s) || flt (d0 n) (dec 2 10));
  destruct (flt (dec 8 10) (d1 s) || flt (d1 n) (dec 2 10)); destruct (flt (dec 8 10) (d2 s) || flt (d2 n) (dec 2 10)); reflexivity.
Qed.
Lemma washed L m (d b : PixelBuffer Rgb) : valid d -> valid b -> width d = width b -> height d = height b ->
  exists out, merge_color_reduced L m d b = Ok out /\ valid out /\ width out = width b /\ height out = height b /\ washed_drawing L m d b out.
Proof.
  intros Vd Vb W H. unfold merge_color_reduced.
  destruct (map_each reduce_color paler b Vb (fun c => eq_refl)) as (pale & E1 & P1 & V1 & W1 & H1). rewrite E1. cbn [bind].
  destruct (blur_total L m pale 2 None V1 ltac:(lia)) as (g2 & E2 & V2 & W2 & H2). rewrite E2. cbn [bind].
  destruct (compose_both m d g2 RGB_NONE (fun c1 c2 => hsv_to_rgb (with_1 (rgb_to_hsv c1) (d1 (rgb_to_hsv c2))))
    (fun a c => let h := rgb_to_hsv a in hsv_to_rgb (mkC (d0 h) (d1 (rgb_to_hsv c)) (d2 h) (d3 h))) Vd V2 ltac:(lia) ltac:(lia) (fun c1 c2 => eq_refl)) as (o1 & E3 & P3 & V3 & W3 & H3).
  rewrite E3. cbn [bind].
  destruct (blur_total L m b 3 None Vb ltac:(lia)) as (g3 & E4 & V4 & W4 & H4). rewrite E4. cbn [bind].
  destruct (compose_both m o1 g3 RGB_NONE (fun c1 c2 => hsv_to_rgb (with_0 (rgb_to_hsv c1) (d0 (rgb_to_hsv c2))))
    (fun a c => let h := rgb_to_hsv a in hsv_to_rgb (mkC (d0 (rgb_to_hsv c)) (d1 h) (d2 h) (d3 h))) V3 V4 ltac:(lia) ltac:(lia) (fun c1 c2 => eq_refl)) as (o2 & E5 & P5 & V5 & W5 & H5).
  rewrite E5. cbn [bind].
  destruct (blur_total L m b 4 None Vb ltac:(lia)) as (g4 & E6 & V6 & W6 & H6). rewrite E6. cbn [bind].
  destruct (compose_both m o2 g4 RGB_NONE (fun c1 c2 => hsv_to_rgb (with_2 (rgb_to_hsv c1) (fmul (d2 (rgb_to_hsv c1)) (d2 (rgb_to_hsv c2)))))
    (fun a c => let h := rgb_to_hsv a in hsv_to_rgb (mkC (d0 h) (d1 h) (fmul (d2 h) (d2 (rgb_to_hsv c))) (d3 h))) V5 V6 ltac:(lia) ltac:(lia) (fun c1 c2 => eq_refl)) as (o3 & E7 & P7 & V7 & W7 & H7).
  rewrite E7. cbn [bind].
  destruct (unsharp_total L m o3 3 (dec 15 10) None V7 ltac:(lia)) as (u & E8 & V8 & W8 & H8). rewrite E8. cbn [bind].
  destruct (map_each (fun x => with_vibrance L (dec 3 10) (with_gamma L (dec 11 10) (with_saturation (dec 13 10) x))) _ u V8 (fun c => eq_refl)) as (out & E9 & P9 & V9 & W9 & H9).
  exists out. split; [exact E9|]. split; [exact V9|]. split; [lia|]. split; [lia|].
  exists pale, g2, g3, g4, o1, o2, o3, u. do 8 (split; [assumption|]). exact P9.
Qed.
Lemma recipe L m (b : PixelBuffer Rgb) radius mode : valid b -> 0 <= radius <= 32767 ->
  exists d out, drawing L m b radius mode = Ok out /\ valid out /\ width out = width b /\ height out = height b /\
    pencil_drawing L m b radius d /\
    match mode with DGray => out = d | DColored => both m d b colored_line out | DReducedColors => washed_drawing L m d b out end.
Proof.
  intros Vb Hr. unfold drawing.
  destruct (map_each (map_channels (fun v => fadd (fmul v (dec 8 10)) (dec 2 10))) (channels lighter) b Vb (fun c => eq_refl)) as (light & E1 & P1 & V1 & W1 & H1). rewrite E1. cbn [bind].
  destruct (blur_total L m light 1 None V1 ltac:(lia)) as (fine & E2 & V2 & W2 & H2). rewrite E2. cbn [bind].
  destruct (unsharp_total L m fine 4 (ofZ 4) (Some (ofZ 5)) V2 ltac:(lia)) as (sharp & E3 & V3 & W3 & H3). rewrite E3. cbn [bind].
  destruct (map_each (with_contrast (dec 105 100)) (channels more_contrast) sharp V3 (fun c => eq_refl)) as (strong & E4 & P4 & V4 & W4 & H4). rewrite E4. cbn [bind].
  destruct (blur_total L m light radius None V1 ltac:(lia)) as (coarse & E5 & V5 & W5 & H5). rewrite E5. cbn [bind].
  destruct (map_each invert negative coarse V5 (fun c => eq_refl)) as (inverse & E6 & P6 & V6 & W6 & H6). rewrite E6. cbn [bind].
  destruct (compose_both m strong inverse RGB_NONE drawing_pixel line V4 V6 ltac:(lia) ltac:(lia) line_eq) as (lines & E7 & P7 & V7 & W7 & H7). rewrite E7. cbn [bind].
  destruct (unsharp_total L m lines 2 f1 None V7 ltac:(lia)) as (crisp & E8 & V8 & W8 & H8). rewrite E8. cbn [bind].
  destruct (despeckle_lemma m crisp (dec 15 100) 1 V8) as (d & E9 & V9 & W9 & H9 & _). rewrite E9. cbn [bind].
  assert (Q : pencil_drawing L m b radius d) by (exists light, fine, sharp, strong, coarse, inverse, lines, crisp; do 8 (split; [assumption|]); exact E9).
  exists d. destruct mode.
  - exists d. split; [reflexivity|]. split; [exact V9|]. split; [lia|]. split; [lia|]. split; [exact Q|reflexivity].
  - destruct (compose_both m d b RGB_NONE merge_color_pixel colored_line V9 Vb ltac:(lia) ltac:(lia) (fun c1 c2 => eq_refl)) as (out & E & P & V & W & H).
    exists out. split; [exact E|]. split; [exact V|]. split; [lia|]. split; [lia|]. split; [exact Q|exact P].
  - destruct (washed L m d b V9 Vb ltac:(lia) ltac:(lia)) as (out & E & V & W & H & P). exists out. do 4 (split; [assumption|]). split; [exact Q|exact P].
Qed.
