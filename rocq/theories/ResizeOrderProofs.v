(** Resizing and the order of images (C124). *)
From Coq Require Import Reals Lra Lia ZArith List Bool.
From Flocq Require Import Core.Core IEEE754.BinarySingleNaN.
From Verif Require Import Base PixelBuffer BufferSpec BaseLemmas PixelBufferProofs F32 F32Lemmas Color ColorSpec ColorProofs MeaningSpec Resample ResampleSpec ResampleProofs ResampleMeaning ResampleMeanThm OrderSpec ComposeProofs.
Import ListNotations.
Open Scope R_scope.

Lemma order_size m (b b' : PixelBuffer Rgb) : image_not_brighter m b b' -> nonempty b -> nonempty b'.
Proof. intros (W & H & _) [A B]. split; unfold Rgb in *; lia. Qed.
Lemma order_edge m b b' i j : valid b -> valid b' -> nonempty b -> image_not_brighter m b b' -> not_brighter (edge_pixel b i j) (edge_pixel b' i j).
Proof.
  intros V V' N Q. pose proof (order_size m b b' Q N) as N'. destruct Q as (W & H & Q).
  pose proof (edge_read m b i j V N) as E. pose proof (edge_read m b' i j V' N') as E'.
  rewrite get_pixel_clamped_eq in E by auto. rewrite get_pixel_clamped_eq in E' by auto.
  assert (I : inside b (clampZ i (width b)) (clampZ j (height b))) by (destruct N as [Nw Nh]; split; apply clampZ_range; assumption).
  destruct (Q _ _ I) as (c & c' & P & P' & NB). unfold Rgb in *. rewrite W, H in P'. rewrite W, H in P. rewrite W, H in E. congruence.
Qed.

Lemma linear_le f g p : (forall k, f k <= g k) -> linear f p <= linear g p.
Proof.
  intros H. unfold linear. pose proof (Zfloor_lb p). pose proof (Zfloor_ub p). pose proof (H (Zfloor p)). pose proof (H (Zfloor p + 1)%Z). cbv zeta. nra.
Qed.
Lemma bilinear_order L m b b' w h : valid b -> valid b' -> nonempty b -> Forall in_gamut (data b) -> Forall in_gamut (data b') -> valid_size w h -> image_not_brighter m b b' ->
  exists r r', resize L m b w h Bilinear = Ok r /\ resize L m b' w h Bilinear = Ok r' /\ width r = w /\ height r = h /\ width r' = w /\ height r' = h /\
  forall x y, inside r x y -> exists o o', get_pixel m r x y = Ok o /\ get_pixel m r' x y = Ok o' /\ forall d, In d [d0; d1; d2] ->
    B2R (d o) <= B2R (d o') + 2 * (IZR (width b + height b) / 2 ^ 21 + / 2 ^ 20).
Proof.
  intros V V' N G G' S Q. pose proof (order_size m b b' Q N) as N'.
  destruct (bilinear_resize L m b w h V N G S) as (r & E & W & H & A). destruct (bilinear_resize L m b' w h V' N' G' S) as (r' & E' & W' & H' & A').
  exists r, r'. repeat (split; [assumption|]). intros x y I. assert (I' : inside r' x y) by (unfold inside, Rgb in *; lia).
  destruct (A x y I) as (o & P & C). destruct (A' x y I') as (o' & P' & C'). exists o, o'. split; [exact P|]. split; [exact P'|]. intros d D.
  assert (D' : In d [d0; d1; d2; d3]) by (cbn [In] in *; tauto). destruct (C d D') as [_ K]. destruct (C' d D') as [_ K'].
  destruct Q as (Wb & Hb & Q0). assert (Q : image_not_brighter m b b') by (split; [exact Wb|split; [exact Hb|exact Q0]]).
  replace (width b') with (width b) in K'. replace (height b') with (height b) in K'.
  assert (LE : surface linear (fun i j => B2R (d (edge_pixel b i j))) (scaled_pos x w (width b)) (scaled_pos y h (height b)) <=
               surface linear (fun i j => B2R (d (edge_pixel b' i j))) (scaled_pos x w (width b)) (scaled_pos y h (height b))).
  { unfold surface. apply linear_le. intros j. apply linear_le. intros i. destruct (order_edge m b b' i j V V' N Q) as (O0 & O1 & O2).
    pose proof (chan_num b d i j V N G D') as [F _]. pose proof (chan_num b' d i j V' N' G' D') as [F' _].
    apply fle_R; auto. cbn [In] in D. destruct D as [<-|[<-|[<-|[]]]]; assumption. }
  apply Rabs_le_inv in K, K'. lra.
Qed.

Lemma nearest_order L m b b' w h : valid b -> valid b' -> nonempty b -> valid_size w h -> image_not_brighter m b b' ->
  exists r r', resize L m b w h Nearest = Ok r /\ resize L m b' w h Nearest = Ok r' /\ image_not_brighter m r r'.
Proof.
  intros V V' N S Q. pose proof (order_size m b b' Q N) as N'. pose proof Q as (W & H & _). unfold resize.
  assert (EW : (width b' =? w)%Z = (width b =? w)%Z) by (f_equal; unfold Rgb in *; lia). assert (EH : (height b' =? h)%Z = (height b =? h)%Z) by (f_equal; unfold Rgb in *; lia).
  rewrite EW, EH. destruct (_ && _)%bool; [exists b, b'; auto|]. unfold resize_with_fn. 
  assert (RW : fdiv (ofZ w) (ofZ (width b')) = fdiv (ofZ w) (ofZ (width b))) by (do 2 f_equal; unfold Rgb in *; lia).
  assert (RH : fdiv (ofZ h) (ofZ (height b')) = fdiv (ofZ h) (ofZ (height b))) by (do 2 f_equal; unfold Rgb in *; lia).
  rewrite RW, RH. set (sx := fdiv _ _). set (sy := fdiv _ _). clearbody sx sy.
  assert (T : forall p, valid p -> nonempty p -> forall x y, resize_pixel_nearest m p x y sx sy = Ok (edge_pixel p (f_as_i32 (ffloor (fadd (fdiv (ofZ x) sx) (dec 1 2)))) (f_as_i32 (ffloor (fadd (fdiv (ofZ y) sy) (dec 1 2)))))).
  { intros p Vp Np x y. unfold resize_pixel_nearest. apply edge_read; assumption. }
  destruct (new_from_fn_ok m w h (fun x y => resize_pixel_nearest m b x y sx sy) S) as (r & E & Vr & Wr & Hr & P); [intros x y _ _; eexists; apply T; assumption|].
  destruct (new_from_fn_ok m w h (fun x y => resize_pixel_nearest m b' x y sx sy) S) as (r' & E' & Vr' & Wr' & Hr' & P'); [intros x y _ _; eexists; apply T; assumption|].
  exists r, r'. split; [exact E|]. split; [exact E'|]. split; [congruence|]. split; [congruence|]. intros x y I.
  assert (I' : inside r' x y) by (unfold inside, Rgb in *; lia). do 2 eexists. split; [rewrite P by exact I; apply T; assumption|]. split; [rewrite P' by exact I'; apply T; assumption|].
  apply (order_edge m); assumption.
Qed.

(** ** Where the order is lost *)
Definition grey v : Rgb := mkC v v v f1.
Definition brighter_at L m b b' w h f x y : bool :=
  match resize L m b w h f, resize L m b' w h f with
  | Ok r, Ok r' => match get_pixel m r x y, get_pixel m r' x y with Ok c, Ok c' => ((width r =? w) && (height r =? h))%Z && negb (fle (d0 c) (d0 c')) | _, _ => false end
  | _, _ => false
  end.
Lemma order_lost L m b b' w h f x y : brighter_at L m b b' w h f x y = true -> (0 <= x < w)%Z -> (0 <= y < h)%Z ->
  exists r r', resize L m b w h f = Ok r /\ resize L m b' w h f = Ok r' /\ ~ image_not_brighter m r r'.
Proof.
  unfold brighter_at. intros H X Y. destruct (resize L m b w h f) as [r|]; [|discriminate]. destruct (resize L m b' w h f) as [r'|]; [|discriminate].
  exists r, r'. split; [reflexivity|]. split; [reflexivity|]. intros (W & Hh & Q).
  destruct (get_pixel m r x y) as [c|] eqn:E; [|discriminate]. destruct (get_pixel m r' x y) as [c'|] eqn:E'; [|discriminate].
  apply andb_prop in H as [H1 H2]. apply andb_prop in H1 as [H1 H3]. apply Z.eqb_eq in H1, H3.
  destruct (Q x y) as (k & k' & K & K' & NB & _). { unfold inside, Rgb in *. lia. }
  rewrite E in K. rewrite E' in K'. injection K as <-. injection K' as <-. rewrite NB in H2. discriminate.
Qed.
Definition row (l : list f32) : PixelBuffer Rgb := mkPB (zlen l) 1 (map grey l).
Lemma bilinear_lost L m : brighter_at L m (row [fdiv (ofZ 5) (ofZ 67108864); f1]) (row [fdiv (ofZ 6) (ofZ 67108864); f1]) 3 1 Bilinear 1 0 = true.
Proof. destruct m; vm_compute; reflexivity. Qed.
Lemma bicubic_lost L m : brighter_at L m (row [f0; dec 1 2; dec 1 2; dec 1 2]) (row [f1; dec 1 2; dec 1 2; dec 1 2]) 8 1 Bicubic 3 0 = true.
Proof. destruct m; vm_compute; reflexivity. Qed.
Definition all01 (l : list f32) : bool := forallb (fun v => fle f0 v && fle v f1) l.
Lemma row_gamut l : all01 l = true -> Forall in_gamut (data (row l)).
Proof.
  intros H. apply Forall_forall. intros c I. cbn [data row] in I. apply in_map_iff in I as (v & <- & I). unfold all01 in H. rewrite forallb_forall in H. specialize (H v I).
  apply andb_prop in H as [A B]. assert (K : in01 v) by (split; assumption). split; [exact K|]. split; [exact K|]. split; [exact K|]. split; vm_compute; reflexivity.
Qed.
Lemma row_valid l : (0 < zlen l <= 1000)%Z -> valid (row l).
Proof. intros H. unfold valid, row. cbn [width height data]. rewrite zlen_map. repeat split; try (unfold valid_size; lia); try lia. Qed.
Definition row_le (l l' : list f32) : bool := ((zlen l =? zlen l')%Z && forallb (fun p => fle (fst p) (snd p)) (combine l l'))%bool.
Lemma row_order m l l' : (0 < zlen l <= 1000)%Z -> row_le l l' = true -> image_not_brighter m (row l) (row l').
Proof.
  intros H E. apply andb_prop in E as [E1 E2]. apply Z.eqb_eq in E1. pose proof (row_valid l H) as V. assert (V' : valid (row l')) by (apply row_valid; lia).
  split; [exact E1|]. split; [reflexivity|]. intros x y [X Y]. cbn [width height row] in X, Y.
  assert (I : inside (row l) x y) by (split; cbn [width height row]; lia). assert (I' : inside (row l') x y) by (split; cbn [width height row]; lia).
  assert (y = 0%Z) by lia. subst y. rewrite (get_pixel_eq m (row l)), (get_pixel_eq m (row l')) by assumption. cbn [data row width]. rewrite !Z.mul_0_l, !Z.add_0_r, !idx_nth by lia.
  rewrite !nth_error_map. rewrite forallb_forall in E2.
  destruct (nth_error l (Z.to_nat x)) as [v|] eqn:A; [|apply nth_error_None in A; unfold zlen in *; lia].
  destruct (nth_error l' (Z.to_nat x)) as [v'|] eqn:A'; [|apply nth_error_None in A'; unfold zlen in *; lia].
  cbn [option_map]. exists (grey v), (grey v'). split; [reflexivity|]. split; [reflexivity|].
  assert (K : fle v v' = true). { apply (E2 (v, v')). clear - A A'. revert l' A' A. generalize (Z.to_nat x). intros n. revert l. induction n as [|n IH]; intros [|a l] [|a' l'] B B'; try discriminate; cbn in *.
    - left. congruence.
    - right. eapply IH; eassumption. }
  split; [exact K|]. split; exact K.
Qed.
Lemma lost_rows L m l l' w h f x y : (0 < zlen l <= 1000)%Z -> all01 l = true -> all01 l' = true -> row_le l l' = true -> brighter_at L m (row l) (row l') w h f x y = true -> (0 <= x < w)%Z -> (0 <= y < h)%Z ->
  exists (b b' r r' : PixelBuffer Rgb) w h, valid b /\ valid b' /\ Forall in_gamut (data b) /\ Forall in_gamut (data b') /\ image_not_brighter m b b' /\
    resize L m b w h f = Ok r /\ resize L m b' w h f = Ok r' /\ ~ image_not_brighter m r r'.
Proof.
  intros H G G' Q B X Y. destruct (order_lost L m _ _ w h f x y B X Y) as (r & r' & E & E' & N). exists (row l), (row l'), r, r', w, h.
  split; [now apply row_valid|]. split; [apply row_valid; apply andb_prop in Q as [Q _]; apply Z.eqb_eq in Q; lia|]. split; [now apply row_gamut|]. split; [now apply row_gamut|]. split; [now apply row_order|]. auto.
Qed.
Lemma resize_order_lost f : f = Bilinear \/ f = Bicubic -> forall L m,
  exists (b b' r r' : PixelBuffer Rgb) w h, valid b /\ valid b' /\ Forall in_gamut (data b) /\ Forall in_gamut (data b') /\ image_not_brighter m b b' /\
    resize L m b w h f = Ok r /\ resize L m b' w h f = Ok r' /\ ~ image_not_brighter m r r'.
Proof.
  intros [-> | ->] L m.
  - apply (lost_rows L m _ _ _ _ _ 1 0) with (5 := bilinear_lost L m); try lia; [split; reflexivity || discriminate|vm_compute; reflexivity..].
  - apply (lost_rows L m _ _ _ _ _ 3 0) with (5 := bicubic_lost L m); try lia; [split; reflexivity || discriminate|vm_compute; reflexivity..].
Qed.
