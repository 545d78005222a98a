(** Symmetric nearest neighbour and drawing. *)
From Coq Require Import ZArith List Bool Lia Reals Lra Psatz.
From Flocq Require Import Core.Core IEEE754.BinarySingleNaN.
From Verif Require Import Base PixelBuffer BaseLemmas BufferSpec PixelBufferProofs EnumProofs Geometry GeometryProofs.
From Verif Require Import F32 Color F32Lemmas ColorSpec ColorProofs Kernel KernelSpec KernelProofs.
From Verif Require Import ComposeProofs ResampleProofs Kernel2Proofs GaussProofs Gauss2Proofs FilterProofs Filter2Proofs.
Import ListNotations.
Open Scope Z_scope.

Lemma Rdiv_one r : (r / 1)%R = r. Proof. unfold Rdiv. rewrite Rinv_1. apply Rmult_1_r. Qed.

(** * Symmetric nearest neighbour *)

Lemma add_color_fold cs a :
  fold_left (fun acc c => add_color c acc) cs a =
  mkC (fold_left fadd (map d0 cs) (d0 a)) (fold_left fadd (map d1 cs) (d1 a))
      (fold_left fadd (map d2 cs) (d2 a)) (fold_left fadd (map d3 cs) (d3 a)).
Proof.
  revert a. induction cs as [|c cs IH]; intros a; cbn [fold_left map]; [destruct a; reflexivity|].
  rewrite IH. reflexivity.
Qed.

Lemma ofZ_succ n : 0 <= n < 16777215 -> fadd (ofZ n) f1 = ofZ (n + 1).
Proof.
  intros H. destruct (ofZ_val n ltac:(lia)) as [F R]. destruct (ofZ_val (n + 1) ltac:(lia)) as [F' R'].
  destruct (fadd_exact (ofZ n) f1) as [A B]; auto with fin.
  { rewrite R, f1_R, <- plus_IZR. apply fmt_IZR. lia. }
  apply f_inj_nz; auto.
  - rewrite B, R', R, f1_R, plus_IZR. reflexivity.
  - rewrite B, R, f1_R. assert (0 <= IZR n)%R by (apply IZR_le; lia). lra.
Qed.

Lemma distance_eq a b : rgb_distance a b = distance a b. Proof. reflexivity. Qed.

Definition star_of (d : Z) : list (Z * Z) := [(- d, - d); (0, - d); (d, - d); (- d, 0)].
Lemma half_star_eq r : half_star r = concat (map star_of (zrange 1 (r + 1))).
Proof. apply flat_map_concat_map. Qed.

Lemma clamped_nearest {T} m (b : PixelBuffer T) x y : valid b -> nonempty b ->
  get_pixel_clamped m b x y = nearest_pixel m b x y.
Proof. intros V N. rewrite get_pixel_clamped_eq by auto. reflexivity. Qed.
Lemma nearest_total {T} m (b : PixelBuffer T) x y : valid b -> nonempty b -> exists c, nearest_pixel m b x y = Ok c.
Proof. intros V N. rewrite <- clamped_nearest by auto. apply get_pixel_clamped_total; auto. Qed.
Lemma nearest_In {T} m (b : PixelBuffer T) x y c : valid b -> nonempty b -> nearest_pixel m b x y = Ok c -> In c (data b).
Proof.
  intros V [N1 N2] H. apply (data_In m); auto. eexists. eexists. split; [|exact H]. unfold inside. lia.
Qed.

Lemma pick_lemma m (b : PixelBuffer Rgb) center x y d : valid b -> inside b x y -> 0 <= d <= 536870912 ->
  exists cs, map_res (snn_pick m b center x y d) PAIRS = Ok cs /\ Forall2 (nearer_of_pair m b x y center) (star_of d) cs.
Proof.
  intros V I Hd. pose proof (valid_bounds b V) as [Bw [Bh _]]. unfold inside in I.
  assert (N : nonempty b) by (unfold nonempty; lia).
  assert (P : forall x1 y1 x2 y2 dx dy, -1 <= x1 <= 1 -> -1 <= y1 <= 1 -> x2 = - x1 -> y2 = - y1 -> dx = x1 * d -> dy = y1 * d ->
    exists c, snn_pick m b center x y d (x1, y1, x2, y2) = Ok c /\ nearer_of_pair m b x y center (dx, dy) c).
  { intros x1 y1 x2 y2 dx dy H1 H2 -> -> -> ->. unfold snn_pick.
    assert (-536870912 <= x1 * d <= 536870912) by nia. assert (-536870912 <= y1 * d <= 536870912) by nia.
    rewrite (i32_ok m (x1 * d)) by lia. cbn [bind]. rewrite (i32_ok m (x + x1 * d)) by lia. cbn [bind].
    rewrite (i32_ok m (y1 * d)) by lia. cbn [bind]. rewrite (i32_ok m (y + y1 * d)) by lia. cbn [bind].
    rewrite (i32_ok m (- x1 * d)) by lia. cbn [bind]. rewrite (i32_ok m (x + - x1 * d)) by lia. cbn [bind].
    rewrite (i32_ok m (- y1 * d)) by lia. cbn [bind]. rewrite (i32_ok m (y + - y1 * d)) by lia. cbn [bind].
    rewrite !clamped_nearest by auto.
    destruct (nearest_total m b (x + x1 * d) (y + y1 * d) V N) as [c1 E1].
    destruct (nearest_total m b (x + - x1 * d) (y + - y1 * d) V N) as [c2 E2].
    rewrite E1. cbn [bind]. rewrite E2. cbn [bind]. eexists. split; [reflexivity|].
    exists c1, c2. cbn [fst snd]. split; [exact E1|]. split; [|reflexivity].
    replace (x - x1 * d) with (x + - x1 * d) by lia. replace (y - y1 * d) with (y + - y1 * d) by lia. exact E2. }
  unfold PAIRS, star_of. cbn [map_res].
  destruct (P (-1) (-1) 1 1 (- d) (- d)) as [c1 [-> F1]]; try lia. cbn [bind].
  destruct (P 0 (-1) 0 1 0 (- d)) as [c2 [-> F2]]; try lia. cbn [bind].
  destruct (P 1 (-1) (-1) 1 d (- d)) as [c3 [-> F3]]; try lia. cbn [bind].
  destruct (P (-1) 0 1 0 (- d) 0) as [c4 [-> F4]]; try lia. cbn [bind].
  eexists. split; [reflexivity|]. repeat (constructor; auto).
Qed.

Lemma star_lemma m (b : PixelBuffer Rgb) center x y ds : valid b -> inside b x y -> (forall d, In d ds -> 0 <= d <= 536870912) ->
  exists css, map_res (fun d => map_res (snn_pick m b center x y d) PAIRS) ds = Ok css /\
    Forall2 (nearer_of_pair m b x y center) (concat (map star_of ds)) (concat css).
Proof.
  intros V I. induction ds as [|d ds IH]; intros H.
  - exists []. split; [reflexivity|constructor].
  - destruct (pick_lemma m b center x y d V I) as [cs [E F]]; [apply H; left; auto|].
    destruct IH as [css [Es Fs]]; [intros; apply H; right; auto|].
    exists (cs :: css). cbn [map_res]. rewrite E. cbn [bind]. rewrite Es. cbn [bind]. split; [reflexivity|].
    cbn [map concat]. apply Forall2_app; auto.
Qed.

Lemma Forall2_zlen {A B} (R : A -> B -> Prop) l l' : Forall2 R l l' -> zlen l = zlen l'.
Proof. intros H. unfold zlen. induction H; cbn [length]; lia. Qed.

Lemma half_star_zlen r : 0 <= r -> zlen (half_star r) = 4 * r.
Proof.
  intros H. rewrite half_star_eq. assert (G : forall l, zlen (concat (map star_of l)) = 4 * zlen l).
  { induction l as [|a l IH]; [reflexivity|]. cbn [map concat]. rewrite zlen_app, IH, zlen_cons. unfold star_of, zlen. cbn [length]. lia. }
  rewrite G, zrange_zlen by lia. lia.
Qed.

Lemma snn_lemma m (b : PixelBuffer Rgb) radius with_center : valid b -> 0 <= radius <= 4194302 ->
  exists out, symmetric_nearest_neighbor m b radius with_center = Ok out /\ valid out /\
    width out = width b /\ height out = height b /\
    forall x y, inside b x y -> exists center chosen, get_pixel m b x y = Ok center /\
      Forall2 (nearer_of_pair m b x y center) (half_star radius) chosen /\
      get_pixel m out x y = Ok (mean_color (if with_center then center :: chosen else chosen)).
Proof.
  intros V Hr. unfold symmetric_nearest_neighbor. pose proof (valid_bounds b V) as [Bw [Bh _]].
  assert (Px : forall x y, inside b x y -> exists center chosen, get_pixel m b x y = Ok center /\
      Forall2 (nearer_of_pair m b x y center) (half_star radius) chosen /\
      (center <- get_pixel m b x y;
       let x := as_i32 x in
       let y := as_i32 y in
       colors <- map_res (fun r => map_res (snn_pick m b center x y r) PAIRS)
                         (zrange 1 (as_i32 radius + 1));
       let colors := concat colors in
       let len := ofZ (zlen colors) in
       let '(len, acc) := if with_center
                          then (fadd len f1, add_color center (mkC f0 f0 f0 f0))
                          else (len, mkC f0 f0 f0 f0) in
       let acc := fold_left (fun acc c => add_color c acc) colors acc in
       Ok (rgb_new_with_alpha (fdiv (d0 acc) len) (fdiv (d1 acc) len)
                              (fdiv (d2 acc) len) (fdiv (d3 acc) len)))
       = Ok (mean_color (if with_center then center :: chosen else chosen))).
  { intros x y I. destruct (get_pixel_inside m b x y V I) as [center Ec].
    destruct (star_lemma m b center x y (zrange 1 (radius + 1)) V I) as [css [Es Fs]].
    { intros d Hd. apply zrange_In in Hd. lia. }
    rewrite <- half_star_eq in Fs. exists center, (concat css). split; [auto|]. split; [auto|].
    unfold inside in I. rewrite Ec. cbn [bind]. cbv zeta. rewrite !as_i32_id by lia. rewrite Es. cbn [bind].
    pose proof (Forall2_zlen _ _ _ Fs) as L. rewrite half_star_zlen in L by lia.
    destruct with_center.
    - rewrite ofZ_succ by lia. rewrite add_color_fold. unfold mean_color, rgb_new_with_alpha. cbn [d0 d1 d2 d3 map fold_left].
      rewrite zlen_cons. reflexivity.
    - rewrite add_color_fold. unfold mean_color, rgb_new_with_alpha. cbn [d0 d1 d2 d3]. reflexivity. }
  destruct (new_from_fn_ok m (width b) (height b) (fun x y =>
    center <- get_pixel m b x y;
    let x := as_i32 x in
    let y := as_i32 y in
    colors <- map_res (fun r => map_res (snn_pick m b center x y r) PAIRS)
                      (zrange 1 (as_i32 radius + 1));
    let colors := concat colors in
    let len := ofZ (zlen colors) in
    let '(len, acc) := if with_center
                       then (fadd len f1, add_color center (mkC f0 f0 f0 f0))
                       else (len, mkC f0 f0 f0 f0) in
    let acc := fold_left (fun acc c => add_color c acc) colors acc in
    Ok (rgb_new_with_alpha (fdiv (d0 acc) len) (fdiv (d1 acc) len)
                           (fdiv (d2 acc) len) (fdiv (d3 acc) len)))) as [out [E [Vo [W [H P]]]]].
  { apply V. }
  { intros x y Ix Iy. destruct (Px x y) as [ce [ch [_ [_ Q]]]]; [unfold inside; lia|]. eexists. exact Q. }
  exists out. split; [exact E|]. split; [auto|]. split; [auto|]. split; [auto|].
  intros x y I. destruct (Px x y I) as [ce [ch [E1 [E2 Q]]]]. exists ce, ch. split; [auto|]. split; [auto|].
  rewrite P by (unfold inside in *; lia). exact Q.
Qed.

Lemma chosen_In m (b : PixelBuffer Rgb) x y center os cs : valid b -> nonempty b ->
  Forall2 (nearer_of_pair m b x y center) os cs -> forall c, In c cs -> In c (data b).
Proof.
  intros V N F. induction F as [|o c os cs (c1 & c2 & E1 & E2 & ->) F IH]; intros q [].
  - subst q. destruct (flt _ _); eapply nearest_In; eauto.
  - auto.
Qed.

Lemma mean_color_gamut (l : list Rgb) : 1 <= zlen l <= 8388608 -> (forall c, In c l -> in_gamut c) -> in_gamut (mean_color l).
Proof.
  intros L G. unfold mean_color, in_gamut. cbn [d0 d1 d2 d3].
  assert (Q : forall pick, channel pick -> in01 (clamp (fdiv (fold_left fadd (map pick l) f0) (ofZ (zlen l))))).
  { intros pick Cp. apply mean_clamped; [|lia]. intros v Hv. apply in_map_iff in Hv. destruct Hv as [c [<- Hc]].
    apply gamut_channel; auto. }
  split; [apply (Q d0); unfold channel; auto|]. split; [apply (Q d1); unfold channel; auto|].
  split; [apply (Q d2); unfold channel; auto|apply (Q d3); unfold channel; auto].
Qed.

Lemma snn_gamut m (b : PixelBuffer Rgb) radius with_center out : valid b -> 0 <= radius <= 2000000 ->
  1 <= radius \/ with_center = true -> (forall c, In c (data b) -> in_gamut c) ->
  symmetric_nearest_neighbor m b radius with_center = Ok out -> forall c, In c (data out) -> in_gamut c.
Proof.
  intros V Hr Hc G E c Ic. destruct (snn_lemma m b radius with_center V ltac:(lia)) as (out' & E' & Vo & W & H & P).
  rewrite E in E'. apply Ok_inj in E'. subst out'.
  apply (data_In m) in Ic; auto. destruct Ic as [x [y [I Hp]]]. assert (I' : inside b x y) by (unfold inside in *; lia).
  destruct (P x y I') as (ce & ch & E1 & F & E3). rewrite Hp in E3. apply Ok_inj in E3. subst c.
  assert (N : nonempty b) by (unfold nonempty, inside in *; lia).
  pose proof (Forall2_zlen _ _ _ F) as L. rewrite half_star_zlen in L by lia.
  assert (Gc : in_gamut ce) by (apply G; apply (data_In m); eauto).
  assert (Gh : forall c, In c ch -> in_gamut c) by (intros; apply G; eapply chosen_In; eauto).
  destruct with_center.
  - apply mean_color_gamut; [rewrite zlen_cons; lia|]. intros c [<- | Hin]; auto.
  - apply mean_color_gamut; auto. destruct Hc as [Hc | Hc]; [lia|discriminate].
Qed.

Lemma mean_one c : in_gamut c -> same_color (mean_color [c]) c.
Proof.
  intros G. assert (Q : forall pick, channel pick -> same (clamp (fdiv (fadd f0 (pick c)) (ofZ 1))) (pick c)).
  { intros pick Cp. destruct (gamut_channel pick c Cp G) as [F R].
    destruct (fadd_0_l f0 (pick c) f0_fin F f0_R) as [F1 R1].
    destruct (fdiv_exact (fadd f0 (pick c)) f1) as [F2 R2]; auto with fin.
    { rewrite f1_R; lra. } { rewrite f1_R, Rdiv_one. apply fmt_B2R. }
    change (ofZ 1) with f1. rewrite clamp_id.
    - apply same_R; auto. rewrite R2, f1_R, Rdiv_one. auto.
    - apply in01_num. split; [auto|]. rewrite R2, f1_R, Rdiv_one, R1. auto. }
  unfold mean_color, same_color. cbn [d0 d1 d2 d3 map fold_left]. change (zlen [c]) with 1.
  split; [apply (Q d0); unfold channel; auto|]. split; [apply (Q d1); unfold channel; auto|].
  split; [apply (Q d2); unfold channel; auto|apply (Q d3); unfold channel; auto].
Qed.

Lemma snn_radius_0 m (b : PixelBuffer Rgb) with_center : valid b -> 
  exists out, symmetric_nearest_neighbor m b 0 with_center = Ok out /\ valid out /\ width out = width b /\ height out = height b /\
    forall x y c, inside b x y -> get_pixel m b x y = Ok c -> exists r, get_pixel m out x y = Ok r /\
      if with_center then in_gamut c -> same_color r c else r = mkC fnan fnan fnan fnan.
Proof.
  intros V. destruct (snn_lemma m b 0 with_center V ltac:(lia)) as (out & E & Vo & W & H & P).
  exists out. split; [auto|]. split; [auto|]. split; [auto|]. split; [auto|].
  intros x y c I Hc. destruct (P x y I) as (ce & ch & E1 & F & E3). rewrite Hc in E1. apply Ok_inj in E1. subst ce.
  assert (Ef : half_star 0 = []) by reflexivity. rewrite Ef in F. inversion F; subst ch. eexists. split; [exact E3|].
  destruct with_center; [apply mean_one|].
  assert (Z0 : clamp (fdiv f0 (ofZ 0)) = fnan) by reflexivity.
  unfold mean_color. cbn [map fold_left]. change (zlen (@nil Rgb)) with 0. rewrite Z0. reflexivity.
Qed.
