(** Lemmas about kernels and convolutions. *)
From Coq Require Import ZArith List Bool Lia Reals Lra.
From Flocq Require Import Core.Core IEEE754.BinarySingleNaN.
From Verif Require Import Base PixelBuffer BaseLemmas BufferSpec PixelBufferProofs.
From Verif Require Import F32 Color F32Lemmas ColorSpec ColorProofs Kernel KernelSpec.
Import ListNotations.
Open Scope Z_scope.

(** * Lists and loops *)

Lemma for_idx2 {A B S} (l1 : list A) (l2 : list B) (f : A -> B -> S -> res S) s :
  zlen l1 = zlen l2 ->
  for_ (zrange 0 (zlen l1)) (fun i s => a <- idx l1 i; b <- idx l2 i; f a b s) s
  = for_ (combine l1 l2) (fun '(a, b) => f a b) s.
Proof.
  enough (H : forall l1 l2 p q s, length l1 = length l2 -> length p = length q ->
    for_ (zrange (zlen p) (zlen p + zlen l1)) (fun i s => a <- idx (p ++ l1) i; b <- idx (q ++ l2) i; f a b s) s
    = for_ (combine l1 l2) (fun '(a, b) => f a b) s).
  { intros E. apply (H l1 l2 [] [] s); auto. unfold zlen in E. lia. }
  clear. induction l1 as [|a l1 IH]; intros [|b l2] p q s E Epq; try discriminate.
  - rewrite zrange_empty; [reflexivity|]. unfold zlen; cbn; lia.
  - rewrite zrange_cons by (rewrite zlen_cons; unfold zlen; lia).
    cbn [for_ combine].
    assert (Ep : zlen p = zlen q) by (unfold zlen; lia).
    rewrite (idx_app_r p) by lia. rewrite (idx_app_r q) by lia.
    replace (zlen p - zlen p) with 0 by lia. replace (zlen p - zlen q) with 0 by lia.
    cbn [idx Z.ltb Z.compare Z.to_nat nth_error bind].
    destruct (f a b s) as [s'|]; [|reflexivity]. cbn [bind].
    specialize (IH l2 (p ++ [a]) (q ++ [b]) s').
    rewrite <- IH; [|cbn in E; lia|rewrite !app_length; cbn; lia].
    rewrite zlen_app. rewrite <- !app_assoc. cbn [app].
    replace (zlen p + zlen [a]) with (zlen p + 1) by reflexivity.
    replace (zlen p + zlen (a :: l1)) with (zlen p + 1 + zlen l1) by (rewrite zlen_cons; lia).
    reflexivity.
Qed.

Lemma for_concat {A S} (l : list (list A)) (f : A -> S -> res S) s :
  for_ (concat l) f s = for_ l (fun row s => for_ row f s) s.
Proof.
  revert s. induction l as [|r l IH]; intros s; [reflexivity|].
  cbn [concat for_]. rewrite for_app. destruct (for_ r f s); cbn [bind]; [apply IH|reflexivity].
Qed.

Lemma for_map {A B S} (g : A -> B) (l : list A) (f : B -> S -> res S) s :
  for_ (map g l) f s = for_ l (fun a => f (g a)) s.
Proof.
  revert s. induction l as [|a l IH]; intros s; [reflexivity|].
  cbn [map for_]. destruct (f (g a) s); cbn [bind]; [apply IH|reflexivity].
Qed.

Lemma for_fold {A S} (l : list A) (g : A -> S -> S) s :
  for_ l (fun a s => Ok (g a s)) s = Ok (fold_left (fun s a => g a s) l s).
Proof. revert s. induction l as [|a l IH]; intros s; [reflexivity|]. cbn. apply IH. Qed.

Lemma combine_concat {A B} (l1 : list (list A)) (l2 : list (list B)) :
  Forall2 (fun a b => length a = length b) l1 l2 ->
  combine (concat l1) (concat l2) = concat (map (fun '(a, b) => combine a b) (combine l1 l2)).
Proof.
  induction 1 as [|a b l1 l2 E H IH]; [reflexivity|].
  cbn [concat combine map]. rewrite <- IH. clear IH H.
  revert b E. induction a as [|x a IH]; intros [|y b] E; try discriminate; [reflexivity|].
  cbn. f_equal. apply IH. cbn in E; lia.
Qed.

Lemma square_Forall2 {A B} N (k : list (list A)) (d : list (list B)) : square N k -> square N d ->
  Forall2 (fun a b => length a = length b) k d.
Proof.
  intros [Ek Fk] [Ed Fd]. assert (E : length k = length d) by (unfold zlen in *; lia).
  clear Ek Ed. revert d E Fd. induction Fk as [|a k Ha Fk IH]; intros [|b d] E Fd; try discriminate; constructor.
  - inversion Fd; subst. unfold zlen in *; lia.
  - inversion Fd; subst. apply IH; auto; cbn in E; lia.
Qed.

Lemma square_row {A} N (k : list (list A)) y : square N k -> 0 <= y < N ->
  exists row, idx k y = Ok row /\ zlen row = N.
Proof.
  intros [E F] Hy. destruct (idx_ok k y) as [row Hr]; [lia|].
  exists row. split; [auto|]. rewrite Forall_forall in F. apply F. eapply idx_In; eauto.
Qed.

(** The static convolution as one weighted sum. *)
Definition zero4 : Rgb := mkC f0 f0 f0 f0.

Lemma weighted_sum_fold l :
  fold_left (fun acc '(k, c) => add_weighted k c acc) l zero4 = weighted_sum l.
Proof.
  unfold weighted_sum, weighted_channel.
  enough (H : forall a, fold_left (fun acc '(k, c) => add_weighted k c acc) l a =
    mkC (fold_left (fun acc '(k, c) => fadd acc (fmul k (d0 c))) l (d0 a))
        (fold_left (fun acc '(k, c) => fadd acc (fmul k (d1 c))) l (d1 a))
        (fold_left (fun acc '(k, c) => fadd acc (fmul k (d2 c))) l (d2 a))
        (fold_left (fun acc '(k, c) => fadd acc (fmul k (d3 c))) l (d3 a))) by apply H.
  induction l as [|[k c] l IH]; intros a; [destruct a; reflexivity|].
  cbn [fold_left]. rewrite IH. reflexivity.
Qed.

Lemma kernel_apply_eq N k d : square N k -> square N d ->
  kernel_apply N k d = Ok (weighted_sum (combine (concat k) (concat d))).
Proof.
  intros Sk Sd. pose proof (square_Forall2 _ _ _ Sk Sd) as F2.
  unfold kernel_apply. destruct Sk as [Ek Fk], Sd as [Ed Fd].
  transitivity (for_ (combine k d) (fun '(rk, rd) acc => for_ (combine rk rd) (fun '(kv, c) acc => Ok (add_weighted kv c acc)) acc) zero4).
  - rewrite <- (for_idx2 k d (fun rk rd acc => for_ (combine rk rd) (fun '(kv, c) acc => Ok (add_weighted kv c acc)) acc)) by lia.
    rewrite Ek. apply for_ext. intros y s Hy. apply zrange_In in Hy.
    destruct (square_row N k y) as [rk [Erk Lrk]]; [split; auto|lia|].
    destruct (square_row N d y) as [rd [Erd Lrd]]; [split; auto|lia|].
    rewrite Erk, Erd. cbn [bind].
    rewrite <- (for_idx2 rk rd (fun kv c acc => Ok (add_weighted kv c acc))) by lia.
    rewrite Lrk. apply for_ext. intros x s' Hx. unfold cell. rewrite Erk, Erd. reflexivity.
  - rewrite combine_concat by auto. rewrite <- weighted_sum_fold.
    transitivity (for_ (concat (map (fun '(a, b) => combine a b) (combine k d))) (fun '(kv, c) acc => Ok (add_weighted kv c acc)) zero4).
    + rewrite for_concat, for_map. apply for_ext. intros [rk rd] s _. reflexivity.
    + rewrite <- for_fold with (g := fun p acc => let '(kv, c) := p in add_weighted kv c acc).
      * apply for_ext. intros [kv c] s _. reflexivity.
Qed.

(** * Multiplication is commutative, bit for bit *)

Lemma fmul_comm x y : fmul x y = fmul y x.
Proof.
  unfold fmul. apply B2SF_inj.
  destruct x as [sx|sx| |sx mx ex Hx], y as [sy|sy| |sy my ey Hy]; cbn [Bmult B2SF]; rewrite ?(xorb_comm sx sy); try reflexivity.
  unfold Bmult. rewrite !B2SF_SF2B. rewrite (xorb_comm sx sy), (Pos.mul_comm mx my), (Z.add_comm ex ey). reflexivity.
Qed.

Lemma add_weighted_dyn_eq c k acc : add_weighted_dyn c k acc = add_weighted k c acc.
Proof.
  unfold add_weighted_dyn, add_weighted.
  rewrite (fmul_comm (d0 c)), (fmul_comm (d1 c)), (fmul_comm (d2 c)), (fmul_comm (d3 c)). reflexivity.
Qed.

(** * The run-time sized convolution *)

Lemma neighbourhood_total {T} m (b : PixelBuffer T) w h x y : valid b -> nonempty b ->
  exists ps, neighbourhood m b w h x y = Ok ps /\ length ps = length (row_major w h).
Proof.
  intros V NE. unfold neighbourhood.
  destruct (map_res_total (fun '(tx, ty) =>
             get_pixel m b (Z.max 0 (Z.min (x - w / 2 + tx) (width b - 1)))
                           (Z.max 0 (Z.min (y - h / 2 + ty) (height b - 1)))) (row_major w h)) as [ps Hps].
  - intros [tx ty] _. apply get_pixel_inside; auto. destruct NE. unfold inside. lia.
  - exists ps. split; auto. eapply map_res_length; eauto.
Qed.

Lemma for_pixels {A B S} (g : A -> res B) (f : A -> B -> S -> S) l bs s :
  map_res g l = Ok bs ->
  for_ l (fun a s => b <- g a; Ok (f a b s)) s = Ok (fold_left (fun s '(a, b) => f a b s) (combine l bs) s).
Proof.
  revert bs s. induction l as [|a l IH]; intros bs s H.
  - inversion H; subst. reflexivity.
  - cbn [map_res] in H. apply bind_inv in H. destruct H as [b [Hb H]].
    apply bind_inv in H. destruct H as [r [Hr H]]. inversion H; subst.
    cbn [for_ combine fold_left]. rewrite Hb. cbn [bind]. apply IH. auto.
Qed.

Lemma fold_combine3 {A B C S} (f : B -> C -> S -> S) (l : list A) (ks : list B) (cs : list C) s :
  length l = length ks -> length l = length cs ->
  fold_left (fun s '(p, c) => f (snd p) c s) (combine (combine l ks) cs) s
  = fold_left (fun s '(k, c) => f k c s) (combine ks cs) s.
Proof.
  revert ks cs s. induction l as [|a l IH]; intros [|k ks] [|c cs] s E1 E2; try discriminate; [reflexivity|].
  cbn in *. apply IH; lia.
Qed.

Lemma kernel_enumerate_eq kd w h : 0 < w -> 0 < h -> w * h <= 4294967295 -> zlen kd = w * h ->
  kernel_enumerate (mkKD kd w h) = Ok (combine (row_major w h) kd).
Proof.
  intros Hw Hh Hb E. unfold kernel_enumerate. cbn [kwidth kdata].
  destruct (enumerate_from_ok w kd 0) as [r [Hr [Hs Hf]]]; [lia|lia|lia|].
  rewrite Hr. f_equal. rewrite (combine_fst_snd r), Hs, Hf. f_equal.
  rewrite row_major_zrange by lia. rewrite Z.add_0_l, E. reflexivity.
Qed.

Lemma map_res_combine_fst {A B C} (f : A -> res B) (l : list A) (d : list C) :
  length l = length d -> map_res (fun p => f (fst p)) (combine l d) = map_res f l.
Proof.
  revert d. induction l as [|a l IH]; intros [|c d] E; try discriminate; [reflexivity|].
  cbn. rewrite IH by (cbn in E; lia). reflexivity.
Qed.

Lemma combine_length_eq {A B} (l : list A) (d : list B) : length l = length d -> length (combine l d) = length l.
Proof. intros E. rewrite combine_length. lia. Qed.

Lemma get_kernel_value_eq m m' (b : PixelBuffer Rgb) kd w h x y : valid b -> inside b x y ->
  0 < w <= 1073741823 -> 0 < h <= 1073741823 -> w * h <= 4294967295 -> zlen kd = w * h ->
  exists ps, neighbourhood m' b w h x y = Ok ps /\
    get_kernel_value m b x y (mkKD kd w h) = Ok (weighted_sum (combine kd ps)).
Proof.
  intros V I Hw Hh Hb E.
  assert (NE : nonempty b) by (unfold inside in I; unfold nonempty; lia).
  destruct (neighbourhood_total m' b w h x y V NE) as [ps [Hps Lps]].
  exists ps. split; [auto|].
  assert (Lk : length (row_major w h) = length kd).
  { pose proof (row_major_length w h). unfold zlen in *. lia. }
  unfold get_kernel_value. rewrite kernel_enumerate_eq by lia. cbn [bind].
  unfold get_offset_x, get_offset_y. cbn [kwidth kheight].
  rewrite !as_i32_id by lia.
  pose proof (valid_bounds b V) as [Bw [Bh _]].
  rewrite (for_ext _ _ (fun p acc => c <- (fun p => get_pixel m' b (Z.max 0 (Z.min (x - w / 2 + fst (fst p)) (width b - 1)))
                           (Z.max 0 (Z.min (y - h / 2 + snd (fst p)) (height b - 1)))) p; Ok ((fun (p : Z * Z * f32) c acc => add_weighted (snd p) c acc) p c acc))).
  - erewrite for_pixels.
    2:{ rewrite (map_res_combine_fst (fun q => get_pixel m' b (Z.max 0 (Z.min (x - w / 2 + fst q) (width b - 1)))
                           (Z.max 0 (Z.min (y - h / 2 + snd q) (height b - 1))))) by auto.
        rewrite <- Hps. unfold neighbourhood. apply map_res_ext. intros [tx ty] _. reflexivity. }
    f_equal. rewrite <- weighted_sum_fold.
    rewrite <- (fold_combine3 (fun k c acc => add_weighted k c acc) (row_major w h)); [|auto|lia].
    reflexivity.
  - intros [[tx ty] kv] acc Hin. apply in_combine_l in Hin. apply row_major_In in Hin.
    unfold inside in I. cbn [fst snd].
    rewrite (u32_ok m (x + tx)) by lia. cbn [bind].
    rewrite as_i32_id by lia.
    assert (Z.quot w 2 = w / 2) as -> by (apply Z.quot_div_nonneg; lia).
    assert (Z.quot h 2 = h / 2) as -> by (apply Z.quot_div_nonneg; lia).
    assert (0 <= w / 2 <= w /\ 0 <= h / 2 <= h) by (split; split; try (apply Z.div_pos; lia); apply Z.div_le_upper_bound; lia).
    rewrite i32_ok by lia. cbn [bind]. rewrite (u32_ok m (y + ty)) by lia. cbn [bind].
    rewrite as_i32_id by lia. rewrite i32_ok by lia. cbn [bind].
    rewrite get_pixel_clamped_eq by auto. unfold clampZ.
    replace (x + tx - w / 2) with (x - w / 2 + tx) by lia.
    replace (y + ty - h / 2) with (y - h / 2 + ty) by lia.
    assert (forall (e e' : res Rgb) (f g : Rgb -> res Rgb), e = e' -> (forall c, f c = g c) -> bind e f = bind e' g) as BE.
    { intros e e' f g -> Hfg. destruct e'; cbn; auto. }
    apply BE; [|intros c; f_equal; apply add_weighted_dyn_eq].
    rewrite !get_pixel_eq; auto; unfold inside; destruct NE; lia.
Qed.

Lemma apply_kernel_dyn_lemma m m' (b : PixelBuffer Rgb) kd w h : valid b ->
  0 < w <= 1073741823 -> 0 < h <= 1073741823 -> w * h <= 4294967295 -> zlen kd = w * h ->
  exists r, apply_kernel_dyn m (mkKD kd w h) b = Ok r /\ is_convolution m' b w h kd r.
Proof.
  intros V Hw Hh Hb E. unfold apply_kernel_dyn.
  destruct (map_colors_enumerated_ok b (fun x y _ => get_kernel_value m b x y (mkKD kd w h)) V) as [r [Hr [Vr [Wr [Hr' P]]]]].
  - intros m0 x y c I _. destruct (get_kernel_value_eq m m b kd w h x y) as [ps [_ Hv]]; auto. eauto.
  - exists r. split; [auto|]. repeat (split; [auto|]).
    intros x y I. destruct (get_kernel_value_eq m m' b kd w h x y) as [ps [Hps Hv]]; auto.
    exists ps. split; [auto|]. rewrite P by auto.
    destruct (get_pixel_inside m' b x y V I) as [c Hc]. rewrite Hc. cbn [bind]. auto.
Qed.

Lemma map_res_flat_map {A B C} (f : B -> res C) (g : A -> list B) l :
  map_res f (flat_map g l) = bind (map_res (fun a => map_res f (g a)) l) (fun r => Ok (concat r)).
Proof.
  assert (App : forall l1 l2, map_res f (l1 ++ l2) = bind (map_res f l1) (fun r1 => bind (map_res f l2) (fun r2 => Ok (r1 ++ r2)))).
  { induction l1 as [|a l1 IH]; intros l2; cbn [app map_res bind].
    - destruct (map_res f l2); reflexivity.
    - destruct (f a); cbn [bind]; [|reflexivity]. rewrite IH.
      destruct (map_res f l1); cbn [bind]; [|reflexivity]. destruct (map_res f l2); reflexivity. }
  induction l as [|a l IH]; [reflexivity|].
  cbn [flat_map map_res]. rewrite App, IH. destruct (map_res f (g a)); cbn [bind]; [|reflexivity].
  destruct (map_res (fun a0 => map_res f (g a0)) l); reflexivity.
Qed.

Lemma kernel_neighbourhood {T} m m' (b : PixelBuffer T) N x y : valid b -> inside b x y ->
  0 < N <= 1073741823 ->
  exists d, get_kernel m b N x y = Ok d /\ square N d /\ neighbourhood m' b N N x y = Ok (concat d).
Proof.
  intros V I HN.
  assert (NE : nonempty b) by (unfold inside in I; unfold nonempty; lia).
  pose proof (valid_bounds b V) as [Bw [Bh _]]. unfold inside in I.
  assert (0 <= N / 2 <= N) by (split; [apply Z.div_pos; lia|apply Z.div_le_upper_bound; lia]).
  rewrite (get_kernel_eq m m') by (auto; lia).
  destruct (kernel_spec_idx m' b N x y V NE) as [d [Hd [Ld Rd]]].
  exists d. split; [auto|]. split.
  - split; [lia|]. apply Forall_forall. intros row Hin. apply In_idx in Hin. destruct Hin as [i [Hi Ei]].
    destruct (Rd i) as [row' [Er [Lr _]]]; [lia|]. rewrite Ei in Er. inversion Er; subst. auto.
  - unfold neighbourhood, row_major. rewrite map_res_flat_map.
    assert (G : map_res (fun a => map_res (fun '(tx, ty) => get_pixel m' b (Z.max 0 (Z.min (x - N / 2 + tx) (width b - 1)))
                           (Z.max 0 (Z.min (y - N / 2 + ty) (height b - 1)))) (map (fun x0 : Z => (x0, a)) (zrange 0 N))) (zrange 0 N)
                = kernel_spec m' b N x y).
    { unfold kernel_spec. apply map_res_ext. intros ty _. rewrite map_res_map. apply map_res_ext. intros tx _.
      rewrite get_pixel_clamped_eq by auto. reflexivity. }
    rewrite G, Hd. reflexivity.
Qed.

Lemma apply_kernel_lemma m m' (b : PixelBuffer Rgb) N k : valid b -> 0 < N <= 1073741823 -> square N k ->
  exists r, apply_kernel m N k b = Ok r /\ is_convolution m' b N N (concat k) r.
Proof.
  intros V HN Sk. unfold apply_kernel.
  pose proof (valid_bounds b V) as [Bw [Bh _]].
  assert (Px : forall x y, inside b x y -> exists d, get_kernel m b N (as_i32 x) (as_i32 y) = Ok d /\ square N d /\ neighbourhood m' b N N x y = Ok (concat d)).
  { intros x y I. unfold inside in I. rewrite !as_i32_id by lia. apply kernel_neighbourhood; auto. }
  destruct (map_colors_enumerated_ok b (fun x y _ => buffer_k <- get_kernel m b N (as_i32 x) (as_i32 y); kernel_apply N k buffer_k) V) as [r [Hr [Vr [Wr [Hr' P]]]]].
  - intros m0 x y c I _. destruct (Px x y I) as [d [Hd [Sd _]]]. rewrite Hd. cbn [bind].
    rewrite kernel_apply_eq by auto. eauto.
  - exists r. split; [auto|]. repeat (split; [auto|]).
    intros x y I. destruct (Px x y I) as [d [Hd [Sd Hn]]]. exists (concat d). split; [auto|].
    rewrite P by auto. destruct (get_pixel_inside m' b x y V I) as [c Hc]. rewrite Hc. cbn [bind].
    rewrite Hd. cbn [bind]. apply kernel_apply_eq; auto.
Qed.

Lemma is_convolution_unique m (b : PixelBuffer Rgb) w h k r r' :
  is_convolution m b w h k r -> is_convolution m b w h k r' -> r = r'.
Proof.
  intros [V [W [H P]]] [V' [W' [H' P']]]. apply (buffer_ext m); auto; try lia.
  intros x y I. assert (I' : inside b x y) by (unfold inside in *; lia).
  destruct (P x y I') as [ps [E G]]. destruct (P' x y I') as [ps' [E' G']]. rewrite E in E'.
  inversion E'; subst. rewrite G, G'. reflexivity.
Qed.

Lemma concat_zlen {A} N (k : list (list A)) : square N k -> zlen (concat k) = N * N.
Proof.
  intros [E F]. rewrite <- E at 1. clear E. induction F as [|r k Hr F IH]; [reflexivity|].
  cbn [concat]. rewrite zlen_app, zlen_cons, IH. lia.
Qed.

Lemma static_dyn_same m m' (b : PixelBuffer Rgb) N k : valid b -> 0 < N <= 65535 -> square N k ->
  exists r, apply_kernel m N k b = Ok r /\ apply_kernel_dyn m' (mkKD (concat k) N N) b = Ok r.
Proof.
  intros V HN Sk.
  destruct (apply_kernel_lemma m m b N k) as [r [E C]]; auto; [lia|].
  destruct (apply_kernel_dyn_lemma m' m b (concat k) N N) as [r' [E' C']]; auto; try lia.
  { nia. } { apply concat_zlen; auto. }
  exists r. split; [auto|]. rewrite E'. f_equal. eapply is_convolution_unique; eauto.
Qed.

(** * Gaussian coefficient tables *)

Lemma for_rel {A S T} (R : S -> T -> Prop) (l : list A) f g s t : R s t ->
  (forall a s t, In a l -> R s t -> exists s' t', f a s = Ok s' /\ g a t = Ok t' /\ R s' t') ->
  exists s' t', for_ l f s = Ok s' /\ for_ l g t = Ok t' /\ R s' t'.
Proof.
  revert s t. induction l as [|a l IH]; intros s t H0 Hs.
  - exists s, t. auto.
  - destruct (Hs a s t) as [s1 [t1 [E1 [E2 H1]]]]; [left; auto|auto|].
    cbn [for_]. rewrite E1, E2. cbn [bind]. apply IH; [auto|]. intros. apply Hs; auto. right; auto.
Qed.

Lemma idx_concat {A} N (k : list (list A)) x y : square N k -> 0 <= x < N -> 0 <= y < N ->
  idx (concat k) (x + y * N) = cell k y x.
Proof.
  intros [E F] Hx. rewrite <- E at 1. clear E. revert y. induction F as [|r k Hr F IH]; intros y Hy.
  - cbn in Hy. unfold zlen in Hy; cbn in Hy; lia.
  - cbn [concat]. rewrite zlen_cons in Hy.
    assert (y = 0 \/ 0 < y) as [-> | P] by lia.
    + rewrite idx_app_l by lia. unfold cell. cbn [idx Z.ltb Z.compare Z.to_nat nth_error bind]. f_equal. lia.
    + rewrite idx_app_r by nia. rewrite Hr.
      replace (x + y * N - N) with (x + (y - 1) * N) by lia. rewrite IH by lia.
      unfold cell. f_equal. rewrite !idx_nth by lia.
      replace (Z.to_nat y) with (S (Z.to_nat (y - 1))) by lia. reflexivity.
Qed.

Lemma set_cell_concat {A} N (k : list (list A)) x y v : square N k -> 0 <= x < N -> 0 <= y < N ->
  exists k', set_cell k y x v = Ok k' /\ square N k' /\ upd (concat k) (x + y * N) v = Ok (concat k').
Proof.
  intros S Hx Hy. destruct (square_row N k y S Hy) as [row [Er Lr]].
  destruct (upd_ok row x v) as [row' [Eu [Lu Pu]]]; [lia|].
  destruct S as [E F].
  destruct (upd_ok k y row') as [k' [Ek [Lk Pk]]]; [lia|].
  assert (S' : square N k').
  { split; [lia|]. apply Forall_forall. intros q Hq. apply In_idx in Hq. destruct Hq as [i [Hi Ei]].
    rewrite Pk in Ei. destruct (i =? y); [inversion Ei; subst; lia|].
    rewrite Forall_forall in F. apply F. eapply idx_In; eauto. }
  exists k'. unfold set_cell. rewrite Er. cbn [bind]. rewrite Eu. cbn [bind]. split; [auto|]. split; [auto|].
  assert (Lc : zlen (concat k) = N * N) by (apply concat_zlen; split; auto).
  destruct (upd_ok (concat k) (x + y * N) v) as [c' [Ec [Lc' Pc]]]; [rewrite Lc; apply pos_bounds; auto|].
  rewrite Ec. f_equal. apply list_ext; [rewrite Lc', Lc; symmetry; apply concat_zlen; auto|].
  intros j Hj. rewrite Pc. rewrite Lc', Lc in Hj.
  assert (HN : 0 < N) by lia.
  rewrite (pos_split N j) by lia.
  assert (Hx' : 0 <= j mod N < N) by (apply Z.mod_pos_bound; lia).
  assert (Hy' : 0 <= j / N < N) by (apply div_bound; lia).
  set (a := j mod N) in *. set (bb := j / N) in *. clearbody a bb. clear Hj j.
  rewrite (idx_concat N k') by auto. rewrite (idx_concat N k) by (auto; split; auto).
  unfold cell. rewrite Pk.
  destruct (Z.eqb_spec (a + bb * N) (x + y * N)) as [Eq | Ne].
  - apply pos_inj in Eq; [|auto|auto]. destruct Eq as [-> ->]. rewrite Z.eqb_refl. cbn [bind]. rewrite Pu, Z.eqb_refl. reflexivity.
  - destruct (Z.eqb_spec bb y) as [-> | Nb]; [|reflexivity].
    rewrite Er. cbn [bind]. rewrite Pu. destruct (Z.eqb_spec a x) as [-> | Na]; [lia|]. reflexivity.
Qed.

Lemma concat_repeat {A} (a : A) n k : concat (repeat (repeat a n) k) = repeat a (k * n).
Proof. induction k as [|k IH]; [reflexivity|]. cbn. rewrite IH, repeat_app. reflexivity. Qed.

Lemma square_repeat {A} N (a : A) : 0 <= N -> square N (repeat (repeat a (Z.to_nat N)) (Z.to_nat N)).
Proof.
  intros H. split; [rewrite zlen_repeat; lia|]. apply Forall_forall. intros r Hr.
  apply repeat_spec in Hr. subst. rewrite zlen_repeat. lia.
Qed.

Lemma concat_map_map {A B} (f : A -> B) k : concat (map (map f) k) = map f (concat k).
Proof. symmetry. apply concat_map. Qed.

Lemma square_map {A B} (f : A -> B) N k : square N k -> square N (map (map f) k).
Proof.
  intros [E F]. split; [rewrite zlen_map; auto|]. apply Forall_forall. intros r Hr.
  apply in_map_iff in Hr. destruct Hr as [r0 [<- Hr]]. rewrite zlen_map. rewrite Forall_forall in F; auto.
Qed.

Lemma gaussian_same L m N sigma : 0 < N <= 65535 ->
  exists k, new_gaussian L N sigma = Ok k /\ square N k /\
    new_gaussian_dyn L m N sigma = Ok (mkKD (concat k) N N).
Proof.
  intros HN. unfold new_gaussian, new_gaussian_dyn.
  assert (Z.quot N 2 = N / 2) as -> by (apply Z.quot_div_nonneg; lia).
  rewrite u32_ok by nia. cbn [bind].
  set (o := N / 2).
  destruct (for_rel (fun '(d, sum) '(d', sum') => square N d /\ d' = concat d /\ sum' = sum)
    (zrange (- o) (N - o))
    (fun x st =>
      for_ (zrange (- o) (N - o)) (fun y '(data, sum) =>
        let v := gaussian_value L (gaussian_s sigma) x y in
        data' <- set_cell data (y + o) (x + o) v;
        Ok (data', fadd sum v)) st)
    (fun x st =>
      for_ (zrange (- o) (N - o)) (fun y '(data, sum) =>
        let v := gaussian_value L (gaussian_s sigma) x y in
        let index := (x + o) + (y + o) * N in
        data' <- upd data index v;
        Ok (data', fadd sum v)) st)
    (repeat (repeat f0 (Z.to_nat N)) (Z.to_nat N), f0)
    (repeat f0 (Z.to_nat (N * N)), f0)) as [[d sum] [[d' sum'] [E1 [E2 [S [Ec Es]]]]]].
  - split; [apply square_repeat; lia|]. split; [|reflexivity]. rewrite concat_repeat. f_equal. lia.
  - intros x s t Hx H. apply zrange_In in Hx. apply for_rel; [exact H|].
    intros y [d s1] [d' s1'] Hy [S [-> ->]]. apply zrange_In in Hy. cbv zeta.
    destruct (set_cell_concat N d (x + o) (y + o) (gaussian_value L (gaussian_s sigma) x y) S) as [k' [Ek [S' Eu]]]; [lia|lia|].
    exists (k', fadd s1 (gaussian_value L (gaussian_s sigma) x y)), (concat k', fadd s1 (gaussian_value L (gaussian_s sigma) x y)).
    rewrite Ek, Eu. cbn [bind]. auto.
  - cbv zeta in E1, E2 |- *. rewrite E1, E2. cbn [bind]. subst. eexists. split; [reflexivity|]. split; [apply square_map; auto|].
    unfold kernel_dyn_new. rewrite u32_ok by nia. cbn [bind]. rewrite concat_map_map.
    rewrite assert_true; [reflexivity|]. apply Z.eqb_eq. rewrite zlen_map. apply concat_zlen; auto.
Qed.

Lemma blur_size_ok m r : 0 <= r <= 2147483647 -> blur_size m r = Ok (2 * r + 1).
Proof. intros H. unfold blur_size. rewrite u32_ok by lia. cbn [bind]. rewrite u32_ok by lia. f_equal; lia. Qed.

Lemma blur_is_dyn L m m' (b : PixelBuffer Rgb) r sigma : valid b -> 0 <= r <= 32767 ->
  exists k, new_gaussian_dyn L m' (2 * r + 1) (sigma_or_default sigma (2 * r + 1)) = Ok k /\
    gaussian_blur L m b r sigma = apply_kernel_dyn m' k b.
Proof.
  intros V Hr. unfold gaussian_blur. rewrite blur_size_ok by lia. cbn [bind].
  assert (Hn : 0 < 2 * r + 1 <= 65535) by lia.
  set (n := 2 * r + 1) in *. clearbody n. clear Hr r. cbv zeta.
  destruct (gaussian_same L m' n (sigma_or_default sigma n)) as [k [Ek [Sk Ed]]]; [lia|].
  exists (mkKD (concat k) n n). split; [auto|].
  destruct (static_dyn_same m m' b n k V) as [res [E1 E2]]; [lia|auto|].
  rewrite E2.
  destruct (Z.eqb_spec n 3) as [E3 | N3]; [subst n; rewrite Ek; auto|].
  destruct (Z.eqb_spec n 5) as [E5 | N5]; [subst n; rewrite Ek; auto|].
  destruct (Z.eqb_spec n 7) as [E7 | N7]; [subst n; rewrite Ek; auto|].
  destruct (gaussian_same L m n (sigma_or_default sigma n)) as [k2 [Ek2 [Sk2 Ed2]]]; [lia|].
  rewrite Ek2 in Ek. inversion Ek; subst. rewrite Ed2. cbn [bind].
  destruct (static_dyn_same m m b n k V) as [res' [E1' E2']]; [lia|auto|].
  rewrite E2'. f_equal. rewrite E1 in E1'. inversion E1'; auto.
Qed.
