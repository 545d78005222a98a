(** Proofs for C98: [optimize_saturation] on a whole image, and what the sum in
    f32 does to large ones. *)
From Coq Require Import Reals Lra Lia ZArith Bool Psatz List.
From Flocq Require Import Core.Core IEEE754.BinarySingleNaN.
From Verif Require Import Base BaseLemmas F32 F32Lemmas PixelBuffer BufferSpec PixelBufferProofs Color ColorSpec ColorProofs MeaningSpec ConvSpec EnhanceSpec Approx OpMeaningProofs HslMeaning HslOps HsvMeaning SrgbMeaning LinearConv LabCurve LabMeaning LchMeaning F64Lemmas Kernel Ops Gauss2Proofs HistogramProofs TemperatureProofs Enhance Saturate.
Import ListNotations.
Open Scope R_scope.

Definition sat_of (L : libm) (mode : saturation_mode) (c : Rgb) : f32 :=
  match mode with SHsl => d1 (rgb_to_hsl c) | SHsv => d1 (rgb_to_hsv c) | SLch => d1 (to_lch L D65 O2 KRgb c) end.
Definition sat_px (L : libm) (mode : saturation_mode) (g : f32) (c : Rgb) : Rgb :=
  match mode with SHsl => saturate_hsl L g c | SHsv => saturate_hsv L g c | SLch => saturate_lch L g c end.

Lemma threehalf_R : fin (dec 15 10) /\ B2R (dec 15 10) = 3 / 2.
Proof. fval (dec 15 10) A. split; [assumption|]. rewrite A. lra. Qed.
Lemma sat_gamma (offset avg : f32) K : fin offset -> / 2 <= B2R offset <= 5 / 4 -> 1 <= K <= 8 -> num 0 K avg ->
  let g := fadd offset (fdiv (fsub f1 avg) (dec 15 10)) in
  fin g /\ Rabs (B2R g - (B2R offset + (1 - B2R avg) * (2 / 3))) <= 20 * U.
Proof.
  intros Fo Ho K1 [Fa Ra]. cbv zeta. destruct threehalf_R as [F3 E3].
  destruct (sub_val f1 avg 7) as [FS ES]; auto with fin; try lra. { rewrite f1_R. apply Rabs_le_iff. lra. } rewrite f1_R in ES.
  set (d := fsub f1 avg) in *. clearbody d. apply Rabs_le_iff in ES.
  destruct (div_val d (dec 15 10) 5) as [FD ED]; auto; try lra. { rewrite E3. apply Rabs_le_iff. lra. } rewrite E3 in ED.
  set (q := fdiv d (dec 15 10)) in *. clearbody q. apply Rabs_le_iff in ED.
  destruct (add_val offset q 7) as [FP EP]; auto; try lra. { apply Rabs_le_iff. lra. }
  split; [exact FP|]. apply Rabs_le_iff in EP. apply Rabs_le_iff. lra.
Qed.
(** For saturations up to 1 the gamma cannot leave [offset, offset + 2/3] by rounding. *)
Lemma sat_gamma_low (offset avg : f32) : fin offset -> / 2 <= B2R offset <= 5 / 4 -> num 0 1 avg ->
  / 2 <= B2R (fadd offset (fdiv (fsub f1 avg) (dec 15 10))) <= 2.
Proof.
  intros Fo Ho [Fa Ra]. destruct threehalf_R as [F3 E3].
  destruct (sat_gamma offset avg 1 Fo Ho ltac:(lra) (conj Fa Ra)) as [_ E].
  destruct (fsub_num f1 avg 0 1) as [[FS RS] _]; auto with fin fmt. { rewrite f1_R. lra. }
  set (d := fsub f1 avg) in *. destruct (fdiv_num d (dec 15 10) 0 1) as [[FD RD] _]; auto with fmt. { rewrite E3. lra. } { rewrite E3. lra. }
  set (q := fdiv d (dec 15 10)) in *. apply Rabs_le_iff in E. split; [|lra].
  assert (FO : fmt (B2R offset)) by apply fmt_B2R.
  destruct (fadd_num offset q (B2R offset) 3) as [[_ R] _]; auto with fmt; lra.
Qed.
Lemma sat_parts L mode c : (mode = SLch -> accurate_powf L /\ accurate_powf_above L /\ accurate_angles L) -> in_gamut c ->
  num 0 (match mode with SLch => 8 | _ => 1 end) (sat_of L mode c).
Proof.
  intros HL G. destruct mode; cbn [sat_of].
  - destruct (rgb_to_hsl_range c G) as (_ & R1 & _). now apply in01_num.
  - destruct (hsv_parts c G) as (R1 & _). now apply in01_num.
  - destruct (HL eq_refl) as (A & B & D). now destruct (lch_light L c A B D G) as (_ & _ & R).
Qed.
Lemma saturation_all L (b : PixelBuffer Rgb) offset mode (P : f32 -> Rgb -> Rgb -> Prop) :
  (mode = SLch -> accurate_powf L /\ accurate_powf_above L /\ accurate_angles L) ->
  valid b -> Forall in_gamut (data b) -> fin offset -> / 2 <= B2R offset <= 5 / 4 ->
  (forall g c, fin g -> / 2 <= B2R g <= 2 -> in_gamut c -> P g c (sat_px L mode g c)) ->
  exists (g : f32) r, optimize_saturation L b offset mode = Ok r /\ valid r /\ width r = width b /\ height r = height b /\
  (nonempty b -> fin g /\ (mode <> SLch -> / 2 <= B2R g <= 2) /\ ((width b * height b <= 4194304)%Z ->
    Rabs (B2R g - (B2R offset + (1 - mean (fun c => B2R (sat_of L mode c)) (data b)) * (2 / 3))) <=
      (match mode with SLch => 8 | _ => 1 end) * (IZR (width b * height b) + 12) / 8388608)) /\
  (/ 2 <= B2R g <= 2 -> forall m x y c, inside b x y -> get_pixel m b x y = Ok c -> exists o, get_pixel m r x y = Ok o /\ P g c o).
Proof.
  intros HL Vb G Fo Ho HP.
  set (g := fadd offset (fdiv (fsub f1 (avg_saturation L b mode)) (dec 15 10))). exists g.
  assert (E : optimize_saturation L b offset mode = Ok (convert (sat_px L mode g) b)).
  { unfold optimize_saturation. cbv zeta. fold g. rewrite map_pure_conv. reflexivity. }
  eexists. split; [exact E|]. destruct (same_dims_convert (sat_px L mode g) b Vb) as (A1 & A2 & A3). split; [exact A1|]. split; [exact A2|]. split; [exact A3|].
  assert (K1 : unit_K (match mode with SLch => 8 | _ => 1 end)) by (destruct mode; [now left|now left|now right]).
  assert (FS : Forall (fun c => num 0 (match mode with SLch => 8 | _ => 1 end) (sat_of L mode c)) (data b)).
  { eapply Forall_impl; [|exact G]. intros c Gc. now apply sat_parts. }
  pose proof (len_ok b Vb) as LN. pose proof (proj2 Vb) as LL.
  assert (M : data b <> nil -> num 0 (match mode with SLch => 8 | _ => 1 end) (avg_saturation L b mode) /\ ((zlen (data b) <= 4194304)%Z -> 
    Rabs (B2R (avg_saturation L b mode) - mean (fun c => B2R (sat_of L mode c)) (data b)) <= (match mode with SLch => 8 | _ => 1 end) * (IZR (zlen (data b)) + 1) / 8388608)).
  { intros N. exact (mean32 (sat_of L mode) _ (data b) K1 N (proj2 LN) FS). }
  assert (FG : data b <> nil -> fin g).
  { intros N. destruct (M N) as [M1 _]. apply (sat_gamma offset (avg_saturation L b mode) _ Fo Ho) in M1; [apply M1|destruct mode; lra]. }
  split.
  - intros [N1 N2]. assert (N : data b <> nil) by (intros Q; rewrite Q in LL; change (zlen (@nil Rgb)) with 0%Z in LL; nia).
    destruct (M N) as [M1 M2]. split; [auto|]. split. { intros Q. apply sat_gamma_low; auto. destruct mode; [exact M1|exact M1|now elim Q]. }
    intros SZ. specialize (M2 ltac:(lia)). rewrite LL in M2.
    assert (K8 : 1 <= (match mode with SLch => 8 | _ => 1 end) <= 8) by (destruct mode; lra).
    destruct (sat_gamma offset (avg_saturation L b mode) _ Fo Ho K8 M1) as [_ E1]. fold g in E1.
    assert (1 <= IZR (width b * height b)) by (apply IZR_le; nia).
    set (n := IZR (width b * height b)) in *. clearbody n. apply Rabs_le_iff in M2, E1. apply Rabs_le_iff.
    destruct mode; lra.
  - intros Hg m x y c I PX. eexists. split; [exact (convert_pixel _ b m x y c Vb I PX)|].
    assert (IN : In c (data b)). { rewrite get_pixel_eq in PX by auto. eapply idx_In; exact PX. }
    apply HP; auto. { apply FG. intros Q. rewrite Q in IN. exact IN. } rewrite Forall_forall in G. now apply G.
Qed.

(** ** Large images: a sum of 1/2s in f32 stops growing at 2^23 *)
Definition rose : Rgb := mkC (dec 3 4) (dec 1 4) (dec 1 4) f1.
Lemma rose_gamut : in_gamut rose.
Proof. repeat split; vm_compute; reflexivity. Qed.
Lemma rose_hsl : let h := rgb_to_hsl rose in B2R (d0 h) = 0 /\ (fin (d1 h) /\ B2R (d1 h) = / 2) /\ B2R (d2 h) = / 2.
Proof.
  cbv zeta. assert (EA0 : B2R (d0 (rgb_to_hsl rose)) = 0) by (vm_compute; reflexivity). fval (d1 (rgb_to_hsl rose)) EA1. fval (d2 (rgb_to_hsl rose)) EA2.
  rewrite EA0, EA1, EA2. repeat split; try assumption; lra.
Qed.
Lemma half_fmt k : (0 <= k <= 16777216)%Z -> fmt (IZR k / 2).
Proof.
  intros K. destruct (Z.eq_dec k 16777216) as [->|N].
  - replace (16777216 / 2) with (IZR 8388608 * bpow radix2 0) by (cbn [bpow]; lra). apply fmt_F2R; lia.
  - replace (IZR k / 2) with (IZR k * bpow radix2 (-1)) by (cbn [bpow]; unfold Rdiv; f_equal). apply fmt_F2R; lia.
Qed.
Lemma stall_rnd : rnd (8388608 + / 2) = 8388608.
Proof.
  assert (A : fin (ofZ 8388608) /\ B2R (ofZ 8388608) = 8388608) by (fval (ofZ 8388608) A; split; [assumption|rewrite A; change (bpow radix2 0) with 1; lra]). destruct A as [A1 A2].
  assert (FH : fin (dec 1 2)) by reflexivity.
  destruct (fadd_ok (ofZ 8388608) (dec 1 2) (bpow radix2 126)) as [B1 B2]; auto with fin. { apply (uo_fmt _ _ uo_big). }
  { rewrite A2, half_R, big_R, p126. apply Rabs_le_iff. lra. }
  rewrite A2, half_R in B2. rewrite <- B2. clear B1 B2. fval (fadd (ofZ 8388608) (dec 1 2)) CC. rewrite CC. change (bpow radix2 0) with 1. lra.
Qed.
Lemma stall (h : f32) : fin h -> B2R h = / 2 -> forall n s k, (0 <= k <= 16777216)%Z -> fin s -> B2R s = IZR k / 2 ->
  let o := fold_left (fun s (_ : Rgb) => fadd s h) (repeat rose n) s in
  fin o /\ B2R o = IZR (Z.min 16777216 (k + Z.of_nat n)) / 2.
Proof.
  intros Fh Eh. induction n as [|n IH]; intros s k K Fs Es; cbn [repeat fold_left].
  { replace (Z.min 16777216 (k + Z.of_nat 0)) with k by lia. split; assumption. }
  assert (KR : 0 <= IZR k <= 16777216) by (split; apply IZR_le; lia).
  destruct (fadd_ok s h (bpow radix2 126)) as [F E]; auto. { apply (uo_fmt _ _ uo_big). } { rewrite big_R, p126. apply Rabs_le_iff. lra. }
  rewrite Es, Eh in E. destruct (Z.eq_dec k 16777216) as [->|N].
  - replace (16777216 / 2 + / 2) with (8388608 + / 2) in E by lra. rewrite stall_rnd in E.
    destruct (IH (fadd s h) 16777216%Z ltac:(lia) F ltac:(rewrite E; lra)) as [F2 E2]. split; [exact F2|]. rewrite E2. do 2 f_equal. lia.
  - replace (IZR k / 2 + / 2) with (IZR (k + 1) / 2) in E by (rewrite plus_IZR; lra). rewrite (rnd_id _ (half_fmt (k + 1) ltac:(lia))) in E.
    destruct (IH (fadd s h) (k + 1)%Z ltac:(lia) F E) as [F2 E2]. split; [exact F2|]. rewrite E2. do 2 f_equal. lia.
Qed.
Lemma rose_fold n s : fold_left (fun s c => fadd s (d1 (rgb_to_hsl c))) (repeat rose n) s = fold_left (fun s (_ : Rgb) => fadd s (d1 (rgb_to_hsl rose))) (repeat rose n) s.
Proof.
  generalize (eq_refl (d1 (rgb_to_hsl rose))). generalize (d1 (rgb_to_hsl rose)) at 2 3. intros h E. revert s.
  induction n as [|n IH]; intros s; cbn [repeat fold_left]; [reflexivity|]. rewrite IH, E. reflexivity.
Qed.
(** The average that the code finds for [n] pixels of this colour. *)
Lemma rose_avg n w h : (1 <= n <= 1073741823)%Z -> let b := mkPB w h (repeat rose (Z.to_nat n)) in forall L,
  avg_saturation L b SHsl = fdiv (fold_left (fun s (_ : Rgb) => fadd s (d1 (rgb_to_hsl rose))) (repeat rose (Z.to_nat n)) f0) (ofZ n) /\
  let S := fold_left (fun s (_ : Rgb) => fadd s (d1 (rgb_to_hsl rose))) (repeat rose (Z.to_nat n)) f0 in
  fin S /\ B2R S = IZR (Z.min 16777216 n) / 2.
Proof.
  intros N b L. split.
  - unfold avg_saturation, b. cbv zeta. cbn [data]. rewrite rose_fold. f_equal. unfold zlen. rewrite repeat_length, Z2Nat.id by lia. reflexivity.
  - destruct rose_hsl as (_ & (F & E) & _). cbv zeta. destruct (stall _ F E (Z.to_nat n) f0 0%Z ltac:(lia) eq_refl) as [A B]; [rewrite f0_R; lra|].
    split; [exact A|]. rewrite B. do 2 f_equal. lia.
Qed.
Lemma rose_result L n w h q : accurate_powf L -> bounded_powf L -> (1 <= n <= 33554432)%Z -> (w * h = n)%Z -> (0 < w)%Z -> (0 < h)%Z -> fmt q -> 0 <= q <= 1 ->
  (fin (ofZ n) /\ B2R (ofZ n) = IZR n) -> IZR (Z.min 16777216 n) / 2 / IZR n = q ->
  let b := mkPB w h (repeat rose (Z.to_nat n)) in exists (g : f32) r o, optimize_saturation L b f1 SHsl = Ok r /\
  (forall m x y, inside b x y -> get_pixel m b x y = Ok rose -> get_pixel m r x y = Ok o) /\
  Rabs (B2R g - (1 + (1 - q) * (2 / 3))) <= 20 * U /\ close (/ 131072) (/ 2 + gamma_formula (B2R g) (/ 2) / 2) (d0 o).
Proof.
  intros AL BL N WH W H FQ Q [Fn En] EQ b.
  destruct (rose_avg n w h ltac:(lia) L) as [EA [FS ES]]. fold b in EA.
  assert (N0 : 1 <= IZR n) by (apply IZR_le; lia).
  destruct (fdiv_num (fold_left (fun s (_ : Rgb) => fadd s (d1 (rgb_to_hsl rose))) (repeat rose (Z.to_nat n)) f0) (ofZ n) q q) as [[FA RA] _]; auto. { rewrite En. lra. } { rewrite ES, En, EQ. lra. }
  rewrite <- EA in FA, RA. assert (AV : B2R (avg_saturation L b SHsl) = q) by lra.
  destruct (sat_gamma f1 (avg_saturation L b SHsl) 1 eq_refl) as [FG EG]; [rewrite f1_R; lra|lra|split; [exact FA|lra]|]. rewrite AV, f1_R in EG.
  set (g := fadd f1 (fdiv (fsub f1 (avg_saturation L b SHsl)) (dec 15 10))) in *. exists g, (convert (saturate_hsl L g) b), (saturate_hsl L g rose).
  split. { unfold optimize_saturation. cbv zeta. fold g. rewrite map_pure_conv. reflexivity. }
  assert (Vb : valid b). { split; [right; unfold b; cbn [width height]; lia|]. unfold b, zlen. cbn [data width height]. rewrite repeat_length, Z2Nat.id by lia. lia. }
  split. { intros m x y I P. exact (convert_pixel _ b m x y rose Vb I P). } split; [exact EG|].
  pose proof EG as EG'. apply Rabs_le_iff in EG'.
  destruct (saturate_hsl_meaning L g rose AL BL rose_gamut FG ltac:(lra)) as [(K & _) _]. destruct rose_hsl as (H0 & (_ & H1) & H2).
  rewrite H0, H1, H2 in K. unfold hsl_channel, hue_red, gamma_at in K. rewrite (limited_hi (Rabs (6 * 0 - 3) - 1)) in K.
  2:{ rewrite (Rabs_left (6 * 0 - 3)); lra. }
  replace (2 * / 2 - 1) with 0 in K by lra. rewrite Rabs_R0 in K. replace (1 + (B2R g - 1) * (1 - 0)) with (B2R g) in K by lra.
  replace (/ 2 + gamma_formula (B2R g) (/ 2) * (1 - 0) * (1 - / 2)) with (/ 2 + gamma_formula (B2R g) (/ 2) / 2) in K by lra. exact K.
Qed.
Lemma half_gamma (p q : Z) : (0 < p)%Z -> (0 < q)%Z -> gamma_formula (IZR p / IZR q) (/ 2) ^ Z.to_nat p = (/ 2) ^ Z.to_nat q.
Proof.
  intros P Q. assert (0 < IZR p) by (apply IZR_lt; lia). assert (0 < IZR q) by (apply IZR_lt; lia).
  unfold gamma_formula. destruct Req_EM_T; [lra|]. rewrite <- (Rpower_pow (Z.to_nat p)) by (apply exp_pos). rewrite Rpower_mult.
  rewrite <- (Rpower_pow (Z.to_nat q)) by lra. f_equal. rewrite !INR_IZR_INZ, !Z2Nat.id by lia. field. lra.
Qed.
Lemma half_gamma_small : gamma_formula (4 / 3) (/ 2) <= 595 / 1000.
Proof.
  pose proof (half_gamma 4 3 ltac:(lia) ltac:(lia)) as E. change (Z.to_nat 4) with 4%nat in E. change (Z.to_nat 3) with 3%nat in E.
  set (x := gamma_formula (4 / 3) (/ 2)) in *. clearbody x. destruct (Rle_lt_dec x (595 / 1000)); [assumption|exfalso]. cbn [pow] in E.
  assert ((595 / 1000) * (595 / 1000) < x * x) by nra. assert ((595 / 1000) * (595 / 1000) * ((595 / 1000) * (595 / 1000)) < x * x * (x * x)) by nra. lra.
Qed.
Lemma half_gamma_large : 6299 / 10000 <= gamma_formula (3 / 2) (/ 2).
Proof.
  pose proof (half_gamma 3 2 ltac:(lia) ltac:(lia)) as E. change (Z.to_nat 2) with 2%nat in E. change (Z.to_nat 3) with 3%nat in E.
  assert (0 < gamma_formula (3 / 2) (/ 2)). { unfold gamma_formula. destruct Req_EM_T; [lra|]. apply exp_pos. }
  set (x := gamma_formula (3 / 2) (/ 2)) in *. clearbody x. destruct (Rle_lt_dec (6299 / 10000) x); [assumption|exfalso]. cbn [pow] in E.
  assert (x * x < (6299 / 10000) * (6299 / 10000)) by nra. assert (x * x * x < (6299 / 10000) * (6299 / 10000) * (6299 / 10000)) by nra. lra.
Qed.
Lemma size_matters L : accurate_powf L -> bounded_powf L -> exists small large r1 r2 o1 o2,
  (forall m, new_with_color m 1 1 rose = Ok small) /\ (forall m, new_with_color m 8192 4096 rose = Ok large) /\
  optimize_saturation L small f1 SHsl = Ok r1 /\ optimize_saturation L large f1 SHsl = Ok r2 /\
  (forall m, get_pixel m r1 0 0 = Ok o1 /\ get_pixel m r2 0 0 = Ok o2) /\ fin (d0 o1) /\ fin (d0 o2) /\ B2R (d0 o1) + / 64 <= B2R (d0 o2).
Proof.
  intros AL BL.
  assert (P : forall w h n m, (1 <= n <= 33554432)%Z -> (w * h = n)%Z -> (0 < w)%Z -> (0 < h)%Z -> get_pixel m (mkPB w h (repeat rose (Z.to_nat n))) 0 0 = Ok rose).
  { intros w h n m N E W H. assert (V : valid_size w h) by (right; lia). pose proof (new_with_color_valid w h rose V) as Vb. rewrite E in Vb.
    rewrite get_pixel_eq; [|exact Vb|split; cbn [width height]; lia]. cbn [width data]. replace (0 * w + 0)%Z with 0%Z by lia. 
    replace (Z.to_nat n) with (S (Z.to_nat (n - 1))) by lia. reflexivity. }
  destruct (rose_result L 1 1 1 (/ 2) AL BL ltac:(lia) eq_refl ltac:(lia) ltac:(lia)) as (g1 & r1 & o1 & E1 & P1 & G1 & [F1 K1]); auto with fmt; [lra| |rewrite Z.min_r by lia; lra|].
  { fval (ofZ 1) CC. split; [assumption|]. rewrite CC. lra. }
  destruct (rose_result L 33554432 8192 4096 (/ 4) AL BL ltac:(lia) eq_refl ltac:(lia) ltac:(lia)) as (g2 & r2 & o2 & E2 & P2 & G2 & [F2 K2]); [|lra| |rewrite Z.min_l by lia; lra|].
  { fval (dec 1 4) CC. replace (/ 4) with (B2R (dec 1 4)) by (rewrite CC; lra). apply fmt_B2R. }
  { fval (ofZ 33554432) CC. split; [assumption|]. rewrite CC. lra. }
  exists (mkPB 1 1 (repeat rose (Z.to_nat 1))), (mkPB 8192 4096 (repeat rose (Z.to_nat 33554432))), r1, r2, o1, o2.
  split. { intros m. rewrite new_with_color_ok by (right; lia). reflexivity. }
  split. { intros m. rewrite new_with_color_ok by (right; lia). replace (8192 * 4096)%Z with 33554432%Z by lia. reflexivity. }
  split; [exact E1|]. split; [exact E2|]. split.
  { intros m. split; [apply P1; [split; cbn [width height]; lia|apply P; lia] | apply P2; [split; cbn [width height]; lia|apply P; lia]]. }
  split; [exact F1|]. split; [exact F2|].
  replace (1 + (1 - / 2) * (2 / 3)) with (4 / 3) in G1 by lra. replace (1 + (1 - / 4) * (2 / 3)) with (3 / 2) in G2 by lra.
  pose proof G1 as G1'. pose proof G2 as G2'. apply Rabs_le_iff in G1', G2'.
  pose proof (gamma_shift (/ 2) (B2R g1) (4 / 3) (20 * U) 1 ltac:(lra) ltac:(lra) ltac:(lra) G1 ltac:(lra)) as S1.
  pose proof (gamma_shift (/ 2) (B2R g2) (3 / 2) (20 * U) 1 ltac:(lra) ltac:(lra) ltac:(lra) G2 ltac:(lra)) as S2.
  pose proof half_gamma_small. pose proof half_gamma_large. apply Rabs_le_iff in S1, S2, K1, K2. lra.
Qed.
