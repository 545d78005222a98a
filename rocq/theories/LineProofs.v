(** Lemmas for C134. *)
From Coq Require Import Reals ZArith List Lia Lra.
From Flocq Require Import IEEE754.BinarySingleNaN.
From Verif Require Import F32 F32Lemmas Color ColorSpec ColorProofs Approx MeaningSpec AdjustSpec LineSpec.
From Verif Require Import Base PixelBuffer Image Commands Codec CodecSpec CliSpec EndSpec.
From Verif Require CommandsSpec.
From Verif Require Import ColorThm OpMeaningProofs OpMeaningThm EndProofs AdjustProofs.
Import ListNotations.
Open Scope R_scope.

Definition lipschitz (F : R -> R) (K : R) : Prop := forall r r', 0 <= r <= 1 -> 0 <= r' <= 1 -> Rabs (F r - F r') <= K * Rabs (r - r').
Definition into01 (F : R -> R) : Prop := forall r, 0 <= r <= 1 -> 0 <= F r <= 1.

Lemma lip_compose F G K k : 0 <= K -> lipschitz F K -> lipschitz G k -> into01 G -> lipschitz (fun v => F (G v)) (K * k).
Proof.
  intros P HF HG HI r r' R R'. pose proof (HF _ _ (HI r R) (HI r' R')) as A. pose proof (HG r r' R R') as B.
  apply (Rmult_le_compat_l K) in B; [|exact P]. lra.
Qed.
Lemma lip_linear a b : lipschitz (fun v => limited (v * a + b)) (Rabs a).
Proof.
  intros r r' _ _. eapply Rle_trans; [apply limited_lip|]. replace (r * a + b - (r' * a + b)) with (a * (r - r')) by ring. rewrite Rabs_mult. apply Rle_refl.
Qed.
Lemma lip_eq F G K : (forall v, F v = G v) -> lipschitz F K -> lipschitz G K.
Proof. intros E H r r' R R'. rewrite <- !E. exact (H r r' R R'). Qed.
Lemma lip_gamma g : 0 < g <= 1 -> lipschitz (gamma_formula g) (/ g).
Proof.
  intros G r r' R R'. destruct (Req_dec r r') as [->|N]; [unfold Rminus; rewrite !Rplus_opp_r, Rabs_R0; lra|].
  assert (P : 0 < Rabs (r - r')) by (apply Rabs_pos_lt; lra).
  pose proof (gamma_smooth g (Rabs (r - r')) r r' ltac:(lra) P R R' (Rle_refl _)) as A. unfold power_error in A. destruct (Rle_dec 1 g) as [O|O]; [|lra].
  assert (g = 1) as -> by lra. rewrite Rinv_1, Rpower_1 in A by exact P. lra.
Qed.

Section Steps.
Context (L : libm) (AP : accurate_powf L).
Definition line_step (g : Rgb -> Rgb) (F : R -> R) (d : R) : Prop := forall c, in_gamut c -> in_gamut (g c) /\ channelwise d F c (g c).
Lemma step_then g F d g' F' K E : 0 <= K -> line_step g F d -> into01 F -> lipschitz F' K -> line_step g' F' E -> line_step (fun c => g' (g c)) (fun v => F' (F v)) (K * d + E).
Proof.
  intros P H HI HL H' c G. destruct (H c G) as [G1 C1]. destruct (H' _ G1) as [G2 C2]. split; [exact G2|]. destruct (gamut_R c G) as (I0 & I1 & I2).
  rewrite (Rplus_comm _ E). apply (channelwise_two d E (K * d) F F' c (g c) _ C1 C2); [split; [|split]; apply HI; assumption| |exact G1].
  intros a b A B D. pose proof (HL a b A B) as X. apply (Rmult_le_compat_l K) in D; [|exact P]. lra.
Qed.
Lemma line_of cmds F K E : tones cmds F K E -> 0 <= K /\ into01 F /\ lipschitz F K /\ exists g, recolouring L cmds g /\ line_step g F E.
Proof.
  intros T. induction T as [|cmds F K E T (P & HI & HL & g & RG & HS)|k cmds F K E Mk T (P & HI & HL & g & RG & HS)|k cmds F K E Mk T (P & HI & HL & g & RG & HS)
    |b k cmds F K E Mb Mk T (P & HI & HL & g & RG & HS)|y cmds F K E U B T (P & HI & HL & g & RG & HS)].
  - split; [lra|]. split; [intros r R; exact R|]. split; [intros r r' _ _; lra|]. exists (fun c => c). split; [constructor|]. intros c G. split; [exact G|].
    assert (Z : forall x, in01 x -> close 0 (B2R x) x) by (intros x X; split; [exact (MethodProofs.in01_fin x X)|]; unfold Rminus; rewrite Rplus_opp_r, Rabs_R0; lra).
    destruct G as (G0 & G1 & G2 & _). split; [exact (Z _ G0)|]. split; [exact (Z _ G1)|]. split; [exact (Z _ G2)|reflexivity].
  - assert (J : into01 (fun v => 1 - v)) by (intros r R; lra). split; [exact P|]. split; [intros r R; apply HI; lra|]. split.
    { rewrite <- (Rmult_1_r K). apply (lip_compose F (fun v => 1 - v) K 1 P HL); [|exact J]. intros r r' _ _. replace (1 - r - (1 - r')) with (- (r - r')) by ring. rewrite Rabs_Ropp. lra. }
    exists (fun c => g (invert c)). split; [exact (rec_command L CmdInvert invert cmds g eq_refl RG)|].
    apply (step_then invert (fun v => 1 - v) (/ 2 ^ 25) g F K E P); auto. intros c G. split; [exact (invert_in_gamut c G)|exact (inverted c G)].
  - assert (J : into01 (fun v => limited (v + B2R k))) by (intros r R; apply limited_range). split; [exact P|]. split; [intros r R; apply HI, limited_range|]. split.
    { rewrite <- (Rmult_1_r K). apply (lip_compose F _ K 1 P HL); [|exact J]. rewrite <- Rabs_R1. apply (lip_eq (fun v => limited (v * 1 + B2R k))); [intros v; rewrite Rmult_1_r; reflexivity|apply lip_linear]. }
    exists (fun c => g (with_brightness k c)). split; [exact (rec_command L (CmdBrightness k) _ cmds g eq_refl RG)|].
    apply (step_then (with_brightness k) _ (/ 2 ^ 24) g F K E P); auto. intros c G. pose proof (brightness k c G Mk) as C. split; [exact (result_gamut L _ c _ _ (cl_brightness L k) G C)|exact C].
  - assert (J : into01 (fun v => limited ((v - / 2) * B2R k + / 2))) by (intros r R; apply limited_range). split; [apply Rmult_le_pos; [exact P|apply Rabs_pos]|]. split; [intros r R; apply HI, limited_range|]. split.
    { apply (lip_compose F _ K _ P HL); [|exact J]. apply (lip_eq (fun v => limited (v * B2R k + (/ 2 - / 2 * B2R k)))); [intros v; f_equal; ring|apply lip_linear]. }
    exists (fun c => g (with_contrast k c)). split; [exact (rec_command L (CmdContrast k) _ cmds g eq_refl RG)|].
    apply (step_then (with_contrast k) _ _ g F K E P); auto. intros c G. pose proof (contrast k c G Mk) as C. split; [exact (result_gamut L _ c _ _ (cl_contrast L k) G C)|exact C].
  - assert (J : into01 (fun v => limited ((v + B2R b - / 2) * B2R k + / 2))) by (intros r R; apply limited_range). split; [apply Rmult_le_pos; [exact P|apply Rabs_pos]|]. split; [intros r R; apply HI, limited_range|]. split.
    { apply (lip_compose F _ K _ P HL); [|exact J]. apply (lip_eq (fun v => limited (v * B2R k + ((B2R b - / 2) * B2R k + / 2)))); [intros v; f_equal; ring|apply lip_linear]. }
    exists (fun c => g (with_brightness_contrast b k c)). split; [exact (rec_command L (CmdBrightnessContrast b k) _ cmds g eq_refl RG)|].
    apply (step_then (with_brightness_contrast b k) _ _ g F K E P); auto. intros c G. pose proof (brightness_contrast b k c G Mb Mk) as C. split; [exact (result_gamut L _ c _ _ (cl_brightness_contrast L b k) G C)|exact C].
  - assert (UG : 0 < B2R y <= 1) by (destruct U; lra). assert (IY : 0 < / B2R y) by (apply Rinv_0_lt_compat; lra).
    assert (J : into01 (gamma_formula (B2R y))) by (intros r R; apply gamma_range; [lra|exact R]). split; [apply Rmult_le_pos; lra|]. split; [intros r R; apply HI, J, R|]. split.
    { apply (lip_compose F _ K _ P HL); [exact (lip_gamma _ UG)|exact J]. }
    exists (fun c => g (with_gamma L y c)). split; [exact (rec_command L (CmdGamma y) _ cmds g eq_refl RG)|].
    apply (step_then (with_gamma L y) _ _ g F K E P); auto. intros c G. pose proof (gamma_power L y c AP G U) as C. split; [exact (result_gamut L _ c _ _ (cl_gamma L y) G C)|exact C].
Qed.
End Steps.

Lemma line_files {S} (e : env S) text number args wo input output w h raw cmds F K E G :
  ready e wo input output w h raw -> command_line text number true (tl args) (CmdOpen input :: cmds ++ [CmdSave output]) -> tones cmds F K E -> (forall v, 0 <= v <= 1 -> F v = G v) ->
  program_recolours e text number args wo w h raw output (each_channel (line_error K E) G).
Proof.
  intros RD CL T EX. pose proof (proj1 (proj2 (proj2 RD))) as AP. destruct (line_of (e_libm e) AP cmds F K E T) as (P & HI & HL & g & RG & HS).
  apply (program_weaker e text number args wo w h raw output) with
    (2 := ready_program e text number args wo input output w h raw cmds g RD CL RG (fun p Gp => proj2 (proj2 (proj2 (proj2 (HS p Gp)))))).
  intros r g0 b r' g' b' (p & Br & Bg & Bb & Gp & P0 & P1 & P2 & -> & -> & ->). destruct (HS p Gp) as ((I0 & I1 & I2 & _) & C0 & C1 & C2 & _).
  assert (Q : forall v x y, is_byte v -> in01 x -> x = clamp (gamma_to_linear (e_libm e) (from_u8 v)) -> in01 y -> close E (F (B2R x)) y ->
    byte_below (line_error K E) (srgb_encode (F (light v))) (quant8 (clamp (linear_to_gamma (e_libm e) y)))).
  { intros v x y Bv Ix Ex Iy [Fy Cy]. destruct (decoded_light (e_libm e) v AP Bv) as [_ CL']. rewrite <- Ex in CL'. clear Ex.
    pose proof (light_range v Bv) as LR. apply in01_R in Ix. destruct Ix as [_ Ix].
    pose proof (HL (B2R x) (light v) Ix LR) as M. assert (M2 : K * Rabs (B2R x - light v) <= K * (23 / 10000000)) by (apply Rmult_le_compat_l; lra).
    pose proof (HI _ LR) as FR. unfold line_error. set (d := K * (23 / 10000000) + E) in *.
    apply (stored_light (e_libm e) (Rmax 1 (d * 250000)) y (F (light v)) d AP Iy); [|lra|apply Rmax_l|pose proof (Rmax_r 1 (d * 250000)); lra].
    split; [exact Fy|]. unfold d. set (k1 := K * Rabs (B2R x - light v)) in *. clearbody k1. apply Rabs_le_iff in Cy, M. apply Rabs_le_iff. lra. }
  unfold each_channel. rewrite <- !EX by (apply light_range; assumption). destruct Gp as (G0 & G1 & G2 & _).
  split; [exact (Q r _ _ Br G0 P0 I0 C0)|]. split; [exact (Q g0 _ _ Bg G1 P1 I1 C1)|exact (Q b _ _ Bb G2 P2 I2 C2)].
Qed.

Fixpoint brighter (k : R) (n : nat) (v : R) : R := match n with O => v | S m => brighter k m (limited (v + k)) end.
Lemma brighter_tones k n : moderate k -> tones (repeat (CmdBrightness k) n) (brighter (B2R k) n) 1 (INR n * / 2 ^ 24).
Proof.
  intros M. induction n as [|n IH].
  - cbn [repeat brighter]. replace (INR 0 * / 2 ^ 24) with 0 by (change (INR 0) with 0; ring). constructor.
  - cbn [repeat]. rewrite S_INR. replace ((INR n + 1) * / 2 ^ 24) with (1 * / 2 ^ 24 + INR n * / 2 ^ 24) by ring. exact (tn_brightness k _ _ _ _ M IH).
Qed.
Lemma brighter_sum k n v : 0 <= v <= 1 -> brighter k n v = limited (v + INR n * k).
Proof.
  revert v. induction n as [|n IH]; intros v V.
  - cbn [brighter]. change (INR 0) with 0. rewrite Rmult_0_l, Rplus_0_r, limited_id; auto.
  - cbn [brighter]. rewrite IH by apply limited_range. rewrite S_INR. pose proof (pos_INR n) as P. set (m := INR n) in *. clearbody m.
    assert (D : k >= 0 /\ m * k >= 0 \/ k <= 0 /\ m * k <= 0).
    { destruct (Rle_dec 0 k); [left|right]; (split; [lra|]); [apply Rle_ge, Rmult_le_pos; lra|]. assert (0 <= m * (- k)) by (apply Rmult_le_pos; lra). lra. }
    replace ((m + 1) * k) with (k + m * k) by ring. set (q := m * k) in *. clearbody q. unfold limited, Rmin, Rmax. repeat destruct (Rle_dec _ _); lra.
Qed.
