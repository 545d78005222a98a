(** Lemmas for C133. *)
From Coq Require Import Reals ZArith List Lia Lra.
From Flocq Require Import Core IEEE754.BinarySingleNaN.
From Verif Require Import F32 F32Lemmas Color ColorSpec ColorProofs Approx MeaningSpec DrawSpec LanczosSpec PyColor MethodSpec MethodProofs GreySpec.
From Verif Require Import Base PixelBuffer Image Commands ScriptSpec Codec CodecSpec CliSpec EndSpec.
From Verif Require CommandsSpec.
From Verif Require Import ColorThm OpMeaningProofs OpMeaningThm HueThm BlendProofs ScriptProofs EndProofs AdjustProofs.
Import ListNotations.
Open Scope R_scope.

Lemma grey_hsl v a : in01 v -> exists l, rgb_to_hsl (mkC v v v a) = mkC f0 f0 l a /\ in01 l /\ B2R l = B2R v.
Proof.
  intros H. apply in01_num in H. destruct (grey_max v a H) as [FM EM]. destruct (grey_min v a H) as [Fm Em].
  pose proof H as [Fv _]. unfold rgb_to_hsl. set (mx := rgb_max _) in *. set (mn := rgb_min _) in *. clearbody mx mn.
  destruct (fsub_same_val mx mn FM Fm) as [FD ED]; [lra|].
  replace (flt (fsub mx mn) EPSILON) with true by (symmetry; apply flt_R; auto with fin; rewrite ED, EPS_R; lra).
  destruct (half_double v mx mn) as [FL EL]; auto. exists (fdiv (fadd mx mn) f2). split; [reflexivity|]. split; [|exact EL].
  apply in01_num. split; auto. rewrite EL. apply H.
Qed.
Lemma hsl_grey h s l a : feq s f0 = true -> hsl_to_rgb (mkC h s l a) = rgb_new_with_alpha l l l a.
Proof. intros E. unfold hsl_to_rgb. cbn [d0 d1 d2 d3 alpha]. rewrite E. reflexivity. Qed.
Lemma zero_feq s : is_finite s = true -> B2R s = 0 -> feq s f0 = true.
Proof. intros F E. apply feq_R; [exact F|reflexivity|]. rewrite f0_R. exact E. Qed.
Lemma mul_zero x k : is_finite x = true -> B2R x = 0 -> is_finite k = true -> is_finite (fmul x k) = true /\ B2R (fmul x k) = 0.
Proof. intros F E K. exact (fmul_0_l x k F K E). Qed.
Lemma clamp_zero x : is_finite x = true -> B2R x = 0 -> feq (clamp x) f0 = true.
Proof. intros F E. destruct (clamp_01 x F) as [A B]; [rewrite E; lra|]. apply zero_feq; [exact A|congruence]. Qed.
Lemma grey_out l v a : in01 l -> in01 v -> in01 a -> B2R l = B2R v -> same_color (rgb_new_with_alpha l l l a) (mkC v v v a).
Proof.
  intros L V A E. unfold rgb_new_with_alpha. rewrite !clamp_id by assumption. unfold same_color. cbn [d0 d1 d2 d3].
  assert (S : same l v) by (apply same_R; [exact (in01_fin l L)|exact (in01_fin v V)|exact E]). split; [exact S|]. split; [exact S|]. split; [exact S|].
  apply same_R; [exact (in01_fin a A)|exact (in01_fin a A)|reflexivity].
Qed.

Lemma min_zero x y : is_finite x = true -> B2R x = 0 -> is_finite y = true -> 0 <= B2R y -> is_finite (fmin x y) = true /\ B2R (fmin x y) = 0.
Proof. intros F E G H. destruct (fmin_val x y F G) as [A B]. split; [exact A|]. rewrite B, E. apply Rmin_left. exact H. Qed.
Lemma max_zero x : is_finite x = true -> B2R x = 0 -> is_finite (fmax x f0) = true /\ B2R (fmax x f0) = 0.
Proof. intros F E. destruct (fmax_val x f0 F eq_refl) as [A B]. split; [exact A|]. rewrite B, E, f0_R. apply Rmax_left. lra. Qed.
Lemma strength_keeps L f v a : colour_strength L f -> in01 v -> in01 a -> exists o, py_method_call L f (mkC v v v a) = ROk o /\
  same_color o (mkC v v v (match f with WithVibrance _ => f1 | _ => a end)) /\ grey o.
Proof.
  intros H V A. destruct (grey_hsl v a V) as (l & E & IL & EL).
  assert (K : forall h s b, feq s f0 = true -> in01 b -> same_color (hsl_to_rgb (mkC h s l b)) (mkC v v v b) /\ grey (hsl_to_rgb (mkC h s l b))).
  { intros h s b S B. rewrite (hsl_grey h s l b S). split; [exact (grey_out l v b IL V B EL)|split; reflexivity]. }
  destruct H as [k Fk|k Fk Bk|g P U|d|k S Fk]; (eexists; split; [cbn [py_method_call]; reflexivity|]); cbn [py_method_call].
  - unfold with_saturation. rewrite E. cbn [d0 d1 d2 d3 alpha]. apply K; [|exact A]. destruct (mul_zero f0 k eq_refl f0_R Fk) as [X Y]. exact (clamp_zero _ X Y).
  - unfold stretch_saturation. rewrite E. cbn [d0 d1 d2 d3 alpha]. apply K; [|exact A].
    assert (HH : is_finite (fsub f0 (dec 1 2)) = true /\ B2R (fsub f0 (dec 1 2)) = - / 2).
    { split; [reflexivity|]. fval (fsub f0 (dec 1 2)) Q. rewrite Q. rewrite opp_IZR. lra. }
    set (m := fsub f0 (dec 1 2)) in *. clearbody m. destruct HH as [Fm Em].
    assert (F60 : fmt (2 ^ 60)) by (replace (2 ^ 60) with (IZR 1 * bpow radix2 60) by (simpl; lra); apply fmt_F2R; lia).
    destruct (fmul_num m k (- 2 ^ 60) (- / 2) Fm Fk (fmt_opp _ F60) (fmt_opp _ fmt_half)) as [[Fp [Lp Pp]] _]; [rewrite Em; lra|].
    fval (dec 1 2) Hh.
    destruct (fadd_num (fmul m k) (dec 1 2) (- 2 ^ 60) 0 Fp eq_refl (fmt_opp _ F60) fmt_0) as [[Fs [_ Ps]] _]; [rewrite Hh; lra|].
    destruct (clamp_R _ Fs) as [Fc Ec]. apply zero_feq; [exact Fc|]. rewrite Ec. apply limited_lo. exact Ps.
  - unfold with_gamma_saturation. rewrite E. cbn [d0 d1 d2 d3 alpha]. apply K; [|exact A].
    destruct (inv_close g U) as (Fi & Hi & Ri). assert (0 < / B2R g) by (apply Rinv_0_lt_compat; destruct U; lra). apply Rabs_le_iff in Ri.
    destruct (P (clamp f0) (fdiv f1 g) eq_refl Fi ltac:(lra)) as [_ Z]. destruct Z as [Fz Ez]; [apply f0_R|]. apply zero_feq; [exact Fz|]. apply Rabs_le_iff in Ez. lra.
  - unfold with_hue_rotate. rewrite E. cbn [d0 d1 d2 d3 alpha]. apply K; [reflexivity|exact A].
  - unfold with_vibrance. rewrite E. cbn [d0 d1 d2 d3 alpha]. unfold raw_new. apply K; [|split; reflexivity].
    destruct (mul_zero f0 fPI eq_refl f0_R eq_refl) as [Fz Ez]. set (z := fmul f0 fPI) in *. clearbody z.
    destruct (S z Fz ltac:(rewrite Ez, Rabs_R0; lra)) as [Fq Eq]. rewrite Ez, Rabs_R0, sin_0 in Eq. set (q := fsin L z) in *. clearbody q.
    assert (Zq : B2R q = 0) by (apply Rabs_le_iff in Eq; lra).
    destruct (mul_zero q (dec 15 10) Fq Zq eq_refl) as [F1 E1]. destruct (min_zero _ f1 F1 E1 eq_refl ltac:(rewrite f1_R; lra)) as [F2 E2].
    destruct (fmul_0_r k _ Fk F2 E2) as [F3 E3]. destruct (mul_zero q _ Fq Zq F3) as [F4 E4]. destruct (fadd_0_r f0 _ eq_refl F4 E4) as [F5 E5]. rewrite f0_R in E5.
    destruct (min_zero _ f1 F5 E5 eq_refl ltac:(rewrite f1_R; lra)) as [F6 E6]. destruct (max_zero _ F6 E6) as [F7 E7]. exact (zero_feq _ F7 E7).
Qed.

(** * No colour at all *)
Lemma hsl_light c : d2 (rgb_to_hsl c) = fdiv (fadd (rgb_max c) (rgb_min c)) f2.
Proof. unfold rgb_to_hsl. destruct (flt _ EPSILON); reflexivity. Qed.
Lemma desaturated c : in_gamut c -> same_color (with_saturation f0 c) (to_gray_with_intensity Lightness c) /\ grey (with_saturation f0 c).
Proof.
  intros G. pose proof (gray_in_gamut Lightness c G) as [(GL & _ & _ & GA) _]. unfold to_gray_with_intensity in GL, GA. cbn [d0 d3] in GL, GA.
  destruct (hsl_in_range c G) as (_ & S & _). pose proof (in01_fin _ S) as F. destruct (fmul_0_r (d1 (rgb_to_hsl c)) f0 F eq_refl f0_R) as [Z E].
  unfold with_saturation. rewrite (hsl_grey _ _ _ _ (clamp_zero _ Z E)). split; [|split; reflexivity]. rewrite hsl_light.
  replace (fadd (rgb_max c) (rgb_min c)) with (fadd (rgb_min c) (rgb_max c)) by apply GaussProofs.fadd_comm.
  change (fdiv (fadd (rgb_min c) (rgb_max c)) f2) with (gray_value Lightness c). apply grey_out; [exact GL|exact GL|exact GA|reflexivity].
Qed.
Lemma gray_twice i c y : in_gamut c -> gray_formula i 1 1 1 = Some y ->
  channelwise (/ 2 ^ 21) (fun v => v) (to_gray_with_intensity i c) (to_gray_with_intensity i (to_gray_with_intensity i c)).
Proof.
  intros G H. destruct (gray_in_gamut i c G) as [G' _]. set (o := to_gray_with_intensity i c) in *.
  assert (E : gray_formula i (B2R (d0 o)) (B2R (d1 o)) (B2R (d2 o)) = Some (B2R (d0 o))).
  { change (d1 o) with (d0 o). change (d2 o) with (d0 o). set (v := B2R (d0 o)). unfold gray_formula in *.
    destruct i; try discriminate H; f_equal; try lra; rewrite ?(Rmin_left v v), ?(Rmax_left v v) by lra; lra. }
  destruct (gray i o _ G' E) as [(A & B & C) D]. split; [exact A|]. split; [exact B|]. split; [exact C|exact D].
Qed.
Lemma saturation_twice c : in_gamut c -> to_gray_with_intensity Saturation (to_gray_with_intensity Saturation c) = mkC f0 f0 f0 (alpha c).
Proof.
  intros G. destruct (gray_in_gamut Saturation c G) as [(GL & _) _]. unfold to_gray_with_intensity in *. cbn [d0] in GL. set (v := gray_value Saturation c) in *.
  cbn [gray_value alpha d3]. destruct (grey_hsl v (alpha c) GL) as (l & E & _). unfold alpha in *. rewrite E. reflexivity.
Qed.

(** * The weakened stretch *)
Lemma weak_stretch k v a : in01 v -> in01 a -> is_finite k = true -> 0 <= B2R k <= 1 ->
  let w := (1 - B2R k) / 4 * (1 - Rabs (2 * B2R v - 1)) in
  colour_close ((1 + B2R k) / 2 ^ 17) (B2R v + w) (B2R v - w) (B2R v - w) (stretch_saturation k (mkC v v v a)).
Proof.
  intros V A F K w. assert (G : in_gamut (mkC v v v a)) by (split; [exact V|split; [exact V|split; [exact V|exact A]]]).
  assert (M : moderate k). { split; [exact F|]. rewrite Rabs_right by lra. apply Rle_trans with 1; [lra|]. apply pow_R1_Rle. lra. }
  destruct (saturation_stretched example_libm k (mkC v v v a) G M) as [(A0 & A1 & A2) _]. change (to_hsl example_libm KRgb (mkC v v v a)) with (rgb_to_hsl (mkC v v v a)) in *.
  destruct (grey_hsl v a V) as (l & E & _ & EL). rewrite E in A0, A1, A2. cbn [d0 d1 d2] in A0, A1, A2. rewrite EL, f0_R in A0, A1, A2.
  rewrite Rabs_right in A0, A1, A2 by lra.
  assert (H0 : hue_red 0 = 1). { unfold hue_red. rewrite Rabs_left by lra. apply limited_hi. lra. }
  assert (H1 : hue_green 0 = 0). { unfold hue_green. rewrite Rabs_left by lra. apply limited_lo. lra. }
  assert (H2 : hue_blue 0 = 0). { unfold hue_blue. rewrite Rabs_left by lra. apply limited_lo. lra. }
  rewrite H0 in A0. rewrite H1 in A1. rewrite H2 in A2. rewrite limited_id in A0, A1, A2 by lra. unfold hsl_channel in *.
  assert (X : forall x y, x = y -> forall o, close ((1 + B2R k) / 2 ^ 17) x o -> close ((1 + B2R k) / 2 ^ 17) y o) by (intros x y -> o H; exact H).
  split; [|split]; [refine (X _ _ _ _ A0)|refine (X _ _ _ _ A1)|refine (X _ _ _ _ A2)]; unfold w; lra.
Qed.

(** * Programs *)
Lemma hsl_gamut e h s l o : is_hsl e h s l o -> is_finite (d0 o) = true /\ is_finite (d1 o) = true /\ is_finite (d2 o) = true.
Proof. intros ((A & _) & (B & _) & (C & _)). auto. Qed.
Lemma clamped_gamut L k c : clamping_operation L k -> is_finite (d0 (k c)) = true -> is_finite (d1 (k c)) = true -> is_finite (d2 (k c)) = true -> d3 (k c) = d3 c -> in_gamut c -> in_gamut (k c).
Proof.
  intros H F0 F1 F2 A (_ & _ & _ & G). destruct (operations_clamp L k c H) as (X & Y & Z).
  split; [exact (or_nan_fin _ X F0)|]. split; [exact (or_nan_fin _ Y F1)|]. split; [exact (or_nan_fin _ Z F2)|]. rewrite A. exact G.
Qed.
Lemma step_gamut L cmd f g c : colour_method cmd f -> reasonable L f -> CommandsSpec.pixel_function L cmd = Some g -> in_gamut c -> in_gamut (g c) /\ d3 (g c) = d3 c.
Proof.
  intros CM Q PF G. destruct (method_of L cmd f CM) as (g' & PF' & PG). rewrite PF in PF'. injection PF' as <-.
  destruct (method_computes L f c G Q) as (o & E & M). rewrite PG in E. injection E as <-. 
  destruct CM; cbn [CommandsSpec.pixel_function] in PF; (apply (f_equal (fun o => match o with Some g => g | None => g end)) in PF; cbv beta iota in PF; subst g); cbn [method_formula] in M; cbv zeta in M.
  - split; [exact (proj1 (gray_in_gamut i c G))|reflexivity].
  - split; [exact (invert_in_gamut c G)|reflexivity].
  - destruct M as ((F0 & _) & (F1 & _) & (F2 & _) & A). split; [|exact A]. apply (clamped_gamut L _ c (cl_gamma L _) F0 F1 F2 A G).
  - destruct M as ((t0 & _ & F0 & _) & (t1 & _ & F1 & _) & (t2 & _ & F2 & _) & A). split; [|exact A]. apply (clamped_gamut L _ c (cl_level L _ _ _) F0 F1 F2 A G).
  - destruct M as ((F0 & _) & (F1 & _) & (F2 & _) & A). split; [|exact A]. apply (clamped_gamut L _ c (cl_brightness L _) F0 F1 F2 A G).
  - destruct M as ((F0 & _) & (F1 & _) & (F2 & _) & A). split; [|exact A]. apply (clamped_gamut L _ c (cl_contrast L _) F0 F1 F2 A G).
  - destruct M as ((F0 & _) & (F1 & _) & (F2 & _) & A). split; [|exact A]. apply (clamped_gamut L _ c (cl_brightness_contrast L _ _) F0 F1 F2 A G).
  - destruct M as [M A]. apply hsl_gamut in M as (F0 & F1 & F2). split; [|exact A]. apply (clamped_gamut L _ c (cl_saturation L _) F0 F1 F2 A G).
  - destruct M as [M A]. apply hsl_gamut in M as (F0 & F1 & F2). split; [|exact A]. apply (clamped_gamut L _ c (cl_stretch_saturation L _) F0 F1 F2 A G).
  - destruct M as [M A]. apply hsl_gamut in M as (F0 & F1 & F2). split; [|exact A]. apply (clamped_gamut L _ c (cl_lightness L _) F0 F1 F2 A G).
  - destruct M as (n & _ & M & A). apply hsl_gamut in M as (F0 & F1 & F2). split; [|exact A]. apply (clamped_gamut L _ c (cl_hue_rotate L _) F0 F1 F2 A G).
Qed.
Lemma grey_eta c : grey c -> c = mkC (d0 c) (d0 c) (d0 c) (d3 c).
Proof. intros [A B]. destruct c as [x y z a]. cbn [d0 d1 d2 d3] in *. subst. reflexivity. Qed.
Lemma map_grey f c : grey c -> grey (map_channels f c).
Proof. intros [A B]. unfold grey, map_channels. cbn [d0 d1 d2]. rewrite A, B. split; reflexivity. Qed.
Lemma step_grey L cmd f g c : colour_method cmd f -> reasonable L f -> no_weak_stretch f -> CommandsSpec.pixel_function L cmd = Some g -> in_gamut c -> grey c -> grey (g c).
Proof.
  intros CM Q NW PF G H. destruct (method_of L cmd f CM) as (g' & PF' & PG). rewrite PF in PF'. injection PF' as <-.
  assert (K : colour_strength L f -> grey (g c)).
  { intros CS. rewrite (grey_eta c H) in *. destruct G as (V & _ & _ & A). cbn [d0 d3] in V, A. destruct (strength_keeps L f (d0 c) (d3 c) CS V A) as (o & E & _ & X).
    rewrite PG in E. injection E as <-. exact X. }
  destruct CM; cbn [CommandsSpec.pixel_function] in PF; (apply (f_equal (fun o => match o with Some g => g | None => g end)) in PF; cbv beta iota in PF; try subst g).
  - split; reflexivity.
  - destruct H as [A B]. unfold grey, invert. cbn [d0 d1 d2]. rewrite A, B. split; reflexivity.
  - apply map_grey, H.
  - apply map_grey, H.
  - apply map_grey, H.
  - apply map_grey, H.
  - apply map_grey, H.
  - apply K. constructor. apply Q.
  - apply K. destruct Q as [F M]. constructor; [exact F|]. cbn [no_weak_stretch] in NW. apply Rabs_le_iff in M. lra.
  - rewrite (grey_eta c H) in *. destruct G as (V & _). cbn [d0] in V. destruct (grey_hsl (d0 c) (d3 c) V) as (l & E & _). unfold with_lightness. rewrite E. cbn [d0 d1 d2].
    rewrite hsl_grey by reflexivity. split; reflexivity.
  - apply K. constructor.
Qed.
Lemma steps_grey L cmds : colour_changes L cmds -> exists g, recolouring L cmds g /\
  forall c, in_gamut c -> in_gamut (g c) /\ d3 (g c) = d3 c /\ (grey c -> grey (g c)).
Proof.
  intros H. induction H as [|cmd cmds (f & CM & Q & NW) _ (g & RG & IH)].
  - exists (fun c => c). split; [constructor|]. auto.
  - destruct (method_of L cmd f CM) as (g1 & PF & _). exists (fun c => g (g1 c)). split; [exact (rec_command L cmd g1 cmds g PF RG)|]. intros c G.
    destruct (step_gamut L cmd f g1 c CM Q PF G) as [G1 A1]. destruct (IH _ G1) as (G2 & A2 & K). split; [exact G2|]. split; [congruence|].
    intros X. apply K. exact (step_grey L cmd f g1 c CM Q NW PF G X).
Qed.
Lemma grey_files {S} (e : env S) text number args wo input output w h raw cmds :
  ready e wo input output w h raw -> command_line text number true (tl args) (CmdOpen input :: cmds ++ [CmdSave output]) -> colour_changes (e_libm e) cmds ->
  program_recolours e text number args wo w h raw output (fun r g b r' g' b' => r = g -> g = b -> r' = g' /\ g' = b').
Proof.
  intros RD CL CC. destruct (steps_grey (e_libm e) cmds CC) as (g & RG & K).
  apply (program_weaker e text number args wo w h raw output) with
    (2 := ready_program e text number args wo input output w h raw cmds g RD CL RG (fun p G => proj1 (proj2 (K p G)))).
  intros r g0 b r' g' b' (p & Br & Bg & Bb & G & P0 & P1 & P2 & -> & -> & ->) <- <-.
  destruct (K p G) as (_ & _ & X). destruct X as [X Y]; [split; congruence|]. rewrite X, Y. split; reflexivity.
Qed.
