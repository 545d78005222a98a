(** Darker and brighter (C124). *)
From Coq Require Import Reals ZArith List Bool String.
From Flocq Require Import IEEE754.BinarySingleNaN.
From Verif Require Import Base PixelBuffer BufferSpec F32 Color ColorSpec Codec CodecSpec Image Commands CommandsSpec Cli CliSpec Ops OpsSpec Kernel KernelSpec
  MeaningSpec IdealPowf ReopenSpec ResaveSpec EndSpec OrderSpec.
Import ListNotations.
Open Scope R_scope.

(* PROPERTIES *)
From Coq Require Import Lra Lia.
From Verif Require Import F32Lemmas EndThm StretchProofs OrderProofs.
Open Scope R_scope.

(** C124: the brightness, contrast, gamma and level changes treat red, green
    and blue alike and never swap darker and brighter; a negative contrast and
    inversion reverse the order. *)
Lemma tone_changes : forall L, bounded_powf L -> monotone_powf L ->
  (forall v, is_finite v = true -> tone_curve true (with_brightness v)) /\
  (forall v, is_finite v = true -> 0 <= B2R v -> tone_curve true (with_contrast v)) /\
  (forall v, is_finite v = true -> B2R v <= 0 -> tone_curve false (with_contrast v)) /\
  (forall b v, is_finite b = true -> is_finite v = true -> 0 <= B2R v -> tone_curve true (with_brightness_contrast b v)) /\
  (forall b v, is_finite b = true -> is_finite v = true -> B2R v <= 0 -> tone_curve false (with_brightness_contrast b v)) /\
  (forall g, usual_gamma g -> tone_curve true (with_gamma L g)) /\
  (forall g, usual_gamma g -> tone_curve true (with_gamma_opt L g)) /\
  (forall b w g, in01 b -> in01 w -> fle b w = true -> usual_gamma g -> tone_curve true (with_level L b w g)) /\
  tone_curve false invert.
Proof.
  intros L BP MP. split; [exact brightness_curve|]. split; [exact contrast_up|]. split; [exact contrast_down|].
  split; [intros b v Fb Fv; exact (proj1 (brightness_contrast_curve b v Fb Fv))|]. split; [intros b v Fb Fv; exact (proj2 (brightness_contrast_curve b v Fb Fv))|].
  split; [exact (gamma_curve L MP BP)|]. split; [exact (gamma_opt_curve L MP BP)|]. split; [exact (level_curve L MP BP)|exact invert_curve].
Qed.
Example tone_changes_example :
  (exists L, accurate_powf L /\ bounded_powf L /\ monotone_powf L) /\ usual_gamma f2 /\ in01 (dec 1 10) /\ fle (dec 1 10) (dec 9 10) = true /\
  let c := mkC (dec 1 10) (dec 2 10) (dec 9 10) f1 in in_gamut c /\
  map (fun v => fcast 0 1000 (fmul v (ofZ 1000))) [d0 (with_contrast (ofZ 2) c); d1 (with_contrast (ofZ 2) c); d2 (with_contrast (ofZ 2) c)] = [0; 0; 1000]%Z /\
  map (fun v => fcast 0 1000 (fmul v (ofZ 1000))) [d0 (with_contrast (dec 1 2) c); d1 (with_contrast (dec 1 2) c); d2 (with_contrast (dec 1 2) c)] = [300; 350; 700]%Z /\
  map (fun v => fcast 0 1000 (fmul v (ofZ 1000))) [d0 (invert c); d1 (invert c); d2 (invert c)] = [900; 800; 100]%Z.
Proof.
  split; [exists (ideal_libm (mkLibm (fun x _ => x) (fun x => x) (fun x => x) (fun x => x) (fun x => x) (fun x _ => x) (fun x => x))); split; [apply ideal_accurate|split; [apply ideal_bounded|apply ideal_monotone]]|].
  split; [split; [reflexivity|]; fval f2 H; rewrite H; lra|]. split; [split; vm_compute; reflexivity|]. split; [vm_compute; reflexivity|]. cbv zeta. split; [vm_compute; tauto|].
  split; [vm_compute; reflexivity|]. split; vm_compute; reflexivity.
Qed.

(** C124: one change after the other. *)
Lemma tone_changes_in_a_row : tone_curve true (fun c => c) /\ forall u u' f g, tone_curve u f -> tone_curve u' g -> tone_curve (Bool.eqb u u') (fun c => g (f c)).
Proof. split; [exact curve_same|exact curve_then]. Qed.
Example tone_row_example : tone_curve false (fun c => invert (with_brightness (dec 1 10) c)) /\ tone_curve true (fun c => invert (invert c)).
Proof.
  split; [exact (proj2 tone_changes_in_a_row true false _ _ (brightness_curve (dec 1 10) eq_refl) invert_curve)|].
  exact (proj2 tone_changes_in_a_row false false _ _ invert_curve invert_curve).
Qed.

(** C124: the whole program with such changes: the bytes of the file all go
    through one table, which never falls, or never rises. *)
Lemma program_tone : forall S (e : env S) (up : bool) cmds f, accurate_powf (e_libm e) -> bounded_powf (e_libm e) -> monotone_powf (e_libm e) ->
  recolouring (e_libm e) cmds f -> tone_curve up f ->
  exists T, byte_curve up T /\ forall text number args wo input output w h raw, ready e wo input output w h raw ->
    command_line text number true (tl args) (CmdOpen input :: cmds ++ [CmdSave output]) ->
    program_recolours e text number args wo w h raw output (fun r g b r' g' b' => is_byte r /\ is_byte g /\ is_byte b /\ r' = T r /\ g' = T g /\ b' = T b).
Proof. exact @tone_program. Qed.
Example program_tone_example : forall S (g : Ops.rng S) s L, let e := mkEnv S (ideal_libm L) Checked g plain_encoders plain_decoders in
  accurate_powf (e_libm e) /\ bounded_powf (e_libm e) /\ monotone_powf (e_libm e) /\
  recolouring (e_libm e) [CmdInvert; CmdGamma f2] (fun c => with_gamma (e_libm e) f2 (invert c)) /\
  tone_curve false (fun c => with_gamma (e_libm e) f2 (invert c)) /\
  ready e (mkWorld end_fs s []) "in.png" "out.png" 2 1 example_raw /\
  command_line (fun t => t) (fun _ => Some f2) true (tl ["d10"; "in.png"; "-invert"; "-gamma"; "2"; "out.png"]%string) (CmdOpen "in.png" :: [CmdInvert; CmdGamma f2] ++ [CmdSave "out.png"]).
Proof.
  intros S g s L e. destruct (ready_example S g s L) as (RD & F1 & F2 & _).
  assert (U : usual_gamma f2) by (split; [reflexivity|]; fval f2 H; rewrite H; lra).
  split; [apply ideal_accurate|]. split; [apply ideal_bounded|]. split; [apply ideal_monotone|]. split.
  { apply (rec_command _ CmdInvert invert _ (fun c => with_gamma (e_libm e) f2 c)); [reflexivity|]. apply (rec_command _ (CmdGamma f2) (with_gamma (e_libm e) f2) _ (fun c => c)); [reflexivity|]. constructor. }
  split; [exact (proj2 tone_changes_in_a_row false true _ _ invert_curve (gamma_curve _ (ideal_monotone L) (ideal_bounded L) f2 U))|].
  split; [exact RD|]. cbn [tl app]. apply cl_first; [exact F1|]. apply (cl_plain _ _ _ _ "invert"%string); [reflexivity|right; split; reflexivity|].
  apply (cl_with _ _ _ _ "gamma"%string); [reflexivity| |]. { apply opt_gamma. reflexivity. }
  apply cl_later; [exact F2|]. constructor.
Qed.

(** C124: grey (but by saturation), sepia and an overlay of one colour: what is
    in no channel brighter stays so. *)
Lemma not_brighter_kept : forall c c', in_gamut c -> in_gamut c' -> not_brighter c c' ->
  (forall i, i <> Saturation -> not_brighter (to_gray_with_intensity i c) (to_gray_with_intensity i c')) /\
  not_brighter (with_sepia c) (with_sepia c') /\
  (forall o, in_gamut o -> not_brighter (alpha_blend c o) (alpha_blend c' o)).
Proof.
  intros c c' G G' H. split; [|split; [exact (sepia_le c c' G G' H)|intros o O; exact (blend_le o c c' O G G' H)]].
  intros i NS. pose proof (gray_le i c c' NS G G' H) as Q. split; [exact Q|]. split; exact Q.
Qed.
Example not_brighter_example : let c := mkC (dec 1 10) (dec 2 10) (dec 3 10) f1 in let c' := mkC (dec 1 10) (dec 5 10) (dec 4 10) f1 in
  in_gamut c /\ in_gamut c' /\ not_brighter c c' /\ flt (d0 (to_gray c)) (d0 (to_gray c')) = true /\ flt (d2 (with_sepia c)) (d2 (with_sepia c')) = true.
Proof. cbv zeta. split; [vm_compute; tauto|]. split; [vm_compute; tauto|]. split; [vm_compute; tauto|]. split; vm_compute; reflexivity. Qed.
(** C124: the grey of the saturation is not ordered that way: red is brighter
    than black and white brighter than red, but both become black and red
    white. *)
Lemma saturation_grey_refuted : let g := to_gray_with_intensity Saturation in
  not_brighter RGB_BLACK RGB_RED /\ not_brighter RGB_RED RGB_WHITE /\ ~ not_brighter (g RGB_RED) (g RGB_WHITE) /\
  map (fun c => fcast 0 255 (fmul (d0 c) (ofZ 255))) [g RGB_BLACK; g RGB_RED; g RGB_WHITE] = [0; 255; 0]%Z.
Proof.
  cbv zeta. split; [vm_compute; tauto|]. split; [vm_compute; tauto|]. split; [|vm_compute; reflexivity].
  intros (H & _). vm_compute in H. discriminate H.
Qed.

(** C124: bytes are read and written in order. *)
Lemma samples_in_order : forall L, accurate_powf L -> bounded_powf L -> monotone_powf L ->
  (forall u v, is_byte u -> is_byte v -> (u <= v)%Z -> fle (clamp (gamma_to_linear L (from_u8 u))) (clamp (gamma_to_linear L (from_u8 v))) = true) /\
  (forall v w, in01 v -> in01 w -> fle v w = true -> (quant8 (clamp (linear_to_gamma L v)) <= quant8 (clamp (linear_to_gamma L w)))%Z).
Proof. intros L AL BP MP. split; [intros u v; exact (loaded_le L u v AL BP MP)|intros v w; exact (stored_le L v w AL BP MP)]. Qed.
Example samples_example : is_byte 10 /\ is_byte 11 /\ in01 (dec 3130805 1000000000) /\ in01 (dec 3130806 1000000000).
Proof. split; [unfold is_byte; lia|]. split; [unfold is_byte; lia|]. split; split; vm_compute; reflexivity. Qed.

(** C124: contrast stretching is such a change, one for the whole image. *)
Lemma stretch_tone : forall L (b : PixelBuffer Rgb) threshold, accurate_powf L -> bounded_powf L -> monotone_powf L -> valid b -> (1 <= zlen (data b) <= 2 ^ 20)%Z ->
  is_finite threshold = true -> B2R threshold = 0 \/ / 2 ^ 20 <= B2R threshold <= 400 ->
  exists f b', stretch_contrast L b threshold = Ok b' /\ recolored f b b' /\ tone_curve true f.
Proof. intros L b threshold AL BP MP V Hn Ft Ht. rewrite (pow_IZR 2 20) in Ht. exact (stretch_curve L b threshold AL BP MP V Hn Ft Ht). Qed.
Example stretch_tone_example : valid (mkPB 2 1 [RGB_RED; RGB_BLUE]) /\ is_finite f1 = true /\ / 2 ^ 20 <= B2R f1 <= 400.
Proof. split; [vm_compute; intuition congruence|]. split; [reflexivity|]. rewrite f1_R, (pow_IZR 2 20). change (IZR (2 ^ Z.of_nat 20)) with 1048576. lra. Qed.

(** C124: if an image is nowhere brighter than another, nor is it after a blur. *)
Lemma blur_keeps_order : forall L m (b b' : PixelBuffer Rgb) r, exp_ok L -> valid b -> valid b' -> (1 <= r <= 32767)%Z ->
  (forall c, In c (data b) -> in_gamut c) -> (forall c, In c (data b') -> in_gamut c) -> image_not_brighter m b b' ->
  exists o o', gaussian_blur L m b r None = Ok o /\ gaussian_blur L m b' r None = Ok o' /\ image_not_brighter m o o'.
Proof. exact blur_order. Qed.
Example blur_keeps_example : (exists L, exp_ok L) /\ image_not_brighter Checked (mkPB 2 1 [RGB_RED; RGB_BLACK]) (mkPB 2 1 [RGB_RED; RGB_WHITE]).
Proof.
  split.
  - exists (mkLibm (fun x _ => x) (fun x => x) (fun x => x) (fun _ => f1) (fun x => x) (fun x _ => x) (fun x => x)). split; intros x _; [split; reflexivity|reflexivity].
  - split; [reflexivity|]. split; [reflexivity|]. intros x y I. unfold inside in I. cbn [width height] in I.
    assert (y = 0%Z) as -> by lia. assert (x = 0 \/ x = 1)%Z as [-> | ->] by lia;
      [exists RGB_RED, RGB_RED|exists RGB_BLACK, RGB_WHITE]; (split; [reflexivity|]; split; [reflexivity|]; vm_compute; tauto).
Qed.
