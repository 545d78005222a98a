(** The whole program, from file to file (C119). *)
From Coq Require Import Reals ZArith List String Ascii.
From Flocq Require Import IEEE754.BinarySingleNaN.
From Verif Require Import Base PixelBuffer BufferSpec F32 Color ColorSpec Codec CodecSpec Image Commands CommandsSpec Cli CliSpec MeaningSpec IdealPowf ReopenSpec ResaveSpec EndSpec.
Import ListNotations.
Open Scope R_scope.

(* PROPERTIES *)
From Coq Require Import Lra Lia.
From Verif Require Import F32Lemmas Approx OpMeaningProofs ColorThm ImageThm HslOps CommandsProofs SrgbThm ReopenProofs LayoutProofs EndProofs.
Open Scope R_scope.

(** C119: a command line that opens a file, recolours the pixels in any number
    of steps and saves the result to a PNG file succeeds, touches no other
    file, and each pixel of the new file holds the new colour of the pixel that
    was read: in sRGB with 8 bits, with alpha. *)
Lemma program_output : forall S (e : env S) text number args wo input output cmds f b,
  good_decoders (e_dec e) -> lossless_png (e_enc e) (e_dec e) -> accurate_powf (e_libm e) ->
  command_line text number true (tl args) (CmdOpen input :: cmds ++ [CmdSave output]) -> recolouring (e_libm e) cmds f ->
  decode_file (e_build e) (e_dec e) (e_libm e) (w_fs wo) input = Ok (ROk b) -> nonempty b ->
  can_store (e_enc e) (e_libm e) (w_fs wo) output (width b) (height b) ->
  exists wo' bytes raw, main e text number args wo = Ok (wo', ROk tt) /\
    (forall p, p <> output -> files (w_fs wo') p = files (w_fs wo) p) /\
    files (w_fs wo') output = Some bytes /\ holds_png (e_dec e) ColRgba Eight (width b) (height b) bytes raw /\
    forall m x y c, inside b x y -> get_pixel m b x y = Ok c -> in_gamut (f c) ->
      exists r g bl a, pixel_at raw (width b) x y r g bl a /\
        byte_below (/ 1024) (srgb_encode (B2R (d0 (f c)))) r /\ byte_below (/ 1024) (srgb_encode (B2R (d1 (f c)))) g /\
        byte_below (/ 1024) (srgb_encode (B2R (d2 (f c)))) bl /\ byte_below (/ 1024) (B2R (alpha (f c))) a.
Proof.
  intros S e text number args wo input output cmds f b GD LP AL CL RC DF NE CS.
  destruct (whole_program e GD text number args wo input output cmds f b CL RC DF LP AL NE CS) as (wo' & b' & bytes & raw & RB & MA & OT & FO & HP & LO).
  exists wo', bytes, raw. do 4 (split; [assumption|]). intros m x y c I GP G. destruct RB as (V' & W' & H' & RP).
  pose proof (RP m x y c I GP) as GP'. assert (I' : inside b' x y) by (unfold inside in *; rewrite W', H'; exact I).
  pose proof (proj2 (proj2 LO) m x y _ I' GP') as SL. rewrite W' in SL. do 4 eexists. split; [exact SL|].
  destruct G as (G0 & G1 & G2 & G3).
  split; [exact (byte_of (e_libm e) _ AL G0)|]. split; [exact (byte_of (e_libm e) _ AL G1)|]. split; [exact (byte_of (e_libm e) _ AL G2)|].
  exact (byte_of_alpha _ G3).
Qed.

(** C119: d10 input -invert output inverts the light of each sample of the
    file: the new byte is just below the sRGB value of 1 minus the light. *)
Lemma invert_program : forall S (e : env S) text number program input a output wo w h raw,
  ready e wo input output w h raw -> file_name text input -> text a = "-invert"%string -> file_name text output ->
  program_recolours e text number [program; input; a; output] wo w h raw output (each_channel (/ 64) (fun v => 1 - v)).
Proof.
  intros S e text number program input a output wo w h raw RD FI TA FO. replace (/ 64) with (1 / 64) by lra.
  apply (channel_program e text number _ wo input output w h raw CmdInvert invert _ 1 (/ 33554432) RD).
  - apply (plain_line text number input a "invert" CmdInvert output FI TA); [right; split; reflexivity|exact FO].
  - reflexivity.
  - intros p G. split; [exact (invert_in_gamut p G)|exact (invert_meaning p G)].
  - lra.
  - lra.
  - intros r R. lra.
  - intros r r' R R'. rewrite Rmult_1_l. replace (1 - r - (1 - r')) with (- (r - r')) by ring. rewrite Rabs_Ropp. apply Rle_refl.
Qed.

(** C119: d10 input -brightness p output adds the number p to the light. *)
Lemma brightness_program : forall S (e : env S) text number program input a p v output wo w h raw,
  ready e wo input output w h raw -> file_name text input -> text a = "-brightness"%string -> number (text p) = Some v -> moderate v -> file_name text output ->
  program_recolours e text number [program; input; a; p; output] wo w h raw output (each_channel (/ 64) (fun l => limited (l + B2R v))).
Proof.
  intros S e text number program input a p v output wo w h raw RD FI TA NU MO FO. replace (/ 64) with (1 / 64) by lra.
  apply (channel_program e text number _ wo input output w h raw (CmdBrightness v) (with_brightness v) _ 1 (/ 16777216) RD).
  - apply (option_line text number input a "brightness" p (CmdBrightness v) output FI TA (opt_brightness _ _ p v NU) FO).
  - reflexivity.
  - intros c G. pose proof (brightness_meaning v c G MO) as M. split; [exact (map_gamut _ _ _ c M G)|exact M].
  - lra.
  - lra.
  - intros r R. apply limited_pos.
  - intros r r' R R'. rewrite Rmult_1_l. eapply Rle_trans; [apply limited_lip|]. replace (r + B2R v - (r' + B2R v)) with (r - r') by ring. apply Rle_refl.
Qed.

(** C119: d10 input -contrast p output stretches the light by the factor p
    around 1/2; errors are stretched as well. *)
Lemma contrast_program : forall S (e : env S) text number program input a p v output wo w h raw,
  ready e wo input output w h raw -> file_name text input -> text a = "-contrast"%string -> number (text p) = Some v -> moderate v -> file_name text output ->
  program_recolours e text number [program; input; a; p; output] wo w h raw output
    (each_channel ((1 + Rabs (B2R v)) / 64) (fun l => limited ((l - / 2) * B2R v + / 2))).
Proof.
  intros S e text number program input a p v output wo w h raw RD FI TA NU MO FO. pose proof (Rabs_pos (B2R v)) as AP.
  apply (channel_program e text number _ wo input output w h raw (CmdContrast v) (with_contrast v) _ (1 + Rabs (B2R v)) ((4 + 4 * Rabs (B2R v)) / 16777216) RD).
  - apply (option_line text number input a "contrast" p (CmdContrast v) output FI TA (opt_contrast _ _ p v NU) FO).
  - reflexivity.
  - intros c G. pose proof (contrast_meaning v c G MO) as M. split; [exact (map_gamut _ _ _ c M G)|exact M].
  - lra.
  - lra.
  - intros r R. apply limited_pos.
  - intros r r' R R'. eapply Rle_trans; [apply limited_lip|]. replace ((r - / 2) * B2R v + / 2 - ((r' - / 2) * B2R v + / 2)) with (B2R v * (r - r')) by ring.
    rewrite Rabs_mult. apply Rmult_le_compat_r; [apply Rabs_pos|lra].
Qed.

(** C119: d10 input -grayscale rec709luma output (or default) makes all three
    samples of a pixel the same, those of its luminance. *)
Lemma grayscale_program : forall S (e : env S) text number program input a p output wo w h raw,
  ready e wo input output w h raw -> file_name text input -> text a = "-grayscale"%string -> text p = "rec709luma"%string \/ text p = "default"%string ->
  file_name text output ->
  program_recolours e text number [program; input; a; p; output] wo w h raw output (fun r g b r' g' b' => g' = r' /\ b' = r' /\
    byte_below (/ 64) (srgb_encode (212656 / 1000000 * light r + 715158 / 1000000 * light g + 72186 / 1000000 * light b)) r').
Proof.
  intros S e text number program input a p output wo w h raw RD FI TA TP FO. pose proof (proj1 (proj2 (proj2 RD))) as AL.
  assert (OP : option_with text number "grayscale" p (CmdToGray Rec709Luma)).
  { apply opt_grayscale. destruct TP as [-> | ->]; [right; right; left|right; right; right; left]; reflexivity. }
  apply (program_weaker e text number [program; input; a; p; output] wo w h raw output) with
    (2 := ready_program e text number [program; input; a; p; output] wo input output w h raw [CmdToGray Rec709Luma] (to_gray_with_intensity Rec709Luma) RD
      (option_line text number input a "grayscale" p _ output FI TA OP FO program) (rec_command (e_libm e) (CmdToGray Rec709Luma) (to_gray_with_intensity Rec709Luma) [] _ eq_refl (rec_nothing _)) (fun c _ => eq_refl)).
  intros r g b r' g' b' (c & Br & Bg & Bb & G & P0 & P1 & P2 & -> & -> & ->). split; [reflexivity|]. split; [reflexivity|].
  replace (/ 64) with (1 / 64) by lra. destruct (gray_y c G) as [[GF GY] GI].
  apply (stored_light (e_libm e) 1 _ _ (4 / 1000000) AL GI); [|pose proof (light_range r Br); pose proof (light_range g Bg); pose proof (light_range b Bb); lra|lra|lra].
  split; [exact GF|]. destruct (decoded_light (e_libm e) r AL Br) as [_ D0]. destruct (decoded_light (e_libm e) g AL Bg) as [_ D1].
  destruct (decoded_light (e_libm e) b AL Bb) as [_ D2]. rewrite <- P0 in D0. rewrite <- P1 in D1. rewrite <- P2 in D2.
  apply Rabs_le_iff in GY, D0, D1, D2. apply Rabs_le_iff. lra.
Qed.

Example ready_example : forall S (g : Ops.rng S) s L, let e := mkEnv S (ideal_libm L) Checked g plain_encoders plain_decoders in
  let wo := mkWorld end_fs s [] in
  ready e wo "in.png" "out.png" 2 1 example_raw /\ file_name (fun t => t) "in.png" /\ file_name (fun t => t) "out.png" /\ moderate (dec 1 10).
Proof.
  intros S g s L e wo.
  assert (FN : forall c t, c <> "-"%char -> file_name (fun t => t) (String c t)) by (intros c t N rest H; injection H; auto).
  split; [|split; [apply FN; discriminate|split; [apply FN; discriminate|]]].
  2: { split; [reflexivity|]. change (B2R (dec 1 10)) with (13421773 * / 134217728). rewrite Rabs_right; lra. }
  split; [exact plain_good|]. split; [exact plain_lossless|]. split; [exact (ideal_accurate L)|]. split; [lia|]. split; [lia|].
  split; [right; lia|]. split.
  - exists example_png. split; [reflexivity|].
    exists (mkPngImage (Some (ColRgba, Eight)) 2 1 (fun n => if (n =? zlen example_raw)%Z then ROk example_raw else RErr DDecoding)). split.
    { exists [Some 137; Some 80; Some 78; Some 71; Some 13; Some 10; Some 26; Some 10]%Z, [137; 80; 78; 71; 13; 10; 26; 10]%Z, ([4; 1; 2; 1] ++ example_raw)%Z.
      split; [right; left; reflexivity|]. split; [reflexivity|]. repeat (constructor; [right; reflexivity|]). constructor. }
    do 6 (split; [reflexivity|]). repeat (constructor; [unfold is_byte; lia|]). constructor.
  - split; [|split; [reflexivity|]].
    + exists [], "out"%string, "png"%string, []. split; [reflexivity|]. unfold lacks.
      split; [repeat (constructor; [cbn [list_ascii_of_string In]; intuition discriminate|]); constructor|].
      split; [cbn [list_ascii_of_string In]; intuition discriminate|]. split; [discriminate|]. split; [constructor|]. vm_compute. tauto.
    + intros i bytes V W H SB. destruct (png_layout_ok (e_libm e) (buffer i) PRgba8 CDefault FSub V ltac:(discriminate)) as (raw & J & Z & _).
      assert (MJ : make_job (e_libm e) (buffer i) (EPng PRgba8 CDefault FSub) = ROk (job_png (e_libm e) (buffer i) PRgba8 CDefault FSub)) by reflexivity.
      rewrite (proj2 (save_to_buffer (e_enc e) (e_libm e) i _) _ _ true MJ ltac:(rewrite J; reflexivity)) in SB. injection SB as <-.
      cbn [png_promise fst snd channels depth_bytes] in Z. rewrite W, H in Z. cbn [output flat_map app]. rewrite app_nil_r. unfold zlen in *. cbn [List.length limits w_fs wo end_fs]. lia.
Qed.
