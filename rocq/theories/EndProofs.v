(** Proofs about the whole program (C119). *)
From Coq Require Import Reals ZArith List Bool String Ascii Lia Lra.
From Flocq Require Import Core.Core IEEE754.BinarySingleNaN.
From Verif Require Import Base BaseLemmas PixelBuffer BufferSpec PixelBufferProofs F32 F32Lemmas Color ColorSpec ColorProofs MeaningSpec Approx OpMeaningProofs HslMeaning HslOps
  Codec CodecSpec Image QuantProofs LayoutProofs DecodeProofs RoundTripProofs SrgbMeaning SrgbSamples ReopenSpec ReopenProofs ResaveSpec CodecThm ImageThm
  Commands CommandsSpec CommandsProofs Cli CliSpec CliThm EndSpec.
Import ListNotations.
Open Scope R_scope.

(** ** The sRGB curve is steep, but not too steep *)
Lemma power_slope c : 31308 / 10000000 <= c -> Rpower c (10 / 24 - 1) <= 28899 / 1000.
Proof.
  intros C. set (t := 31308 / 10000000) in *. assert (T : 0 < t) by (unfold t; lra).
  assert (Q : Rpower c (10 / 24 - 1) <= Rpower t (10 / 24 - 1)).
  { unfold Rpower. assert (L : ln t <= ln c) by (destruct C as [C| ->]; [left; apply ln_increasing; lra|right; reflexivity]).
    assert (D : (10 / 24 - 1) * ln c <= (10 / 24 - 1) * ln t) by lra. destruct D as [D|D]; [left; apply exp_increasing, D|right; f_equal; exact D]. }
  pose proof (pow_C' t ltac:(unfold t; lra)) as P. replace (10 / 24 - 1) with (10 / 24 + - (1)) in * by lra. rewrite (Rpower_plus _ _ t), Rpower_Ropp, Rpower_1 in Q by lra.
  assert (M : Rpower t (10 / 24) * / t <= 904743 / 10000000 * / t) by (apply Rmult_le_compat_r; [left; apply Rinv_0_lt_compat, T|exact P]).
  unfold t in M at 3. lra.
Qed.
Lemma power_lip a b : 31308 / 10000000 <= a <= b -> 0 <= Rpower b (10 / 24) - Rpower a (10 / 24) <= 12042 / 1000 * (b - a).
Proof.
  intros [A B]. split; [pose proof (Rpower_mono a b (10 / 24) ltac:(lra) ltac:(lra)); lra|].
  destruct B as [B| ->]; [|lra].
  destruct (MVT_cor2 (fun t => Rpower t (10 / 24)) (fun t => 10 / 24 * Rpower t (10 / 24 - 1)) a b B) as (c & E & C).
  - intros c C. apply derivable_pt_lim_power. lra.
  - rewrite E. pose proof (power_slope c ltac:(lra)). apply Rmult_le_compat_r; lra.
Qed.
Lemma encode_lip a b : 0 <= a <= b -> - / 1000000 <= srgb_encode b - srgb_encode a <= 13 * (b - a) + / 1000000.
Proof.
  intros [A B]. set (t := 3130805 / 1000000000). assert (T : t = 3130805 / 1000000000) by reflexivity.
  pose proof (pow_C t ltac:(unfold t; lra)) as C1. pose proof (pow_C' t ltac:(unfold t; lra)) as C2.
  unfold srgb_encode. fold t. destruct (Rle_dec b t) as [P|P]; destruct (Rle_dec a t) as [Q|Q]; try (exfalso; lra).
  - lra.
  - pose proof (power_lip t b ltac:(lra)). lra.
  - pose proof (power_lip a b ltac:(lra)). lra.
Qed.
Lemma encode_near a b e : 0 <= a -> 0 <= b -> Rabs (a - b) <= e -> Rabs (srgb_encode a - srgb_encode b) <= 13 * e + / 1000000.
Proof.
  intros A B E. apply Rabs_le_iff in E. apply Rabs_le_iff. destruct (Rle_dec a b) as [H|H].
  - pose proof (encode_lip a b ltac:(lra)). lra.
  - pose proof (encode_lip b a ltac:(lra)). lra.
Qed.

(** ** Samples *)
Lemma byte_of L x : accurate_powf L -> in01 x -> byte_below (/ 1024) (srgb_encode (B2R x)) (quant8 (clamp (linear_to_gamma L x))).
Proof.
  intros AL I. pose proof (encode_meaning L x AL I) as C. rewrite encode_limit in C.
  destruct (quant_below 255 _ _ _ ltac:(left; reflexivity) (clamped_in01 _ _ _ C) C ltac:(lra)) as [V B].
  change (quant8 (clamp (linear_to_gamma L x))) with (quant 255 (clamp (linear_to_gamma L x))).
  split; [exact V|]. lra.
Qed.
Lemma byte_of_alpha a : in01 a -> byte_below (/ 1024) (B2R a) (quant8 (clamp a)).
Proof.
  intros I. rewrite (clamp_id a I). pose proof I as I'. apply in01_R in I'. destruct I' as [F _].
  destruct (quant_below 255 a 0 (B2R a) ltac:(left; reflexivity) I (close_0 _ F) ltac:(lra)) as [V B].
  change (quant8 a) with (quant 255 a). split; [exact V|]. lra.
Qed.
Lemma byte_moved e e' r r' v : byte_below e r v -> Rabs (r - r') <= e' -> byte_below (e + 255 * e') r' v.
Proof. intros [V B] E. apply Rabs_le_iff in E. split; [exact V|]. lra. Qed.
Lemma byte_weaker e e' r v : byte_below e r v -> e <= e' -> byte_below e' r v.
Proof. intros [V B] E. split; [exact V|]. lra. Qed.

(** ** The program *)
Section Program.
Context {S : Type} (e : env S).
Context (GD : good_decoders (e_dec e)).

Lemma recolouring_done cmds f : recolouring (e_libm e) cmds f -> forall b s g, valid b ->
  exists b', recolored f b b' /\ do_all e cmds (mkState (Some b) s g) (mkState (Some b') s g).
Proof.
  intros H. induction H as [|cmds f H IH|c h cmds f P H IH]; intros b s g V.
  - exists b. split; [apply recolored_id, V|constructor].
  - destruct (IH b s g V) as (b' & A & B). exists b'. split; [exact A|]. econstructor; [apply does_silent|exact B].
  - pose proof (recolored_map h b V) as M. set (b1 := mkPB (width b) (height b) (map h (data b))) in *.
    destruct (IH b1 s g (proj1 M)) as (b' & A & B). exists b'. split.
    + exact (recolored_trans h f b b1 b' V M A).
    + econstructor; [|exact B]. eapply does_pixels; eauto.
Qed.

Lemma whole_program text number args w input output cmds f b :
  command_line text number true (tl args) (CmdOpen input :: cmds ++ [CmdSave output]) -> recolouring (e_libm e) cmds f ->
  decode_file (e_build e) (e_dec e) (e_libm e) (w_fs w) input = Ok (ROk b) ->
  lossless_png (e_enc e) (e_dec e) -> accurate_powf (e_libm e) -> nonempty b ->
  can_store (e_enc e) (e_libm e) (w_fs w) output (width b) (height b) ->
  exists w' b' bytes raw, recolored f b b' /\ main e text number args w = Ok (w', ROk tt) /\
    (forall p, p <> output -> files (w_fs w') p = files (w_fs w) p) /\ files (w_fs w') output = Some bytes /\
    holds_png (e_dec e) ColRgba Eight (width b) (height b) bytes raw /\
    laid_out b' 4 (fun c => flat_map (sample_bytes Eight) (rgba_samples (e_libm e) c)) raw.
Proof.
  intros CL RC DF LP AL NE (HX & CR & RM). pose proof (decode_file_valid _ _ _ _ _ _ GD DF) as V.
  destruct (recolouring_done cmds f RC b (w_fs w) (w_rng w) V) as (b' & RB & DA).
  pose proof RB as (V' & W' & H' & _).
  destruct (png_layout_ok (e_libm e) b' PRgba8 CDefault FSub V' ltac:(discriminate)) as (raw & J & LO).
  pose proof LO as (Z & B & _). cbn [png_promise fst snd channels depth_bytes] in J, LO, Z.
  pose proof (valid_bounds b' V') as VB. destruct NE as [NW NH].
  destruct (LP ColRgba Eight CDefault FSub (width b') (height b') raw) as (ops & img & EO & SG & DE & WI & HI & LA & NF); try assumption; try nia.
  assert (MJ : make_job (e_libm e) b' (EPng PRgba8 CDefault FSub) = ROk (job_png (e_libm e) b' PRgba8 CDefault FSub)) by reflexivity.
  assert (LI : (zlen (CodecSpec.output ops) <= limits (w_fs w) output)%Z).
  { apply (RM (new_from_buffer b')); [exact V'|exact W'|exact H'|]. apply (proj2 (save_to_buffer _ _ (new_from_buffer b') _) _ ops true MJ). rewrite J. exact EO. }
  destruct (known_extension output Png HX) as (g & CH & FE).
  assert (GE : g = EPng PRgba8 CDefault FSub).
  { unfold chosen, encoding_from_path in CH. destruct (format_from_path output) as [[]|]; inversion CH; subst g; try discriminate FE; reflexivity. }
  subst g. destruct (encode_to_file (e_enc e) (e_libm e) (w_fs w) output b' None) as [s' r] eqn:EF.
  destruct (save_result (e_enc e) (e_libm e) (w_fs w) output b' None _ _ ops true s' r ltac:(unfold zlen in LI; lia) CH CR MJ ltac:(rewrite J; exact EO) EF) as (_ & A & _).
  destruct (A LI) as [F ->].
  set (q := CmdOpen input :: cmds ++ [CmdSave output]) in *.
  assert (DQ : do_all e q (before_all w) (mkState (Some b') s' (w_rng w))).
  { unfold q. econstructor; [apply does_open; exact DF|]. eapply do_all_app; [exact DA|]. econstructor; [apply does_save; exact EF|constructor]. }
  destruct (run_backward e GD q w _ q (ROk tt) ltac:(left; split; [reflexivity|split; [reflexivity|exact DQ]])) as (w' & QR & FS & _).
  cbn [on_disk] in FS. exists w', b', (CodecSpec.output ops), raw. split; [exact RB|]. split.
  { apply (good_command_line_runs _ e text number args w q w'); [|exact CL|exact QR].
    intros Z1. unfold zlen in Z1. destruct args as [|a [|a2 args]]; [discriminate Z1|exfalso; cbn [tl] in CL; unfold q in CL; inversion CL|].
    cbn [List.length] in Z1. lia. }
  rewrite FS. split; [intros p N; exact (save_touches_one _ _ _ _ _ _ _ _ p EF N)|]. split; [exact F|]. split; [|exact LO].
  rewrite <- W', <- H'. exists img. cbn [channels depth_bytes]. do 7 (split; [assumption|]). exact B.
Qed.

Local Opaque fdiv ofZ quant8 quant16 clamp gamma_to_linear linear_to_gamma gray_value f1 f0.
Lemma png_program text number args wo input output cmds f w h bytes raw :
  command_line text number true (tl args) (CmdOpen input :: cmds ++ [CmdSave output]) -> recolouring (e_libm e) cmds f ->
  files (w_fs wo) input = Some bytes -> holds_png (e_dec e) ColRgba Eight w h bytes raw -> (0 < w)%Z -> (0 < h)%Z -> valid_size w h ->
  lossless_png (e_enc e) (e_dec e) -> accurate_powf (e_libm e) -> can_store (e_enc e) (e_libm e) (w_fs wo) output w h ->
  (forall c, in_gamut c -> d3 (f c) = d3 c) ->
  program_recolours e text number args wo w h raw output (fun r g b r' g' b' => exists c,
    is_byte r /\ is_byte g /\ is_byte b /\ in_gamut c /\
    d0 c = clamp (gamma_to_linear (e_libm e) (from_u8 r)) /\ d1 c = clamp (gamma_to_linear (e_libm e) (from_u8 g)) /\
    d2 c = clamp (gamma_to_linear (e_libm e) (from_u8 b)) /\
    r' = quant8 (clamp (linear_to_gamma (e_libm e) (d0 (f c)))) /\ g' = quant8 (clamp (linear_to_gamma (e_libm e) (d1 (f c)))) /\
    b' = quant8 (clamp (linear_to_gamma (e_libm e) (d2 (f c))))).
Proof.
  intros CL RC FI (img & SG & DE & WI & HI & LA & NF & Z & B) W H VS LP AL CS FA.
  assert (VI : valid_size (png_width img) (png_height img)) by (rewrite WI, HI; exact VS).
  rewrite <- WI, <- HI in Z. pose proof NF as NF'. rewrite Z in NF'.
  destruct (decode_png_ok (e_build e) (e_dec e) (e_libm e) bytes img ColRgba Eight raw DE VI LA NF' Z B) as (b & DB & V & WB & HB & PX).
  rewrite WI, HI in *. cbn [channels depth_bytes samples_of] in PX.
  assert (DF : decode_file (e_build e) (e_dec e) (e_libm e) (w_fs wo) input = Ok (ROk b)) by (rewrite (contents_decide _ _ _ _ _ _ _ FI SG); exact DB).
  rewrite <- WB, <- HB in CS.
  destruct (whole_program text number args wo input output cmds f b CL RC DF LP AL ltac:(split; lia) CS) as (wo' & b' & bytes' & raw' & RB & MA & OT & FO & HP & LO).
  rewrite WB, HB in HP. exists wo', bytes', raw'. do 4 (split; [assumption|]). intros x y X Y.
  assert (I : inside b x y) by (split; lia). destruct (PX Checked x y I) as (px & c & SL & CO & GP).
  destruct RB as (V' & W' & H' & RP). pose proof (RP Checked x y c I GP) as GP'.
  assert (I' : inside b' x y) by (split; lia). pose proof (proj2 (proj2 LO) Checked x y _ I' GP') as SL'.
  rewrite W', WB in SL'. destruct (slice_bytes is_byte _ _ _ _ SL B) as [FB ZB].
  assert (ZB' : zlen px = 4%Z) by (rewrite ZB; lia). unfold zlen in ZB'.
  destruct px as [|r [|g [|bl [|a [|? ?]]]]]; cbn [List.length] in ZB'; try lia.
  inversion FB as [|? ? Br FB1]; subst. inversion FB1 as [|? ? Bg FB2]; subst. inversion FB2 as [|? ? Bb FB3]; subst. inversion FB3 as [|? ? Ba _]; subst.
  cbn [samples8 map color_of] in CO. apply Some_inj in CO.
  assert (C0 : d0 c = clamp (gamma_to_linear (e_libm e) (from_u8 r))) by (rewrite <- CO; reflexivity).
  assert (C1 : d1 c = clamp (gamma_to_linear (e_libm e) (from_u8 g))) by (rewrite <- CO; reflexivity).
  assert (C2 : d2 c = clamp (gamma_to_linear (e_libm e) (from_u8 bl))) by (rewrite <- CO; reflexivity).
  assert (C3 : d3 c = clamp (from_u8 a)) by (rewrite <- CO; reflexivity). clear CO.
  assert (G : in_gamut c).
  { assert (Q : forall v, is_byte v -> in01 (clamp (gamma_to_linear (e_libm e) (from_u8 v)))).
    { intros v Bv. exact (clamped_in01 _ _ _ (decode_meaning (e_libm e) _ AL (from_u8_in01 v Bv))). }
    split; [rewrite C0; apply Q, Br|]. split; [rewrite C1; apply Q, Bg|]. split; [rewrite C2; apply Q, Bb|].
    rewrite C3, clamp_u8 by exact Ba. apply from_u8_in01, Ba. }
  exists r, g, bl, a. do 3 eexists. split; [exact SL|]. split.
  { unfold pixel_at. rewrite SL'. cbn [rgba_samples flat_map sample_bytes app].
    assert (AE : quant8 (alpha (rgb_to_srgb (e_libm e) (f c))) = a).
    { change (alpha (rgb_to_srgb (e_libm e) (f c))) with (clamp (d3 (f c))). rewrite (FA c G), C3. apply alpha_same8, Ba. }
    unfold rgba_samples. cbn [flat_map sample_bytes app]. rewrite AE. reflexivity. }
  exists c. do 7 (split; [assumption|]). split; [reflexivity|]. split; reflexivity.
Qed.
End Program.

(** ** Recolourings *)
Lemma decoded_light L v : accurate_powf L -> is_byte v ->
  close (23 / 10000000) (light v) (clamp (gamma_to_linear L (from_u8 v))).
Proof.
  intros AL B. destruct (decode_meaning L _ AL (from_u8_in01 v B)) as [F M]. rewrite decode_limit in M. split; [exact F|].
  pose proof (decode_sample 255 v ltac:(left; reflexivity) B) as S. fold (from_u8 v) in S. unfold light. apply Rabs_le_iff in M, S. apply Rabs_le_iff. lra.
Qed.
Lemma stored_light L K x r d : accurate_powf L -> in01 x -> close d r x -> 0 <= r -> 1 <= K -> d <= K * (4 / 1000000) ->
  byte_below (K / 64) (srgb_encode r) (quant8 (clamp (linear_to_gamma L x))).
Proof.
  intros AL I [F C] R HK D. pose proof (byte_of L x AL I) as B. apply in01_R in I. destruct I as [_ I].
  pose proof (encode_near (B2R x) r (K * (4 / 1000000)) ltac:(lra) R ltac:(lra)) as N.
  eapply byte_weaker; [exact (byte_moved _ _ _ _ _ B N)|]. lra.
Qed.
Lemma program_weaker {S} (e : env S) text number args wo w h raw output (P Q : Z -> Z -> Z -> Z -> Z -> Z -> Prop) :
  (forall r g b r' g' b', P r g b r' g' b' -> Q r g b r' g' b') ->
  program_recolours e text number args wo w h raw output P -> program_recolours e text number args wo w h raw output Q.
Proof.
  intros PQ (wo' & bytes' & raw' & A & B & C & D & H). exists wo', bytes', raw'. do 4 (split; [assumption|]). intros x y X Y.
  destruct (H x y X Y) as (r & g & b & a & r' & g' & b' & P1 & P2 & P3). exists r, g, b, a, r', g', b'. auto.
Qed.
Lemma ready_program {S} (e : env S) text number args wo input output w h raw cmds f :
  ready e wo input output w h raw ->
  command_line text number true (tl args) (CmdOpen input :: cmds ++ [CmdSave output]) -> recolouring (e_libm e) cmds f ->
  (forall c, in_gamut c -> d3 (f c) = d3 c) ->
  program_recolours e text number args wo w h raw output (fun r g b r' g' b' => exists c,
    is_byte r /\ is_byte g /\ is_byte b /\ in_gamut c /\
    d0 c = clamp (gamma_to_linear (e_libm e) (from_u8 r)) /\ d1 c = clamp (gamma_to_linear (e_libm e) (from_u8 g)) /\
    d2 c = clamp (gamma_to_linear (e_libm e) (from_u8 b)) /\
    r' = quant8 (clamp (linear_to_gamma (e_libm e) (d0 (f c)))) /\ g' = quant8 (clamp (linear_to_gamma (e_libm e) (d1 (f c)))) /\
    b' = quant8 (clamp (linear_to_gamma (e_libm e) (d2 (f c))))).
Proof.
  intros (GD & LP & AL & W & H & VS & (bytes & FI & HP) & CS) CL RC FA.
  exact (png_program e GD text number args wo input output cmds f w h bytes raw CL RC FI HP W H VS LP AL CS FA).
Qed.
Lemma light_range v : is_byte v -> 0 <= light v <= 1.
Proof.
  intros [B1 B2]. apply IZR_le in B1. assert (B3 : IZR v <= 255) by (apply IZR_le; lia). unfold light, srgb_decode. destruct Rle_dec as [H|H]; [lra|].
  set (t := (IZR v / 255 + 55 / 1000) / (1055 / 1000)). assert (T : 0 < t <= 1) by (unfold t; lra). split; [left; apply exp_pos|].
  pose proof (Rpower_mono t 1 (24 / 10) ltac:(lra) ltac:(lra)) as M. unfold Rpower in M at 2. rewrite ln_1, Rmult_0_r, exp_0 in M. exact M.
Qed.
Lemma channel_program {S} (e : env S) text number args wo input output w h raw c f F K d :
  ready e wo input output w h raw ->
  command_line text number true (tl args) [CmdOpen input; c; CmdSave output] -> pixel_function (e_libm e) c = Some f ->
  (forall p, in_gamut p -> in_gamut (f p) /\ channelwise d F p (f p)) -> 1 <= K -> d <= K * (17 / 10000000) ->
  (forall r, 0 <= r <= 1 -> 0 <= F r) -> (forall r r', 0 <= r <= 1 -> 0 <= r' <= 1 -> Rabs (F r - F r') <= K * Rabs (r - r')) ->
  program_recolours e text number args wo w h raw output (each_channel (K / 64) F).
Proof.
  intros RD CL PF CH HK HD FP FL. pose proof (proj1 (proj2 (proj2 RD))) as AL.
  apply (program_weaker e text number args wo w h raw output) with
    (2 := ready_program e text number args wo input output w h raw [c] f RD CL (rec_command _ c f [] _ PF (rec_nothing _))
      (fun p G => proj2 (proj2 (proj2 (proj2 (CH p G)))))).
  intros r g b r' g' b' (p & Br & Bg & Bb & G & P0 & P1 & P2 & -> & -> & ->). destruct (CH p G) as ((I0 & I1 & I2 & _) & C0 & C1 & C2 & _).
  assert (Q : forall v x y, is_byte v -> in01 x -> x = clamp (gamma_to_linear (e_libm e) (from_u8 v)) -> in01 y -> close d (F (B2R x)) y ->
    byte_below (K / 64) (srgb_encode (F (light v))) (quant8 (clamp (linear_to_gamma (e_libm e) y)))).
  { intros v x y Bv Ix Ex Iy [Fy Cy]. destruct (decoded_light (e_libm e) v AL Bv) as [_ CL']. rewrite <- Ex in CL'. clear Ex.
    pose proof (light_range v Bv) as LR. apply in01_R in Ix. destruct Ix as [_ Ix].
    pose proof (FL (B2R x) (light v) Ix LR) as M.
    assert (M2 : K * Rabs (B2R x - light v) <= K * (23 / 10000000)) by (apply Rmult_le_compat_l; lra).
    apply (stored_light (e_libm e) K y (F (light v)) (K * (4 / 1000000)) AL Iy); [|apply FP, LR|exact HK|lra].
    split; [exact Fy|]. set (k1 := K * Rabs (B2R x - light v)) in *. clearbody k1. apply Rabs_le_iff in Cy, M. apply Rabs_le_iff. lra. }
  destruct G as (G0 & G1 & G2 & _).
  split; [exact (Q r _ _ Br G0 P0 I0 C0)|]. split; [exact (Q g _ _ Bg G1 P1 I1 C1)|exact (Q b _ _ Bb G2 P2 I2 C2)].
Qed.
Lemma map_gamut d F g c : channelwise d F c (map_channels g c) -> in_gamut c -> in_gamut (map_channels g c).
Proof.
  intros (C0 & C1 & C2 & _) (_ & _ & _ & G3). split; [exact (clamped_in01 _ _ _ C0)|]. split; [exact (clamped_in01 _ _ _ C1)|].
  split; [exact (clamped_in01 _ _ _ C2)|exact G3].
Qed.
Lemma limited_pos r : 0 <= limited r.
Proof. apply Rmax_l. Qed.

(** Options on the command line. *)
Lemma plain_line text number input a name c output : file_name text input -> text a = ("-" ++ name)%string -> plain_option name c -> file_name text output ->
  forall program, command_line text number true (tl [program; input; a; output]) [CmdOpen input; c; CmdSave output].
Proof. intros FI TA PO FO program. cbn [tl]. apply cl_first; [exact FI|]. apply (cl_plain _ _ _ _ name); [exact TA|exact PO|]. apply cl_later; [exact FO|]. constructor. Qed.
Lemma option_line text number input a name p c output : file_name text input -> text a = ("-" ++ name)%string -> option_with text number name p c -> file_name text output ->
  forall program, command_line text number true (tl [program; input; a; p; output]) [CmdOpen input; c; CmdSave output].
Proof. intros FI TA PO FO program. cbn [tl]. apply cl_first; [exact FI|]. apply (cl_with _ _ _ _ name); [exact TA|exact PO|]. apply cl_later; [exact FO|]. constructor. Qed.

(** The libraries of the example. *)
Lemma plain_good_image c img : plain_image c = ROk img -> good_dyn img.
Proof.
  unfold plain_image. destruct c as [|n [|w [|h raw]]]; try discriminate. cbv zeta. set (l := map _ _). clearbody l.
  destruct ((0 <=? w) && (w <=? 4294967295) && (0 <=? h) && (h <=? 4294967295) && (zlen l =? w * h))%Z%bool eqn:E; [|discriminate].
  rewrite !andb_true_iff, !Z.leb_le, Z.eqb_eq in E. intros HE. injection HE as <-. unfold good_dyn, is_u32. cbn [dyn_width dyn_height dyn_data dyn_count].
  split; [lia|]. split; [lia|]. intros m HM. injection HM as <-. lia.
Qed.
Lemma plain_good : good_decoders plain_decoders.
Proof.
  split; cbn [plain_decoders dec_png dec_jpeg dec_gif dec_bmp dec_ico dec_webp]; try discriminate.
  - intros c img. destruct (skipn 8 c) as [|n [|k [|w [|h raw]]]]; try discriminate.
    destruct ((0 <=? w) && (w <=? 4294967295) && (0 <=? h) && (h <=? 4294967295))%Z%bool eqn:E; [|discriminate].
    rewrite !andb_true_iff, !Z.leb_le in E. intros HE. injection HE as <-. cbn [png_width png_height next_frame]. unfold is_u32.
    split; [lia|]. split; [lia|]. intros m l. destruct (m =? zlen raw)%Z eqn:M; [|discriminate]. apply Z.eqb_eq in M. intros HL. injection HL as <-. auto.
  - intros c img. apply plain_good_image.
  - intros c img. apply plain_good_image.
Qed.
