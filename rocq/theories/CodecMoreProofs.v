(** CMYK (C60) and simulated JPEG compression (C80). *)
From Coq Require Import ZArith Reals List Bool String Ascii Lia Lra.
From Flocq Require Import IEEE754.BinarySingleNaN.
From Verif Require Import Base BaseLemmas PixelBuffer BufferSpec PixelBufferProofs F32 F32Lemmas Color ColorSpec ColorProofs Codec CodecSpec PathProofs QuantProofs LayoutProofs DecodeProofs RoundTripProofs.
Import ListNotations.
Open Scope Z_scope.

Lemma cmyk_channel c k : is_byte c -> is_byte k ->
  let r := fdiv (fmul (fsub (ofZ 255) (ofZ c)) (fsub (ofZ 255) (ofZ k))) (ofZ 65536) in
  num 0 (65025 / 65536) r /\ B2R r = (IZR ((255 - c) * (255 - k)) / 65536)%R.
Proof.
  intros C K r. unfold is_byte in *.
  destruct (ofZ_val 255 ltac:(lia)) as [F255 R255]. destruct (ofZ_val c ltac:(lia)) as [Fc Rc]. destruct (ofZ_val k ltac:(lia)) as [Fk Rk].
  destruct (ofZ_val 65536 ltac:(lia)) as [F6 R6].
  assert (S : forall v (x : f32), 0 <= v <= 255 -> fin x -> B2R x = IZR v -> fin (fsub (ofZ 255) x) /\ B2R (fsub (ofZ 255) x) = IZR (255 - v)).
  { intros v x V Fx Rx. assert (E : (B2R (ofZ 255) - B2R x = IZR (255 - v))%R) by (rewrite R255, Rx, minus_IZR; reflexivity).
    destruct (fsub_exact (ofZ 255) x) as [A B]; auto; [rewrite E; apply fmt_IZR; lia|]. rewrite E in B. auto. }
  destruct (S c (ofZ c) C Fc Rc) as [F1 R1]. destruct (S k (ofZ k) K Fk Rk) as [F2 R2].
  assert (P : 0 <= (255 - c) * (255 - k) <= 65025) by nia.
  assert (EP : (B2R (fsub (ofZ 255) (ofZ c)) * B2R (fsub (ofZ 255) (ofZ k)) = IZR ((255 - c) * (255 - k)))%R) by (rewrite R1, R2, mult_IZR; reflexivity).
  destruct (fmul_exact _ _ F1 F2) as [F3 R3]; [rewrite EP; apply fmt_IZR; lia|]. rewrite EP in R3.
  destruct (fdiv_exact _ (ofZ 65536) F3 F6) as [F4 R4].
  - rewrite R6. lra. - rewrite R3, R6. apply (fmt_dyad _ 16); lia.
  - unfold r. rewrite R3, R6 in R4. split; [|exact R4]. split; [exact F4|]. rewrite R4.
    assert (0 <= IZR ((255 - c) * (255 - k)) <= 65025)%R by (split; apply IZR_le; lia). split; lra.
Qed.

Lemma num_in01 x hi : num 0 hi x -> (hi <= 1)%R -> in01 x.
Proof. intros [F H] L. apply in01_num. split; [exact F|lra]. Qed.

Lemma cmyk_value : forall L c m y k, is_byte c -> is_byte m -> is_byte y -> is_byte k -> exists r g b,
  cmyk_to_rgb L c m y k = srgb_to_rgb L (mkC r g b f1) /\
  B2R r = (IZR ((255 - c) * (255 - k)) / 65536)%R /\ B2R g = (IZR ((255 - m) * (255 - k)) / 65536)%R /\ B2R b = (IZR ((255 - y) * (255 - k)) / 65536)%R /\
  in01 r /\ in01 g /\ in01 b /\ (B2R r < 1)%R /\ (B2R g < 1)%R /\ (B2R b < 1)%R.
Proof.
  intros L c m y k C M Y K. destruct (cmyk_channel c k C K) as [N1 R1]. destruct (cmyk_channel m k M K) as [N2 R2]. destruct (cmyk_channel y k Y K) as [N3 R3].
  cbv zeta in *. pose proof (num_in01 _ _ N1 ltac:(lra)) as I1. pose proof (num_in01 _ _ N2 ltac:(lra)) as I2. pose proof (num_in01 _ _ N3 ltac:(lra)) as I3.
  eexists _, _, _. split.
  { unfold cmyk_to_rgb, rgb_new. rewrite !clamp_id by assumption. reflexivity. }
  destruct N1 as [_ N1], N2 as [_ N2], N3 as [_ N3].
  split; [exact R1|]. split; [exact R2|]. split; [exact R3|]. split; [exact I1|]. split; [exact I2|]. split; [exact I3|]. split; [lra|]. split; lra.
Qed.
Lemma cmyk_alpha : forall L c m y k, alpha (cmyk_to_rgb L c m y k) = f1.
Proof. intros. apply (srgb_alpha L (rgb_new _ _ _)), in01_f1. Qed.

(** ** Simulated JPEG compression *)
Lemma Ok_inj' {A} (a b : A) : Ok a = Ok b -> a = b.
Proof. congruence. Qed.
Lemma combine_idx {A B} (l : list A) (l' : list B) k a b : idx (combine l l') k = Ok (a, b) -> idx l k = Ok a /\ idx l' k = Ok b.
Proof.
  unfold idx. destruct (k <? 0); [discriminate|]. generalize (Z.to_nat k). clear k. revert l'.
  induction l as [|x l IH]; intros [|y l'] n H; try (destruct n; discriminate H). destruct n; cbn in *; [|apply IH, H].
  injection H as <- <-. auto.
Qed.

Lemma run_vec ops ok : forall w, run_ops vec_writer ops ok w = (w ++ output ops, if ok then ROk tt else RErr EEncoding).
Proof.
  induction ops as [|[l|l|] ops IH]; intros w; cbn; rewrite ?app_nil_r; auto; rewrite IH, app_assoc; reflexivity.
Qed.

Lemma jpeg_quality_oversize : forall m E D L b quality preserve, valid b -> 65535 < width b \/ 65535 < height b ->
  jpeg_quality m E D L b quality preserve = Panic.
Proof.
  intros m E D L b quality preserve V S. unfold jpeg_quality. rewrite (oversize E L vec_writer [] b (jpeg_with_quality quality) V (or_introl eq_refl) S). reflexivity.
Qed.

Lemma jpeg_quality_ok : forall m E D L b quality preserve, jpeg_round_trip E D -> valid b -> nonempty b -> width b <= 65535 -> height b <= 65535 ->
  exists out, jpeg_quality m E D L b quality preserve = Ok out /\ valid out /\ width out = width b /\ height out = height b /\
    forall x y c c', inside b x y -> get_pixel m b x y = Ok c -> get_pixel m out x y = Ok c' -> alpha c' = if preserve then alpha c else f1.
Proof.
  intros m E D L b quality preserve RT V [NW NH] W H. pose proof (valid_bounds b V) as (B1 & B2 & B3 & B4).
  destruct (jpeg_layout_ok L b quality false None false true V W H) as (q & raw & J & _ & _ & _ & _ & LO). destruct LO as (LZ & _).
  destruct (RT q None false true raw (width b) (height b) false) as (ops & out & EO & SG & DJ & ZO & BO); [lia|lia|exact LZ|]. cbv iota in DJ.
  unfold jpeg_quality, encode, jpeg_with_quality, make_job. rewrite J, EO, run_vec. cbn [app bind]. unfold decode_buffer. apply from_reader_iff in SG. rewrite SG.
  assert (NC : JRgb24 <> JCmyk32) by discriminate.
  destruct (decode_jpeg_ok m D L _ out (width b) (height b) JRgb24 DJ NC) as (o & DO & Vo & Wo & Ho & P); [apply V|rewrite ZO, LZ; reflexivity|exact BO|].
  rewrite DO. cbn [bind].
  assert (A : forall x y c, inside b x y -> get_pixel m o x y = Ok c -> alpha c = f1).
  { intros x y c I G. assert (I' : inside o x y) by (unfold inside in *; rewrite Wo, Ho; exact I). destruct (P m x y I') as (bytes & c0 & S & C & G').
    assert (c0 = c) by congruence. subst c0. apply (opaque_colors L _ _ C). right. apply slice_bytes with (P := is_byte) in S as [_ S]; [|exact BO].
    replace ((y * width b + x + 1) * jpeg_bytes JRgb24 - (y * width b + x) * jpeg_bytes JRgb24) with (Z.of_nat 3) in S by (cbn; lia).
    repeat (apply len_S in S as (? & ? & -> & S)). apply len_nil in S. subst. reflexivity. }
  destruct preserve.
  - pose proof (valid_bounds o Vo) as (_ & _ & _ & Zo). rewrite Wo, Ho in Zo.
    assert (LE : List.length (data b) = List.length (data o)) by (unfold zlen in *; lia).
    eexists. split; [reflexivity|]. cbn [width height]. rewrite skipn_all2 by lia. rewrite app_nil_r.
    match goal with |- valid ?o' /\ _ => assert (V' : valid o') end.
    { split; cbn [width height data]; [rewrite Wo, Ho; apply V|]. rewrite zlen_map. unfold zlen. rewrite combine_length, LE, Nat.min_id. fold (zlen (data o)). rewrite Wo, Ho. exact Zo. }
    split; [exact V'|]. split; [exact Wo|]. split; [exact Ho|]. intros x y c c' I G G'.
    assert (I' : inside o x y) by (unfold inside in *; rewrite Wo, Ho; exact I).
    rewrite get_pixel_eq in G by auto. rewrite get_pixel_eq in G' by auto. cbn [data width] in G'. rewrite Wo in G'. rewrite idx_map in G'.
    match type of G' with context [bind ?e _] => destruct e as [[p1 p2]|] eqn:Q end; cbn [bind] in G'; [|discriminate G'].
    apply Ok_inj' in G'. subst c'. cbn [alpha d3 fst snd]. destruct (combine_idx _ _ _ _ _ Q) as [Q1 _]. pose proof (Ok_inj' _ _ (eq_trans (eq_sym Q1) G)) as PC. rewrite PC. reflexivity.
  - eexists. split; [reflexivity|]. split; [exact Vo|]. split; [exact Wo|]. split; [exact Ho|]. intros x y c c' I _ G. exact (A x y c' I G).
Qed.

(** ** White *)
Lemma white_saved L a : powf L f1 (fdiv f1 (dec 24 10)) = f1 ->
  map quant8 (rgb_samples L (mkC f1 f1 f1 a)) = [254; 254; 254] /\ map quant16 (rgb_samples L (mkC f1 f1 f1 a)) = [65534; 65534; 65534].
Proof.
  intros H.
  assert (G : linear_to_gamma L f1 = fsub (fmul (dec 1055 1000) f1) (dec 55 1000)).
  { unfold linear_to_gamma. replace (flt (dec 3130805 1000000000) f1) with true by (vm_compute; reflexivity). rewrite H. reflexivity. }
  unfold rgb_samples, rgb_to_srgb, rgb_new_with_alpha. cbn [d0 d1 d2 map]. rewrite G. split; vm_compute; reflexivity.
Qed.
Lemma white_again L : powf L f1 (fdiv f1 (dec 24 10)) = f1 -> powf L f1 (dec 24 10) = f1 ->
  map quant8 (rgb_samples L (srgb_to_rgb L (mkC (from_u8 255) (from_u8 255) (from_u8 255) f1))) = [254; 254; 254] /\
  map quant16 (rgb_samples L (srgb_to_rgb L (mkC (from_u16 65535) (from_u16 65535) (from_u16 65535) f1))) = [65534; 65534; 65534].
Proof.
  intros H H'. assert (E8 : from_u8 255 = f1) by (apply B2SF_inj; vm_compute; reflexivity). assert (E16 : from_u16 65535 = f1) by (apply B2SF_inj; vm_compute; reflexivity). rewrite E8, E16.
  assert (G : gamma_to_linear L f1 = f1).
  { unfold gamma_to_linear. replace (flt (dec 4045 100000) f1) with true by (vm_compute; reflexivity).
    replace (fdiv (fadd f1 (dec 55 1000)) (dec 1055 1000)) with f1 by (apply B2SF_inj; vm_compute; reflexivity). exact H'. }
  unfold srgb_to_rgb. cbn [d0 d1 d2 d3]. rewrite G. unfold rgb_new_with_alpha. replace (clamp f1) with f1 by (apply B2SF_inj; vm_compute; reflexivity). apply white_saved, H.
Qed.

(** ** The largest JPEG image *)
Lemma huge_len : zlen huge = 65535 * 65535.
Proof. unfold huge. rewrite zlen_repeat. rewrite Z2Nat.id; [reflexivity|lia]. Qed.
Lemma ROk_inj {A E} (a b : A) : @ROk A E a = ROk b -> a = b.
Proof. congruence. Qed.
Lemma huge_good : good_decoders huge_decoders.
Proof.
  constructor; cbn [huge_decoders example_decoders dec_png dec_jpeg dec_gif dec_bmp dec_ico dec_webp].
  - intros c img E. apply ROk_inj in E. subst img. cbn [png_width png_height next_frame]. split; [unfold is_u32; lia|]. split; [unfold is_u32; lia|].
    intros n l. destruct (Z.ltb_spec n 0); [discriminate|]. intros E. apply ROk_inj in E. subst l. rewrite zlen_repeat. lia.
  - intros c raw w h f E. apply ROk_inj in E. apply pair_equal_spec in E as [<- E]. apply Some_inj in E. apply pair_equal_spec in E as [E <-]. apply pair_equal_spec in E as [<- <-].
    split; [lia|]. split; [lia|]. rewrite huge_len. reflexivity.
  - intros c w h raw E. apply ROk_inj, Some_inj in E. apply pair_equal_spec in E as [E <-]. apply pair_equal_spec in E as [<- <-]. cbn. lia.
  - intros c img E. apply ROk_inj in E. subst img. split; [|split]; cbn; try (unfold is_u32; lia). intros n E. apply Some_inj in E. subst n. reflexivity.
  - intros c img E. apply ROk_inj in E. subst img. split; [|split]; cbn; try (unfold is_u32; lia). intros n E. apply Some_inj in E. subst n. reflexivity.
  - intros c w h raw E. apply Some_inj in E. apply pair_equal_spec in E as [E <-]. apply pair_equal_spec in E as [<- <-]. cbn. lia.
Qed.
Lemma huge_panics m L : decode m huge_decoders L [] Jpeg = Panic.
Proof.
  apply decode_panics; [exact huge_good|]. split; [reflexivity|]. exists huge, 65535, 65535, JL8. split; [reflexivity|lia].
Qed.
