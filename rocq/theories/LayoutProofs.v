(** Proofs about the bytes given to encoders (C54, C56-C58, C78). *)
From Coq Require Import ZArith Reals List Bool String Ascii Lia.
From Flocq Require Import IEEE754.BinarySingleNaN.
From Verif Require Import Base BaseLemmas PixelBuffer BufferSpec PixelBufferProofs F32 F32Lemmas Color ColorSpec ColorProofs Codec CodecSpec QuantProofs.
Import ListNotations.
Open Scope Z_scope.

Lemma flat_map_len {A B} (f : A -> list B) n l : (forall a, zlen (f a) = n) -> zlen (flat_map f l) = zlen l * n.
Proof.
  intros H. induction l as [|a l IH]; [reflexivity|]. cbn [flat_map]. rewrite zlen_app, IH, H, zlen_cons. lia.
Qed.
Lemma slice_app_l {A} (a b : list A) n : n = zlen a -> slice (a ++ b) 0 n = Ok a.
Proof.
  intros ->. unfold slice. rewrite zlen_app. pose proof (zlen_nonneg a). pose proof (zlen_nonneg b).
  replace (0 <=? zlen a) with true by lia. replace (zlen a <=? zlen a + zlen b) with true by lia. cbn [andb Z.leb Z.to_nat skipn].
  rewrite Z.sub_0_r. unfold zlen. rewrite Nat2Z.id. rewrite firstn_app, firstn_all, Nat.sub_diag. cbn. rewrite app_nil_r. reflexivity.
Qed.
Lemma slice_app_r {A} (a b : list A) i j : zlen a <= i -> slice (a ++ b) i j = slice b (i - zlen a) (j - zlen a).
Proof.
  intros H. unfold slice. rewrite zlen_app. pose proof (zlen_nonneg a).
  replace (i - zlen a <=? j - zlen a) with (i <=? j) by lia. replace (j - zlen a <=? zlen b) with (j <=? zlen a + zlen b) by lia.
  replace (0 <=? i - zlen a) with (0 <=? i) by lia. replace (j - zlen a - (i - zlen a)) with (j - i) by lia.
  destruct ((i <=? j) && (j <=? zlen a + zlen b) && (0 <=? i)); [|reflexivity].
  rewrite skipn_app. rewrite skipn_all2 by (unfold zlen in *; lia). cbn [app].
  replace (Z.to_nat i - List.length a)%nat with (Z.to_nat (i - zlen a)) by (unfold zlen in *; lia). reflexivity.
Qed.
Lemma flat_map_slice {A B} (f : A -> list B) n : (forall a, zlen (f a) = n) -> forall l k a, idx l k = Ok a ->
  slice (flat_map f l) (k * n) ((k + 1) * n) = Ok (f a).
Proof.
  intros H. induction l as [|x l IH]; intros k a E.
  - apply idx_inv in E. change (zlen (@nil A)) with 0 in E. lia.
  - pose proof (idx_inv _ _ _ E) as R. rewrite zlen_cons in R. cbn [flat_map]. assert (0 <= n) by (rewrite <- (H x); apply zlen_nonneg).
    destruct (Z.eq_dec k 0) as [->|K].
    + rewrite Z.mul_0_l. injection E as ->. apply slice_app_l. rewrite H. lia.
    + change (x :: l) with ([x] ++ l) in E. rewrite idx_app_r in E by (change (zlen [x]) with 1; lia). change (zlen [x]) with 1 in E.
      rewrite slice_app_r by (rewrite H; nia). rewrite H. apply IH in E. rewrite <- E. f_equal; lia.
Qed.
Lemma flat_map_Forall {A B} (P : B -> Prop) (f : A -> list B) l : (forall a, Forall P (f a)) -> Forall P (flat_map f l).
Proof. intros H. induction l; cbn; auto. apply Forall_app. auto. Qed.

Lemma laid_out_flat b f n raw : valid b -> raw = flat_map f (data b) -> (forall c, zlen (f c) = n /\ Forall is_byte (f c)) ->
  laid_out b n f raw.
Proof.
  intros V -> H. pose proof (valid_bounds b V) as (_ & _ & _ & E). split; [|split].
  - rewrite (flat_map_len f n) by apply H. rewrite E. reflexivity.
  - apply flat_map_Forall. apply H.
  - intros m x y c I G. rewrite get_pixel_eq in G by auto. apply flat_map_slice; [apply H|]. rewrite Z.add_comm. exact G.
Qed.

Lemma quant8_byte v : is_byte (quant8 v).
Proof. unfold is_byte. rewrite quant8_eq. apply quant_range. unfold depth. lia. Qed.
Lemma quant16_range v : 0 <= quant16 v <= 65535.
Proof. rewrite quant16_eq. apply quant_range. unfold depth. lia. Qed.
Lemma hi_byte v : is_byte (quant16 v / 256).
Proof. pose proof (quant16_range v). unfold is_byte. split; [apply Z.div_pos; lia|]. apply Z.lt_succ_r. apply Z.div_lt_upper_bound; lia. Qed.
Lemma lo_byte v : is_byte (quant16 v mod 256).
Proof. unfold is_byte. pose proof (Z.mod_pos_bound (quant16 v) 256). lia. Qed.
#[export] Hint Resolve quant8_byte hi_byte lo_byte : byte.

Lemma png_layout_ok : forall L b ct comp filter, valid b -> ct <> PL16 ->
  exists raw, job_png L b ct comp filter =
    JobPng (fst (fst (png_promise L ct))) (snd (fst (png_promise L ct))) comp filter (width b) (height b) raw /\
  laid_out b (channels (fst (fst (png_promise L ct))) * depth_bytes (snd (fst (png_promise L ct))))
    (fun c => flat_map (sample_bytes (snd (fst (png_promise L ct)))) (snd (png_promise L ct) c)) raw.
Proof.
  intros L b ct comp filter V N. destruct ct; try (exfalso; exact (N eq_refl)); (eexists; split; [reflexivity|]);
    (apply laid_out_flat; [exact V|reflexivity|]); (intros c; split; [reflexivity|]);
    repeat (apply Forall_cons; [auto with byte|]); apply Forall_nil.
Qed.

Lemma image_layout_ok : forall L b ct, valid b ->
  exists raw, job_bmp L b ct = JobBmp raw (width b) (height b) (fst (fst (image_promise L ct))) /\
    job_ico L b ct = JobIco raw (width b) (height b) (fst (fst (image_promise L ct))) /\
  laid_out b (snd (fst (image_promise L ct))) (fun c => flat_map (sample_bytes Eight) (snd (image_promise L ct) c)) raw.
Proof.
  intros L b ct V. destruct ct; (eexists; split; [reflexivity|]; split; [reflexivity|]);
    (apply laid_out_flat; [exact V|reflexivity|]); (intros c; split; [reflexivity|]);
    repeat (apply Forall_cons; [auto with byte|]); apply Forall_nil.
Qed.

Lemma size_ok (b : PixelBuffer Rgb) : valid b -> width b <= 65535 -> height b <= 65535 ->
  (65535 <? width b) || (65535 <? height b) = false /\ width b mod 65536 = width b /\ height b mod 65536 = height b.
Proof.
  intros V W H. pose proof (valid_bounds b V) as (A & B & _). split; [|split; apply Z.mod_small; lia]. lia.
Qed.
Lemma size_bad (b : PixelBuffer Rgb) : 65535 < width b \/ 65535 < height b -> (65535 <? width b) || (65535 <? height b) = true.
Proof. lia. Qed.

Lemma jpeg_layout_ok : forall L b quality progressive sampling grayscale optimize, valid b -> width b <= 65535 -> height b <= 65535 ->
  exists q raw, job_jpeg L b quality progressive sampling grayscale optimize =
      ROk (JobJpeg q sampling progressive optimize raw (width b) (height b) grayscale) /\
    1 <= q <= 100 /\ (1 <= quality <= 100 -> q = quality) /\ (quality < 1 -> q = 1) /\ (100 < quality -> q = 100) /\
    laid_out b (if grayscale then 1 else 3)
      (fun c => flat_map (sample_bytes Eight) (if grayscale then gray_samples L c else rgb_samples L c)) raw.
Proof.
  intros L b quality progressive sampling grayscale optimize V W H. destruct (size_ok b V W H) as (A & B & C).
  unfold job_jpeg. rewrite A, B, C. eexists _, _. split; [reflexivity|]. split; [lia|]. split; [lia|]. split; [lia|]. split; [lia|].
  destruct grayscale;
    (apply laid_out_flat; [exact V|reflexivity|]); (intros c; split; [reflexivity|]);
    repeat (apply Forall_cons; [auto with byte|]); apply Forall_nil.
Qed.
Lemma gif_layout_ok : forall L b, valid b -> width b <= 65535 -> height b <= 65535 ->
  exists raw, job_gif L b = ROk (JobGif (width b) (height b) raw) /\
    laid_out b 4 (fun c => flat_map (sample_bytes Eight) (rgba_samples L c)) raw.
Proof.
  intros L b V W H. destruct (size_ok b V W H) as (A & B & C).
  unfold job_gif. rewrite A, B, C. eexists. split; [reflexivity|].
    (apply laid_out_flat; [exact V|reflexivity|]); (intros c; split; [reflexivity|]);
    repeat (apply Forall_cons; [auto with byte|]); apply Forall_nil.
Qed.

(** Gray 16 bit PNG: twice as many bytes as there should be. *)
Lemma png_l16_bad : forall L b comp filter, valid b -> 0 < width b -> 0 < height b ->
  exists raw, job_png L b PL16 comp filter = JobPng Grayscale Sixteen comp filter (width b) (height b) raw /\
    zlen raw = width b * height b * 4.
Proof.
  intros L b comp filter V W H. eexists. split; [reflexivity|]. unfold to_l16_be_vec.
  rewrite (flat_map_len _ 4) by reflexivity. pose proof (valid_bounds b V) as (_ & _ & _ & E). rewrite E. reflexivity.
Qed.

(** ** C57 *)
Lemma lor_low a b n : 0 <= n -> 0 <= b < 2 ^ n -> Z.lor (a * 2 ^ n) b = a * 2 ^ n + b.
Proof.
  intros N B. rewrite <- Z.lxor_lor, Z.add_nocarry_lxor; auto.
  all: apply Z.bits_inj'; intros k K; rewrite Z.land_spec, Z.bits_0; destruct (Z_lt_le_dec k n).
  all: try (rewrite Z.mul_pow2_bits_low by lia; reflexivity).
  all: apply andb_false_iff; right; destruct (Z.eq_dec b 0) as [->|]; [apply Z.bits_0|]; apply Z.bits_above_log2; [lia|];
    apply Z.lt_le_trans with n; [apply Z.log2_lt_pow2; lia|lia].
Qed.

Lemma argb_word r g b a : is_byte r -> is_byte g -> is_byte b -> is_byte a ->
  Z.lor (Z.lor (Z.lor (Z.shiftl a 24) (Z.shiftl r 16)) (Z.shiftl g 8)) b = a * 2 ^ 24 + r * 2 ^ 16 + g * 2 ^ 8 + b.
Proof.
  unfold is_byte. intros R G B A. rewrite !Z.shiftl_mul_pow2 by lia.
  rewrite (lor_low a (r * 2 ^ 16) 24) by lia.
  replace (a * 2 ^ 24 + r * 2 ^ 16) with ((a * 2 ^ 8 + r) * 2 ^ 16) by lia. rewrite (lor_low _ (g * 2 ^ 8) 16) by lia.
  replace ((a * 2 ^ 8 + r) * 2 ^ 16 + g * 2 ^ 8) with (((a * 2 ^ 8 + r) * 2 ^ 8 + g) * 2 ^ 8) by lia. rewrite (lor_low _ b 8) by lia. lia.
Qed.

Lemma webp_words : forall L b quality preset, valid b ->
  exists q words, job_webp L b quality preset = JobWebP preset q (width b) (height b) (width b) words /\
    0 <= q <= 100 /\ zlen words = width b * height b /\
    forall m x y c, inside b x y -> get_pixel m b x y = Ok c ->
      idx words (y * width b + x) = Ok (quant8 (alpha (rgb_to_srgb L c)) * 2 ^ 24 + quant8 (d0 (rgb_to_srgb L c)) * 2 ^ 16 +
        quant8 (d1 (rgb_to_srgb L c)) * 2 ^ 8 + quant8 (d2 (rgb_to_srgb L c))).
Proof.
  intros L b quality preset V. pose proof (valid_bounds b V) as (W & H & _ & E). unfold job_webp.
  rewrite !as_i32_id by lia.
  eexists _, _. split; [reflexivity|]. split; [destruct preset; lia|]. unfold to_argb8_vec32. split; [rewrite zlen_map; exact E|].
  intros m x y c I G. rewrite get_pixel_eq in G by auto. rewrite idx_map, Z.add_comm, G. cbn [bind]. f_equal.
  apply argb_word; auto with byte.
Qed.

(** ** C58 *)
Lemma oversize : forall {W} E L (wr : writer W) w b f, valid b ->
  (format_of f = Jpeg \/ format_of f = Gif) -> (65535 < width b \/ 65535 < height b) ->
  encode E L wr w b f = (w, RErr (EBadDimensions (width b) (height b))).
Proof.
  intros W E L wr w b f V F S. pose proof (size_bad b S) as B. unfold encode.
  destruct f; cbn in F; destruct F as [F|F]; try discriminate F; cbn [make_job]; unfold job_jpeg, job_gif; rewrite B; reflexivity.
Qed.
Lemma run_ops_result {W} (wr : writer W) ops ok w w' r : run_ops wr ops ok w = (w', r) ->
  r = ROk tt \/ r = RErr EEncoding \/ r = RErr EIoError.
Proof.
  revert w. induction ops as [|[l|l|] ops IH]; cbn; intros w E.
  - injection E as _ <-. destruct ok; auto.
  - destruct (write_all wr w l) as [w1 [|]]; eauto. injection E as _ <-. auto.
  - destruct (write_all wr w l) as [w1 [|]]; eauto.
  - destruct (flush wr w) as [w1 [|]]; eauto. injection E as _ <-. auto.
Qed.
Lemma bad_dimensions_only : forall {W} E L (wr : writer W) w b f w' x y, valid b ->
  encode E L wr w b f = (w', RErr (EBadDimensions x y)) ->
  w' = w /\ x = width b /\ y = height b /\ (format_of f = Jpeg \/ format_of f = Gif) /\ (65535 < width b \/ 65535 < height b).
Proof.
  intros W E L wr w b f w' x y V H. unfold encode in H. destruct (make_job L b f) as [j|e] eqn:J.
  - destruct (E j) as [ops ok]. apply run_ops_result in H as [H|[H|H]]; discriminate H.
  - injection H as <- ->. destruct f; try discriminate J; cbn [make_job] in J; unfold job_jpeg, job_gif in J;
      destruct ((65535 <? width b) || (65535 <? height b)) eqn:S; try discriminate J; injection J as <- <-; cbn; (split; [reflexivity|]); (split; [reflexivity|]); (split; [reflexivity|]); (split; [auto|]); lia.
Qed.
