(** Proofs about saving a picture and opening it again (C116). *)
From Coq Require Import Reals ZArith List Bool String Ascii Lia Lra.
From Flocq Require Import Core.Core IEEE754.BinarySingleNaN.
From Verif Require Import Base BaseLemmas PixelBuffer BufferSpec PixelBufferProofs F32 F32Lemmas Color ColorSpec ColorProofs MeaningSpec Approx OpMeaningProofs HslMeaning HslOps
  Codec CodecSpec QuantProofs LayoutProofs DecodeProofs RoundTripProofs SrgbMeaning SrgbSamples ReopenSpec.
Import ListNotations.
Open Scope R_scope.

(** The truncated sample. *)
Lemma quant_below N g e r : (N = 255 \/ N = 65535)%Z -> in01 g -> close e r g -> e + 2 * U <= / 2 ^ 18 ->
  let v := quant N g in (0 <= v <= N)%Z /\ IZR v - IZR N / 2 ^ 18 <= r * IZR N < IZR v + 1 + IZR N / 2 ^ 18.
Proof.
  intros HN I [F C] S. cbv zeta. assert (D : depth N) by (unfold depth; lia). split; [apply quant_range, D|].
  rewrite (quant_floor N g D I). apply in01_R in I. destruct I as [_ I].
  assert (N1 : 255 <= IZR N <= 65535) by (destruct HN as [-> | ->]; lra).
  pose proof (rnd_rel_abs (B2R g * IZR N)) as R. pose proof p140 as P. rewrite (Rabs_right (B2R g * IZR N)) in R by (apply Rle_ge, Rmult_le_pos; lra).
  set (x := rnd (B2R g * IZR N)) in *. pose proof (Zfloor_lb x) as L1. pose proof (Zfloor_ub x) as L2.
  set (v := IZR (Zfloor x)) in *. clearbody v x.
  assert (Q : Rabs (B2R g * IZR N - r * IZR N) <= e * IZR N).
  { replace (B2R g * IZR N - r * IZR N) with ((B2R g - r) * IZR N) by ring. apply abs_mul_le; [exact C|]. rewrite Rabs_right; lra. }
  assert (T : U * (B2R g * IZR N) <= U * IZR N) by (apply Rmult_le_compat_l; [lra|]; rewrite <- (Rmult_1_l (IZR N)) at 2; apply Rmult_le_compat_r; lra).
  assert (T3 : U * 255 <= U * IZR N) by (apply Rmult_le_compat_l; lra).
  assert (T2 : (e + 2 * U) * IZR N <= / 2 ^ 18 * IZR N) by (apply Rmult_le_compat_r; lra).
  apply Rabs_le_iff in R, Q. replace (IZR N / 2 ^ 18) with (/ 2 ^ 18 * IZR N) by (unfold Rdiv; ring).
  set (z := / 2 ^ 18 * IZR N) in *. rewrite Rmult_plus_distr_r, Rmult_assoc in T2. set (e1 := e * IZR N) in *. set (u1 := U * IZR N) in *.
  clearbody z e1 u1. lra.
Qed.

(** The decoded sample. *)
Lemma decode_sample N v : (N = 255 \/ N = 65535)%Z -> (0 <= v <= N)%Z ->
  Rabs (srgb_decode (B2R (fdiv (ofZ v) (ofZ N))) - srgb_decode (IZR v / IZR N)) <= 3 * U.
Proof.
  intros HN V. destruct (sample_val N v HN V) as (I & E & _). set (x := B2R (fdiv (ofZ v) (ofZ N))) in *. apply in01_R in I. destruct I as [_ I].
  fold x in I. clearbody x. set (q := IZR v / IZR N) in *.
  assert (Q : 0 <= q <= 1 /\ (q <= 40447 / 1000000 \/ 404510 / 10000000 <= q)).
  { assert (C : (N = 255 /\ (v <= 10 \/ 11 <= v) \/ N = 65535 /\ (v <= 2650 \/ 2651 <= v))%Z) by lia.
    assert (V' : 0 <= IZR v <= IZR N) by (split; apply IZR_le; lia).
    unfold q. destruct C as [[-> [C|C]] | [-> [C|C]]]; apply IZR_le in C; split; try (split; lra); lra. }
  clearbody q. destruct Q as [Q0 Q]. apply Rabs_le_iff in E. unfold srgb_decode.
  destruct Rle_dec as [A|A]; destruct Rle_dec as [B|B]; try (exfalso; lra).
  - apply Rabs_le_iff. lra.
  - apply Rnot_le_lt in A, B.
    pose proof (Rpower_lip ((x + 55 / 1000) / (1055 / 1000)) ((q + 55 / 1000) / (1055 / 1000)) (24 / 10) ltac:(lra) ltac:(lra) ltac:(lra)) as T.
    assert (T2 : Rabs ((x + 55 / 1000) / (1055 / 1000) - (q + 55 / 1000) / (1055 / 1000)) <= 1000 / 1055 * U) by (apply Rabs_le_iff; lra).
    lra.
Qed.

(** One colour channel. *)
Lemma stored_colour L d x : accurate_powf L -> in01 x ->
  stored (max_sample d) srgb_encode srgb_decode x
    (clamp (gamma_to_linear L (fdiv (ofZ (quant (max_sample d) (clamp (linear_to_gamma L x)))) (ofZ (max_sample d))))).
Proof.
  intros AL I. set (N := max_sample d). assert (HN : (N = 255 \/ N = 65535)%Z) by apply max_cases.
  pose proof (encode_meaning L x AL I) as C. rewrite encode_limit in C.
  destruct (quant_below N _ _ _ HN (clamped_in01 _ _ _ C) C ltac:(lra)) as [V B]. set (v := quant N _) in *. clearbody v.
  exists v. split; [exact V|]. split; [exact B|].
  destruct (sample_val N v HN V) as (IS & _ & _). destruct (decode_meaning L _ AL IS) as [F M]. rewrite decode_limit in M.
  split; [exact F|]. pose proof (decode_sample N v HN V) as S. apply Rabs_le_iff in M, S. apply Rabs_le_iff. lra.
Qed.
(** Alpha. *)
Lemma stored_alpha d a : in01 a ->
  stored (max_sample d) (fun a => a) (fun a => a) a (clamp (fdiv (ofZ (quant (max_sample d) (clamp a))) (ofZ (max_sample d)))).
Proof.
  intros I. set (N := max_sample d). assert (HN : (N = 255 \/ N = 65535)%Z) by apply max_cases.
  rewrite (clamp_id a I). pose proof I as I'. apply in01_R in I'. destruct I' as [F _].
  destruct (quant_below N a 0 (B2R a) HN I (close_0 _ F) ltac:(lra)) as [V B]. set (v := quant N _) in *. clearbody v.
  exists v. split; [exact V|]. split; [exact B|]. destruct (sample_val N v HN V) as (IS & E & _). rewrite (clamp_id _ IS).
  apply in01_R in IS. split; [apply IS|]. lra.
Qed.
Lemma gray_y c : in_gamut c ->
  close (/ 2 ^ 21) (212656 / 1000000 * B2R (d0 c) + 715158 / 1000000 * B2R (d1 c) + 72186 / 1000000 * B2R (d2 c)) (gray_value Rec709Luma c) /\
  in01 (gray_value Rec709Luma c).
Proof.
  intros G. split; [|apply gray_value_range, G]. destruct (gray_meaning Rec709Luma c _ G eq_refl) as [(H & _ & _) _].
  replace (/ 2 ^ 21) with (/ 2097152) by lra. exact H.
Qed.

Lemma samples_back d l :
  samples_of d (flat_map (sample_bytes d) l) = map (fun s => fdiv (ofZ (quant (max_sample d) s)) (ofZ (max_sample d))) l.
Proof.
  destruct d; cbn [samples_of max_sample]; induction l as [|a l IH]; try reflexivity; cbn [flat_map sample_bytes app samples8 samples16 map].
  - rewrite IH. reflexivity.
  - rewrite IH, be_join. reflexivity.
Qed.
Local Opaque fdiv ofZ quant clamp gamma_to_linear linear_to_gamma gray_value f1 f0 max_sample.
Lemma rgb_back L d c : accurate_powf L -> in_gamut c ->
  let q s := fdiv (ofZ (quant (max_sample d) s)) (ofZ (max_sample d)) in
  forall a, let c' := srgb_to_rgb L (mkC (q (d0 (rgb_to_srgb L c))) (q (d1 (rgb_to_srgb L c))) (q (d2 (rgb_to_srgb L c))) a) in
  stored (max_sample d) srgb_encode srgb_decode (d0 c) (d0 c') /\ stored (max_sample d) srgb_encode srgb_decode (d1 c) (d1 c') /\
  stored (max_sample d) srgb_encode srgb_decode (d2 c) (d2 c').
Proof.
  intros AL (G0 & G1 & G2 & _) q a c'. split; [|split].
  - exact (stored_colour L d _ AL G0).
  - exact (stored_colour L d _ AL G1).
  - exact (stored_colour L d _ AL G2).
Qed.
Lemma alpha_back L d c r g b : in_gamut c ->
  let q s := fdiv (ofZ (quant (max_sample d) s)) (ofZ (max_sample d)) in
  stored (max_sample d) (fun a => a) (fun a => a) (alpha c) (alpha (srgb_to_rgb L (mkC r g b (q (alpha (rgb_to_srgb L c)))))).
Proof. intros (_ & _ & _ & G3) q. exact (stored_alpha d _ G3). Qed.
Lemma opaque_back L r g b : alpha (srgb_to_rgb L (mkC r g b f1)) = f1.
Proof. assert (S1 : clamp f1 = f1) by (apply clamp_id; vm_compute; auto). exact S1. Qed.
Lemma gray_back L d c : accurate_powf L -> in_gamut c ->
  let q s := fdiv (ofZ (quant (max_sample d) s)) (ofZ (max_sample d)) in
  forall a, let v := q (d0 (rgb_to_srgb L (to_gray c))) in let c' := srgb_to_rgb L (mkC v v v a) in
  exists y, close (/ 2 ^ 21) (212656 / 1000000 * B2R (d0 c) + 715158 / 1000000 * B2R (d1 c) + 72186 / 1000000 * B2R (d2 c)) y /\
        stored (max_sample d) srgb_encode srgb_decode y (d0 c') /\ d1 c' = d0 c' /\ d2 c' = d0 c'.
Proof.
  intros AL G q a v c'. destruct (gray_y c G) as [GY GI]. exists (gray_value Rec709Luma c). split; [exact GY|]. split; [|split; reflexivity].
  exact (stored_colour L d _ AL GI).
Qed.
Lemma pixel_reopened L ct c c' : ct <> PL16 -> accurate_powf L -> in_gamut c ->
  let color := fst (fst (png_promise L ct)) in let d := snd (fst (png_promise L ct)) in
  color_of L (samples_of d (flat_map (sample_bytes d) (snd (png_promise L ct) c))) = Some c' -> reopened color d c c'.
Proof.
  intros N AL G color d C. rewrite samples_back in C.
  destruct ct; try (exfalso; exact (N eq_refl)); cbn [png_promise fst snd] in color, d; subst color d;
    cbn [png_promise fst snd gray_samples graya_samples rgb_samples rgba_samples map color_of] in C; apply Some_inj in C; subst c'.
  - split; [exact (gray_back L Eight c AL G _)|exact (opaque_back L _ _ _)].
  - split; [exact (gray_back L Eight c AL G _)|exact (alpha_back L Eight c _ _ _ G)].
  - split; [exact (gray_back L Sixteen c AL G _)|exact (alpha_back L Sixteen c _ _ _ G)].
  - split; [exact (rgb_back L Eight c AL G _)|exact (opaque_back L _ _ _)].
  - split; [exact (rgb_back L Eight c AL G _)|exact (alpha_back L Eight c _ _ _ G)].
  - split; [exact (rgb_back L Sixteen c AL G _)|exact (opaque_back L _ _ _)].
  - split; [exact (rgb_back L Sixteen c AL G _)|exact (alpha_back L Sixteen c _ _ _ G)].
Qed.

Lemma png_round_trip m E D L b ct comp filter : lossless_png E D -> accurate_powf L -> valid b -> nonempty b -> ct <> PL16 -> colours_in_range b ->
  exists ops b', make_job L b (EPng ct comp filter) = ROk (job_png L b ct comp filter) /\ E (job_png L b ct comp filter) = (ops, true) /\
    has_signature (output ops) Png /\ decode m D L (output ops) Png = Ok (ROk b') /\
    reopened_image (fst (fst (png_promise L ct))) (snd (fst (png_promise L ct))) b b'.
Proof.
  intros LP AL V [W H] N G. destruct (png_layout_ok L b ct comp filter V N) as (raw & J & Z & B & LO).
  set (color := fst (fst (png_promise L ct))) in *. set (d := snd (fst (png_promise L ct))) in *.
  pose proof (valid_bounds b V) as VB.
  destruct (LP color d comp filter (width b) (height b) raw) as (ops & img & EO & SG & DE & WI & HI & LA & NF); try assumption; try nia.
  assert (VS : valid_size (png_width img) (png_height img)) by (rewrite WI, HI; exact (proj1 V)).
  destruct (decode_png_ok m D L (output ops) img color d raw DE VS LA) as (b' & DB & V' & W' & H' & P); rewrite ?WI, ?HI; try assumption.
  { rewrite <- Z. exact NF. }
  rewrite WI, HI in *. exists ops, b'. split; [reflexivity|]. split; [rewrite J; exact EO|]. split; [exact SG|]. split; [exact DB|].
  split; [exact V'|]. split; [exact W'|]. split; [exact H'|]. intros m' x y c I GP.
  assert (I' : inside b' x y) by (unfold inside in *; rewrite W', H'; exact I).
  destruct (P m' x y I') as (bytes & c' & S & C & GP'). rewrite (LO m' x y c I GP) in S.
  assert (EB : flat_map (sample_bytes d) (snd (png_promise L ct) c) = bytes) by (injection S; auto). rewrite <- EB in C.
  exists c'. split; [exact GP'|]. apply (pixel_reopened L ct c c' N AL (G m' x y c I GP) C).
Qed.
Lemma plain_lossless : lossless_png plain_encoders plain_decoders.
Proof.
  intros color d comp filter w h raw W H Z B. do 2 eexists. split; [reflexivity|].
  cbn [output flat_map app]. rewrite app_nil_r. split.
  { exists [Some 137; Some 80; Some 78; Some 71; Some 13; Some 10; Some 26; Some 10]%Z, [137; 80; 78; 71; 13; 10; 26; 10]%Z, ([channels color; depth_bytes d; w; h] ++ raw).
    split; [right; left; reflexivity|]. split; [reflexivity|]. repeat (constructor; [right; reflexivity|]). constructor. }
  cbn [plain_decoders dec_png skipn].
  replace ((0 <=? w) && (w <=? 4294967295) && (0 <=? h) && (h <=? 4294967295))%Z%bool with true
    by (symmetry; rewrite !andb_true_iff, !Z.leb_le; change (2 ^ 32 - 1)%Z with 4294967295%Z in *; lia).
  split; [reflexivity|]. cbn [png_width png_height png_layout next_frame]. split; [reflexivity|]. split; [reflexivity|].
  split; [destruct color, d; reflexivity|]. rewrite Z.eqb_refl. reflexivity.
Qed.

Lemma image_kind L ct : exists pct, pct <> PL16 /\ png_promise L pct = (image_layout (fst (fst (image_promise L ct))), Eight, snd (image_promise L ct)) /\
  snd (fst (image_promise L ct)) = channels (image_layout (fst (fst (image_promise L ct)))).
Proof.
  destruct ct; [exists PL8 | exists PLa8 | exists PRgb8 | exists PRgba8]; (split; [discriminate|]); split; reflexivity.
Qed.
Lemma image_round_trip E L b ct job dec f limit : lossless_image E job dec f limit -> accurate_powf L -> valid b -> nonempty b ->
  (width b <= limit)%Z -> (height b <= limit)%Z -> colours_in_range b ->
  forall raw, laid_out b (snd (fst (image_promise L ct))) (fun c => flat_map (sample_bytes Eight) (snd (image_promise L ct) c)) raw ->
  exists ops img b', E (job raw (width b) (height b) (fst (fst (image_promise L ct)))) = (ops, true) /\
    has_signature (output ops) f /\ dec (output ops) = ROk img /\ read_into_buffer L img = Ok (ROk b') /\
    reopened_image (image_layout (fst (fst (image_promise L ct)))) Eight b b'.
Proof.
  intros LI AL V [W H] WL HL G raw LO. destruct (image_kind L ct) as (pct & NP & PP & SZ).
  set (k := fst (fst (image_promise L ct))) in *. rewrite SZ in LO. destruct LO as (Z & B & LO).
  destruct (LI k (width b) (height b) raw) as (ops & img & l & EO & SG & DE & WI & HI & GD & N16 & DS & SL); try assumption; try lia.
  assert (VS : valid_size (dyn_width img) (dyn_height img)) by (rewrite WI, HI; exact (proj1 V)).
  destruct (read_ok L img l GD VS DS N16) as (b' & RD & V' & W' & H' & P). rewrite WI, HI in *.
  exists ops, img, b'. split; [exact EO|]. split; [exact SG|]. split; [exact DE|]. split; [exact RD|].
  split; [exact V'|]. split; [exact W'|]. split; [exact H'|]. intros m x y c I GP.
  assert (I' : inside b' x y) by (unfold inside in *; rewrite W', H'; exact I).
  destruct (P m x y I') as (s & c' & IS & C & GP'). destruct (SL (y * width b + x)%Z) as (bytes & s' & SR & IS' & SC).
  { unfold inside in I. nia. }
  rewrite (LO m x y c I GP) in SR. assert (EB : flat_map (sample_bytes Eight) (snd (image_promise L ct) c) = bytes) by (injection SR; auto).
  assert (ES : s = s') by (rewrite IS in IS'; injection IS'; auto). rewrite ES, SC, <- EB in C.
  exists c'. split; [exact GP'|]. pose proof (pixel_reopened L pct c c' NP AL (G m x y c I GP)) as R. rewrite PP in R. exact (R C).
Qed.

Lemma plain_image_reads k w h raw : (0 < w <= 65535)%Z -> (0 < h <= 65535)%Z -> zlen raw = (w * h * channels (image_layout k))%Z -> Forall is_byte raw ->
  exists img l, plain_image (channels (image_layout k) :: w :: h :: raw) = ROk img /\ dyn_width img = w /\ dyn_height img = h /\ good_dyn img /\
      (forall p, dyn_data img <> ImageRgb16 p) /\ dyn_samples (dyn_data img) = Some l /\
      forall i, (0 <= i < w * h)%Z -> exists bytes s,
        slice raw (i * channels (image_layout k)) ((i + 1) * channels (image_layout k)) = Ok bytes /\ idx l i = Ok s /\
        forall L, color_of L s = color_of L (samples8 bytes).
Proof.
  intros W H Z B. set (n := channels (image_layout k)) in *. assert (N : (0 < n)%Z) by (unfold n; destruct k; reflexivity).
  set (g := fun bytes => match samples8 bytes with
        | [g] => (g, g, g, f1) | [g; a] => (g, g, g, a) | [r; g; b] => (r, g, b, f1) | [r; g; b; a] => (r, g, b, a)
        | _ => (f0, f0, f0, f0) end).
  destruct (chunks_map_res (fun _ => True) (fun c => Ok (g c)) (Z.to_nat n) (w * h) raw ltac:(lia) ltac:(nia) ltac:(rewrite Z2Nat.id; lia) ltac:(apply Forall_forall; auto)) as (dd & M & ZD & ND).
  { intros c _ _. exists (g c). reflexivity. }
  rewrite (map_res_ok _ g) in M by auto. assert (ED : map g (chunks (Z.to_nat n) raw) = dd) by (injection M; auto).
  rewrite Z2Nat.id in ND by lia.
  exists (mkDyn w h (ImageRgba32F dd)), (map (fun '(r, g, b, a) => [r; g; b; a]) dd). split.
  { unfold plain_image. fold g. rewrite ED. rewrite ZD.
    replace ((0 <=? w) && (w <=? 4294967295) && (0 <=? h) && (h <=? 4294967295) && (w * h =? w * h))%Z%bool with true; [reflexivity|].
    symmetry. rewrite !andb_true_iff, !Z.leb_le, Z.eqb_eq. lia. }
  split; [reflexivity|]. split; [reflexivity|]. split.
  { split; [unfold is_u32; cbn; lia|]. split; [unfold is_u32; cbn; lia|]. cbn. intros m EM. injection EM as <-. exact ZD. }
  split; [discriminate|]. split; [reflexivity|]. intros i I. destruct (ND i I) as (c & q & S & ZC & _ & GC & ID).
  assert (EQ : g c = q) by (injection GC; auto). exists c, (let '(r, g, b, a) := q in [r; g; b; a]). split; [exact S|]. split.
  { rewrite idx_map, ID. reflexivity. }
  intros L. rewrite <- EQ. unfold n in ZC. clear -ZC. unfold g.
  destruct k; cbn [image_layout channels] in ZC; list_cases c ZC; reflexivity.
Qed.
Lemma plain_bmp : lossless_image plain_encoders JobBmp (dec_bmp plain_decoders) Bmp 65535.
Proof.
  intros k w h raw W H Z B. destruct (plain_image_reads k w h raw W H Z B) as (img & l & R & Q). eexists. exists img, l. split; [reflexivity|].
  cbn [output flat_map]. rewrite !app_nil_r. split; [|split; [exact R|exact Q]].
  exists [Some 66; Some 77]%Z, [66; 77]%Z, ([channels (image_layout k); w; h] ++ raw). split; [cbn [signatures In]; tauto|].
  split; [reflexivity|]. repeat (constructor; [right; reflexivity|]). constructor.
Qed.
Lemma plain_ico : lossless_image plain_encoders JobIco (dec_ico plain_decoders) Ico 256.
Proof.
  intros k w h raw W H Z B. destruct (plain_image_reads k w h raw ltac:(lia) ltac:(lia) Z B) as (img & l & R & Q). eexists. exists img, l. split; [reflexivity|].
  cbn [output flat_map]. rewrite !app_nil_r. split; [|split; [exact R|exact Q]].
  exists [Some 0; Some 0; Some 1; Some 0]%Z, [0; 0; 1; 0]%Z, ([channels (image_layout k); w; h] ++ raw). split; [cbn [signatures In]; tauto|].
  split; [reflexivity|]. repeat (constructor; [right; reflexivity|]). constructor.
Qed.
