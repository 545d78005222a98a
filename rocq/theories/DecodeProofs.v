(** Proofs about decoding (C59, C60, C79). *)
From Coq Require Import ZArith Reals List Bool String Ascii Lia.
From Flocq Require Import IEEE754.BinarySingleNaN.
From Verif Require Import Base BaseLemmas PixelBuffer BufferSpec PixelBufferProofs F32 F32Lemmas Color ColorSpec ColorProofs Codec CodecSpec QuantProofs LayoutProofs.
Import ListNotations.
Open Scope Z_scope.

Lemma skipn_add {A} (a b : nat) (l : list A) : skipn a (skipn b l) = skipn (b + a) l.
Proof. revert l. induction b as [|b IH]; intros l; [reflexivity|]. destruct l; cbn; [apply skipn_nil|apply IH]. Qed.
Lemma chunks_eq k : (0 < k)%nat -> forall n l fuel, List.length l = (n * k)%nat -> (List.length l <= fuel)%nat ->
  chunks_ fuel k l = map (fun i => firstn k (skipn (i * k) l)) (seq 0 n).
Proof.
  intros K. induction n as [|n IH]; intros l fuel E F.
  - destruct l; [|discriminate E]. destruct fuel; reflexivity.
  - destruct l as [|a l]; [cbn in E; lia|]. destruct fuel as [|fuel]; [cbn in F; lia|].
    set (t := a :: l) in *. change (chunks_ (S fuel) k t) with (firstn k t :: chunks_ fuel k (skipn k t)).
    cbn [seq map]. f_equal. rewrite IH.
    + rewrite <- seq_shift, map_map. apply map_ext. intros i. rewrite skipn_add. reflexivity.
    + rewrite skipn_length, E. cbn. lia.
    + rewrite skipn_length. lia.
Qed.

Lemma slice_nat {A} (l : list A) i k : (i * k + k <= List.length l)%nat ->
  slice l (Z.of_nat i * Z.of_nat k) ((Z.of_nat i + 1) * Z.of_nat k) = Ok (firstn k (skipn (i * k) l)).
Proof.
  intros H. unfold slice. unfold zlen. replace (Z.of_nat i * Z.of_nat k <=? (Z.of_nat i + 1) * Z.of_nat k) with true by lia.
  replace ((Z.of_nat i + 1) * Z.of_nat k <=? Z.of_nat (List.length l)) with true by nia.
  replace (0 <=? Z.of_nat i * Z.of_nat k) with true by nia. cbn [andb]. do 2 f_equal; [nia|]. f_equal. nia.
Qed.

Lemma chunks_map_res {B} (P : Z -> Prop) (f : list Z -> res B) k n buf : (0 < k)%nat -> 0 <= n -> zlen buf = n * Z.of_nat k -> Forall P buf ->
  (forall c, zlen c = Z.of_nat k -> Forall P c -> exists p, f c = Ok p) ->
  exists d, map_res f (chunks k buf) = Ok d /\ zlen d = n /\
    forall i, 0 <= i < n -> exists c p, slice buf (i * Z.of_nat k) ((i + 1) * Z.of_nat k) = Ok c /\ zlen c = Z.of_nat k /\ Forall P c /\
      f c = Ok p /\ idx d i = Ok p.
Proof.
  intros K N E HP H. unfold chunks. assert (L : List.length buf = (Z.to_nat n * k)%nat) by (unfold zlen in E; nia).
  rewrite (chunks_eq k K (Z.to_nat n)) by auto.
  set (ch := fun i => firstn k (skipn (i * k) buf)).
  assert (C : forall i, (i < Z.to_nat n)%nat -> zlen (ch i) = Z.of_nat k /\ Forall P (ch i)).
  { intros i I. split.
    - unfold zlen, ch. rewrite firstn_length, skipn_length, L. f_equal. nia.
    - unfold ch. rewrite <- (firstn_skipn (i * k) buf) in HP. apply Forall_app in HP as [_ HP].
      rewrite <- (firstn_skipn k (skipn (i * k) buf)) in HP. apply Forall_app in HP as [HP _]. exact HP. }
  destruct (map_res_total f (map ch (seq 0 (Z.to_nat n)))) as [d D].
  { intros c I. apply in_map_iff in I as (i & <- & I). apply in_seq in I. destruct (C i) as [A B']; [lia|]. auto. }
  exists d. split; [exact D|]. pose proof (map_res_length _ _ _ D) as LD. rewrite map_length, seq_length in LD.
  split; [unfold zlen; lia|]. intros i I. destruct (C (Z.to_nat i)) as [A B']; [lia|]. destruct (H _ A B') as [p Q].
  exists (ch (Z.to_nat i)), p. split.
  { unfold ch. rewrite <- slice_nat by nia. rewrite Z2Nat.id by lia. reflexivity. }
  split; [exact A|]. split; [exact B'|]. split; [exact Q|].
  pose proof (map_res_nth _ _ _ (Z.to_nat i) (ch (Z.to_nat i)) D) as M. rewrite nth_error_map, nth_error_nth' with (d := O) in M by (rewrite seq_length; lia).
  rewrite seq_nth in M by lia. cbn [option_map] in M. destruct (M eq_refl) as (p' & T & F).
  assert (p' = p) by congruence. subst p'. rewrite <- (Z2Nat.id i) by lia. apply idx_nat. exact T.
Qed.

(** The closures deliver the colour of the samples. *)
Ltac list_cases c H := repeat (destruct c as [|? c]; [discriminate H || (exfalso; clear -H; cbn in H; lia)|]); (destruct c; [|exfalso; clear -H; rewrite ?zlen_cons in H; pose proof (zlen_nonneg c); lia]).
Lemma clamp_u8 b : is_byte b -> clamp (from_u8 b) = from_u8 b.
Proof. intros H. apply clamp_id, from_u8_in01, H. Qed.
Lemma clamp_u16 a b : is_byte a -> is_byte b -> clamp (from_u16_be a b) = from_u16 (a * 256 + b).
Proof. intros H H'. apply clamp_id. unfold from_u16_be, of_be. apply from_u16_in01. unfold is_byte in *. lia. Qed.
Lemma clamp_u16_ne a b : is_byte a -> is_byte b -> clamp (from_u16_ne a b) = from_u16 (b * 256 + a).
Proof. intros H H'. apply clamp_id. unfold from_u16_ne, of_be. apply from_u16_in01. unfold is_byte in *. lia. Qed.

Definition px_good (k : nat) (samples : list Z -> list f32) (L : libm) (f : list Z -> res Rgb) : Prop :=
  (0 < k)%nat /\ forall c, zlen c = Z.of_nat k -> Forall is_byte c -> exists p, f c = Ok p /\ color_of L (samples c) = Some p.

Lemma len_inv {A} (l : list A) a k : zlen (a :: l) = Z.of_nat (S k) -> zlen l = Z.of_nat k.
Proof. rewrite zlen_cons. lia. Qed.
Lemma len_nil {A} (l : list A) : zlen l = Z.of_nat 0 -> l = [].
Proof. destruct l; auto. rewrite zlen_cons. pose proof (zlen_nonneg l). lia. Qed.
Lemma len_S {A} (l : list A) k : zlen l = Z.of_nat (S k) -> exists a l', l = a :: l' /\ zlen l' = Z.of_nat k.
Proof. destruct l; intros H; [cbn in H; lia|]. eauto using len_inv. Qed.

Ltac px_tac := split; [lia|]; intros c E B;
  repeat (apply len_S in E as (? & ? & -> & E); apply Forall_cons_iff in B as [? B]);
  apply len_nil in E; subst; eexists; split; [reflexivity|]; cbn [samples8 samples16 samples_of rev app color_of];
  unfold rgb_new, rgb_new_with_alpha; rewrite ?clamp_u8, ?clamp_u16, ?clamp_u16_ne by assumption; reflexivity.
Lemma px_rgba8_good L : px_good 4 samples8 L (px_rgba8 L). Proof. px_tac. Qed.
Lemma px_rgb8_good L : px_good 3 samples8 L (px_rgb8 L). Proof. px_tac. Qed.
Lemma px_la8_good L : px_good 2 samples8 L (px_la8 L). Proof. px_tac. Qed.
Lemma px_rgba16_good L : px_good 8 samples16 L (px_rgba16 L). Proof. px_tac. Qed.
Lemma px_rgb16_good L : px_good 6 samples16 L (px_rgb16 L). Proof. px_tac. Qed.
Lemma px_l16_good L : px_good 2 samples16 L (px_l16 L). Proof. px_tac. Qed.
Lemma px_la16_good L : px_good 4 samples16 L (px_la16 L). Proof. px_tac. Qed.
Lemma px_l16_ne_good L : px_good 2 (fun l => samples16 (rev l)) L (px_l16_ne L). Proof. px_tac. Qed.
Lemma px_l8_good L : px_good 1 samples8 L (fun c => v <- idx c 0; px_l8 L v). Proof. px_tac. Qed.

(** A vector of samples is a list of chunks of one byte. *)
Lemma l8_chunks L buf : map_res (px_l8 L) buf = map_res (fun c => v <- idx c 0; px_l8 L v) (chunks 1 buf).
Proof.
  assert (H : forall fuel, (List.length buf <= fuel)%nat -> chunks_ fuel 1 buf = map (fun v => [v]) buf).
  { induction buf as [|v buf IH]; intros fuel F; [destruct fuel; reflexivity|]. destruct fuel; [cbn in F; lia|]. cbn. f_equal. apply IH. cbn in F. lia. }
  unfold chunks. rewrite H by lia. rewrite map_res_map. reflexivity.
Qed.

Lemma decode_pixels L k samples f raw w h : px_good k samples L f -> valid_size w h -> zlen raw = w * h * Z.of_nat k -> Forall is_byte raw ->
  exists d b, map_res f (chunks k raw) = Ok d /\ new_from_raw w h d = Ok b /\ decoded L (Z.of_nat k) samples raw w h b.
Proof.
  intros [K G] V E B. pose proof (valid_size_bounds _ _ V) as VB.
  destruct (chunks_map_res is_byte f k (w * h) raw K ltac:(lia) E B) as (d & D & LD & N).
  { intros c C C'. destruct (G c C C') as (p & Q & _). eauto. }
  exists d, (mkPB w h d). split; [exact D|]. split; [apply new_from_raw_ok; auto|].
  assert (V' : valid (mkPB w h d)) by (split; auto).
  split; [exact V'|]. split; [reflexivity|]. split; [reflexivity|]. intros m x y I. pose proof I as (Ix & Iy). cbn in Ix, Iy.
  destruct (N (y * w + x)) as (c & p & S & Lc & Bc & F & T); [nia|].
  destruct (G c Lc Bc) as (p' & F' & C). assert (p' = p) by congruence. subst p'. exists c, p. split; [exact S|]. split; [exact C|].
  rewrite get_pixel_eq by auto. cbn [data width]. rewrite Z.add_comm. exact T.
Qed.

(** ** PNG *)
Lemma is_valid_true w h : valid_size w h -> is_valid_buffer_size w h = true.
Proof. intros V. pose proof (valid_size_bounds _ _ V). apply is_valid_spec; auto; lia. Qed.
Lemma is_valid_false w h : 0 <= w -> 0 <= h -> ~ valid_size w h -> is_valid_buffer_size w h = false.
Proof. intros W H V. destruct (is_valid_buffer_size w h) eqn:E; auto. apply is_valid_spec in E; auto. contradiction. Qed.

Lemma decode_png_ok : forall m D L c img color d raw, dec_png D c = ROk img ->
  valid_size (png_width img) (png_height img) -> png_layout img = Some (color, d) ->
  next_frame img (png_width img * png_height img * (channels color * depth_bytes d)) = ROk raw ->
  zlen raw = png_width img * png_height img * (channels color * depth_bytes d) -> Forall is_byte raw ->
  exists b, decode m D L c Png = Ok (ROk b) /\
    decoded L (channels color * depth_bytes d) (samples_of d) raw (png_width img) (png_height img) b.
Proof.
  intros m D L c img color d raw E V P N Z B. cbn [decode]. unfold decode_png. rewrite E.
  rewrite (is_valid_true _ _ V). cbn [negb]. pose proof (valid_size_bounds _ _ V). rewrite u32_ok by lia. cbn [bind]. rewrite P.
  assert (G : forall (k : nat) s f, px_good k s L f -> Z.of_nat k = channels color * depth_bytes d -> s = samples_of d ->
    exists b, match next_frame img (png_width img * png_height img * (channels color * depth_bytes d)) with
              | ROk buf => bind (map_res f (chunks k buf)) (fun raw0 => bind (new_from_raw (png_width img) (png_height img) raw0) (fun out => Ok (ROk out)))
              | RErr e => Ok (RErr e) end = Ok (ROk b) /\
      decoded L (channels color * depth_bytes d) (samples_of d) raw (png_width img) (png_height img) b).
  { intros k s f PX K ->. rewrite N. destruct (decode_pixels L k (samples_of d) f raw _ _ PX V ltac:(rewrite K; exact Z) B) as (l & b & M & R & Q).
    exists b. rewrite M. cbn [bind]. rewrite R. cbn [bind]. split; [reflexivity|]. rewrite <- K. exact Q. }
  destruct color, d.
  - destruct (G _ _ _ (px_l8_good L) eq_refl eq_refl) as (b & A & Q). exists b. split; [|exact Q].
    rewrite N in A. change (channels Grayscale * depth_bytes Eight) with 1 in N. rewrite N. rewrite l8_chunks. exact A.
  - apply (G _ _ _ (px_l16_good L)); reflexivity.
  - apply (G _ _ _ (px_la8_good L)); reflexivity.
  - apply (G _ _ _ (px_la16_good L)); reflexivity.
  - apply (G _ _ _ (px_rgb8_good L)); reflexivity.
  - apply (G _ _ _ (px_rgb16_good L)); reflexivity.
  - apply (G _ _ _ (px_rgba8_good L)); reflexivity.
  - apply (G _ _ _ (px_rgba16_good L)); reflexivity.
Qed.

(** ** JPEG *)
Definition jpeg_samples (f : jpeg_format) : list Z -> list f32 :=
  match f with JL16 => fun l => samples16 (rev l) | _ => samples8 end.
Lemma decode_jpeg_ok : forall m D L c raw w h f, dec_jpeg D c = ROk (raw, Some (w, h, f)) -> f <> JCmyk32 -> valid_size w h ->
  zlen raw = w * h * jpeg_bytes f -> Forall is_byte raw ->
  exists b, decode m D L c Jpeg = Ok (ROk b) /\ decoded L (jpeg_bytes f) (jpeg_samples f) raw w h b.
Proof.
  intros m D L c raw w h f E NC V Z B. cbn [decode]. unfold decode_jpeg. rewrite E.
  destruct f; [| | |exfalso; exact (NC eq_refl)].
  - rewrite l8_chunks. destruct (decode_pixels L _ _ _ raw w h (px_l8_good L) V Z B) as (l & b & M & R & Q). rewrite M. cbn [bind]. rewrite R. eexists. split; [reflexivity|exact Q].
  - destruct (decode_pixels L _ _ _ raw w h (px_l16_ne_good L) V Z B) as (l & b & M & R & Q). rewrite M. cbn [bind]. rewrite R. eexists. split; [reflexivity|exact Q].
  - destruct (decode_pixels L _ _ _ raw w h (px_rgb8_good L) V Z B) as (l & b & M & R & Q). rewrite M. cbn [bind]. rewrite R. eexists. split; [reflexivity|exact Q].
Qed.

Lemma px_cmyk_ok L c : zlen c = Z.of_nat 4 -> exists p, px_cmyk L c = Ok p.
Proof.
  intros E. repeat (apply len_S in E as (? & ? & -> & E)). apply len_nil in E. subst. eexists. reflexivity.
Qed.
Lemma decode_cmyk_ok : forall m D L c raw w h, dec_jpeg D c = ROk (raw, Some (w, h, JCmyk32)) -> valid_size w h ->
  zlen raw = w * h * 4 ->
  exists b, decode m D L c Jpeg = Ok (ROk b) /\ valid b /\ width b = w /\ height b = h /\
    forall m x y, inside b x y -> exists cy mg ye k, slice raw ((y * w + x) * 4) ((y * w + x + 1) * 4) = Ok [cy; mg; ye; k] /\
      get_pixel m b x y = Ok (cmyk_to_rgb L cy mg ye k).
Proof.
  intros m D L c raw w h E V Z. cbn [decode]. unfold decode_jpeg. rewrite E. pose proof (valid_size_bounds _ _ V) as VB.
  destruct (chunks_map_res (fun _ => True) (px_cmyk L) 4 (w * h) raw ltac:(lia) ltac:(lia) Z ltac:(apply Forall_forall; auto)) as (d & M & LD & N).
  { intros c' C _. apply px_cmyk_ok, C. }
  rewrite M. cbn [bind]. rewrite new_from_raw_ok by auto. cbn [bind]. eexists. split; [reflexivity|].
  assert (V' : valid (mkPB w h d)) by (split; auto). split; [exact V'|]. split; [reflexivity|]. split; [reflexivity|].
  intros m' x y I. pose proof I as (Ix & Iy). cbn in Ix, Iy. destruct (N (y * w + x)) as (c' & p & S & Lc & _ & F & T); [nia|].
  repeat (apply len_S in Lc as (? & ? & -> & Lc)). apply len_nil in Lc. subst. eexists _, _, _, _. split; [exact S|].
  rewrite get_pixel_eq by auto. cbn [data width]. rewrite Z.add_comm, T. f_equal. injection F as <-. reflexivity.
Qed.

(** ** GIF and WebP *)
Lemma decode_gif_ok : forall m D L c raw w h, dec_gif D c = ROk (Some (w, h, raw)) -> valid_size w h ->
  zlen raw = w * h * 4 -> Forall is_byte raw ->
  exists b, decode m D L c Gif = Ok (ROk b) /\ decoded L 4 samples8 raw w h b.
Proof.
  intros m D L c raw w h E V Z B. cbn [decode]. unfold decode_gif. rewrite E.
  destruct (decode_pixels L _ _ _ raw w h (px_rgba8_good L) V Z B) as (l & b & M & R & Q). rewrite M. cbn [bind].
  rewrite (is_valid_true _ _ V). cbn [negb]. rewrite R. eexists. split; [reflexivity|exact Q].
Qed.

Lemma idx_slice4 (raw : list Z) o : 0 <= o -> o + 4 <= zlen raw -> exists r g b a,
  slice raw o (o + 4) = Ok [r; g; b; a] /\ idx raw o = Ok r /\ idx raw (o + 1) = Ok g /\ idx raw (o + 2) = Ok b /\ idx raw (o + 3) = Ok a.
Proof.
  intros O Z. destruct (idx_ok raw o) as [r R]; [lia|]. destruct (idx_ok raw (o + 1)) as [g G]; [lia|].
  destruct (idx_ok raw (o + 2)) as [b B]; [lia|]. destruct (idx_ok raw (o + 3)) as [a A]; [lia|].
  exists r, g, b, a. split; auto.
  assert (S : slice raw o (o + 4) = Ok (firstn 4 (skipn (Z.to_nat o) raw))).
  { unfold slice. replace (o <=? o + 4) with true by lia. replace (o + 4 <=? zlen raw) with true by lia. replace (0 <=? o) with true by lia.
    cbn [andb]. do 3 f_equal. lia. }
  rewrite S. f_equal.
  assert (Q : forall k v, idx raw (o + Z.of_nat k) = Ok v -> nth_error (skipn (Z.to_nat o) raw) k = Some v).
  { intros k v I. unfold idx in I. destruct (o + Z.of_nat k <? 0); [discriminate|].
    replace (Z.to_nat (o + Z.of_nat k)) with (Z.to_nat o + k)%nat in I by lia.
    rewrite <- (firstn_skipn (Z.to_nat o) raw) in I at 1. rewrite nth_error_app2 in I by (rewrite firstn_length; lia).
    rewrite firstn_length in I. replace (Z.to_nat o + k - min (Z.to_nat o) (List.length raw))%nat with k in I by (unfold zlen in *; lia).
    destruct (nth_error _ k); congruence. }
  pose proof (Q 0%nat r ltac:(rewrite Z.add_0_r; exact R)) as Q0. pose proof (Q 1%nat g G) as Q1. pose proof (Q 2%nat b B) as Q2. pose proof (Q 3%nat a A) as Q3.
  destruct (skipn (Z.to_nat o) raw) as [|x0 [|x1 [|x2 [|x3 l]]]]; try discriminate. cbn in Q0, Q1, Q2, Q3 |- *. congruence.
Qed.

Lemma decode_webp_ok : forall m D L c raw w h, dec_webp D c = Some (w, h, raw) -> valid_size w h ->
  zlen raw = w * h * 4 -> Forall is_byte raw ->
  exists b, decode m D L c WebP = Ok (ROk b) /\ decoded L 4 samples8 raw w h b.
Proof.
  intros m D L c raw w h E V Z B. cbn [decode]. unfold decode_webp. rewrite E. pose proof (valid_size_bounds _ _ V) as VB.
  rewrite !as_u32_id by lia.
  match goal with |- context [new_from_fn m w h ?f] => destruct (new_from_fn_ok m w h f V) as (b & N & Vb & W & H & P) end.
  { intros x y X Y. destruct (idx_slice4 raw ((x + y * w) * 4)) as (r & g & b & a & _ & R & G & B' & A); [nia|nia|].
    rewrite R, G, B', A. eexists. reflexivity. }
  rewrite N. eexists. split; [reflexivity|]. split; [exact Vb|]. split; [exact W|]. split; [exact H|].
  intros m' x y I. rewrite P by auto. pose proof I as (X & Y). rewrite W in X. rewrite H in Y.
  destruct (idx_slice4 raw ((x + y * w) * 4)) as (r & g & b' & a & S & R & G & B' & A); [nia|nia|].
  exists [r; g; b'; a]. rewrite R, G, B', A. cbn [bind]. eexists. split; [|split; [|reflexivity]].
  - rewrite <- S. f_equal; lia.
  - cbn [samples8 color_of]. rewrite Forall_forall in B.
    assert (BY : forall i v, idx raw i = Ok v -> is_byte v) by (intros i v IV; apply B; eapply idx_In; exact IV).
    unfold rgb_new_with_alpha. rewrite !clamp_u8 by eauto. reflexivity.
Qed.

(** ** BMP and ICO *)
Lemma read_ok : forall L img l, good_dyn img -> valid_size (dyn_width img) (dyn_height img) ->
  dyn_samples (dyn_data img) = Some l -> (forall p, dyn_data img <> ImageRgb16 p) ->
  exists b, read_into_buffer L img = Ok (ROk b) /\ valid b /\ width b = dyn_width img /\ height b = dyn_height img /\
    forall m x y, inside b x y -> exists s c, idx l (y * dyn_width img + x) = Ok s /\ color_of L s = Some c /\ get_pixel m b x y = Ok c.
Proof.
  intros L img l (U & U' & C) V S N. unfold read_into_buffer. rewrite (is_valid_true _ _ V). cbn [negb].
  assert (G : forall {A} (cs : A -> list f32) (f : A -> col) (p : list A), l = map cs p -> zlen p = dyn_width img * dyn_height img ->
    (forall a, color_of L (cs a) = Some (srgb_to_rgb L (f a))) ->
    exists b, bind (new_from_raw (dyn_width img) (dyn_height img) (map (srgb_to_rgb L) (map f p))) (fun buf => Ok (@ROk _ DecodingError buf)) = Ok (ROk b) /\
      valid b /\ width b = dyn_width img /\ height b = dyn_height img /\
      forall m x y, inside b x y -> exists s c, idx l (y * dyn_width img + x) = Ok s /\ color_of L s = Some c /\ get_pixel m b x y = Ok c).
  { intros A cs f p -> Z F. rewrite new_from_raw_ok by (rewrite ?zlen_map; auto). cbn [bind]. eexists. split; [reflexivity|].
    match goal with |- valid ?b /\ _ => assert (V' : valid b) by (split; [exact V|]; cbn; rewrite !zlen_map; exact Z) end.
    split; [exact V'|]. split; [reflexivity|]. split; [reflexivity|]. intros m x y I. pose proof I as (X & Y). cbn in X, Y.
    rewrite get_pixel_eq by auto. cbn [data width]. destruct (idx_ok p (y * dyn_width img + x)) as [a Ia]; [nia|].
    rewrite !idx_map, (Z.add_comm x), Ia. cbn [bind]. eexists _, _. split; [reflexivity|]. split; [apply F|reflexivity]. }
  destruct (dyn_data img) as [p|p|p|p|p|p|p|p|p|p|] eqn:E; cbn [dyn_samples] in S; try discriminate S; injection S as <-; specialize (C _ eq_refl).
  all: try (eapply G; [reflexivity|exact C|]; intros a; repeat (let x := fresh in destruct a as [a x]); reflexivity).
  exfalso. exact (N _ eq_refl).
Qed.

Lemma srgb_alpha L c : in01 (d3 c) -> alpha (srgb_to_rgb L c) = d3 c.
Proof. intros H. cbn. apply clamp_id, H. Qed.
Lemma in01_f1 : in01 f1. Proof. unfold in01. split; reflexivity. Qed.
Lemma in01_f0 : in01 f0. Proof. unfold in01. split; reflexivity. Qed.

Lemma opaque_colors : forall L s c, color_of L s = Some c -> (List.length s = 1 \/ List.length s = 3)%nat -> alpha c = f1.
Proof.
  intros L s c C [E|E]; destruct s as [|v0 [|v1 [|v2 [|v3 s]]]]; try discriminate E; injection C as <-; apply (srgb_alpha L (mkC _ _ _ f1)), in01_f1.
Qed.

Lemma rgb16_transparent : forall L img p, good_dyn img -> valid_size (dyn_width img) (dyn_height img) ->
  dyn_data img = ImageRgb16 p ->
  exists b, read_into_buffer L img = Ok (ROk b) /\ valid b /\ width b = dyn_width img /\ height b = dyn_height img /\
    forall m x y c, inside b x y -> get_pixel m b x y = Ok c -> alpha c = f0.
Proof.
  intros L img p (U & U' & C) V E. unfold read_into_buffer. rewrite (is_valid_true _ _ V). cbn [negb]. rewrite E in C |- *. specialize (C _ eq_refl).
  rewrite new_from_raw_ok by (rewrite ?zlen_map; auto). cbn [bind]. eexists. split; [reflexivity|].
  match goal with |- valid ?b /\ _ => assert (V' : valid b) by (split; [exact V|]; cbn; rewrite !zlen_map; exact C) end.
  split; [exact V'|]. split; [reflexivity|]. split; [reflexivity|]. intros m x y c I. rewrite get_pixel_eq by auto. cbn [data].
  rewrite !idx_map. destruct (idx p _) as [[[r g] b]|]; cbn [bind]; intros H; [|discriminate H]. injection H as <-.
  apply (srgb_alpha L (mkC _ _ _ f0)), in01_f0.
Qed.

(** ** Nothing panics but a JPEG file of more than 2^30-1 pixels *)
Lemma u32_chunks {B} (f : list Z -> res B) k n raw : (0 < k)%nat -> 0 <= n -> zlen raw = n * Z.of_nat k ->
  (forall c, zlen c = Z.of_nat k -> exists p, f c = Ok p) -> exists d, map_res f (chunks k raw) = Ok d /\ zlen d = n.
Proof.
  intros K N E H. destruct (chunks_map_res (fun _ => True) f k n raw K N E) as (d & M & Z & _).
  - apply Forall_forall; auto. - intros c C _. auto. - eauto.
Qed.
Ltac total_tac := let c := fresh in let E := fresh in intros c E; repeat (apply len_S in E as (? & ? & -> & E)); apply len_nil in E; subst; eexists; reflexivity.

Lemma valid_raw {T} w h (d : list T) : valid_size w h -> zlen d = w * h -> exists b, new_from_raw w h d = Ok b /\ valid b.
Proof. intros V Z. rewrite new_from_raw_ok by auto. eexists. split; [reflexivity|]. split; auto. Qed.

Lemma decode_png_total m D L c : good_decoders D ->
  (exists e, decode m D L c Png = Ok (RErr e)) \/ (exists b, decode m D L c Png = Ok (ROk b) /\ valid b).
Proof.
  intros G. cbn [decode]. unfold decode_png. destruct (dec_png D c) as [img|e] eqn:E; [|eauto].
  destruct (good_png D G c img E) as (W & H & N). unfold is_u32 in *.
  destruct (is_valid_buffer_size (png_width img) (png_height img)) eqn:V; cbn [negb]; [|eauto].
  apply is_valid_spec in V; try lia. pose proof (valid_size_bounds _ _ V). rewrite u32_ok by lia. cbn [bind].
  assert (Q : forall (k : nat) f, (0 < k)%nat -> (forall c, zlen c = Z.of_nat k -> exists p : Rgb, f c = Ok p) ->
    let r := match next_frame img (png_width img * png_height img * Z.of_nat k) with
              | ROk buf => bind (map_res f (chunks k buf)) (fun raw0 => bind (new_from_raw (png_width img) (png_height img) raw0) (fun out => Ok (ROk out)))
              | RErr e => Ok (RErr e) end in
    (exists e, r = Ok (RErr e)) \/ (exists b, r = Ok (ROk b) /\ valid b)).
  { intros k f K F. cbn zeta. destruct (next_frame img _) as [buf|e] eqn:NF; [|eauto]. apply N in NF. right.
    destruct (u32_chunks f k (png_width img * png_height img) buf K ltac:(lia) NF F) as (d & M & Z). rewrite M. cbn [bind].
    destruct (valid_raw _ _ d V Z) as (b & R & Vb). rewrite R. cbn [bind]. eauto. }
  destruct (png_layout img) as [[[| | |] [|]]|]; [| | | | | | | |eauto].
  - destruct (next_frame img (png_width img * png_height img * 1)) as [buf|e] eqn:NF; [|eauto]. rewrite l8_chunks.
    generalize (Q 1%nat (fun c0 => bind (idx c0 0) (fun v => px_l8 L v)) ltac:(lia) ltac:(total_tac)). cbn zeta. change (Z.of_nat 1) with 1. rewrite NF. auto.
  - apply (Q 2%nat (px_l16 L)); [lia|total_tac].
  - apply (Q 2%nat (px_la8 L)); [lia|total_tac].
  - apply (Q 4%nat (px_la16 L)); [lia|total_tac].
  - apply (Q 3%nat (px_rgb8 L)); [lia|total_tac].
  - apply (Q 6%nat (px_rgb16 L)); [lia|total_tac].
  - apply (Q 4%nat (px_rgba8 L)); [lia|total_tac].
  - apply (Q 8%nat (px_rgba16 L)); [lia|total_tac].
Qed.

Lemma decode_gif_total m D L c : good_decoders D ->
  (exists e, decode m D L c Gif = Ok (RErr e)) \/ (exists b, decode m D L c Gif = Ok (ROk b) /\ valid b).
Proof.
  intros G. cbn [decode]. unfold decode_gif. destruct (dec_gif D c) as [[[[w h] raw]|]|e] eqn:E; eauto.
  destruct (good_gif D G _ _ _ _ E) as (W & H & Z).
  destruct (u32_chunks (px_rgba8 L) 4 (w * h) raw ltac:(lia) ltac:(nia) Z ltac:(total_tac)) as (d & M & Zd). rewrite M. cbn [bind].
  destruct (is_valid_buffer_size w h) eqn:V; cbn [negb]; [|eauto]. apply is_valid_spec in V; try lia.
  destruct (valid_raw _ _ d V Zd) as (b & R & Vb). rewrite R. cbn [bind]. eauto.
Qed.

Lemma read_total L img : good_dyn img ->
  (exists e, read_into_buffer L img = Ok (RErr e)) \/ (exists b, read_into_buffer L img = Ok (ROk b) /\ valid b).
Proof.
  intros (U & U' & C). unfold is_u32 in *. unfold read_into_buffer.
  destruct (is_valid_buffer_size (dyn_width img) (dyn_height img)) eqn:V; cbn [negb]; [|eauto]. apply is_valid_spec in V; try lia.
  destruct (dyn_data img) eqn:E; try (specialize (C _ eq_refl)); [..|eauto]; right;
    (edestruct (@valid_raw Rgb) as (b & R & Vb); [exact V| |rewrite R; cbn [bind]; eauto]); rewrite !zlen_map; exact C.
Qed.

Lemma decode_webp_total m D L c : good_decoders D ->
  (exists e, decode m D L c WebP = Ok (RErr e)) \/ (exists b, decode m D L c WebP = Ok (ROk b) /\ valid b).
Proof.
  intros G. cbn [decode]. unfold decode_webp. destruct (dec_webp D c) as [[[w h] raw]|] eqn:E; [|eauto].
  destruct (good_webp D G _ _ _ _ E) as (W & H & Z). rewrite !as_u32_id by lia. right.
  assert (V : valid_size w h) by (right; nia).
  match goal with |- context [new_from_fn m w h ?f] => destruct (new_from_fn_ok m w h f V) as (b & N & Vb & _) end.
  { intros x y X Y. destruct (idx_slice4 raw ((x + y * w) * 4)) as (r & g & b & a & _ & R & G' & B' & A); [nia|nia|].
    rewrite R, G', B', A. eexists. reflexivity. }
  rewrite N. cbn [bind]. eauto.
Qed.

Lemma jpeg_pixels D L c raw w h f : good_decoders D -> dec_jpeg D c = ROk (raw, Some (w, h, f)) ->
  exists d, match f with
           | JL8 => map_res (px_l8 L) raw
           | JL16 => map_res (px_l16_ne L) (chunks 2 raw)
           | JRgb24 => map_res (px_rgb8 L) (chunks 3 raw)
           | JCmyk32 => map_res (px_cmyk L) (chunks 4 raw)
           end = Ok d /\ zlen d = w * h.
Proof.
  intros G E. destruct (good_jpeg D G _ _ _ _ _ E) as (W & H & Z). destruct f.
  - rewrite l8_chunks. apply u32_chunks; [lia|nia|exact Z|total_tac].
  - apply u32_chunks; [lia|nia|exact Z|total_tac].
  - apply u32_chunks; [lia|nia|exact Z|total_tac].
  - apply u32_chunks; [lia|nia|exact Z|total_tac].
Qed.

Lemma decode_panics : forall m D L c f, good_decoders D -> (decode m D L c f = Panic <->
  f = Jpeg /\ exists raw w h fmt, dec_jpeg D c = ROk (raw, Some (w, h, fmt)) /\ 1073741823 < w * h).
Proof.
  intros m D L c f G. split.
  - intros P. destruct f.
    + split; [reflexivity|]. cbn [decode] in P. unfold decode_jpeg in P. destruct (dec_jpeg D c) as [[raw [[[w h] fmt]|]]|e] eqn:E; try discriminate P.
      exists raw, w, h, fmt. split; [reflexivity|]. destruct (jpeg_pixels D L c raw w h fmt G E) as (d & M & Z). rewrite M in P. cbn [bind] in P.
      destruct (good_jpeg D G _ _ _ _ _ E) as (W & H & _). destruct (Z_lt_le_dec 1073741823 (w * h)); auto.
      rewrite new_from_raw_ok in P; [discriminate P|right; lia|exact Z].
    + destruct (decode_png_total m D L c G) as [[e E]|[b [E _]]]; rewrite E in P; discriminate P.
    + destruct (decode_gif_total m D L c G) as [[e E]|[b [E _]]]; rewrite E in P; discriminate P.
    + cbn [decode] in P. unfold decode_image in P. destruct (dec_bmp D c) as [img|] eqn:B; [|discriminate P].
      destruct (read_total L img (good_bmp D G _ _ B)) as [[e E]|[b [E _]]]; rewrite E in P; discriminate P.
    + cbn [decode] in P. unfold decode_image in P. destruct (dec_ico D c) as [img|] eqn:B; [|discriminate P].
      destruct (read_total L img (good_ico D G _ _ B)) as [[e E]|[b [E _]]]; rewrite E in P; discriminate P.
    + destruct (decode_webp_total m D L c G) as [[e E]|[b [E _]]]; rewrite E in P; discriminate P.
  - intros (-> & raw & w & h & fmt & E & S). cbn [decode]. unfold decode_jpeg. rewrite E.
    destruct (jpeg_pixels D L c raw w h fmt G E) as (d & M & Z). rewrite M. cbn [bind].
    destruct (good_jpeg D G _ _ _ _ _ E) as (W & H & _).
    destruct (new_from_raw w h d) as [b|] eqn:N; [|reflexivity]. apply new_from_raw_inv in N as (V & _); try lia.
    apply valid_size_bounds in V. lia.
Qed.

Lemma decode_valid : forall m D L c f b, good_decoders D -> decode m D L c f = Ok (ROk b) -> valid b.
Proof.
  intros m D L c f b G P. destruct f.
  - cbn [decode] in P. unfold decode_jpeg in P. destruct (dec_jpeg D c) as [[raw [[[w h] fmt]|]]|e] eqn:E; try discriminate P.
    destruct (jpeg_pixels D L c raw w h fmt G E) as (d & M & Z). rewrite M in P. cbn [bind] in P.
    destruct (good_jpeg D G _ _ _ _ _ E) as (W & H & _). destruct (new_from_raw w h d) as [b'|] eqn:N; [|discriminate P].
    injection P as <-. apply new_from_raw_inv in N as (V & Z' & ->); try lia. split; auto.
  - destruct (decode_png_total m D L c G) as [[e E]|[b' [E V]]]; rewrite E in P; [discriminate P|]. injection P as <-. exact V.
  - destruct (decode_gif_total m D L c G) as [[e E]|[b' [E V]]]; rewrite E in P; [discriminate P|]. injection P as <-. exact V.
  - cbn [decode] in P. unfold decode_image in P. destruct (dec_bmp D c) as [img|] eqn:B; [|discriminate P].
    destruct (read_total L img (good_bmp D G _ _ B)) as [[e E]|[b' [E V]]]; rewrite E in P; [discriminate P|]. injection P as <-. exact V.
  - cbn [decode] in P. unfold decode_image in P. destruct (dec_ico D c) as [img|] eqn:B; [|discriminate P].
    destruct (read_total L img (good_ico D G _ _ B)) as [[e E]|[b' [E V]]]; rewrite E in P; [discriminate P|]. injection P as <-. exact V.
  - destruct (decode_webp_total m D L c G) as [[e E]|[b' [E V]]]; rewrite E in P; [discriminate P|]. injection P as <-. exact V.
Qed.
