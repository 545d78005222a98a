(** Proofs about decoding followed by encoding (C56, C78). *)
From Coq Require Import ZArith Reals List Bool String Ascii Lia Lra.
From Flocq Require Import Core.Core IEEE754.BinarySingleNaN.
From Verif Require Import Base BaseLemmas PixelBuffer BufferSpec PixelBufferProofs F32 F32Lemmas Color ColorSpec ColorProofs MeaningSpec Approx Codec CodecSpec QuantProofs LayoutProofs DecodeProofs.
Import ListNotations.
Open Scope Z_scope.

Lemma idx_slice {A} (l s : list A) a b k : slice l a b = Ok s -> 0 <= k < b - a -> idx l (a + k) = idx s k.
Proof.
  unfold slice. destruct ((a <=? b) && (b <=? zlen l) && (0 <=? a)) eqn:E; [|discriminate]. intros H K. injection H as <-.
  apply andb_true_iff in E as [E E3]. apply andb_true_iff in E as [E1 E2]. apply Z.leb_le in E1, E2, E3. unfold idx.
  replace (a + k <? 0) with false by lia. replace (k <? 0) with false by lia.
  rewrite <- (firstn_skipn (Z.to_nat a) l) at 1. unfold zlen in *. rewrite nth_error_app2 by (rewrite firstn_length; lia).
  rewrite firstn_length. replace (Z.to_nat (a + k) - Nat.min (Z.to_nat a) (List.length l))%nat with (Z.to_nat k) by lia.
  rewrite <- (firstn_skipn (Z.to_nat (b - a)) (skipn (Z.to_nat a) l)) at 1. rewrite nth_error_app1; [reflexivity|].
  rewrite firstn_length, skipn_length. lia.
Qed.
Lemma slice_bytes {A} (P : A -> Prop) (l s : list A) a b : slice l a b = Ok s -> Forall P l -> Forall P s /\ zlen s = b - a.
Proof.
  unfold slice. destruct ((a <=? b) && (b <=? zlen l) && (0 <=? a)) eqn:E; [|discriminate]. intros H F. injection H as <-.
  apply andb_true_iff in E as [E E3]. apply andb_true_iff in E as [E1 E2]. apply Z.leb_le in E1, E2, E3. split.
  - rewrite <- (firstn_skipn (Z.to_nat a) l) in F. apply Forall_app in F as [_ F]. rewrite <- (firstn_skipn (Z.to_nat (b - a)) _) in F. apply Forall_app in F. apply F.
  - unfold zlen in *. rewrite firstn_length, skipn_length. lia.
Qed.

Lemma both_pixels L b size samples bytes_of raw raw' i : decoded L size samples raw (width b) (height b) b -> Forall is_byte raw ->
  laid_out b size bytes_of raw' -> 0 <= i < width b * height b ->
  exists bytes c, slice raw (i * size) ((i + 1) * size) = Ok bytes /\ Forall is_byte bytes /\ zlen bytes = size /\
    color_of L (samples bytes) = Some c /\ slice raw' (i * size) ((i + 1) * size) = Ok (bytes_of c).
Proof.
  intros (V & _ & _ & D) B (_ & _ & LO) I. pose proof (valid_bounds b V).
  assert (W : 0 < width b) by nia.
  pose proof (Z.div_mod i (width b) ltac:(lia)) as DM. pose proof (Z.mod_pos_bound i (width b) W) as MB.
  assert (IN : inside b (i mod width b) (i / width b)) by (split; [lia|]; split; [apply Z.div_pos; lia|apply Z.div_lt_upper_bound; nia]).
  destruct (D Checked _ _ IN) as (bytes & c & S & C & G). specialize (LO Checked _ _ _ IN G).
  replace (i / width b * width b + i mod width b) with i in * by lia.
  exists bytes, c. split; [exact S|]. destruct (slice_bytes is_byte _ _ _ _ S B) as [F Z]. split; [exact F|]. split; [lia|]. split; [exact C|exact LO].
Qed.

(** What becomes of a colour sample. *)
Definition requant (L : libm) (d : png_depth) (v : Z) : Z :=
  (match d with Eight => quant8 | Sixteen => quant16 end)
    (clamp (linear_to_gamma L (clamp (gamma_to_linear L (fdiv (ofZ v) (ofZ (max_sample d))))))).
Definition requant_gray (L : libm) (d : png_depth) (v : Z) : Z :=
  let l := clamp (gamma_to_linear L (fdiv (ofZ v) (ofZ (max_sample d)))) in
  (match d with Eight => quant8 | Sixteen => quant16 end)
    (clamp (linear_to_gamma L (gray_value Rec709Luma (mkC l l l f1)))).
Definition is_gray (c : png_color) : bool := match c with Grayscale | GrayscaleAlpha => true | _ => false end.

Lemma alpha_same8 a : is_byte a -> quant8 (clamp (clamp (fdiv (ofZ a) (ofZ 255)))) = a.
Proof. intros H. fold (from_u8 a). rewrite !clamp_u8 by assumption. apply u8_round_trip, H. Qed.
Lemma alpha_same16 a b : is_byte a -> is_byte b -> quant16 (clamp (clamp (fdiv (ofZ (a * 256 + b)) (ofZ 65535)))) = a * 256 + b.
Proof.
  intros H H'. unfold is_byte in *. assert (R : 0 <= a * 256 + b <= 65535) by lia. fold (from_u16 (a * 256 + b)).
  rewrite !clamp_id by (try rewrite clamp_id; apply from_u16_in01, R). apply u16_round_trip, R.
Qed.
Lemma be_join v : v / 256 * 256 + v mod 256 = v.
Proof. pose proof (Z.div_mod v 256). lia. Qed.

Local Opaque fdiv ofZ quant8 quant16 clamp gamma_to_linear linear_to_gamma gray_value f1 f0.
Lemma Some_inj {A} (a b : A) : Some a = Some b -> a = b.
Proof. congruence. Qed.

(** The samples written for a pixel that was read. *)
Lemma pixel_samples L ct bytes c k : ct <> PL16 ->
  let color := fst (fst (png_promise L ct)) in let d := snd (fst (png_promise L ct)) in
  zlen bytes = channels color * depth_bytes d -> Forall is_byte bytes -> color_of L (samples_of d bytes) = Some c -> 0 <= k < channels color ->
  exists v, sample d bytes k = Ok v /\ 0 <= v <= max_sample d /\
    sample d (flat_map (sample_bytes d) (snd (png_promise L ct) c)) k =
      Ok (if alpha_channel color k then v else if is_gray color then requant_gray L d v else requant L d v).
Proof.
  intros N color d Z B C K.
  destruct ct; try (exfalso; exact (N eq_refl)); cbn [png_promise fst snd] in color, d; subst color d; cbn [channels] in K;
    change (zlen bytes = Z.of_nat 1) in Z || change (zlen bytes = Z.of_nat 2) in Z || change (zlen bytes = Z.of_nat 3) in Z ||
    change (zlen bytes = Z.of_nat 4) in Z || change (zlen bytes = Z.of_nat 6) in Z || change (zlen bytes = Z.of_nat 8) in Z;
    repeat (apply len_S in Z as (? & ? & -> & Z); apply Forall_cons_iff in B as [? B]); apply len_nil in Z; subst;
    apply Some_inj in C; subst c;
    (assert (KK : k = 0 \/ k = 1 \/ k = 2 \/ k = 3) by lia; destruct KK as [-> | [-> | [-> | ->]]]; try (exfalso; clear -K; lia));
    (eexists; split; [reflexivity|]; split; [unfold is_byte in *; cbn [max_sample]; lia|]).
  all: refine (f_equal (@Ok Z) _); rewrite ?be_join; first [reflexivity | apply alpha_same8; assumption | apply alpha_same16; assumption].
Qed.

Lemma sample_slice d raw bytes i ch k : slice raw (i * (ch * depth_bytes d)) ((i + 1) * (ch * depth_bytes d)) = Ok bytes -> 0 <= k < ch ->
  sample d raw (i * ch + k) = sample d bytes k.
Proof.
  intros S K. destruct d; cbn [depth_bytes sample] in *.
  - rewrite Z.mul_1_r in S. apply (idx_slice _ _ _ _ k S). lia.
  - pose proof (idx_slice _ _ _ _ (2 * k) S ltac:(lia)) as A. pose proof (idx_slice _ _ _ _ (2 * k + 1) S ltac:(lia)) as B.
    replace (2 * (i * ch + k)) with (i * (ch * 2) + 2 * k) by lia. replace (i * (ch * 2) + 2 * k + 1) with (i * (ch * 2) + (2 * k + 1)) by lia.
    rewrite A, B. reflexivity.
Qed.

Lemma round_trip : forall m D L c img ct comp filter raw, ct <> PL16 ->
  let color := fst (fst (png_promise L ct)) in let d := snd (fst (png_promise L ct)) in
  let w := png_width img in let h := png_height img in let size := channels color * depth_bytes d in
  dec_png D c = ROk img -> valid_size w h -> png_layout img = Some (color, d) ->
  next_frame img (w * h * size) = ROk raw -> zlen raw = w * h * size -> Forall is_byte raw ->
  exists b raw', decode m D L c Png = Ok (ROk b) /\ job_png L b ct comp filter = JobPng color d comp filter w h raw' /\
    zlen raw' = zlen raw /\
    forall i k, 0 <= i < w * h -> 0 <= k < channels color -> exists v, sample d raw (i * channels color + k) = Ok v /\ 0 <= v <= max_sample d /\
      sample d raw' (i * channels color + k) = Ok (if alpha_channel color k then v else if is_gray color then requant_gray L d v else requant L d v).
Proof.
  intros m D L c img ct comp filter raw N color d w h size E V P NF Z B.
  destruct (decode_png_ok m D L c img color d raw E V P NF Z B) as (b & DE & Q). fold size w h in Q.
  pose proof Q as (Vb & W & H & _). destruct (png_layout_ok L b ct comp filter Vb N) as (raw' & J & LO).
  exists b, raw'. split; [exact DE|]. split; [rewrite <- W, <- H; exact J|]. split; [destruct LO as (LZ & _); rewrite Z, <- W, <- H; exact LZ|].
  intros i k I K. rewrite <- W, <- H in I, Q. destruct (both_pixels L b size _ _ raw raw' i Q B LO I) as (bytes & c' & S & By & Zb & C & S').
  rewrite (sample_slice d raw bytes i _ k S K), (sample_slice d raw' _ i _ k S' K).
  apply (pixel_samples L ct bytes c' k N Zb By C K).
Qed.

(** ** Dark samples need no powf *)
Local Transparent gamma_to_linear linear_to_gamma.
Lemma dark_path L v : flt (dec 4045 100000) v = false -> flt (dec 3130805 1000000000) (clamp (fdiv v (dec 1292 100))) = false ->
  linear_to_gamma L (clamp (gamma_to_linear L v)) = fmul (dec 1292 100) (clamp (fdiv v (dec 1292 100))).
Proof. intros A B. unfold gamma_to_linear. rewrite A. unfold linear_to_gamma. rewrite B. reflexivity. Qed.

Definition dark_test (q : f32 -> Z) (N : Z) (ok : Z -> Z -> bool) (v : Z) : bool :=
  let x := fdiv (ofZ v) (ofZ N) in
  negb (flt (dec 4045 100000) x) && negb (flt (dec 3130805 1000000000) (clamp (fdiv x (dec 1292 100)))) &&
  ok v (q (clamp (fmul (dec 1292 100) (clamp (fdiv x (dec 1292 100)))))).
Local Transparent fdiv ofZ quant8 quant16 clamp f1 f0.
Lemma dark8_sweep : forallb (dark_test quant8 255 (fun v r => r =? v)) (zrange 0 11) = true.
Proof. vm_cast_no_check (eq_refl true). Qed.
Local Opaque fdiv ofZ quant8 quant16 clamp f1 f0.

Lemma dark8 : forall L v, 0 <= v <= 10 -> requant L Eight v = v.
Proof.
  intros L v H. pose proof dark8_sweep as T. rewrite forallb_forall in T. specialize (T v ltac:(apply zrange_In; lia)). unfold dark_test in T.
  apply andb_true_iff in T as [T T3]. apply andb_true_iff in T as [T1 T2]. apply negb_true_iff in T1, T2. apply Z.eqb_eq in T3.
  unfold requant. cbn [max_sample]. rewrite dark_path by assumption. exact T3.
Qed.
Lemma uo_s : unit_ok (/ 16) (/ 536870912).
Proof. exists (-4)%Z. split; [lia|]. split; reflexivity. Qed.
Lemma uo_t : unit_ok (/ 256) (/ 8589934592).
Proof. exists (-8)%Z. split; [lia|]. split; reflexivity. Qed.
Lemma uo_4k : unit_ok 4096 (/ 8192).
Proof. exists 12%Z. split; [lia|]. split; reflexivity. Qed.
Lemma dark16 : forall L v, 0 <= v <= 2650 -> v - 1 <= requant L Sixteen v <= v.
Proof.
  intros L v H. unfold requant. cbn [max_sample].
  assert (D : depth 65535) by (unfold depth; lia). destruct (depth_val _ D) as (FN & RN & _). destruct (ofZ_val v ltac:(lia)) as [Fv Rv].
  assert (V : (0 <= IZR v <= 2650)%R) by (split; apply IZR_le; lia).
  set (q := (IZR v / 65535)%R). assert (Q : (q * 65535 = IZR v)%R) by (unfold q; field). assert (Q0 : (0 <= q)%R) by lra. assert (Q1 : (q <= 40437 / 1000000)%R) by lra.
  destruct (fdiv_num (ofZ v) (ofZ 65535) 0 (/ 16) Fv FN ltac:(rewrite RN; lra) ltac:(auto with fmt) (uo_fmt _ _ uo_s)) as [[FX NX] EX];
    [rewrite Rv, RN; fold q; lra|]. rewrite Rv, RN in EX. fold q in EX.
  set (x := fdiv (ofZ v) (ofZ 65535)) in *. clearbody x.
  pose proof (uo_err _ _ q uo_s ltac:(rewrite Rabs_pos_eq; lra)) as XE. rewrite <- EX in XE. apply Rabs_le_iff in XE.
  assert (FC : fin (dec 1292 100)) by reflexivity. assert (F4 : fin (dec 4045 100000)) by reflexivity. assert (F3 : fin (dec 3130805 1000000000)) by reflexivity.
  fval (dec 1292 100) RC. fval (dec 4045 100000) R4. fval (dec 3130805 1000000000) R3.
  set (c := B2R (dec 1292 100)) in *. assert (C1 : (1291 / 100 <= c <= 1293 / 100)%R) by lra. assert (C2 : (1291999 / 100000 <= c)%R) by lra.
  assert (Y0 : (0 <= B2R x / c <= 3130 / 1000000)%R).
  { split; [apply Rle_mult_inv_pos; lra|]. apply Rmult_le_reg_r with c; [lra|]. unfold Rdiv. rewrite Rmult_assoc, Rinv_l by lra. lra. }
  destruct (fdiv_num x (dec 1292 100) 0 (/ 256) FX FC ltac:(fold c; lra) ltac:(auto with fmt) (uo_fmt _ _ uo_t)) as [[FY NY] EY]; [fold c; lra|]. fold c in EY.
  pose proof (uo_err _ _ (B2R x / c)%R uo_t ltac:(rewrite Rabs_pos_eq; lra)) as YE. rewrite <- EY in YE. apply Rabs_le_iff in YE.
  rewrite dark_path.
  2:{ apply flt_Rf; auto. lra. }
  2:{ destruct (clamp_R _ FY) as [FD ED]. apply flt_Rf; auto. rewrite ED, limited_id by lra. lra. }
  destruct (clamp_R _ FY) as [FD ED]. rewrite limited_id in ED by lra. set (y := clamp (fdiv x (dec 1292 100))) in *. clearbody y. rewrite <- ED in YE, NY.
  assert (YC : (Rabs (c * B2R y - B2R x) <= 13 / 8589934592)%R).
  { replace (B2R x) with (c * (B2R x / c))%R by (field; lra). apply Rabs_le_iff. nra. }
  apply Rabs_le_iff in YC. assert (Z0 : (0 <= c * B2R y)%R) by nra.
  destruct (fmul_num (dec 1292 100) y 0 (/ 16) FC FD ltac:(auto with fmt) (uo_fmt _ _ uo_s)) as [[FZ NZ] EZ]; [fold c; lra|]. fold c in EZ.
  pose proof (uo_err _ _ (c * B2R y)%R uo_s ltac:(rewrite Rabs_pos_eq; lra)) as ZE. rewrite <- EZ in ZE. apply Rabs_le_iff in ZE.
  destruct (clamp_R _ FZ) as [FW EW]. rewrite limited_id in EW by lra. set (w := clamp (fmul (dec 1292 100) y)) in *. clearbody w. rewrite <- EW in ZE, NZ.
  change (v - 1 <= quant 65535 w <= v). rewrite quant_floor; [|exact D|apply in01_num; split; [exact FW|lra]].
  assert (P : (Rabs (B2R w * 65535 - IZR v) <= / 2048)%R) by (apply Rabs_le_iff; lra). apply Rabs_le_iff in P.
  pose proof (uo_err _ _ (B2R w * 65535)%R uo_4k ltac:(rewrite Rabs_pos_eq; lra)) as PE. apply Rabs_le_iff in PE.
  split.
  - rewrite <- (Zfloor_IZR (v - 1)). apply Zfloor_le. rewrite minus_IZR. lra.
  - apply Z.lt_succ_r. apply lt_IZR. eapply Rle_lt_trans; [apply Zfloor_lb|]. rewrite succ_IZR. lra.
Qed.
Local Transparent fdiv ofZ quant8 quant16 clamp f1 f0.
Lemma dark16_loss : forall L, requant L Sixteen 53 = 52.
Proof.
  intros L. assert (T : dark_test quant16 65535 (fun v r => r =? 52) 53 = true) by (vm_cast_no_check (eq_refl true)). unfold dark_test in T.
  apply andb_true_iff in T as [T T3]. apply andb_true_iff in T as [T1 T2]. apply negb_true_iff in T1, T2. apply Z.eqb_eq in T3.
  unfold requant. cbn [max_sample]. rewrite dark_path by assumption. exact T3.
Qed.
