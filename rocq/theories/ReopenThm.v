(** Saving a picture and opening it again (C116). *)
From Coq Require Import Reals ZArith List String.
From Flocq Require Import IEEE754.BinarySingleNaN.
From Verif Require Import Base PixelBuffer BufferSpec F32 Color ColorSpec Codec CodecSpec Image MeaningSpec IdealPowf ReopenSpec.
Import ListNotations.
Open Scope R_scope.

(* PROPERTIES *)
From Coq Require Import Lra Lia.
From Verif Require Import F32Lemmas Approx OpMeaningProofs CodecThm ImageThm SrgbThm ReopenProofs.
Open Scope R_scope.

(** C116: a picture that is saved to memory as PNG, with any colour type but
    16 bit gray (see C54), and read again has its size and its colours up to
    the resolution of the colour type: no sample is lost or moved. *)
Lemma png_memory_reopened : forall m E D L i ct comp filter, lossless_png E D -> accurate_powf L ->
  valid (buffer i) -> nonempty (buffer i) -> colours_in_range (buffer i) -> ct <> PL16 ->
  exists bytes i', image_save_to_buffer E L i (EPng ct comp filter) = ROk bytes /\
    image_read_from_buffer m D L bytes = Ok (ROk i') /\
    reopened_image (fst (fst (png_promise L ct))) (snd (fst (png_promise L ct))) (buffer i) (buffer i').
Proof.
  intros m E D L i ct comp filter LP AL V NE G N.
  destruct (png_round_trip m E D L (buffer i) ct comp filter LP AL V NE N G) as (ops & b' & MJ & EO & SG & DE & R).
  exists (output ops), (new_from_buffer b'). split; [exact (proj2 (save_to_buffer E L i (EPng ct comp filter)) _ _ _ MJ EO)|].
  split; [|exact R]. unfold image_read_from_buffer, decode_buffer. rewrite (proj2 (signature_exact _ _) SG), DE. reflexivity.
Qed.

(** C116: the same for files, whatever their names are, if they can be
    created and there is room for the bytes. *)
Lemma png_file_reopened : forall m E D L s i path ct comp filter, lossless_png E D -> accurate_powf L ->
  valid (buffer i) -> nonempty (buffer i) -> colours_in_range (buffer i) -> ct <> PL16 ->
  creatable s path = true -> (forall bytes, image_save_to_buffer E L i (EPng ct comp filter) = ROk bytes -> zlen bytes <= limits s path)%Z ->
  exists s' i', image_save_with_format E L s i path (EPng ct comp filter) = (s', ROk tt) /\
    image_open m D L s' path = Ok (ROk i') /\
    reopened_image (fst (fst (png_promise L ct))) (snd (fst (png_promise L ct))) (buffer i) (buffer i').
Proof.
  intros m E D L s i path ct comp filter LP AL V NE G N CR LI.
  destruct (png_round_trip m E D L (buffer i) ct comp filter LP AL V NE N G) as (ops & b' & MJ & EO & SG & DE & R).
  specialize (LI _ (proj2 (save_to_buffer E L i (EPng ct comp filter)) _ _ _ MJ EO)).
  destruct (encode_to_file E L s path (buffer i) (Some (EPng ct comp filter))) as [s' r] eqn:EF.
  destruct (save_result E L s path (buffer i) (Some (EPng ct comp filter)) _ _ ops true s' r ltac:(unfold zlen in LI; lia) eq_refl CR MJ EO EF) as (_ & A & _).
  destruct (A LI) as [F ->]. exists s', (new_from_buffer b'). split; [exact EF|]. split; [|exact R].
  unfold image_open. rewrite (contents_decide m D L s' path (output ops) Png F SG), DE. reflexivity.
Qed.

(** C116: and for a file whose name says that it is a PNG file, with the
    default colour type, RGBA with 8 bits. *)
Lemma png_saved_reopened : forall m E D L s i path, lossless_png E D -> accurate_powf L ->
  valid (buffer i) -> nonempty (buffer i) -> colours_in_range (buffer i) ->
  has_extension path Png -> creatable s path = true -> (forall bytes f, image_save_to_buffer E L i f = ROk bytes -> zlen bytes <= limits s path)%Z ->
  exists s' i', image_save E L s i path = (s', ROk tt) /\ image_open m D L s' path = Ok (ROk i') /\
    reopened_image ColRgba Eight (buffer i) (buffer i').
Proof.
  intros m E D L s i path LP AL V NE G X CR LI.
  destruct (png_file_reopened m E D L s i path PRgba8 CDefault FSub LP AL V NE G ltac:(discriminate) CR) as (s' & i' & A & B & C).
  { intros bytes SB. apply (LI _ _ SB). }
  exists s', i'. split; [|split; assumption]. unfold image_save, image_save_with_format, encode_to_file in *.
  destruct (known_extension path Png X) as (e & CH & FE). unfold chosen in CH. rewrite CH. unfold encoding_from_path in CH.
  destruct (format_from_path path) as [[]|]; inversion CH; subst e; try discriminate FE. exact A.
Qed.

(** C116: the same for BMP and ICO, up to the sizes the libraries support. *)
Lemma image_memory_reopened : forall m E D L i ct limit f, accurate_powf L ->
  valid (buffer i) -> nonempty (buffer i) -> colours_in_range (buffer i) -> (width (buffer i) <= limit)%Z -> (height (buffer i) <= limit)%Z ->
  (f = EBmp ct /\ lossless_image E JobBmp (dec_bmp D) Bmp limit) \/ (f = EIco ct /\ lossless_image E JobIco (dec_ico D) Ico limit) ->
  exists bytes i', image_save_to_buffer E L i f = ROk bytes /\ image_read_from_buffer m D L bytes = Ok (ROk i') /\
    reopened_image (image_layout (fst (fst (image_promise L ct)))) Eight (buffer i) (buffer i').
Proof.
  intros m E D L i ct limit f AL V NE G WL HL F. destruct (image_layout_exact L (buffer i) ct V) as (raw & JB & JI & LO).
  destruct F as [[-> LI] | [-> LI]]; destruct (image_round_trip E L (buffer i) ct _ _ _ limit LI AL V NE WL HL G raw LO) as (ops & img & b' & EO & SG & DE & RD & R);
    exists (output ops), (new_from_buffer b'); (split; [|split; [|exact R]]).
  - apply (proj2 (save_to_buffer E L i _) (job_bmp L (buffer i) ct) ops true); [reflexivity|]. rewrite JB. exact EO.
  - unfold image_read_from_buffer, decode_buffer. rewrite (proj2 (signature_exact _ _) SG). cbn [decode]. rewrite DE. cbn [decode_image]. rewrite RD. reflexivity.
  - apply (proj2 (save_to_buffer E L i _) (job_ico L (buffer i) ct) ops true); [reflexivity|]. rewrite JI. exact EO.
  - unfold image_read_from_buffer, decode_buffer. rewrite (proj2 (signature_exact _ _) SG). cbn [decode]. rewrite DE. cbn [decode_image]. rewrite RD. reflexivity.
Qed.

(** C116: and a file of any format that is saved without an error and opened
    again shows what the bytes saved to memory show, if there is room for
    them. *)
Lemma file_like_memory : forall m E D L s i path f bytes, image_save_to_buffer E L i f = ROk bytes ->
  (exists g, has_signature bytes g) -> creatable s path = true -> (zlen bytes <= limits s path)%Z ->
  exists s', image_save_with_format E L s i path f = (s', ROk tt) /\ files s' path = Some bytes /\
    image_open m D L s' path = image_read_from_buffer m D L bytes.
Proof.
  intros m E D L s i path f bytes SB [g SG] CR LI.
  destruct (make_job L (buffer i) f) as [j|e] eqn:MJ. 2:{ rewrite (proj1 (save_to_buffer E L i f) e MJ) in SB. discriminate SB. }
  destruct (E j) as [ops ok] eqn:EO. rewrite (proj2 (save_to_buffer E L i f) j ops ok MJ EO) in SB. destruct ok; [|discriminate SB].
  assert (OB : output ops = bytes) by (injection SB; auto). subst bytes.
  destruct (encode_to_file E L s path (buffer i) (Some f)) as [s' r] eqn:EF.
  destruct (save_result E L s path (buffer i) (Some f) _ j ops true s' r ltac:(unfold zlen in LI; lia) eq_refl CR MJ EO EF) as (_ & A & _).
  destruct (A LI) as [F ->]. exists s'. split; [exact EF|]. split; [exact F|].
  unfold image_open, image_read_from_buffer, decode_buffer. rewrite (contents_decide m D L s' path (output ops) g F SG), (proj2 (signature_exact _ _) SG). reflexivity.
Qed.

(** C116: what is stored as it is, like alpha, comes back lower by at most one
    step and the rounding errors. *)
Lemma alpha_step : forall N a b, (0 < N)%Z -> stored N (fun v => v) (fun v => v) a b ->
  B2R a - / IZR N - / 2 ^ 17 <= B2R b <= B2R a + / 2 ^ 17.
Proof.
  intros N a b HN (v & V & B & F & C). apply IZR_lt in HN. apply Rabs_le_iff in C. set (n := IZR N) in *.
  assert (P : 0 < / n) by (apply Rinv_0_lt_compat; exact HN).
  assert (Q : IZR v / n - / 2 ^ 18 <= B2R a <= IZR v / n + / n + / 2 ^ 18).
  { split.
    - apply Rmult_le_reg_r with n; [exact HN|]. replace ((IZR v / n - / 2 ^ 18) * n) with (IZR v - n / 2 ^ 18) by (field; lra). lra.
    - apply Rmult_le_reg_r with n; [exact HN|]. replace ((IZR v / n + / n + / 2 ^ 18) * n) with (IZR v + 1 + n / 2 ^ 18) by (field; lra). lra. }
  lra.
Qed.

Example reopened_example : lossless_png plain_encoders plain_decoders /\
  lossless_image plain_encoders JobBmp (dec_bmp plain_decoders) Bmp 65535 /\ lossless_image plain_encoders JobIco (dec_ico plain_decoders) Ico 256 /\
  (forall L, accurate_powf (ideal_libm L)) /\
  let b := mkPB 2 1 [mkC (dec 1 10) (dec 1 2) f1 (dec 1 4); mkC f0 f0 f0 f0] in
  valid b /\ nonempty b /\ colours_in_range b.
Proof.
  split; [exact plain_lossless|]. split; [exact plain_bmp|]. split; [exact plain_ico|]. split; [exact ideal_accurate|]. cbv zeta.
  split; [split; [right; vm_compute; intuition congruence|reflexivity]|]. split; [split; reflexivity|].
  intros m x y c I GP. unfold get_pixel in GP. 
  assert (H : In c [mkC (dec 1 10) (dec 1 2) f1 (dec 1 4); mkC f0 f0 f0 f0]).
  { destruct I as [Ix Iy]. cbn [width height] in Ix, Iy. assert (y = 0%Z) by lia. assert (X : (x = 0 \/ x = 1)%Z) by lia. subst y.
    destruct X as [-> | ->]; destruct m; [left|left|right; left|right; left]; injection GP; auto. }
  destruct H as [<- | [<- | []]]; repeat split; vm_compute; reflexivity.
Qed.
