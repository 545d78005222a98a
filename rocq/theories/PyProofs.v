(** Proofs about the Python methods. *)
From Coq Require Import ZArith List Bool String Lia ZifyBool.
From Verif Require Import Base BaseLemmas PixelBuffer BufferSpec PixelBufferProofs EnumProofs Geometry GeometryProofs ComposeProofs F32 Color Blend Resample
  Kernel Ops Codec Names Image ImageSpec PyImage CliSpec CliThm PySpec.
Import ListNotations.
Local Open Scope string_scope.
Open Scope Z_scope.

Lemma py_int_in lo hi z : lo <= z <= hi -> py_int lo hi z = ROk z.
Proof. intros H. unfold py_int. destruct (lo <=? z) eqn:A, (z <=? hi) eqn:B; try lia. reflexivity. Qed.
Lemma py_int_out lo hi z : ~ lo <= z <= hi -> py_int lo hi z = RErr OverflowError.
Proof. intros H. unfold py_int. destruct (lo <=? z) eqn:A, (z <=? hi) eqn:B; try lia; reflexivity. Qed.

Lemma name_or_in {A} parse ty (names : list (string * A)) o d v0 v : named_by parse ty names -> parse d = ROk v0 ->
  called names o d v -> py_name_or parse o v0 = ROk v.
Proof.
  intros (N & _) E C. unfold called in C. apply N in C. unfold py_name_or, py_name. destruct o as [s|]; cbn [given] in C.
  - rewrite C. reflexivity.
  - rewrite C in E. inversion E. reflexivity.
Qed.
Lemma name_in {A} parse ty (names : list (string * A)) o d d' v : named_by parse ty names -> parse d = parse d' ->
  called names o d v -> py_name parse (or_default o d') = ROk v.
Proof.
  intros (N & _) E C. unfold called in C. apply N in C. unfold py_name. destruct o as [s|]; cbn [given or_default] in *.
  - rewrite C. reflexivity.
  - rewrite <- E, C. reflexivity.
Qed.
Lemma name_or_out {A} parse ty (names : list (string * A)) o v0 s : named_by parse ty names ->
  uncalled names o s -> py_name_or parse o v0 = RErr (OSErrorName (mkPEE s ty)).
Proof. intros (_ & _ & N & _) (-> & H). cbn. unfold py_name. rewrite N by auto. reflexivity. Qed.
Lemma name_out {A} parse ty (names : list (string * A)) o d s : named_by parse ty names ->
  uncalled names o s -> py_name parse (or_default o d) = RErr (OSErrorName (mkPEE s ty)).
Proof. intros (_ & _ & N & _) (-> & H). cbn. unfold py_name. rewrite N by auto. reflexivity. Qed.
(** Every text is a name or none. *)
Lemma name_cases {A} parse ty (names : list (string * A)) o d : named_by parse ty names -> (exists v, In (d, v) names) ->
  (exists v, called names o d v) \/ (exists s, uncalled names o s).
Proof.
  intros (N1 & N2 & N3 & _) (v0 & H). destruct o as [s|]; [|left; exists v0; exact H].
  destruct (parse s) as [v|e] eqn:E.
  - left. exists v. unfold called. cbn. auto.
  - right. exists s. split; auto. intros v C. apply N1 in C. congruence.
Qed.

(** Sizes. *)
Lemma u32_dec z : is_u32 z \/ ~ is_u32 z.
Proof. unfold is_u32. lia. Qed.
Lemma py_u32_in z : is_u32 z -> py_u32 z = ROk z.
Proof. intros H. apply py_int_in. unfold is_u32 in H. lia. Qed.
Lemma py_u32_out z : ~ is_u32 z -> py_u32 z = RErr OverflowError.
Proof. intros H. apply py_int_out. unfold is_u32 in H. lia. Qed.
Lemma py_i32_in z : is_i32 z -> py_i32 z = ROk z.
Proof. intros H. apply py_int_in. unfold is_i32 in H. lia. Qed.
Lemma py_i32_out z : ~ is_i32 z -> py_i32 z = RErr OverflowError.
Proof. intros H. apply py_int_out. unfold is_i32 in H. lia. Qed.
Lemma u32_pair {A} x y (k : Z -> Z -> py A) : ~ (is_u32 x /\ is_u32 y) ->
  py_bind (py_u32 x) (fun x => py_bind (py_u32 y) (fun y => k x y)) = Ok (RErr OverflowError).
Proof.
  intros H. destruct (u32_dec x) as [X|X].
  - rewrite py_u32_in by auto. cbn [py_bind]. rewrite py_u32_out by tauto. reflexivity.
  - rewrite py_u32_out by auto. reflexivity.
Qed.
Lemma i32_pair {A} x y (k : Z -> Z -> py A) : ~ (is_i32 x /\ is_i32 y) ->
  py_bind (py_i32 x) (fun x => py_bind (py_i32 y) (fun y => k x y)) = Ok (RErr OverflowError).
Proof.
  intros H. assert (D : is_i32 x \/ ~ is_i32 x) by (unfold is_i32; lia). destruct D as [X|X].
  - rewrite py_i32_in by auto. cbn [py_bind]. rewrite py_i32_out by tauto. reflexivity.
  - rewrite py_i32_out by auto. reflexivity.
Qed.
Lemma inside_i32 {T} (b : PixelBuffer T) x y : valid b -> inside b x y -> is_i32 x /\ is_i32 y /\ is_u32 x /\ is_u32 y.
Proof. intros V (X & Y). pose proof (valid_bounds b V). unfold is_i32, is_u32. lia. Qed.

Lemma new_with_color_bad {T} m w h (c : T) : 0 <= w -> 0 <= h -> ~ valid_size w h -> new_with_color m w h c = Panic.
Proof. intros W H V. unfold new_with_color. destruct (validate_size_cases w h W H) as [(X & _)|(_ & ->)]; [contradiction|reflexivity]. Qed.
Lemma new_from_raw_bad {T} w h (d : list T) : 0 <= w -> 0 <= h -> ~ (valid_size w h /\ zlen d = w * h) -> new_from_raw w h d = Panic.
Proof.
  intros W H V. destruct (new_from_raw w h d) as [b|] eqn:E; auto.
  apply new_from_raw_inv in E; auto. exfalso. apply V. tauto.
Qed.

(** The pixels handed to a function. *)
Lemma items_pixels i : items (buffer i) = pixels i.
Proof. reflexivity. Qed.
Lemma pixels_coords i p : good_image i -> In p (pixels i) -> let '(x, y, c) := p in is_i32 x /\ is_i32 y.
Proof.
  destruct p as ((x & y) & c). intros V H. apply in_combine_l in H. apply row_major_In in H.
  pose proof (valid_bounds (buffer i) V). unfold is_i32. lia.
Qed.
Lemma try_mod_list_ext {S A T X} (f g : S -> A -> res (S * Result T X)) old l s :
  (forall s a, In a l -> f s a = g s a) -> try_mod_list f old s l = try_mod_list g old s l.
Proof.
  revert s. induction l as [|a l IH]; intros s H; cbn [try_mod_list]; auto.
  rewrite H by (left; auto). destruct (g s a) as [(s1 & [c|e])|]; cbn [bind]; auto.
  rewrite IH; auto. intros. apply H. right. auto.
Qed.
Lemma try_compose_ok_lemma {S T E} m (bs : list (PixelBuffer T)) d
  (f : S -> Z -> Z -> list T -> res (S * Result T E)) s s' b : Forall valid bs ->
  try_compose m bs d f s = Ok (s', ROk b) ->
  valid b /\
  (forall a, In a bs -> width a <= width b /\ height a <= height b) /\
  (exists a, In a bs /\ width a = width b) /\ (exists a, In a bs /\ height a = height b) /\
  exists ps : Z -> Z -> list T,
    (forall x y, inside b x y ->
      Forall2 (fun a c => (inside a x y -> get_pixel m a x y = Ok c) /\ (~ inside a x y -> c = d)) bs (ps x y)) /\
    runs (call_ok (fun s p => f s (fst p) (snd p) (ps (fst p) (snd p)))) s
         (row_major (width b) (height b)) s' (data b).
Proof.
  intros Vs H. destruct (list_eq_dec Nat.eq_dec (map (fun _ => O) bs) []) as [E0|E0].
  { destruct bs; [|discriminate]. discriminate. }
  assert (NE : bs <> []) by (destruct bs; simpl in *; congruence).
  destruct (max_dims bs Vs NE) as (w & h & Hw & Hh & Bw & Bh & M & E1 & E2).
  destruct (try_compose_eq m bs d f s NE) as (w' & h' & Hw' & Hh' & Hc).
  rewrite Hw in Hw'. rewrite Hh in Hh'. inversion Hw'; inversion Hh'; subst w' h'.
  rewrite Hc in H. clear Hc Hw' Hh'.
  destruct (pixels_fun m bs d w h Vs) as (ps & Hps); try lia.
  assert (VS : valid_size w h).
  { destruct (validate_size_cases w h) as [(VS & E3)|(VS & E3)]; try lia; auto.
    rewrite try_new_from_func_invalid in H by (auto; lia). discriminate. }
  rewrite try_new_from_func_eq in H by auto. apply bind_inv in H as ((s1 & [dd|e']) & H1 & H); inversion H; subst s1 b.
  rewrite (try_map_st_ext _ (fun s p => f s (fst p) (snd p) (ps (fst p) (snd p)))) in H1.
  - apply try_map_st_ok in H1. cbn [width height data].
    split.
    { split; auto. cbn [width height data]. apply runs_length in H1. rewrite H1. apply row_major_length; lia. }
    split; auto. split; auto. split; auto. exists ps. split; auto.
    intros x y (Ix & Iy). cbn [width height] in Ix, Iy. apply Hps; auto.
  - intros s0 (x & y) I. apply row_major_In in I. simpl. destruct (Hps x y) as (-> & _); try lia. auto.
Qed.

(** * The calls *)
Lemma or_default_given {A} (o : option A) d : or_default o d = given o d.
Proof. reflexivity. Qed.

Lemma fit_cons z hi l : fit ((z, hi) :: l) <-> 0 <= z <= hi /\ fit l.
Proof. unfold fit. split; [intros H; inversion H; auto|intros (A & B); constructor; auto]. Qed.
Lemma fit_nil : fit [].
Proof. constructor. Qed.
Lemma py_opt_u8_in o : (forall z, o = Some z -> 0 <= z <= 255) -> py_opt py_u8 o = ROk o.
Proof. destruct o as [z|]; intros H; [|reflexivity]. cbn [py_opt]. unfold py_u8. rewrite py_int_in by auto. reflexivity. Qed.
Lemma py_opt_usize_in o : (forall z, o = Some z -> 0 <= z <= 18446744073709551615) -> py_opt py_usize o = ROk o.
Proof. destruct o as [z|]; intros H; [|reflexivity]. cbn [py_opt]. unfold py_usize. rewrite py_int_in by auto. reflexivity. Qed.

Ltac int_cases := repeat match goal with
  | |- context [py_bind (py_u32 ?z) _] =>
      let H := fresh in assert (H : 0 <= z <= 4294967295 \/ ~ 0 <= z <= 4294967295) by lia;
      destruct H as [H|H]; [unfold py_u32 at 1; rewrite (py_int_in _ _ z H); cbn [py_bind]
                           |unfold py_u32 at 1; rewrite (py_int_out _ _ z H); reflexivity]
  end.

Lemma run_overflow m E D L i c : ~ fit (integers c) -> py_run m E D L i c = Ok (RErr OverflowError).
Proof.
  intros F. destruct c; cbn [integers] in F; try (exfalso; apply F; apply fit_nil); cbn [py_run]; rewrite ?fit_cons in F.
  - int_cases. exfalso. apply F. pose proof fit_nil. tauto.
  - int_cases. exfalso. apply F. pose proof fit_nil. tauto.
  - unfold py_u8. rewrite py_int_out; [reflexivity|]. pose proof fit_nil. tauto.
  - int_cases. exfalso. apply F. pose proof fit_nil. tauto.
  - int_cases. exfalso. apply F. pose proof fit_nil. tauto.
  - int_cases. exfalso. apply F. pose proof fit_nil. tauto.
  - int_cases. exfalso. apply F. pose proof fit_nil. tauto.
  - destruct amount as [z|]; [|exfalso; apply F; apply fit_nil]. rewrite fit_cons in F.
    cbn [py_opt]. unfold py_u8. rewrite py_int_out; [reflexivity|]. pose proof fit_nil. tauto.
  - destruct radius as [z|]; [|exfalso; apply F; apply fit_nil]. rewrite fit_cons in F.
    cbn [py_opt]. unfold py_usize. rewrite py_int_out; [reflexivity|]. pose proof fit_nil. tauto.
Qed.

Ltac names_of := pose proof names_exact as (Ni & Nf & Nb & Ne & Nd & Ns & Nq & Nl).

Lemma run_unknown m E D L i c s ty : fit (integers c) -> unknown_name s c ty ->
  py_run m E D L i c = Ok (RErr (OSErrorName (mkPEE s ty))).
Proof.
  names_of. intros F U. destruct U as [r n U|w h n U|p n U|n U|r n U|o n a U|o n U|n t U|n U]; cbn [integers] in F; cbn [py_run].
  - rewrite (name_or_out _ _ _ _ _ _ Nf U). reflexivity.
  - rewrite !fit_cons in F. destruct F as (F1 & F2 & _). unfold py_u32. rewrite !py_int_in by auto. cbn [py_bind].
    rewrite (name_or_out _ _ _ _ _ _ Nf U). reflexivity.
  - rewrite (name_or_out _ _ _ _ _ _ Nf U). reflexivity.
  - rewrite (name_or_out _ _ _ _ _ _ Ne U). reflexivity.
  - rewrite !fit_cons in F. destruct F as (F1 & _). unfold py_u32. rewrite !py_int_in by auto. cbn [py_bind].
    rewrite (name_out _ _ _ _ _ _ Nd U). reflexivity.
  - rewrite (name_out _ _ _ _ _ _ Nb U). reflexivity.
  - rewrite (name_out _ _ _ _ _ _ Ns U). reflexivity.
  - rewrite (name_or_out _ _ _ _ _ _ Nl U). reflexivity.
  - rewrite (name_or_out _ _ _ _ _ _ Nq U). reflexivity.
Qed.

Lemma run_means m E D L i c op : fit (integers c) -> means m E D L c op ->
  py_run m E D L i c = (r <- op i; Ok (ROk r)).
Proof.
  names_of. intros F M. destruct M; cbn [integers] in F; cbn [py_run]; rewrite ?fit_cons in F;
    repeat match goal with H : _ /\ _ |- _ => destruct H end; unfold py_u32, py_u8; try (rewrite ?py_int_in by auto; cbn [py_bind]; reflexivity).
  - rewrite (name_or_in _ _ _ _ "bilinear" Bilinear _ Nf eq_refl H). reflexivity.
  - rewrite !py_int_in by auto. cbn [py_bind]. rewrite (name_or_in _ _ _ _ "bilinear" Bilinear _ Nf eq_refl H). reflexivity.
  - rewrite (name_or_in _ _ _ _ "bilinear" Bilinear _ Nf eq_refl H). reflexivity.
  - rewrite (name_or_in _ _ _ _ "sobel" Sobel _ Ne eq_refl H). reflexivity.
  - rewrite !py_int_in by auto. cbn [py_bind]. rewrite (name_in _ _ _ _ "colored" "default" _ Nd eq_refl H). reflexivity.
  - rewrite py_opt_u8_in by (intros z ->; cbn [integers] in F; rewrite fit_cons in F; tauto). reflexivity.
  - rewrite py_opt_usize_in by (intros z ->; cbn [integers] in F; rewrite fit_cons in F; tauto). reflexivity.
  - rewrite (name_in _ _ _ _ "normal" "normal" _ Nb eq_refl H). reflexivity.
  - rewrite (name_in _ _ _ _ "hsl" "hsl" _ Ns eq_refl H). reflexivity.
  - rewrite (name_or_in _ _ _ _ "rgb" BRgb _ Nl eq_refl H). reflexivity.
  - rewrite (name_or_in _ _ _ _ "srgb" ESrgb _ Nq eq_refl H). reflexivity.
Qed.

Lemma run_all m E D L c : (exists op, means m E D L c op) \/ exists s ty, unknown_name s c ty.
Proof.
  names_of. destruct c; try (left; eexists; constructor; fail).
  - destruct (name_cases _ _ _ filter "bilinear" Nf) as [(v & C)|(s & U)]; [exists Bilinear; cbn; tauto|left|right];
      repeat eexists; [constructor; exact C|constructor; exact U].
  - destruct (name_cases _ _ _ filter "bilinear" Nf) as [(v & C)|(s & U)]; [exists Bilinear; cbn; tauto|left|right];
      repeat eexists; [constructor; exact C|constructor; exact U].
  - destruct (name_cases _ _ _ filter "bilinear" Nf) as [(v & C)|(s & U)]; [exists Bilinear; cbn; tauto|left|right];
      repeat eexists; [constructor; exact C|constructor; exact U].
  - destruct (name_cases _ _ _ mode "sobel" Ne) as [(v & C)|(s & U)]; [exists Sobel; cbn; tauto|left|right];
      repeat eexists; [constructor; exact C|constructor; exact U].
  - destruct (name_cases _ _ _ mode "colored" Nd) as [(v & C)|(s & U)]; [exists DColored; cbn; tauto|left|right];
      repeat eexists; [constructor; exact C|constructor; exact U].
  - destruct (name_cases _ _ _ blend_op "normal" Nb) as [(v & C)|(s & U)]; [exists Normal; cbn; tauto|left|right];
      repeat eexists; [constructor; exact C|constructor; exact U].
  - destruct (name_cases _ _ _ mode "hsl" Ns) as [(v & C)|(s & U)]; [exists SHsl; cbn; tauto|left|right];
      repeat eexists; [constructor; exact C|constructor; exact U].
  - destruct (name_cases _ _ _ mode "rgb" Nl) as [(v & C)|(s & U)]; [exists BRgb; cbn; tauto|left|right];
      repeat eexists; [constructor; exact C|constructor; exact U].
  - destruct (name_cases _ _ _ mode "srgb" Nq) as [(v & C)|(s & U)]; [exists ESrgb; cbn; tauto|left|right];
      repeat eexists; [constructor; exact C|constructor; exact U].
Qed.

Lemma py_run_lemma m E D L i c :
  (~ fit (integers c) -> py_run m E D L i c = Ok (RErr OverflowError)) /\
  (fit (integers c) -> forall s ty, unknown_name s c ty -> py_run m E D L i c = Ok (RErr (OSErrorName (mkPEE s ty)))) /\
  (fit (integers c) -> forall op, means m E D L c op -> py_run m E D L i c = (r <- op i; Ok (ROk r))) /\
  ((exists op, means m E D L c op) \/ exists s ty, unknown_name s c ty).
Proof.
  split; [apply run_overflow|]. split; [intros; apply run_unknown; auto|]. split; [intros; apply run_means; auto|apply run_all].
Qed.

Lemma py_format_lemma f :
  (~ fit (format_integers f) -> py_make_format f = RErr OverflowError) /\
  (fit (format_integers f) -> forall s ty, format_unknown s f ty -> py_make_format f = RErr (OSErrorName (mkPEE s ty))) /\
  (fit (format_integers f) -> forall e, format_means f e -> py_make_format f = ROk e) /\
  ((exists e, format_means f e) \/ exists s ty, format_unknown s f ty).
Proof.
  pose proof codec_names_exact as (Nc & Nf & Nz & Nj & Nw & Nb & Ni). split; [|split; [|split]].
  - intros F. destruct f; cbn [format_integers] in F; try (exfalso; apply F; apply fit_nil);
      destruct quality as [q|]; try (exfalso; apply F; apply fit_nil); rewrite fit_cons in F; cbn [py_make_format py_opt];
      unfold py_u8; (rewrite py_int_out; [reflexivity|]); pose proof fit_nil; tauto.
  - intros F s ty U. destruct U as [q p n g o U|a b c U|a b c (v & A) U|a b c (v & A) (v' & B) U|a U|a U|q a U]; cbn [py_make_format].
    + rewrite py_opt_u8_in by (intros z ->; cbn [format_integers] in F; rewrite fit_cons in F; tauto). cbn [py_then].
      destruct U as (-> & U). unfold py_name. destruct Nj as (_ & _ & Nj & _). rewrite Nj by auto. reflexivity.
    + rewrite (name_or_out _ _ _ _ _ _ Nc U). reflexivity.
    + rewrite (name_or_in _ _ _ _ "rgba8" PRgba8 _ Nc eq_refl A). cbn [py_then]. rewrite (name_or_out _ _ _ _ _ _ Nz U). reflexivity.
    + rewrite (name_or_in _ _ _ _ "rgba8" PRgba8 _ Nc eq_refl A), (name_or_in _ _ _ _ "default" CDefault _ Nz eq_refl B). cbn [py_then].
      rewrite (name_or_out _ _ _ _ _ _ Nf U). reflexivity.
    + rewrite (name_or_out _ _ _ _ _ _ Nb U). reflexivity.
    + rewrite (name_or_out _ _ _ _ _ _ Ni U). reflexivity.
    + rewrite py_opt_u8_in by (intros z ->; cbn [format_integers] in F; rewrite fit_cons in F; tauto). cbn [py_then].
      rewrite (name_or_out _ _ _ _ _ _ Nw U). reflexivity.
  - intros F e M. destruct M as [q p n s g o H|a b c ct comp filter A B C| |a ct A|a ct A|q a p A]; cbn [py_make_format].
    + rewrite py_opt_u8_in by (intros z ->; cbn [format_integers] in F; rewrite fit_cons in F; tauto). cbn [py_then].
      destruct n as [n|]; [|subst s; reflexivity]. destruct H as (v & -> & H). destruct Nj as (Nj & _). unfold py_name. rewrite (Nj _ _ H). reflexivity.
    + rewrite (name_or_in _ _ _ _ "rgba8" PRgba8 _ Nc eq_refl A), (name_or_in _ _ _ _ "default" CDefault _ Nz eq_refl B),
        (name_or_in _ _ _ _ "sub" FSub _ Nf eq_refl C). reflexivity.
    + reflexivity.
    + rewrite (name_or_in _ _ _ _ "rgba8" BRgba8 _ Nb eq_refl A). reflexivity.
    + rewrite (name_or_in _ _ _ _ "rgba8" BRgba8 _ Ni eq_refl A). reflexivity.
    + rewrite py_opt_u8_in by (intros z ->; cbn [format_integers] in F; rewrite fit_cons in F; tauto). cbn [py_then].
      rewrite (name_or_in _ _ _ _ "default" WDefault _ Nw eq_refl A). reflexivity.
  - destruct f as [q p n g o|a b c| |a|a|q a].
    + destruct n as [n|]; [|left; eexists; apply (fm_jpeg q p None None g o); reflexivity].
      destruct (name_cases _ _ _ (Some n) "1x1" Nj) as [(v & C)|(s & U)]; [exists F_1_1; cbn; tauto| |].
      * left. eexists. apply (fm_jpeg q p (Some n) (Some v) g o). exists v. split; [reflexivity|exact C].
      * right. exists s. eexists. apply fu_jpeg. exact U.
    + destruct (name_cases _ _ _ a "rgba8" Nc) as [(v & A)|(s & U)]; [exists PRgba8; cbn; tauto| |right; exists s; eexists; apply fu_png_a; exact U].
      destruct (name_cases _ _ _ b "default" Nz) as [(v' & B)|(s & U)];
        [exists CDefault; cbn; tauto| |right; exists s; eexists; apply fu_png_b; [exists v; exact A|exact U]].
      destruct (name_cases _ _ _ c "sub" Nf) as [(v2 & C)|(s & U)];
        [exists FSub; cbn; tauto| |right; exists s; eexists; apply fu_png_c; [exists v; exact A|exists v'; exact B|exact U]].
      left. eexists. apply fm_png; eassumption.
    + left. eexists. constructor.
    + destruct (name_cases _ _ _ a "rgba8" Nb) as [(v & A)|(s & U)]; [exists BRgba8; cbn; tauto|left; eexists; apply fm_bmp; exact A|right; exists s; eexists; apply fu_bmp; exact U].
    + destruct (name_cases _ _ _ a "rgba8" Ni) as [(v & A)|(s & U)]; [exists BRgba8; cbn; tauto|left; eexists; apply fm_ico; exact A|right; exists s; eexists; apply fu_ico; exact U].
    + destruct (name_cases _ _ _ a "default" Nw) as [(v & A)|(s & U)]; [exists WDefault; cbn; tauto|left; eexists; apply fm_webp; exact A|right; exists s; eexists; apply fu_webp; exact U].
Qed.

Lemma quality_file L s i path q : 0 <= q <= 100 -> 1 <= limits s path ->
  files (fst (let '(s, r) := (let '(w, r) := encode quality_writer L file_writer (mkBuf (mkFile [] (limits s path)) []) (buffer i) (EWebP q WDefault) in
              (set_file s path (stored_bytes (drop_buf w)), r)) in
              (s, match r with ROk u => ROk u | RErr e => RErr (OSErrorEncoding e) end))) path = Some [q].
Proof.
  intros Q B. unfold encode. cbn [make_job job_webp]. unfold quality_writer, job_webp.
  replace (Z.max 0 (Z.min q 100)) with q by lia.
  cbn [run_ops write_all file_writer]. unfold buf_write_all. cbn [pending app].
  replace (zlen [q] <? 8192 - zlen (@nil Z)) with true by reflexivity. cbn [fst files set_file].
  rewrite String.eqb_refl. unfold drop_buf, flush_buf, file_write_all. cbn [inner pending stored_bytes capacity fst app].
  f_equal. unfold zlen. cbn [List.length Z.of_nat]. rewrite Z.sub_0_r.
  destruct (Z.to_nat (limits s path)) as [|n] eqn:N; [lia|]. cbn [firstn]. destruct n; reflexivity.
Qed.
