(** Usual calls on ordinary images return (the proofs of C129). *)
From Coq Require Import ZArith Reals List Bool String Lia Lra.
From Verif Require Import Base BufferSpec PixelBuffer Geometry F32 Color Resample Kernel Ops Blend Codec CodecSpec KernelSpec OpsSpec Image ImageSpec Names Commands Cli PySpec PyImage PyColor PyObjects BuildSpec.
From Flocq Require Import IEEE754.BinarySingleNaN.
From Verif Require Import CodecThm FilterProofs DrawingProofs GeometryProofs GeometryThm KernelThm ResampleThm OpsThm BlendThm CodecThm ImageThm HistogramProofs PyThm ImageProofs BuildProofs.
Import ListNotations.
Open Scope Z_scope.

Lemma ordinary_same i b : ordinary i -> valid b -> width b = width (buffer i) -> height b = height (buffer i) -> ordinary (mkImage b (bg_color i)).
Proof. intros (_ & W & H) V E1 E2. split; [exact V|]. cbn [buffer]. rewrite E1, E2. auto. Qed.
Lemma meta_ok i r b : r = Ok b -> with_meta i r = Ok (mkImage b (bg_color i)).
Proof. intros ->. reflexivity. Qed.
Lemma ordinary_valid w h : 1 <= w <= 16384 -> 1 <= h <= 16384 -> valid_size w h.
Proof. intros A B. right. split; [lia|]. split; [lia|]. nia. Qed.

Lemma scaled_small n k (r : R) : scaled_to n r -> (r <= IZR k)%R -> 1 <= k <= 16384 -> n <= k.
Proof.
  unfold scaled_to. intros S Hr Hk. assert (K : (1 <= IZR k <= 16384)%R) by (split; apply IZR_le; lia).
  assert (IZR n < IZR (k + 1))%R; [|apply lt_IZR in H; lia].
  rewrite plus_IZR. assert (Rmax 1 r <= IZR k)%R by (apply Rmax_lub; lra).
  unfold Rabs in S. destruct (Rcase_abs (IZR n - Rmax 1 r)); lra.
Qed.

Section Calls.
Context (E : encoders) (D : decoders) (L : libm) (J : jpeg_round_trip E D) (X : exp_ok L).

Ltac same T := let b := fresh "b" in let V := fresh "V" in let W := fresh "W" in let H := fresh "H" in let R := fresh "R" in
  destruct T as (b & R & V & W & H); eexists; split; [apply meta_ok; exact R|apply ordinary_same; auto].
Ltac same' T := let b := fresh "b" in let V := fresh "V" in let W := fresh "W" in let H := fresh "H" in let R := fresh "R" in
  destruct T as (b & R & V & W & H & _); eexists; split; [apply meta_ok; exact R|apply ordinary_same; auto].

Lemma usual_op i c op : ordinary i -> usual_call i c -> fit (integers c) -> means Checked E D L c op ->
  exists i', op i = Ok i' /\ ordinary i'.
Proof.
  intros O U F M. pose proof O as (V & W & H). destruct M; cbn [usual_call integers] in U, F.
  - inversion F as [|? ? F1 F']; subst. inversion F' as [|? ? F2 F'']; subst. inversion F'' as [|? ? F3 F''']; subst. inversion F''' as [|? ? F4 _]; subst. cbn [fst snd] in *.
    assert (I : is_u32 x /\ is_u32 y /\ is_u32 w /\ is_u32 h) by (unfold is_u32; lia). destruct I as (I1 & I2 & I3 & I4).
    destruct (crop_intersection Rgb Checked RGB_NONE (buffer i) x y w h V I1 I2 I3 I4) as (b & R & Vb & _).
    pose proof (crop_size Rgb Checked RGB_NONE (buffer i) x y w h b V I1 I2 I3 I4 R) as Z. cbv zeta in Z.
    destruct (_ =? 0) eqn:Z1 in Z; [apply Z.eqb_eq in Z1; lia|]. destruct (_ =? 0) eqn:Z2 in Z; [apply Z.eqb_eq in Z2; lia|]. cbn [orb] in Z. inversion Z as [[Z3 Z4]].
    eexists. split; [apply meta_ok; exact R|]. split; [exact Vb|]. cbn [buffer]. lia.
  - same' (flip_horizontal_ok Checked RGB_NONE (buffer i) V).
  - same' (flip_vertical_ok Checked RGB_NONE (buffer i) V).
  - destruct (rotate90_ok Checked RGB_NONE (buffer i) V) as (b & R & Vb & Wb & Hb & _). eexists. split; [apply meta_ok; exact R|]. split; [exact Vb|]. cbn [buffer]. lia.
  - same' (rotate180_ok Checked RGB_NONE (buffer i) V).
  - destruct (rotate270_ok Checked RGB_NONE (buffer i) V) as (b & R & Vb & Wb & Hb & _). eexists. split; [apply meta_ok; exact R|]. split; [exact Vb|]. cbn [buffer]. lia.
  - same (rotate_total L Checked (buffer i) r (match bg_color i with Some c => c | None => RGB_NONE end) f V).
  - destruct U as [U1 U2]. destruct (resize_total L Checked (buffer i) w h f V ltac:(split; lia) (ordinary_valid _ _ U1 U2) ltac:(intros _; lia)) as (b & R & Vb & Wb & Hb).
    eexists. split; [apply meta_ok; exact R|]. split; [exact Vb|]. cbn [buffer]. lia.
  - destruct U as [U1 [U2 U3]].
    assert (P : forall z, 1 <= z <= 16384 -> (0 <= percent p z <= IZR z)%R).
    { intros z Hn. unfold percent. assert (1 <= IZR z)%R by (apply IZR_le; lia). split; [apply Rmult_le_pos; lra|]. rewrite <- (Rmult_1_r (IZR z)) at 2. apply Rmult_le_compat_l; lra. }
    destruct (resize_pct_succeeds L Checked i p f V ltac:(split; lia) U1 U2 ltac:(intros _; lia)) as (i' & R).
    { cbv beta zeta. pose proof (P _ W). pose proof (P _ H).
      assert (S : forall z, 1 <= z <= 16384 -> (0 <= Rmax 1 (percent p z) * (1 + / 4194304) + 1 <= 16386)%R).
      { intros z Hn. pose proof (P z Hn). assert (IZR z <= 16384)%R by (apply IZR_le; lia). assert (1 <= Rmax 1 (percent p z) <= 16384)%R by (split; [apply Rmax_l|apply Rmax_lub; lra]). lra. }
      pose proof (S _ W) as SW. pose proof (S _ H) as SH. apply Rle_trans with (16386 * 16386)%R; [apply Rmult_le_compat; lra|lra]. }
    exists i'. split; [exact R|]. destruct (resize_pct_sides L Checked i p f i' V ltac:(split; lia) U1 U2 R) as (A1 & A2 & A3 & A4).
    pose proof (scaled_small _ _ _ A2 (proj2 (P _ W)) W). pose proof (scaled_small _ _ _ A4 (proj2 (P _ H)) H).
    split; [|lia]. unfold image_resize_pct, image_resize in R. cbv zeta in R. apply with_meta_inv in R as (b & R & ->). cbn [buffer].
    match type of R with resize _ _ _ ?w ?h _ = _ => exact (proj1 (resize_made L Checked (buffer i) w h f V ltac:(lia) ltac:(lia) b R)) end.
  - same' (edge_detection_total Checked (buffer i) e V).
  - destruct (jpeg_quality_result Checked E D L (buffer i) q (given a true) J V ltac:(split; lia) ltac:(lia) ltac:(lia)) as (b & R & Vb & Wb & Hb & _).
    eexists; split; [apply meta_ok; exact R|apply ordinary_same; auto].
  - inversion F as [|? ? F1 _]; subst. cbn [fst] in F1. same (blur_total L Checked (buffer i) r s V ltac:(lia)).
  - inversion F as [|? ? F1 _]; subst. cbn [fst] in F1. same (unsharp_total L Checked (buffer i) r (given f (ofZ 1)) s V ltac:(lia)).
  - inversion F as [|? ? F1 _]; subst. cbn [fst] in F1. same (drawing_total L Checked (buffer i) r d V ltac:(lia) X).
  - inversion F as [|? ? F1 _]; subst. cbn [fst] in F1. same' (interlace_spec Rgb Checked (buffer i) o V ltac:(lia)).
  - destruct (palette_closest L KRgb (buffer i) (buffer p) V) as (b & R & _ & Vb & Wb & Hb & _). eexists; split; [apply meta_ok; exact R|apply ordinary_same; auto].
  - same' (despeckle_spec Checked (buffer i) (given t (dec 1 10)) (given n 1) V).
  - assert (K : 0 <= given r 4 <= 4194302). { destruct r as [r|]; cbn [given]; [|lia]. inversion F as [|? ? F1 _]; subst. cbn [fst] in F1. lia. }
    same' (snn_spec Checked (buffer i) (given r 4) (given c true) V K).
  - destruct U as (Vo & Wo & Ho).
    destruct (blend_overlap L Checked (buffer i) (buffer i0) op (given s (ofZ 1)) V Vo ltac:(apply ordinary_valid; lia)) as (b & R & Vb & Wb & Hb & _).
    eexists. split; [apply meta_ok; exact R|]. split; [exact Vb|]. cbn [buffer]. lia.
  - destruct (stretch_contrast_spec L (buffer i) (given t (dec 1 2)) V) as (b & lo & hi & R & Vb & Wb & Hb & _). eexists; split; [apply meta_ok; exact R|apply ordinary_same; auto].
  - unfold image_optimize_saturation, optimize_saturation. cbv zeta.
    match goal with |- context [map_pure ?f _] => destruct (map_pure_ok f (buffer i) V) as (b & R & _ & Vb & Wb & Hb & _) end. eexists; split; [apply meta_ok; exact R|apply ordinary_same; auto].
  - same (temperature_total L (buffer i) a b (given t (ofZ 0)) V).
  - unfold image_optimize_color_temperature, optimize_color_temperature. cbv zeta.
    match goal with |- context [change_color_temperature L _ ?a ?b ?t] => same (temperature_total L (buffer i) a b t V) end.
  - unfold image_optimize_lightness, optimize_lightness. cbv zeta.
    match goal with |- context [map_pure ?f _] => destruct (map_pure_ok f (buffer i) V) as (b & R & _ & Vb & Wb & Hb & _) end. eexists; split; [apply meta_ok; exact R|apply ordinary_same; auto].
  - destruct (balance_space BRgb) as [[[k e0] e1] e2] eqn:B. same' (balance_spec L (buffer i) BRgb (given t (dec 1 2)) k e0 e1 e2 V B).
  - destruct (balance_space b) as [[[k e0] e1] e2] eqn:B. same' (balance_spec L (buffer i) b (given t (dec 1 2)) k e0 e1 e2 V B).
  - same (equalize_total L Checked (buffer i) e V).
Qed.

Lemma fits_or l : fit l \/ ~ fit l.
Proof.
  induction l as [|p l [IH|IH]]; [left; constructor| |].
  - destruct (Z_le_dec 0 (fst p)), (Z_le_dec (fst p) (snd p)); [left; constructor; auto| | |]; right; intros F; inversion F; subst; lia.
  - right. intros F. inversion F; subst. auto.
Qed.

Lemma usual_one i c : ordinary i -> usual_call i c ->
  exists r, (forall m, py_run m E D L i c = Ok r) /\ forall i', r = ROk i' -> ordinary i'.
Proof.
  intros O U. destruct (fits_or (integers c)) as [F|F].
  2: { exists (RErr OverflowError). split; [|discriminate]. intros m. exact (proj1 (python_calls m E D L i c) F). }
  destruct (python_calls Checked E D L i c) as (_ & K2 & K3 & [(op & M)|(s & ty & K)]).
  - destruct (usual_op i c op O U F M) as (i' & R & O'). assert (C : py_run Checked E D L i c = Ok (ROk i')) by (rewrite (K3 F op M), R; reflexivity).
    exists (ROk i'). split; [|intros j Ej; inversion Ej; subst; exact O']. intros [|]; [exact C|exact (le_py_run E D L i c _ C)].
  - exists (RErr (OSErrorName (mkPEE s ty))). split; [|discriminate]. intros m. exact (proj1 (proj2 (python_calls m E D L i c)) F s ty K).
Qed.

Lemma usual_all cs : forall i, ordinary i -> usual_calls E D L i cs ->
  exists r, (forall m, all_calls E D L m i cs = Ok r) /\ forall i', r = ROk i' -> ordinary i'.
Proof.
  induction cs as [|c cs IH]; intros i O U; cbn [all_calls usual_calls] in *.
  - exists (ROk i). split; [reflexivity|]. intros j Ej. inversion Ej; subst. exact O.
  - destruct U as [U1 U2]. destruct (usual_one i c O U1) as ([i1|x] & R & O1).
    + destruct (IH i1 (O1 i1 eq_refl) (U2 i1 (R Checked))) as (r & K & O2). exists r. split; [|exact O2]. intros m. rewrite R. cbn [bind]. apply K.
    + exists (RErr x). split; [|discriminate]. intros m. rewrite R. reflexivity.
Qed.
End Calls.

(** The command line tool: both builds do the same. *)
From Verif Require Import CommandsSpec CommandsProofs.
Lemma decode_builds D L c f : good_decoders D -> decode Checked D L c f = decode Wrapping D L c f.
Proof.
  intros GD. destruct (decode Checked D L c f) as [v|] eqn:K; [symmetry; exact (le_decode D L c f v K)|].
  symmetry. apply decode_panics_exactly; [exact GD|]. apply decode_panics_exactly in K; assumption.
Qed.
Lemma decode_file_builds D L s p : good_decoders D -> decode_file Checked D L s p = decode_file Wrapping D L s p.
Proof.
  intros GD. unfold decode_file. destruct (files s p) as [c|]; [|reflexivity].
  destruct (from_reader c); [apply decode_builds; exact GD|]. destruct (format_from_path p); [apply decode_builds; exact GD|reflexivity].
Qed.
Lemma does_builds {R} (e : env R) c st r st' : does (built Checked e) c st r st' -> does (built Wrapping e) c st r st'.
Proof.
  intros H. destruct H.
  - apply does_silent.
  - apply does_open. exact (le_decode_file _ _ _ _ _ H).
  - apply does_open_fail. exact (le_decode_file _ _ _ _ _ H).
  - apply does_missing; assumption.
  - apply does_save. assumption.
  - apply does_save_fail. assumption.
  - eapply does_pixels; eassumption.
  - apply does_rotate. exact (le_rotate _ _ _ _ _ _ H).
  - eapply does_noise; eassumption.
Qed.
Lemma do_all_builds {R} (e : env R) l st st' : do_all (built Checked e) l st st' -> do_all (built Wrapping e) l st st'.
Proof. induction 1; [constructor|econstructor; [apply does_builds; eassumption|assumption]]. Qed.
Lemma queue_builds {R} (e : env R) q w : good_decoders (e_dec e) -> queue_run (built Checked e) q w = queue_run (built Wrapping e) q w.
Proof.
  intros GD. destruct (queue_run (built Checked e) q w) as [v|] eqn:K; [symmetry; exact (le_queue_run e q w v K)|]. symmetry.
  unfold queue_run in *. apply (execute_panic (built Checked e) q None _ w) in K as (dn & path & later & st & Q & A & P); [|exact GD|apply start_valid].
  apply (execute_panic (built Wrapping e) q None _ w); [exact GD|apply start_valid|]. exists dn, path, later, st. split; [exact Q|]. split; [apply do_all_builds; exact A|].
  cbn [e_build e_dec e_libm built] in *. rewrite <- decode_file_builds; assumption.
Qed.
Lemma main_builds {R} (e : env R) text number args w : good_decoders (e_dec e) ->
  main (built Checked e) text number args w = main (built Wrapping e) text number args w.
Proof. intros GD. unfold main. destruct (zlen args =? 1); [reflexivity|]. destruct (parse text number args) as [q|x]; [|reflexivity]. rewrite queue_builds by exact GD. reflexivity. Qed.
