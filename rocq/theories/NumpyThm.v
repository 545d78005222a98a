(** Properties of NumPy arrays (C69, C83). *)
From Coq Require Import Reals.
From Coq Require Import ZArith List Bool String.
From Flocq Require Import BinarySingleNaN.
From Verif Require Import Base PixelBuffer BufferSpec F32 Color ColorSpec Image ImageSpec Numpy NumpySpec.
Import ListNotations.
Local Open Scope string_scope.
Open Scope Z_scope.

(* PROPERTIES *)
From Coq Require Import Lia Lra.
From Flocq Require Import Core.
From Verif Require Import BaseLemmas PixelBufferProofs F32Lemmas ColorProofs NumpyProofs.
Open Scope Z_scope.

(** C69: the array of an image has one row per pixel row, one column per
    pixel column and one number per channel of the chosen colour space, each
    stored in the chosen element type. *)
Lemma image_to_array : forall L i name k n tn t, good_image i -> In (name, k, n) export_modes -> In (tn, t) type_names ->
  exists a, to_np_array L (Some name) tn i = ROk a /\ good_array a /\
    dims a = [height (buffer i); width (buffer i); n] /\ type_of (elems a) = t /\
    forall m x y j c, inside (buffer i) x y -> get_pixel m (buffer i) x y = Ok c -> 0 <= j < n ->
      exists v, at_ a y x j = Some v /\ stored_as t (channel j (convert_color L KRgb k c)) v.
Proof.
  intros L i name k n tn t V E T. destruct (to_array L i name k n tn t V E T) as (A & B & C). eexists. split; [exact A|]. split; [exact B|].
  split; [reflexivity|]. split; [apply type_store|]. intros m x y j c I P J. eexists. split; [apply (C m x y j c); auto|]. apply st_ok.
Qed.

(** C69: in gray mode it has one number per pixel. *)
Lemma image_to_gray_array : forall L i tn t, good_image i -> In (tn, t) type_names ->
  exists a, to_np_array L (Some "gray") tn i = ROk a /\ good_array a /\
    dims a = [height (buffer i); width (buffer i); 1] /\ type_of (elems a) = t /\
    forall m x y c, inside (buffer i) x y -> get_pixel m (buffer i) x y = Ok c ->
      exists v, at_ a y x 0 = Some v /\ stored_as t (d0 (to_gray c)) v.
Proof.
  intros L i tn t V T. destruct (to_array_gray L i tn t V T) as (A & B & C). eexists. split; [exact A|]. split; [exact B|].
  split; [reflexivity|]. split; [apply type_store|]. intros m x y c I P. eexists. split; [apply (C m x y c); auto|]. apply st_ok.
Qed.

(** C69: without a mode "rgba" is used; other names are errors. *)
Lemma export_names : forall L i tn,
  to_np_array L None tn i = to_np_array L (Some "rgba") tn i /\
  (forall cs, (forall t, ~ In (tn, t) type_names) -> exists s, tn = Some s /\ to_np_array L cs tn i = RErr (UnsupportedDataType s)) /\
  (forall t name, In (tn, t) type_names -> name <> "gray" -> (forall k n, ~ In (name, k, n) export_modes) ->
     to_np_array L (Some name) tn i = RErr (UnknownColorspace name)).
Proof.
  intros L i tn. split; [reflexivity|]. split.
  - intros cs H. destruct (data_type_names tn) as [(t & I & _)|(_ & s & E1 & E2)]; [exfalso; exact (H t I)|].
    exists s. split; auto. unfold to_np_array. rewrite E2. reflexivity.
  - intros t name T G K. eapply bad_export; eauto.
Qed.

(** C69: the image of an array with 3 or 4 channels has one pixel per row and
    column, made of the numbers of that place read in the chosen colour space. *)
Lemma array_to_image : forall L a cs h w n k, good_array a -> dims a = [h; w; n] -> valid_size w h ->
  In (mode_name cs "auto", k, n) import_modes ->
  exists i, from_np_array L a cs = Ok (ROk i) /\
    image_of w h (fun x y c => exists v : Z -> f32,
      (forall j, 0 <= j < n -> exists e, at_ a y x j = Some e /\ read_as (type_of (elems a)) e (v j)) /\
      c = to_rgb L k (new_with_alpha k (v 0) (v 1) (v 2) (if n =? 4 then v 3 else f1))) i.
Proof. exact from_array_pixels. Qed.

(** C69: the image of an array with one channel is gray. *)
Lemma gray_array_to_image : forall L a cs h w, good_array a -> dims a = [h; w] \/ dims a = [h; w; 1] -> valid_size w h ->
  mode_name cs "auto" = "gray" \/ mode_name cs "auto" = "auto" ->
  exists i, from_np_array L a cs = Ok (ROk i) /\
    image_of w h (fun x y c => exists e v, at_ a y x 0 = Some e /\ read_as (type_of (elems a)) e v /\ c = rgb_new v v v) i.
Proof. exact from_gray_pixels. Qed.

(** C69: every other mode or number of dimensions is an error, but an array
    of less than two dimensions is a panic. *)
Lemma import_errors : forall L a cs,
  (forall h w n, dims a = [h; w; n] -> (forall k, ~ In (mode_name cs "auto", k, n) import_modes) ->
     (n = 1 -> mode_name cs "auto" <> "gray" /\ mode_name cs "auto" <> "auto") ->
     exists e, from_np_array L a cs = Ok (RErr e)) /\
  (forall h w, dims a = [h; w] -> mode_name cs "auto" <> "gray" -> mode_name cs "auto" <> "auto" ->
     exists e, from_np_array L a cs = Ok (RErr e)) /\
  (3 < zlen (dims a) -> exists e, from_np_array L a cs = Ok (RErr e)) /\
  (zlen (dims a) < 2 -> from_np_array L a cs = Panic).
Proof.
  intros L a cs. split; [|split; [|split]].
  - intros h w n. apply bad_import.
  - intros h w. apply bad_gray.
  - apply many_dims.
  - apply few_dims.
Qed.

(** C69: an image within the gamut survives a rgba array of floating point
    numbers unchanged; a rgb array makes it opaque. *)
Lemma float_round_trip : forall L i tn t, good_image i -> In (tn, t) type_names -> t = Float32 \/ t = Float64 ->
  (forall c, In c (data (buffer i)) -> in_gamut c) ->
  (exists a, to_np_array L (Some "rgba") tn i = ROk a /\ from_np_array L a (Some "rgba") = Ok (ROk (mkImage (buffer i) None))) /\
  (exists a, to_np_array L (Some "rgb") tn i = ROk a /\ from_np_array L a (Some "rgb") =
     Ok (ROk (mkImage (mkPB (width (buffer i)) (height (buffer i)) (map (fun c => with_alpha c f1) (data (buffer i)))) None))).
Proof.
  intros L i tn t V T F G.
  assert (E : forall l, map (fun v => rd t (st t v)) l = l) by (intros l; apply map_id_in; intros; apply float_id; auto).
  split.
  - destruct (round_trip L i "rgba" KRgb KRgb 4 tn t V) as (a & A & B); [cbn; auto 30|cbn; auto 30|auto|]. exists a. split; auto.
    rewrite B. do 3 f_equal. destruct (buffer i) as [w h d]. cbn [width height data] in *. f_equal. apply map_id_in. intros c I. rewrite E.
    destruct (G c I) as (G0 & G1 & G2 & G3). destruct c as [c0 c1 c2 c3]. unfold colour, to_rgb, new_with_alpha, rgb_new_with_alpha.
    change (4 =? 4) with true. cbv iota. change (color_iter (Z.to_nat 4) (convert_color L KRgb KRgb (mkC c0 c1 c2 c3))) with [c0; c1; c2; c3].
    cbn [nth d0 d1 d2 d3] in *. rewrite !clamp_id by auto. reflexivity.
  - destruct (round_trip L i "rgb" KRgb KRgb 3 tn t V) as (a & A & B); [cbn; auto 30|cbn; auto 30|auto|]. exists a. split; auto.
    rewrite B. do 3 f_equal. f_equal. apply map_ext_in. intros c I. rewrite E.
    destruct (G c I) as (G0 & G1 & G2 & G3). destruct c as [c0 c1 c2 c3]. unfold colour, to_rgb, new_with_alpha, rgb_new_with_alpha.
    change (3 =? 4) with false. cbv iota. change (color_iter (Z.to_nat 3) (convert_color L KRgb KRgb (mkC c0 c1 c2 c3))) with [c0; c1; c2].
    cbn [nth d0 d1 d2 d3] in *. rewrite !clamp_id by auto. rewrite clamp_f1. reflexivity.
Qed.

(** C69: in the other colour spaces each pixel becomes what the library's own
    conversion there and back makes of it, except in the mode "lcha". *)
Lemma mode_round_trip : forall L i name k n tn t, good_image i -> In (tn, t) type_names -> t = Float32 \/ t = Float64 ->
  In (name, k, n) export_modes -> k <> KRgb -> k <> KSrgb -> name <> "lcha" ->
  exists a, to_np_array L (Some name) tn i = ROk a /\ from_np_array L a (Some name) =
    Ok (ROk (mkImage (mkPB (width (buffer i)) (height (buffer i))
      (map (fun c => let s := convert_color L KRgb k c in to_rgb L k (if n =? 4 then s else with_alpha s f1)) (data (buffer i)))) None)).
Proof.
  intros L i name k n tn t V T F E K1 K2 NL.
  assert (I : In (name, k, n) import_modes).
  { cbn [In export_modes] in E. repeat (destruct E as [E|E]; [injection E as <- <- <-; try congruence; cbn; auto 30|]). destruct E. }
  destruct (round_trip L i name k k n tn t V E I T) as (a & A & B). exists a. split; auto. rewrite B. do 3 f_equal. f_equal.
  apply map_ext. intros c. cbv zeta. generalize (convert_color L KRgb k c). intros s.
  assert (M : forall l, map (fun v => rd t (st t v)) l = l) by (intros l; apply map_id_in; intros; apply float_id; auto). rewrite M.
  unfold colour. f_equal. destruct s as [s0 s1 s2 s3].
  assert (N : forall a b c d, new_with_alpha k a b c d = mkC a b c d) by (intros; destruct k; congruence || reflexivity). rewrite N.
  destruct (import_n _ _ _ I) as [-> | ->]; reflexivity.
Qed.

(** C69: arrays of 8 and 16 bit integers, of 32 bit integers up to 2^24 and
    of 32 bit floating point numbers from 0 to 1 survive becoming an image
    unchanged in the modes rgb and rgba. *)
Lemma array_round_trips : forall L a h w n name tn, good_array a -> dims a = [h; w; n] -> valid_size w h -> plain_mode name n ->
  In (tn, type_of (elems a)) type_names ->
  match elems a with
  | U8s _ | U16s _ => True
  | U32s l => forall v, In v l -> v <= 16777216
  | F32s l => forall v, In v l -> in01 v
  | _ => False
  end ->
  exists i, from_np_array L a (Some name) = Ok (ROk i) /\ to_np_array L (Some name) tn i = ROk a.
Proof.
  intros L a h w n name tn G D V P T K.
  assert (N : forall e, In e (numbers (elems a)) -> in01 (rd (type_of (elems a)) e)).
  { intros e I. pose proof (good_array_nums a G e I) as GN. destruct (elems a) as [l|l|l|l|l|l]; cbn [numbers type_of] in *;
      apply in_map_iff in I as (v & <- & I); cbn [rd good_num] in *; auto; try tauto.
    - apply (QuantProofs.from_u_in01 255); auto. unfold QuantProofs.depth. lia.
    - apply (QuantProofs.from_u_in01 65535); auto. unfold QuantProofs.depth. lia.
    - apply div_u32. auto. }
  destruct (array_round_trip L a h w n name tn G D V P T N) as (i & A & B). exists i. split; auto. rewrite B. f_equal.
  destruct a as [ds e]. cbn [dims elems] in *. f_equal. destruct G as (_ & _ & G). cbn [elems] in G.
  destruct e as [l|l|l|l|l|l]; cbn [store load type_of]; try tauto; f_equal; rewrite ?map_map; apply map_id_in; intros v I.
  - apply u8_back. auto.
  - apply u16_back. auto.
  - apply u32_back_small. split; [apply G; auto|auto].
Qed.

(** C69: an image within the gamut loses at most one step of the integer type
    in a rgba array of integers. *)
Lemma integer_round_trip : forall L i tn t, good_image i -> In (tn, t) type_names -> t = Uint8 \/ t = Uint16 \/ t = Uint32 ->
  (forall c, In c (data (buffer i)) -> in_gamut c) ->
  exists a i', to_np_array L (Some "rgba") tn i = ROk a /\ from_np_array L a (Some "rgba") = Ok (ROk i') /\
    image_of (width (buffer i)) (height (buffer i)) (fun x y c' => forall m, exists c, get_pixel m (buffer i) x y = Ok c /\
      in_gamut c' /\ forall j, 0 <= j < 4 -> loses t (channel j c) (channel j c')) i'.
Proof.
  intros L i tn t V T F G.
  destruct (round_trip L i "rgba" KRgb KRgb 4 tn t V) as (a & A & B); [cbn; auto 30|cbn; auto 30|auto|]. exists a. eexists. split; [exact A|]. split; [exact B|].
  pose proof V as [V1 V2].
  match goal with |- image_of _ _ _ (mkImage (mkPB _ _ ?d) None) => assert (LD : zlen d = width (buffer i) * height (buffer i)) by (rewrite zlen_map; auto) end.
  pose proof (valid_image _ _ _ V1 LD) as VI. split; [exact VI|]. split; [reflexivity|]. split; [reflexivity|]. split; [reflexivity|].
  intros m x y IN. assert (IN' : inside (buffer i) x y) by exact IN.
  destruct (get_pixel_inside m (buffer i) x y V IN') as [c P]. pose proof P as PX. rewrite get_pixel_eq in PX by auto.
  rewrite get_pixel_eq by auto. cbn [buffer data width]. eexists. split; [exact (eq_trans (idx_map _ _ _) (f_equal (fun r => bind r _) PX))|].
  intros m'. exists c. split. { rewrite get_pixel_eq by auto. rewrite get_pixel_eq in P by auto. exact P. }
  apply idx_In in PX. destruct (G c PX) as (G0 & G1 & G2 & G3).
  destruct (coarse_ok t _ F G0) as [C0 D0], (coarse_ok t _ F G1) as [C1 D1], (coarse_ok t _ F G2) as [C2 D2], (coarse_ok t _ F G3) as [C3 D3].
  set (r0 := rd t (st t (d0 c))) in *. set (r1 := rd t (st t (d1 c))) in *. set (r2 := rd t (st t (d2 c))) in *. set (r3 := rd t (st t (d3 c))) in *.
  assert (E : colour L KRgb 4 (map (fun v => rd t (st t v)) (color_iter (Z.to_nat 4) (convert_color L KRgb KRgb c))) = mkC r0 r1 r2 r3).
  { change (map (fun v => rd t (st t v)) (color_iter (Z.to_nat 4) (convert_color L KRgb KRgb c))) with [r0; r1; r2; r3].
    unfold colour, to_rgb, new_with_alpha, rgb_new_with_alpha. change (4 =? 4) with true. cbv iota. cbn [nth]. rewrite !clamp_id by auto. reflexivity. }
  rewrite E. split; [split; [|split; [|split]]; auto|]. intros j J. assert (Q : j = 0 \/ j = 1 \/ j = 2 \/ j = 3) by lia.
  destruct Q as [->|[->|[->| ->]]]; assumption.
Qed.

(** C69: truth values come back negated, in both directions. *)
Lemma bool_round_trip_refuted : forall L,
  (forall a h w n name l, good_array a -> dims a = [h; w; n] -> valid_size w h -> plain_mode name n -> elems a = Bools l ->
    exists i, from_np_array L a (Some name) = Ok (ROk i) /\
      to_np_array L (Some name) (Some "bool") i = ROk (mkArray (dims a) (Bools (map negb l)))) /\
  (forall i, good_image i -> exists a, to_np_array L (Some "rgba") (Some "bool") i = ROk a /\
    from_np_array L a (Some "rgba") = Ok (ROk (mkImage (mkPB (width (buffer i)) (height (buffer i))
      (map (fun c => let flip v := if fle (fdiv f1 f2) v then f0 else f1 in mkC (flip (d0 c)) (flip (d1 c)) (flip (d2 c)) (flip (d3 c)))
           (data (buffer i)))) None))).
Proof.
  intros L. split.
  - intros a h w n name l G D V P E.
    destruct (array_round_trip L a h w n name (Some "bool") G D V P) as (i & A & B).
    + rewrite E. cbn. auto 10.
    + rewrite E. cbn [numbers type_of]. intros e I. apply in_map_iff in I as (b & <- & _). destruct b; cbn; [apply in01_f0|apply in01_f1].
    + exists i. split; auto. rewrite B, E. cbn [store load type_of]. rewrite map_map. do 3 f_equal. apply map_ext. intros [|]; reflexivity.
  - intros i V. destruct (round_trip L i "rgba" KRgb KRgb 4 (Some "bool") Bool V) as (a & A & B); [cbn; auto 30|cbn; auto 30|cbn; auto 10|].
    exists a. split; auto. rewrite B. do 3 f_equal. f_equal. apply map_ext. intros c. cbv zeta.
    set (r v := rd Bool (st Bool v)).
    change (map (fun v => rd Bool (st Bool v)) (color_iter (Z.to_nat 4) (convert_color L KRgb KRgb c))) with [r (d0 c); r (d1 c); r (d2 c); r (d3 c)].
    assert (R : forall v, in01 (r v)). { intros v. unfold r. cbn [rd st]. destruct (fle _ _); [apply in01_f0|apply in01_f1]. }
    unfold colour, to_rgb, new_with_alpha, rgb_new_with_alpha. change (4 =? 4) with true. cbv iota. cbn [nth]. rewrite !clamp_id by (apply R).
    unfold r. cbn [rd st]. rewrite half_eq. reflexivity.
Qed.

(** C69: a four channel array in the mode "lcha" or "lch" is read as Lab, so
    an array in the mode "lcha" is not read back in the colour space it was
    written in: white, for example, comes back as another colour although the
    conversions themselves restore it. *)
Lemma lcha_refuted : forall L,
  (forall a h w cs, dims a = [h; w; 4] -> mode_name cs "auto" = "lcha" \/ mode_name cs "auto" = "lch" ->
     from_np_array L a cs = from_np_array L a (Some "laba")) /\
  (forall i tn t, good_image i -> In (tn, t) type_names -> t = Float32 \/ t = Float64 ->
     exists a, to_np_array L (Some "lcha") tn i = ROk a /\ from_np_array L a (Some "lcha") =
       Ok (ROk (mkImage (mkPB (width (buffer i)) (height (buffer i))
         (map (fun c => to_rgb L (KLab D65 O2) (convert_color L KRgb (KLch D65 O2) c)) (data (buffer i)))) None))) /\
  (let polar := to_rgb polar_libm (KLch D65 O2) (convert_color polar_libm KRgb (KLch D65 O2) RGB_WHITE) in
   let back := to_rgb polar_libm (KLab D65 O2) (convert_color polar_libm KRgb (KLch D65 O2) RGB_WHITE) in
   forallb (fun v => flt (dec 999 1000) v) [d0 polar; d1 polar; d2 polar] = true /\ flt (d2 back) (dec 5 10) = true).
Proof.
  intros L. split; [|split].
  - intros a h w cs D H. unfold from_np_array, from_np_array_iter. rewrite D.
    change (idx [h; w; 4] 2) with (Ok 4). change (zlen [h; w; 4]) with 3. change (3 =? 3) with true. change (4 =? 4) with true.
    change (match cs with Some s => s | None => "auto" end) with (mode_name cs "auto").
    destruct H as [-> | ->]; reflexivity.
  - intros i tn t V T F.
    destruct (round_trip L i "lcha" (KLch D65 O2) (KLab D65 O2) 4 tn t V) as (a & A & B); [cbn; auto 30|cbn; auto 40|auto|]. exists a. split; auto. rewrite B. do 3 f_equal. f_equal.
    apply map_ext. intros c. generalize (convert_color L KRgb (KLch D65 O2) c). intros s.
    assert (M : forall l, map (fun v => rd t (st t v)) l = l) by (intros l; apply map_id_in; intros; apply float_id; auto). rewrite M.
    unfold colour. f_equal. destruct s as [s0 s1 s2 s3]. reflexivity.
  - split; vm_compute; reflexivity.
Qed.

(** C69: the number 16777217 does not survive becoming an image. *)
Lemma u32_array_refuted : forall L, exists i,
  from_np_array L (mkArray [1; 1; 4] (U32s [16777217; 0; 0; 0])) (Some "rgba") = Ok (ROk i) /\
  to_np_array L (Some "rgba") (Some "uint32") i = ROk (mkArray [1; 1; 4] (U32s [16777216; 0; 0; 0])).
Proof.
  intros L. destruct (array_round_trip L (mkArray [1; 1; 4] (U32s [16777217; 0; 0; 0])) 1 1 4 "rgba" (Some "uint32")) as (i & A & B).
  - split; [|split]; cbn.
    + intros d H. lia.
    + reflexivity.
    + intros n H. lia.
  - reflexivity.
  - right. lia.
  - right. auto.
  - cbn. auto 10.
  - intros e H. cbn [elems type_of]. change (numbers (elems (mkArray [1; 1; 4] (U32s [16777217; 0; 0; 0])))) with [NInt 16777217; NInt 0; NInt 0; NInt 0] in H.
    assert (Q : e = NInt 16777217 \/ e = NInt 0) by (cbn [In] in H; intuition). destruct Q as [-> | ->]; cbn [rd]; apply div_u32; lia.
  - exists i. split; [exact A|]. rewrite B. reflexivity.
Qed.

(** C69: two pixels and their array of bytes. *)
Example numpy_example : good_image two_pixels /\ (forall c, In c (data (buffer two_pixels)) -> in_gamut c) /\
  to_np_array example_libm (Some "rgba") (Some "uint8") two_pixels = ROk (mkArray [1; 2; 4] (U8s [255; 0; 127; 255; 0; 255; 255; 0])) /\
  good_array (mkArray [1; 2; 4] (U8s [255; 0; 127; 255; 0; 255; 255; 0])) /\
  to_np_array example_libm (Some "rgb") (Some "bool") two_pixels = ROk (mkArray [1; 2; 3] (Bools [true; false; true; false; true; true])).
Proof.
  split; [split; [right; cbn; lia|reflexivity]|]. split.
  { intros c [<-|[<-|[]]]; repeat split. }
  split; [vm_compute; reflexivity|]. split; [|vm_compute; reflexivity].
  split; [|split].
  - cbn. intros d H. lia.
  - reflexivity.
  - cbn. intros n H. lia.
Qed.

(** C83: a pixel read from an array is in range, or NaN where the array holds
    NaN or a conversion gives NaN, in the modes whose conversion clamps. *)
Lemma import_in_range : forall L a cs h w n k i, good_array a -> dims a = [h; w; n] -> valid_size w h ->
  In (mode_name cs "auto", k, n) import_modes -> from_np_array L a cs = Ok (ROk i) ->
  k = KRgb \/ k = KSrgb \/ k = KHsl \/ k = KYuv \/ (n = 3 /\ k <> KHsv) ->
  forall c, In c (data (buffer i)) -> in_range c.
Proof.
  intros L a cs h w n k i G D V I E K c Ic. rewrite (from_array L a cs h w n k G D V I) in E. injection E as <-. cbn [buffer data] in Ic.
  apply in_map_iff in Ic as (ch & <- & _). unfold colour.
  set (alpha_ := if n =? 4 then nth 3 ch f0 else f1). generalize (nth 0 ch f0) (nth 1 ch f0) (nth 2 ch f0). intros v0 v1 v2.
  assert (RGB : forall p q r s, in_range (rgb_new_with_alpha p q r s)) by (intros; repeat split; apply clamp_or).
  destruct K as [->|[->|[->|[->|[-> K]]]]].
  - apply RGB.
  - apply RGB.
  - unfold to_rgb, hsl_to_rgb. destruct (if feq _ _ then _ else _) as [[? ?] ?]. apply RGB.
  - apply RGB.
  - change alpha_ with f1. clear alpha_. assert (A1 : in01_or_nan f1) by (right; apply in01_f1).
    destruct k as [| | | | | |il o|il o]; try congruence; try apply RGB.
    + unfold to_rgb, hsl_to_rgb. destruct (if feq _ _ then _ else _) as [[? ?] ?]. apply RGB.
    + repeat split; try apply clamp_or. exact A1.
    + unfold to_rgb, lab_to_xyz. destruct (get_refs il o) as [[? ?] ?]. repeat split; try apply clamp_or. exact A1.
    + destruct il, o; (repeat split; [apply clamp_or|apply clamp_or|apply clamp_or|exact A1]).
Qed.

(** C83: so is a pixel read from an array of one channel. *)
Lemma gray_in_range : forall L a cs h w i, good_array a -> dims a = [h; w] \/ dims a = [h; w; 1] -> valid_size w h ->
  mode_name cs "auto" = "gray" \/ mode_name cs "auto" = "auto" -> from_np_array L a cs = Ok (ROk i) ->
  forall c, In c (data (buffer i)) -> in_range c.
Proof.
  intros L a cs h w i G D V N E c Ic. rewrite (from_gray L a cs h w G D V N) in E. injection E as <-. cbn [buffer data] in Ic.
  apply in_map_iff in Ic as (v & <- & _). split; [apply clamp_or|]. split; [apply clamp_or|]. split; [apply clamp_or|].
  right. apply in01_f1.
Qed.

(** C83: the other modes let numbers out of range pass: gray HSV values and
    the alpha channel of XYZ and Lab. *)
Lemma import_range_refuted : forall L,
  (exists i, from_np_array L (mkArray [1; 1; 3] (F32s [f0; f0; f2])) (Some "hsv") = Ok (ROk i) /\ data (buffer i) = [mkC f2 f2 f2 f1]) /\
  (exists i c, from_np_array L (mkArray [1; 1; 4] (F32s [f0; f0; f0; f2])) (Some "xyza") = Ok (ROk i) /\ data (buffer i) = [c] /\ alpha c = f2) /\
  (exists i c, from_np_array L (mkArray [1; 1; 4] (F32s [f0; f0; f0; f2])) (Some "laba") = Ok (ROk i) /\ data (buffer i) = [c] /\ alpha c = f2).
Proof.
  intros L.
  assert (G : forall n l, Z.of_nat (List.length l) = n -> good_array (mkArray [1; 1; n] (F32s l))).
  { intros n l <-. split; [|split]; cbn [dims elems numbers fold_right]; auto.
    - intros d H. cbn [In] in H. lia.
    - rewrite zlen_map. unfold zlen. lia. }
  split; [|split].
  - eexists. split; [apply (from_array L _ (Some "hsv") 1 1 3 KHsv); [apply G; reflexivity|reflexivity|right; lia|cbn; auto 30]|]. reflexivity.
  - eexists. eexists. split; [apply (from_array L _ (Some "xyza") 1 1 4 KXyz); [apply G; reflexivity|reflexivity|right; lia|cbn; auto 40]|]. split; reflexivity.
  - eexists. eexists. split; [apply (from_array L _ (Some "laba") 1 1 4 (KLab D65 O2)); [apply G; reflexivity|reflexivity|right; lia|cbn; auto 40]|]. split; reflexivity.
Qed.
