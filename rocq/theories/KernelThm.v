(** Properties of convolutions, blurring, unsharp masking, despeckling, edge
    detection, symmetric nearest neighbour and drawing (C39-C42, C74-C76). *)
From Coq Require Import ZArith Reals List Bool.
From Flocq Require Import IEEE754.BinarySingleNaN.
From Verif Require Import Base PixelBuffer BufferSpec F32 Color ColorSpec Kernel KernelSpec.
Import ListNotations.
Open Scope Z_scope.

(* PROPERTIES *)
From Coq Require Import Lra Lia.
From Verif Require Import BaseLemmas PixelBufferProofs F32Lemmas ColorProofs ComposeProofs KernelProofs Kernel2Proofs.
From Verif Require Import GaussProofs Gauss2Proofs FilterProofs Filter2Proofs Filter3Proofs DrawingProofs.
Open Scope Z_scope.

(** C39: a fixed N x N kernel and the run-time kernel with the same
    coefficients give the same image, bit for bit, in debug and release
    builds. *)
Lemma fixed_is_dynamic : forall m m' (b : PixelBuffer Rgb) N k, valid b -> 0 < N <= 65535 -> square N k ->
  exists r, apply_kernel m N k b = Ok r /\ apply_kernel_dyn m' (mkKD (concat k) N N) b = Ok r.
Proof. exact static_dyn_same. Qed.

(** C39: that image is the convolution: each pixel is the weighted sum of its
    neighbourhood, with the border pixels repeated outwards. *)
Lemma fixed_convolves : forall m (b : PixelBuffer Rgb) N k, valid b -> 0 < N <= 1073741823 -> square N k ->
  exists r, apply_kernel m N k b = Ok r /\ is_convolution m b N N (concat k) r.
Proof. intros m b N k. apply (apply_kernel_lemma m m). Qed.

(** C39: the same for run-time kernels, which need not be square. *)
Lemma dynamic_convolves : forall m (b : PixelBuffer Rgb) w h k, valid b ->
  0 < w <= 1073741823 -> 0 < h <= 1073741823 -> w * h <= 4294967295 -> zlen k = w * h ->
  exists r, apply_kernel_dyn m (mkKD k w h) b = Ok r /\ is_convolution m b w h k r.
Proof. intros m b w h k. apply (apply_kernel_dyn_lemma m m). Qed.

(** C39: gaussian_blur takes the same image as the run-time kernel for every
    radius up to 32767, the specialised radii 1, 2 and 3 included. *)
Lemma blur_is_dynamic : forall L m m' (b : PixelBuffer Rgb) r sigma, valid b -> 0 <= r <= 32767 ->
  exists k, new_gaussian_dyn L m' (2 * r + 1) (chosen_sigma sigma r) = Ok k /\
    gaussian_blur L m b r sigma = apply_kernel_dyn m' k b.
Proof. exact blur_is_dyn. Qed.

(** C39: ... and it is the convolution with the normalised bell curve. *)
Lemma blur_convolves : forall L m (b : PixelBuffer Rgb) r sigma, valid b -> 0 <= r <= 32767 ->
  exists out, gaussian_blur L m b r sigma = Ok out /\
    is_convolution m b (2 * r + 1) (2 * r + 1) (gauss_weights L (2 * r + 1) (chosen_sigma sigma r)) out.
Proof. exact blur_conv. Qed.

(** C39: unsharp adds [factor] times the difference between the image and that
    convolution, limited to [0,1]. *)
Lemma unsharp_spec : forall L m (b : PixelBuffer Rgb) r factor sigma, valid b -> 0 <= r <= 32767 ->
  exists out blurred, unsharp L m b r factor sigma = Ok out /\ gaussian_blur L m b r sigma = Ok blurred /\
    valid out /\ width out = width b /\ height out = height b /\
    forall x y, inside b x y -> exists c s, get_pixel m b x y = Ok c /\ get_pixel m blurred x y = Ok s /\
      let sharp pick := clamp (fadd (pick c) (fmul (fsub (pick c) (pick s)) factor)) in
      get_pixel m out x y = Ok (mkC (sharp d0) (sharp d1) (sharp d2) (sharp d3)).
Proof.
  intros L m b r factor sigma V Hr.
  destruct (unsharp_lemma L m b r factor sigma V Hr) as (out & E & Vo & W & H & P).
  destruct (blur_conv L m b r sigma V Hr) as (bl & Eb & _ & _ & _ & Pb).
  exists out, bl. split; [auto|]. split; [auto|]. split; [auto|]. split; [auto|]. split; [auto|].
  intros x y I. destruct (P x y I) as (c & ps & Ec & Eps & Ep). destruct (Pb x y I) as (ps' & Eps' & Ep').
  rewrite Eps in Eps'. apply Ok_inj in Eps'. subst ps'. eexists. eexists. split; [exact Ec|]. split; [exact Ep'|]. exact Ep.
Qed.

Example convolution_example :
  let b := mkPB 2 2 [RGB_RED; RGB_BLUE; RGB_WHITE; RGB_BLACK] in
  let k := [[f1; f0; f0]; [f0; f0; f0]; [f0; f0; f0]] in
  valid b /\ square 3 k /\
  match apply_kernel Checked 3 k b, gaussian_blur step_libm Checked b 1 None, gaussian_blur step_libm Checked b 4 (Some f1) with
  | Ok r, Ok r1, Ok r4 => map (fun c => (feq (d0 c) f1, feq (d2 c) f1)) (data r) = repeat (true, false) 4 /\
      forallb (fun c => fle (dec 1 10) (d0 c) && fle (d0 c) (dec 9 10)) (data r1 ++ data r4) = true
  | _, _, _ => False
  end.
Proof. cbv zeta. split; [vm_compute; intuition congruence|]. split; [split; [reflexivity|repeat constructor]|]. vm_compute. split; reflexivity. Qed.

(** C40: the kernel that is 1 in the middle and 0 elsewhere changes no image
    with finite channels. *)
Lemma identity_kernel_identity : forall m (b : PixelBuffer Rgb) N, valid b -> 0 < N <= 65535 ->
  (forall c, In c (data b) -> numeric c) ->
  exists r, apply_kernel m N (identity_kernel N) b = Ok r /\
    apply_kernel_dyn m (mkKD (concat (identity_kernel N)) N N) b = Ok r /\
    valid r /\ width r = width b /\ height r = height b /\
    forall x y c, inside b x y -> get_pixel m b x y = Ok c ->
      exists c', get_pixel m r x y = Ok c' /\ same_color c' c.
Proof. exact identity_lemma. Qed.

(** C40: finiteness is needed: an infinite channel spreads NaN. *)
Lemma identity_kernel_infinite_refuted : exists (b : PixelBuffer Rgb) r, valid b /\
  apply_kernel Checked 3 (identity_kernel 3) b = Ok r /\
  exists c, get_pixel Checked b 1 0 = Ok c /\ numeric c /\
  exists c', get_pixel Checked r 1 0 = Ok c' /\ is_nan (d0 c') = true.
Proof.
  set (b := mkPB 2 1 [mkC (B754_infinity false) f0 f0 f1; RGB_BLACK]).
  assert (V : valid b) by (vm_compute; intuition congruence). exists b.
  destruct (apply_kernel_lemma Checked Checked b 3 (identity_kernel 3) V) as [r [E C]]; [lia|apply identity_square; lia|].
  exists r. split; [auto|]. split; [auto|]. exists RGB_BLACK. split; [reflexivity|]. split; [vm_compute; intuition|].
  destruct C as (_ & _ & _ & P). destruct (P 1 0) as (ps & E1 & E2); [vm_compute; intuition congruence|].
  eexists. split; [exact E2|]. assert (E' : Ok (concat (repeat [mkC (B754_infinity false) f0 f0 f1; RGB_BLACK; RGB_BLACK] 3)) = Ok ps) by (rewrite <- E1; reflexivity). apply Ok_inj in E'. subst ps. vm_compute. reflexivity.
Qed.

Example identity_example :
  let b := mkPB 2 1 [RGB_RED; mkC (ofZ (-3)) f2 f0 f1] in
  valid b /\ (forall c, In c (data b) -> numeric c) /\ identity_kernel 3 = [[f0; f0; f0]; [f0; f1; f0]; [f0; f0; f0]].
Proof.
  cbv zeta. split; [vm_compute; intuition congruence|]. split; [|reflexivity].
  intros c [<- | [<- | []]]; vm_compute; intuition.
Qed.

(** C41: with its default sigma and a radius from 1 to 32767, blurring an
    in-gamut image gives finite, non-negative channels, for every exponential
    function with values in [0,1] on negative arguments. *)
Lemma blur_gives_numbers : forall L m (b : PixelBuffer Rgb) r, exp_ok L -> valid b -> 1 <= r <= 32767 ->
  (forall c, In c (data b) -> in_gamut c) ->
  exists out, gaussian_blur L m b r None = Ok out /\ valid out /\ width out = width b /\ height out = height b /\
    forall c, In c (data out) -> numeric c /\ forall pick, channel pick -> fle f0 (pick c) = true.
Proof.
  intros L m b r X V Hr G. destruct (blur_finite L m b r X V Hr G) as (out & E & Vo & W & H & P).
  exists out. split; [auto|]. split; [auto|]. split; [auto|]. split; [auto|]. intros c Hc.
  apply (data_In m) in Hc; auto. destruct Hc as [x [y [I Hp]]]. assert (I' : inside b x y) by (unfold inside in *; lia).
  assert (Q : forall pick, channel pick -> num 0 16777216 (pick c)) by (intros; eapply P; eauto).
  assert (N : forall v, num 0 16777216 v -> is_number v).
  { intros v [Fv _]. apply fin_is_number. exact Fv. }
  split.
  - unfold numeric. split; [apply N, (Q d0); unfold channel; auto|]. split; [apply N, (Q d1); unfold channel; auto|].
    split; [apply N, (Q d2); unfold channel; auto|apply N, (Q d3); unfold channel; auto].
  - intros pick Cp. destruct (Q pick Cp) as [F R]. apply fle_R; auto with fin. rewrite f0_R. lra.
Qed.

(** C41: blurring averages: up to radius 500, if a channel lies in [lo,hi]
    within [0,1], so does the blurred channel, up to ((2r+1)^2+1)/2^22. *)
Lemma blur_averages : forall L m (b : PixelBuffer Rgb) r sigma pick lo hi, exp_ok L -> valid b ->
  0 <= r <= 500 -> sigma_ok r sigma -> channel pick -> (0 <= lo)%R -> (hi <= 1)%R ->
  (forall c, In c (data b) -> is_finite (pick c) = true /\ (lo <= B2R (pick c) <= hi)%R) ->
  let e := ((IZR ((2 * r + 1) * (2 * r + 1)) + 1) / 4194304)%R in
  exists out, gaussian_blur L m b r sigma = Ok out /\ valid out /\ width out = width b /\ height out = height b /\
    forall x y c, get_pixel m out x y = Ok c -> inside b x y ->
      is_finite (pick c) = true /\ (lo - e <= B2R (pick c) <= hi + e)%R.
Proof. exact blur_average. Qed.

(** C41: with the default sigma and a radius from 1 to 32767, unsharp with a
    finite factor returns an in-gamut image for every in-gamut image. *)
Lemma unsharp_stays_in_gamut : forall L m (b : PixelBuffer Rgb) r factor, exp_ok L -> valid b -> 1 <= r <= 32767 ->
  is_finite factor = true -> (forall c, In c (data b) -> in_gamut c) ->
  exists out, unsharp L m b r factor None = Ok out /\ valid out /\ width out = width b /\ height out = height b /\
    forall c, In c (data out) -> in_gamut c.
Proof. exact unsharp_gamut. Qed.

(** C41: factor 0 leaves the image unchanged. *)
Lemma unsharp_factor_0 : forall L m (b : PixelBuffer Rgb) r factor, exp_ok L -> valid b -> 1 <= r <= 32767 ->
  feq factor f0 = true -> (forall c, In c (data b) -> in_gamut c) ->
  exists out, unsharp L m b r factor None = Ok out /\ valid out /\ width out = width b /\ height out = height b /\
    forall x y c, inside b x y -> get_pixel m b x y = Ok c ->
      exists c', get_pixel m out x y = Ok c' /\ same_color c' c.
Proof. exact unsharp_0. Qed.

(** C41: radius 0 with the default sigma turns every pixel into NaN, because
    the default sigma is 0 (for any exp that maps NaN to NaN). *)
Lemma blur_radius_0_is_nan : forall L m (b : PixelBuffer Rgb), is_nan (fexp_ L fnan) = true -> valid b ->
  exists out, gaussian_blur L m b 0 None = Ok out /\ width out = width b /\ height out = height b /\
    forall x y, inside b x y -> get_pixel m out x y = Ok (mkC fnan fnan fnan fnan).
Proof. exact blur_0. Qed.

(** C41: the same for unsharp, whatever the factor. *)
Lemma unsharp_radius_0_is_nan : forall L m (b : PixelBuffer Rgb) factor, is_nan (fexp_ L fnan) = true -> valid b ->
  exists out, unsharp L m b 0 factor None = Ok out /\ width out = width b /\ height out = height b /\
    forall x y, inside b x y -> get_pixel m out x y = Ok (mkC fnan fnan fnan fnan).
Proof. exact unsharp_radius_0. Qed.

(** C41: radii from 32768 on, whose kernel has more than 2^32 - 1 values,
    panic in debug and in release builds. *)
Lemma blur_large_radius_panics : forall L m (b : PixelBuffer Rgb) r sigma, 32768 <= r <= 2147483647 ->
  gaussian_blur L m b r sigma = Panic /\ forall factor, unsharp L m b r factor sigma = Panic.
Proof. exact blur_panics. Qed.

Example blur_example :
  let b := mkPB 2 1 [RGB_RED; RGB_BLUE] in
  exp_ok step_libm /\ is_nan (fexp_ step_libm fnan) = true /\ valid b /\ (forall c, In c (data b) -> in_gamut c) /\
  sigma_ok 2 None /\ sigma_ok 2 (Some (dec 7 10)).
Proof.
  cbv zeta. split.
  - split.
    + intros x H. unfold step_libm. cbn [fexp_].
      destruct (is_nan x) eqn:N; [destruct x; discriminate|]. destruct (flt x f0); vm_compute; intuition.
    + intros x H. unfold step_libm. cbn [fexp_].
      destruct (is_nan x) eqn:N; [destruct x; discriminate|].
      assert (L : flt x f0 = false). { destruct x as [s|[|]| |[|] mm e P]; try discriminate; reflexivity. }
      rewrite L. reflexivity.
  - split; [reflexivity|]. split; [vm_compute; intuition congruence|]. split; [|split].
    + intros c [<- | [<- | []]]; vm_compute; intuition.
    + vm_compute. congruence.
    + vm_compute. intuition.
Qed.

(** C42: despeckle changes a pixel only if its average is below the threshold
    and at most [amount] of the nine pixels around it are; then red, green and
    blue become the average of the pixels that are not, and alpha is kept
    (limited to [0,1]). *)
Lemma despeckle_spec : forall m (b : PixelBuffer Rgb) threshold amount, valid b ->
  exists out, despeckle m b threshold amount = Ok out /\ valid out /\ width out = width b /\ height out = height b /\
    forall x y c, inside b x y -> get_pixel m b x y = Ok c -> exists ps, neighbourhood m b 3 3 x y = Ok ps /\
      let n := zlen (filter (darker threshold) ps) in
      let mean pick := clamp (fdiv (fold_left fadd (map pick (filter (not_darker threshold) ps)) f0) (ofZ (9 - n))) in
      get_pixel m out x y = Ok (if darker threshold c && (n <=? amount)
                                then mkC (mean d0) (mean d1) (mean d2) (clamp (d3 c)) else c).
Proof. exact despeckle_lemma. Qed.

(** C42: an in-gamut image stays in gamut for every amount up to 8 and every
    threshold that is not NaN. *)
Lemma despeckle_stays_in_gamut : forall m (b : PixelBuffer Rgb) threshold amount out, valid b ->
  (forall c, In c (data b) -> in_gamut c) -> is_nan threshold = false -> amount <= 8 ->
  despeckle m b threshold amount = Ok out -> forall c, In c (data out) -> in_gamut c.
Proof. exact despeckle_gamut. Qed.

(** C42: for amounts from 9 on, a pixel in a fully dark neighbourhood becomes
    NaN (0/0). *)
Lemma despeckle_dark_area_is_nan : forall m (b : PixelBuffer Rgb) threshold amount out x y c ps, valid b -> 9 <= amount ->
  despeckle m b threshold amount = Ok out -> inside b x y -> get_pixel m b x y = Ok c ->
  neighbourhood m b 3 3 x y = Ok ps -> (forall q, In q (c :: ps) -> darker threshold q = true) ->
  get_pixel m out x y = Ok (mkC fnan fnan fnan (clamp (d3 c))).
Proof. exact despeckle_nan. Qed.

Example despeckle_example :
  let w := RGB_WHITE in
  let b := mkPB 3 3 [w; w; w; w; RGB_BLACK; w; w; w; w] in
  valid b /\ (forall c, In c (data b) -> in_gamut c) /\
  match despeckle Checked b (dec 5 10) 1, despeckle Checked b (dec 5 10) 0, despeckle Checked (mkPB 1 1 [RGB_BLACK]) (dec 5 10) 9 with
  | Ok r, Ok r0, Ok r9 => map (fun c => feq (d0 c) f1) (data r) = repeat true 9 /\
      map (fun c => feq (d0 c) f1) (data r0) = [true; true; true; true; false; true; true; true; true] /\
      map (fun c => is_nan (d0 c)) (data r9) = [true]
  | _, _, _ => False
  end.
Proof.
  cbv zeta. split; [vm_compute; intuition congruence|]. split; [|vm_compute; repeat split; reflexivity].
  intros c Hc. cbn [data In] in Hc. repeat (destruct Hc as [<- | Hc]; [vm_compute; intuition|]). destruct Hc.
Qed.

(** C74: edge detection never panics, keeps the size and makes every pixel
    opaque. *)
Lemma edge_detection_total : forall m (b : PixelBuffer Rgb) mode, valid b ->
  exists out, edge_detection m b mode = Ok out /\ valid out /\ width out = width b /\ height out = height b /\
    forall c, In c (data out) -> d3 c = f1.
Proof.
  intros m b mode V. destruct mode.
  - destruct (sobel_lemma m b V) as (gx & gy & out & _ & _ & E & Vo & W & H & P).
    exists out. split; [auto|]. split; [auto|]. split; [auto|]. split; [auto|]. intros c Hc.
    apply (data_In m) in Hc; auto. destruct Hc as [x [y [I Hp]]].
    destruct (P x y) as (? & ? & _ & _ & Q); [unfold inside in *; lia|]. rewrite Hp in Q. apply Ok_inj in Q. subst c. reflexivity.
  - destruct (laplace_lemma m b V) as (g & out & _ & E & Vo & W & H & P).
    exists out. split; [auto|]. split; [auto|]. split; [auto|]. split; [auto|]. intros c Hc.
    apply (data_In m) in Hc; auto. destruct Hc as [x [y [I Hp]]].
    destruct (P x y) as (? & _ & Q); [unfold inside in *; lia|]. rewrite Hp in Q. apply Ok_inj in Q. subst c. reflexivity.
Qed.

(** C74: Sobel mode gives each channel the length of the gradient (gx, gy)
    measured by the two Sobel kernels, limited to [0,1]. *)
Lemma sobel_spec : forall m (b : PixelBuffer Rgb), valid b ->
  exists gx gy out,
    is_convolution m b 3 3 [f1; f0; ofZ (-1); f2; f0; ofZ (-2); f1; f0; ofZ (-1)] gx /\
    is_convolution m b 3 3 [f1; f2; f1; f0; f0; f0; ofZ (-1); ofZ (-2); ofZ (-1)] gy /\
    edge_detection m b Sobel = Ok out /\
    forall x y, inside b x y -> exists cx cy, get_pixel m gx x y = Ok cx /\ get_pixel m gy x y = Ok cy /\
      let len pick := clamp (fsqrt (fadd (fmul (pick cx) (pick cx)) (fmul (pick cy) (pick cy)))) in
      get_pixel m out x y = Ok (mkC (len d0) (len d1) (len d2) f1).
Proof.
  intros m b V. destruct (sobel_lemma m b V) as (gx & gy & out & Cx & Cy & E & _ & _ & _ & P).
  exists gx, gy, out. split; [exact Cx|]. split; [exact Cy|]. split; [exact E|exact P].
Qed.

(** C74: so an in-gamut image gives an in-gamut image. *)
Lemma sobel_stays_in_gamut : forall m (b : PixelBuffer Rgb) out, valid b -> (forall c, In c (data b) -> in_gamut c) ->
  edge_detection m b Sobel = Ok out -> forall c, In c (data out) -> in_gamut c.
Proof. intros m b out V G E c Hc. now apply (sobel_gamut m b V G out c). Qed.

(** C74: in Laplace mode each channel is within 2^-14 of the exact sum of the
    nine pixels weighted 1, and -8 in the middle; it is not limited to [0,1]. *)
Lemma laplace_spec : forall m (b : PixelBuffer Rgb) out, valid b -> (forall c, In c (data b) -> in_gamut c) ->
  edge_detection m b Laplace = Ok out ->
  forall x y c ps pick, inside b x y -> get_pixel m out x y = Ok c -> neighbourhood m b 3 3 x y = Ok ps ->
  pick = d0 \/ pick = d1 \/ pick = d2 ->
  is_finite (pick c) = true /\
  (Rabs (B2R (pick c) - exact_sum pick (combine [f1; f1; f1; f1; ofZ (-8); f1; f1; f1; f1] ps)) <= / 16384)%R.
Proof. intros m b out V G. exact (laplace_exact m b V G out). Qed.

(** C74: so Laplace mode leaves the gamut. *)
Lemma laplace_in_gamut_refuted : exists (b out : PixelBuffer Rgb), valid b /\ (forall c, In c (data b) -> in_gamut c) /\
  edge_detection Checked b Laplace = Ok out /\ exists c, In c (data out) /\ flt (d0 c) (ofZ (-2)) = true.
Proof.
  set (b := mkPB 2 1 [RGB_BLACK; RGB_WHITE]). assert (V : valid b) by (vm_compute; intuition congruence).
  exists b. destruct (laplace_lemma Checked b V) as (g & out & C & E & Vo & W & H & P). exists out.
  split; [auto|]. split; [intros c [<- | [<- | []]]; vm_compute; intuition|]. split; [auto|].
  assert (I : inside b 1 0) by (vm_compute; intuition congruence).
  destruct (P 1 0 I) as (c & E1 & E2). exists (mkC (d0 c) (d1 c) (d2 c) f1).
  split; [apply (data_In Checked); auto; exists 1, 0; split; [unfold inside in *; lia|auto]|].
  destruct C as (_ & _ & _ & Q). destruct (Q 1 0 I) as (ps & F1 & F2). rewrite E1 in F2. apply Ok_inj in F2. subst c.
  assert (F' : Ok (concat (repeat [RGB_BLACK; RGB_WHITE; RGB_WHITE] 3)) = Ok ps) by (rewrite <- F1; reflexivity). apply Ok_inj in F'. subst ps. vm_compute. reflexivity.
Qed.

(** C74: a uniform image has no edges: every colour channel is within 2^-13 of
    0, less than half of 1/255, in either mode. *)
Lemma uniform_image_has_no_edges : forall m (b : PixelBuffer Rgb) q mode out c pick, valid b -> in_gamut q ->
  (forall c, In c (data b) -> c = q) -> edge_detection m b mode = Ok out -> In c (data out) ->
  pick = d0 \/ pick = d1 \/ pick = d2 ->
  is_finite (pick c) = true /\ (Rabs (B2R (pick c)) <= / 8192)%R.
Proof.
  intros m b q mode out c pick V G U E Hc Cp. destruct mode.
  - destruct (sobel_uniform m b q V G U out c pick E Hc Cp) as [F R]. split; [exact F|]. apply Rabs_le. lra.
  - destruct (laplace_uniform m b q V G U out c pick E Hc Cp) as [F R]. split; [exact F|]. apply Rabs_le. lra.
Qed.

Example edge_example :
  let b := mkPB 3 1 [RGB_BLACK; RGB_BLACK; RGB_WHITE] in
  valid b /\ (forall c, In c (data b) -> in_gamut c) /\
  match edge_detection Checked b Sobel, edge_detection Checked b Laplace with
  | Ok s, Ok l => map (fun c => feq (d0 c) f0) (data s) = [true; false; false] /\
                  map (fun c => (flt (d0 c) f0, flt f0 (d0 c))) (data l) = [(false, false); (false, true); (true, false)]
  | _, _ => False
  end.
Proof.
  cbv zeta. split; [vm_compute; intuition congruence|]. split; [|vm_compute; split; reflexivity].
  intros c [<- | [<- | [<- | []]]]; vm_compute; intuition.
Qed.

(** C75: symmetric_nearest_neighbor takes from each pair of opposite pixels,
    in the eight directions and up to the radius, the one nearer in colour to
    the pixel, and returns the mean of these colours, with the pixel itself on
    request. *)
Lemma snn_spec : forall m (b : PixelBuffer Rgb) radius with_center, valid b -> 0 <= radius <= 4194302 ->
  exists out, symmetric_nearest_neighbor m b radius with_center = Ok out /\ valid out /\
    width out = width b /\ height out = height b /\
    forall x y, inside b x y -> exists center chosen, get_pixel m b x y = Ok center /\
      Forall2 (nearer_of_pair m b x y center) (half_star radius) chosen /\
      get_pixel m out x y = Ok (mean_color (if with_center then center :: chosen else chosen)).
Proof. exact snn_lemma. Qed.

(** C75: the result of an in-gamut image is in gamut if any colour is averaged. *)
Lemma snn_stays_in_gamut : forall m (b : PixelBuffer Rgb) radius with_center out, valid b -> 0 <= radius <= 2000000 ->
  1 <= radius \/ with_center = true -> (forall c, In c (data b) -> in_gamut c) ->
  symmetric_nearest_neighbor m b radius with_center = Ok out -> forall c, In c (data out) -> in_gamut c.
Proof. exact snn_gamut. Qed.

(** C75: radius 0 is the identity with the centre, and gives NaN without. *)
Lemma snn_radius_zero : forall m (b : PixelBuffer Rgb) with_center, valid b ->
  exists out, symmetric_nearest_neighbor m b 0 with_center = Ok out /\ valid out /\ width out = width b /\ height out = height b /\
    forall x y c, inside b x y -> get_pixel m b x y = Ok c -> exists r, get_pixel m out x y = Ok r /\
      if with_center then in_gamut c -> same_color r c else r = mkC fnan fnan fnan fnan.
Proof. exact snn_radius_0. Qed.

Example snn_example :
  let b := mkPB 3 1 [RGB_BLACK; RGB_WHITE; RGB_RED] in
  valid b /\ (forall c, In c (data b) -> in_gamut c) /\
  match symmetric_nearest_neighbor Checked b 1 true, symmetric_nearest_neighbor Checked b 1 false with
  | Ok s, Ok t => map (fun c => feq (d0 c) f1) (data s) = [false; true; true] /\
                  map (fun c => (feq (d0 c) f1, feq (d2 c) f1)) (data t) = [(false, false); (true, false); (true, false)]
  | _, _ => False
  end /\ half_star 2 = [(-1, -1); (0, -1); (1, -1); (-1, 0); (-2, -2); (0, -2); (2, -2); (-2, 0)].
Proof.
  cbv zeta. split; [vm_compute; intuition congruence|]. split; [|vm_compute; repeat split; reflexivity].
  intros c [<- | [<- | [<- | []]]]; vm_compute; intuition.
Qed.

(** C76: drawing never panics for radii up to 32767 and keeps the size. *)
Lemma drawing_total : forall L m (b : PixelBuffer Rgb) radius mode, valid b -> 0 <= radius <= 32767 -> exp_ok L ->
  exists out, drawing L m b radius mode = Ok out /\ valid out /\ width out = width b /\ height out = height b.
Proof. intros L m b r mode V Hr X. destruct (drawing_lemma L m b r mode V Hr X) as (out & E & Vo & W & H & _). eauto. Qed.

(** C76: in gray mode the result is in gamut and grey whatever the image, NaN
    and infinities included. *)
Lemma drawing_gray_mode : forall L m (b : PixelBuffer Rgb) radius out, valid b -> 0 <= radius <= 32767 -> exp_ok L ->
  drawing L m b radius DGray = Ok out -> forall c, In c (data out) -> in_gamut c /\ d0 c = d1 c /\ d1 c = d2 c.
Proof.
  intros L m b r out V Hr X E c Hc. destruct (drawing_lemma L m b r DGray V Hr X) as (out' & E' & _ & _ & _ & G & _).
  rewrite E in E'. apply Ok_inj in E'. subst out'. exact (G eq_refl c Hc).
Qed.

(** C76: in coloured mode an in-gamut image gives an in-gamut result. *)
Lemma drawing_colored_mode : forall L m (b : PixelBuffer Rgb) radius out, valid b -> 0 <= radius <= 32767 -> exp_ok L ->
  (forall c, In c (data b) -> in_gamut c) ->
  drawing L m b radius DColored = Ok out -> forall c, In c (data out) -> in_gamut c.
Proof.
  intros L m b r out V Hr X G0 E c Hc. destruct (drawing_lemma L m b r DColored V Hr X) as (out' & E' & _ & _ & _ & _ & G).
  rewrite E in E'. apply Ok_inj in E'. subst out'. exact (G eq_refl G0 c Hc).
Qed.

Example drawing_example :
  let b := mkPB 2 1 [RGB_RED; mkC fnan f2 f0 f1] in
  valid b /\
  match drawing step_libm Checked b 1 DGray, drawing step_libm Checked (mkPB 1 1 [RGB_RED]) 2 DColored with
  | Ok r, Ok r' => forallb (fun c => fle f0 (d0 c) && fle (d0 c) f1) (data r ++ data r') = true
  | _, _ => False
  end.
Proof. cbv zeta. split; [vm_compute; intuition congruence|]. vm_compute. reflexivity. Qed.
