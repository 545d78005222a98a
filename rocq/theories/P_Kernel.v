(** Property theorems, generated from KernelThm.v by tools/mkp.py. *)

From Coq Require Import ZArith Reals List Bool.
From Flocq Require Import IEEE754.BinarySingleNaN.
From Verif Require Import Base PixelBuffer BufferSpec F32 Color ColorSpec Kernel KernelSpec.
Import ListNotations.
Open Scope Z_scope.

From Verif Require Import KernelThm.


(** C39: a fixed N x N kernel and the run-time kernel with the same
    coefficients give the same image, bit for bit, in debug and release
    builds. *)

Theorem C39_fixed_is_dynamic : forall m m' (b : PixelBuffer Rgb) N k, valid b -> 0 < N <= 65535 -> square N k ->
  exists r, apply_kernel m N k b = Ok r /\ apply_kernel_dyn m' (mkKD (concat k) N N) b = Ok r.
Proof. exact fixed_is_dynamic. Qed.
Print Assumptions C39_fixed_is_dynamic.


(** C39: that image is the convolution: each pixel is the weighted sum of its
    neighbourhood, with the border pixels repeated outwards. *)

Theorem C39_fixed_convolves : forall m (b : PixelBuffer Rgb) N k, valid b -> 0 < N <= 1073741823 -> square N k ->
  exists r, apply_kernel m N k b = Ok r /\ is_convolution m b N N (concat k) r.
Proof. exact fixed_convolves. Qed.
Print Assumptions C39_fixed_convolves.


(** C39: the same for run-time kernels, which need not be square. *)

Theorem C39_dynamic_convolves : forall m (b : PixelBuffer Rgb) w h k, valid b ->
  0 < w <= 1073741823 -> 0 < h <= 1073741823 -> w * h <= 4294967295 -> zlen k = w * h ->
  exists r, apply_kernel_dyn m (mkKD k w h) b = Ok r /\ is_convolution m b w h k r.
Proof. exact dynamic_convolves. Qed.
Print Assumptions C39_dynamic_convolves.


(** C39: gaussian_blur takes the same image as the run-time kernel for every
    radius up to 32767, the specialised radii 1, 2 and 3 included. *)

Theorem C39_blur_is_dynamic : forall L m m' (b : PixelBuffer Rgb) r sigma, valid b -> 0 <= r <= 32767 ->
  exists k, new_gaussian_dyn L m' (2 * r + 1) (chosen_sigma sigma r) = Ok k /\
    gaussian_blur L m b r sigma = apply_kernel_dyn m' k b.
Proof. exact blur_is_dynamic. Qed.
Print Assumptions C39_blur_is_dynamic.


(** C39: ... and it is the convolution with the normalised bell curve. *)

Theorem C39_blur_convolves : forall L m (b : PixelBuffer Rgb) r sigma, valid b -> 0 <= r <= 32767 ->
  exists out, gaussian_blur L m b r sigma = Ok out /\
    is_convolution m b (2 * r + 1) (2 * r + 1) (gauss_weights L (2 * r + 1) (chosen_sigma sigma r)) out.
Proof. exact blur_convolves. Qed.
Print Assumptions C39_blur_convolves.


(** C39: unsharp adds [factor] times the difference between the image and that
    convolution, limited to [0,1]. *)

Theorem C39_unsharp_spec : forall L m (b : PixelBuffer Rgb) r factor sigma, valid b -> 0 <= r <= 32767 ->
  exists out blurred, unsharp L m b r factor sigma = Ok out /\ gaussian_blur L m b r sigma = Ok blurred /\
    valid out /\ width out = width b /\ height out = height b /\
    forall x y, inside b x y -> exists c s, get_pixel m b x y = Ok c /\ get_pixel m blurred x y = Ok s /\
      let sharp pick := clamp (fadd (pick c) (fmul (fsub (pick c) (pick s)) factor)) in
      get_pixel m out x y = Ok (mkC (sharp d0) (sharp d1) (sharp d2) (sharp d3)).
Proof. exact unsharp_spec. Qed.
Print Assumptions C39_unsharp_spec.

Example C39_convolution_example :
  let b := mkPB 2 2 [RGB_RED; RGB_BLUE; RGB_WHITE; RGB_BLACK] in
  let k := [[f1; f0; f0]; [f0; f0; f0]; [f0; f0; f0]] in
  valid b /\ square 3 k /\
  match apply_kernel Checked 3 k b, gaussian_blur step_libm Checked b 1 None, gaussian_blur step_libm Checked b 4 (Some f1) with
  | Ok r, Ok r1, Ok r4 => map (fun c => (feq (d0 c) f1, feq (d2 c) f1)) (data r) = repeat (true, false) 4 /\
      forallb (fun c => fle (dec 1 10) (d0 c) && fle (d0 c) (dec 9 10)) (data r1 ++ data r4) = true
  | _, _, _ => False
  end.
Proof. exact convolution_example. Qed.


(** C40: the kernel that is 1 in the middle and 0 elsewhere changes no image
    with finite channels. *)

Theorem C40_identity_kernel_identity : forall m (b : PixelBuffer Rgb) N, valid b -> 0 < N <= 65535 ->
  (forall c, In c (data b) -> numeric c) ->
  exists r, apply_kernel m N (identity_kernel N) b = Ok r /\
    apply_kernel_dyn m (mkKD (concat (identity_kernel N)) N N) b = Ok r /\
    valid r /\ width r = width b /\ height r = height b /\
    forall x y c, inside b x y -> get_pixel m b x y = Ok c ->
      exists c', get_pixel m r x y = Ok c' /\ same_color c' c.
Proof. exact identity_kernel_identity. Qed.
Print Assumptions C40_identity_kernel_identity.


(** C40: finiteness is needed: an infinite channel spreads NaN. *)

Theorem C40_identity_kernel_infinite_refuted : exists (b : PixelBuffer Rgb) r, valid b /\
  apply_kernel Checked 3 (identity_kernel 3) b = Ok r /\
  exists c, get_pixel Checked b 1 0 = Ok c /\ numeric c /\
  exists c', get_pixel Checked r 1 0 = Ok c' /\ is_nan (d0 c') = true.
Proof. exact identity_kernel_infinite_refuted. Qed.
Print Assumptions C40_identity_kernel_infinite_refuted.

Example C40_identity_example :
  let b := mkPB 2 1 [RGB_RED; mkC (ofZ (-3)) f2 f0 f1] in
  valid b /\ (forall c, In c (data b) -> numeric c) /\ identity_kernel 3 = [[f0; f0; f0]; [f0; f1; f0]; [f0; f0; f0]].
Proof. exact identity_example. Qed.


(** C41: with its default sigma and a radius from 1 to 32767, blurring an
    in-gamut image gives finite, non-negative channels, for every exponential
    function with values in [0,1] on negative arguments. *)

Theorem C41_blur_gives_numbers : forall L m (b : PixelBuffer Rgb) r, exp_ok L -> valid b -> 1 <= r <= 32767 ->
  (forall c, In c (data b) -> in_gamut c) ->
  exists out, gaussian_blur L m b r None = Ok out /\ valid out /\ width out = width b /\ height out = height b /\
    forall c, In c (data out) -> numeric c /\ forall pick, channel pick -> fle f0 (pick c) = true.
Proof. exact blur_gives_numbers. Qed.
Print Assumptions C41_blur_gives_numbers.


(** C41: blurring averages: up to radius 500, if a channel lies in [lo,hi]
    within [0,1], so does the blurred channel, up to ((2r+1)^2+1)/2^22. *)

Theorem C41_blur_averages : forall L m (b : PixelBuffer Rgb) r sigma pick lo hi, exp_ok L -> valid b ->
  0 <= r <= 500 -> sigma_ok r sigma -> channel pick -> (0 <= lo)%R -> (hi <= 1)%R ->
  (forall c, In c (data b) -> is_finite (pick c) = true /\ (lo <= B2R (pick c) <= hi)%R) ->
  let e := ((IZR ((2 * r + 1) * (2 * r + 1)) + 1) / 4194304)%R in
  exists out, gaussian_blur L m b r sigma = Ok out /\ valid out /\ width out = width b /\ height out = height b /\
    forall x y c, get_pixel m out x y = Ok c -> inside b x y ->
      is_finite (pick c) = true /\ (lo - e <= B2R (pick c) <= hi + e)%R.
Proof. exact blur_averages. Qed.
Print Assumptions C41_blur_averages.


(** C41: with the default sigma and a radius from 1 to 32767, unsharp with a
    finite factor returns an in-gamut image for every in-gamut image. *)

Theorem C41_unsharp_stays_in_gamut : forall L m (b : PixelBuffer Rgb) r factor, exp_ok L -> valid b -> 1 <= r <= 32767 ->
  is_finite factor = true -> (forall c, In c (data b) -> in_gamut c) ->
  exists out, unsharp L m b r factor None = Ok out /\ valid out /\ width out = width b /\ height out = height b /\
    forall c, In c (data out) -> in_gamut c.
Proof. exact unsharp_stays_in_gamut. Qed.
Print Assumptions C41_unsharp_stays_in_gamut.


(** C41: factor 0 leaves the image unchanged. *)

Theorem C41_unsharp_factor_0 : forall L m (b : PixelBuffer Rgb) r factor, exp_ok L -> valid b -> 1 <= r <= 32767 ->
  feq factor f0 = true -> (forall c, In c (data b) -> in_gamut c) ->
  exists out, unsharp L m b r factor None = Ok out /\ valid out /\ width out = width b /\ height out = height b /\
    forall x y c, inside b x y -> get_pixel m b x y = Ok c ->
      exists c', get_pixel m out x y = Ok c' /\ same_color c' c.
Proof. exact unsharp_factor_0. Qed.
Print Assumptions C41_unsharp_factor_0.


(** C41: radius 0 with the default sigma turns every pixel into NaN, because
    the default sigma is 0 (for any exp that maps NaN to NaN). *)

Theorem C41_blur_radius_0_is_nan : forall L m (b : PixelBuffer Rgb), is_nan (fexp_ L fnan) = true -> valid b ->
  exists out, gaussian_blur L m b 0 None = Ok out /\ width out = width b /\ height out = height b /\
    forall x y, inside b x y -> get_pixel m out x y = Ok (mkC fnan fnan fnan fnan).
Proof. exact blur_radius_0_is_nan. Qed.
Print Assumptions C41_blur_radius_0_is_nan.


(** C41: the same for unsharp, whatever the factor. *)

Theorem C41_unsharp_radius_0_is_nan : forall L m (b : PixelBuffer Rgb) factor, is_nan (fexp_ L fnan) = true -> valid b ->
  exists out, unsharp L m b 0 factor None = Ok out /\ width out = width b /\ height out = height b /\
    forall x y, inside b x y -> get_pixel m out x y = Ok (mkC fnan fnan fnan fnan).
Proof. exact unsharp_radius_0_is_nan. Qed.
Print Assumptions C41_unsharp_radius_0_is_nan.


(** C41: radii from 32768 on, whose kernel has more than 2^32 - 1 values,
    panic in debug and in release builds. *)

Theorem C41_blur_large_radius_panics : forall L m (b : PixelBuffer Rgb) r sigma, 32768 <= r <= 2147483647 ->
  gaussian_blur L m b r sigma = Panic /\ forall factor, unsharp L m b r factor sigma = Panic.
Proof. exact blur_large_radius_panics. Qed.
Print Assumptions C41_blur_large_radius_panics.

Example C41_blur_example :
  let b := mkPB 2 1 [RGB_RED; RGB_BLUE] in
  exp_ok step_libm /\ is_nan (fexp_ step_libm fnan) = true /\ valid b /\ (forall c, In c (data b) -> in_gamut c) /\
  sigma_ok 2 None /\ sigma_ok 2 (Some (dec 7 10)).
Proof. exact blur_example. Qed.


(** C42: despeckle changes a pixel only if its average is below the threshold
    and at most [amount] of the nine pixels around it are; then red, green and
    blue become the average of the pixels that are not, and alpha is kept
    (limited to [0,1]). *)

Theorem C42_despeckle_spec : forall m (b : PixelBuffer Rgb) threshold amount, valid b ->
  exists out, despeckle m b threshold amount = Ok out /\ valid out /\ width out = width b /\ height out = height b /\
    forall x y c, inside b x y -> get_pixel m b x y = Ok c -> exists ps, neighbourhood m b 3 3 x y = Ok ps /\
      let n := zlen (filter (darker threshold) ps) in
      let mean pick := clamp (fdiv (fold_left fadd (map pick (filter (not_darker threshold) ps)) f0) (ofZ (9 - n))) in
      get_pixel m out x y = Ok (if darker threshold c && (n <=? amount)
                                then mkC (mean d0) (mean d1) (mean d2) (clamp (d3 c)) else c).
Proof. exact despeckle_spec. Qed.
Print Assumptions C42_despeckle_spec.


(** C42: an in-gamut image stays in gamut for every amount up to 8 and every
    threshold that is not NaN. *)

Theorem C42_despeckle_stays_in_gamut : forall m (b : PixelBuffer Rgb) threshold amount out, valid b ->
  (forall c, In c (data b) -> in_gamut c) -> is_nan threshold = false -> amount <= 8 ->
  despeckle m b threshold amount = Ok out -> forall c, In c (data out) -> in_gamut c.
Proof. exact despeckle_stays_in_gamut. Qed.
Print Assumptions C42_despeckle_stays_in_gamut.


(** C42: for amounts from 9 on, a pixel in a fully dark neighbourhood becomes
    NaN (0/0). *)

Theorem C42_despeckle_dark_area_is_nan : forall m (b : PixelBuffer Rgb) threshold amount out x y c ps, valid b -> 9 <= amount ->
  despeckle m b threshold amount = Ok out -> inside b x y -> get_pixel m b x y = Ok c ->
  neighbourhood m b 3 3 x y = Ok ps -> (forall q, In q (c :: ps) -> darker threshold q = true) ->
  get_pixel m out x y = Ok (mkC fnan fnan fnan (clamp (d3 c))).
Proof. exact despeckle_dark_area_is_nan. Qed.
Print Assumptions C42_despeckle_dark_area_is_nan.

Example C42_despeckle_example :
  let w := RGB_WHITE in
  let b := mkPB 3 3 [w; w; w; w; RGB_BLACK; w; w; w; w] in
  valid b /\ (forall c, In c (data b) -> in_gamut c) /\
  match despeckle Checked b (dec 5 10) 1, despeckle Checked b (dec 5 10) 0, despeckle Checked (mkPB 1 1 [RGB_BLACK]) (dec 5 10) 9 with
  | Ok r, Ok r0, Ok r9 => map (fun c => feq (d0 c) f1) (data r) = repeat true 9 /\
      map (fun c => feq (d0 c) f1) (data r0) = [true; true; true; true; false; true; true; true; true] /\
      map (fun c => is_nan (d0 c)) (data r9) = [true]
  | _, _, _ => False
  end.
Proof. exact despeckle_example. Qed.


(** C74: edge detection never panics, keeps the size and makes every pixel
    opaque. *)

Theorem C74_edge_detection_total : forall m (b : PixelBuffer Rgb) mode, valid b ->
  exists out, edge_detection m b mode = Ok out /\ valid out /\ width out = width b /\ height out = height b /\
    forall c, In c (data out) -> d3 c = f1.
Proof. exact edge_detection_total. Qed.
Print Assumptions C74_edge_detection_total.


(** C74: Sobel mode gives each channel the length of the gradient (gx, gy)
    measured by the two Sobel kernels, limited to [0,1]. *)

Theorem C74_sobel_spec : forall m (b : PixelBuffer Rgb), valid b ->
  exists gx gy out,
    is_convolution m b 3 3 [f1; f0; ofZ (-1); f2; f0; ofZ (-2); f1; f0; ofZ (-1)] gx /\
    is_convolution m b 3 3 [f1; f2; f1; f0; f0; f0; ofZ (-1); ofZ (-2); ofZ (-1)] gy /\
    edge_detection m b Sobel = Ok out /\
    forall x y, inside b x y -> exists cx cy, get_pixel m gx x y = Ok cx /\ get_pixel m gy x y = Ok cy /\
      let len pick := clamp (fsqrt (fadd (fmul (pick cx) (pick cx)) (fmul (pick cy) (pick cy)))) in
      get_pixel m out x y = Ok (mkC (len d0) (len d1) (len d2) f1).
Proof. exact sobel_spec. Qed.
Print Assumptions C74_sobel_spec.


(** C74: so an in-gamut image gives an in-gamut image. *)

Theorem C74_sobel_stays_in_gamut : forall m (b : PixelBuffer Rgb) out, valid b -> (forall c, In c (data b) -> in_gamut c) ->
  edge_detection m b Sobel = Ok out -> forall c, In c (data out) -> in_gamut c.
Proof. exact sobel_stays_in_gamut. Qed.
Print Assumptions C74_sobel_stays_in_gamut.


(** C74: in Laplace mode each channel is within 2^-14 of the exact sum of the
    nine pixels weighted 1, and -8 in the middle; it is not limited to [0,1]. *)

Theorem C74_laplace_spec : forall m (b : PixelBuffer Rgb) out, valid b -> (forall c, In c (data b) -> in_gamut c) ->
  edge_detection m b Laplace = Ok out ->
  forall x y c ps pick, inside b x y -> get_pixel m out x y = Ok c -> neighbourhood m b 3 3 x y = Ok ps ->
  pick = d0 \/ pick = d1 \/ pick = d2 ->
  is_finite (pick c) = true /\
  (Rabs (B2R (pick c) - exact_sum pick (combine [f1; f1; f1; f1; ofZ (-8); f1; f1; f1; f1] ps)) <= / 16384)%R.
Proof. exact laplace_spec. Qed.
Print Assumptions C74_laplace_spec.


(** C74: so Laplace mode leaves the gamut. *)

Theorem C74_laplace_in_gamut_refuted : exists (b out : PixelBuffer Rgb), valid b /\ (forall c, In c (data b) -> in_gamut c) /\
  edge_detection Checked b Laplace = Ok out /\ exists c, In c (data out) /\ flt (d0 c) (ofZ (-2)) = true.
Proof. exact laplace_in_gamut_refuted. Qed.
Print Assumptions C74_laplace_in_gamut_refuted.


(** C74: a uniform image has no edges: every colour channel is within 2^-13 of
    0, less than half of 1/255, in either mode. *)

Theorem C74_uniform_image_has_no_edges : forall m (b : PixelBuffer Rgb) q mode out c pick, valid b -> in_gamut q ->
  (forall c, In c (data b) -> c = q) -> edge_detection m b mode = Ok out -> In c (data out) ->
  pick = d0 \/ pick = d1 \/ pick = d2 ->
  is_finite (pick c) = true /\ (Rabs (B2R (pick c)) <= / 8192)%R.
Proof. exact uniform_image_has_no_edges. Qed.
Print Assumptions C74_uniform_image_has_no_edges.

Example C74_edge_example :
  let b := mkPB 3 1 [RGB_BLACK; RGB_BLACK; RGB_WHITE] in
  valid b /\ (forall c, In c (data b) -> in_gamut c) /\
  match edge_detection Checked b Sobel, edge_detection Checked b Laplace with
  | Ok s, Ok l => map (fun c => feq (d0 c) f0) (data s) = [true; false; false] /\
                  map (fun c => (flt (d0 c) f0, flt f0 (d0 c))) (data l) = [(false, false); (false, true); (true, false)]
  | _, _ => False
  end.
Proof. exact edge_example. Qed.


(** C75: symmetric_nearest_neighbor takes from each pair of opposite pixels,
    in the eight directions and up to the radius, the one nearer in colour to
    the pixel, and returns the mean of these colours, with the pixel itself on
    request. *)

Theorem C75_snn_spec : forall m (b : PixelBuffer Rgb) radius with_center, valid b -> 0 <= radius <= 4194302 ->
  exists out, symmetric_nearest_neighbor m b radius with_center = Ok out /\ valid out /\
    width out = width b /\ height out = height b /\
    forall x y, inside b x y -> exists center chosen, get_pixel m b x y = Ok center /\
      Forall2 (nearer_of_pair m b x y center) (half_star radius) chosen /\
      get_pixel m out x y = Ok (mean_color (if with_center then center :: chosen else chosen)).
Proof. exact snn_spec. Qed.
Print Assumptions C75_snn_spec.


(** C75: the result of an in-gamut image is in gamut if any colour is averaged. *)

Theorem C75_snn_stays_in_gamut : forall m (b : PixelBuffer Rgb) radius with_center out, valid b -> 0 <= radius <= 2000000 ->
  1 <= radius \/ with_center = true -> (forall c, In c (data b) -> in_gamut c) ->
  symmetric_nearest_neighbor m b radius with_center = Ok out -> forall c, In c (data out) -> in_gamut c.
Proof. exact snn_stays_in_gamut. Qed.
Print Assumptions C75_snn_stays_in_gamut.


(** C75: radius 0 is the identity with the centre, and gives NaN without. *)

Theorem C75_snn_radius_zero : forall m (b : PixelBuffer Rgb) with_center, valid b ->
  exists out, symmetric_nearest_neighbor m b 0 with_center = Ok out /\ valid out /\ width out = width b /\ height out = height b /\
    forall x y c, inside b x y -> get_pixel m b x y = Ok c -> exists r, get_pixel m out x y = Ok r /\
      if with_center then in_gamut c -> same_color r c else r = mkC fnan fnan fnan fnan.
Proof. exact snn_radius_zero. Qed.
Print Assumptions C75_snn_radius_zero.

Example C75_snn_example :
  let b := mkPB 3 1 [RGB_BLACK; RGB_WHITE; RGB_RED] in
  valid b /\ (forall c, In c (data b) -> in_gamut c) /\
  match symmetric_nearest_neighbor Checked b 1 true, symmetric_nearest_neighbor Checked b 1 false with
  | Ok s, Ok t => map (fun c => feq (d0 c) f1) (data s) = [false; true; true] /\
                  map (fun c => (feq (d0 c) f1, feq (d2 c) f1)) (data t) = [(false, false); (true, false); (true, false)]
  | _, _ => False
  end /\ half_star 2 = [(-1, -1); (0, -1); (1, -1); (-1, 0); (-2, -2); (0, -2); (2, -2); (-2, 0)].
Proof. exact snn_example. Qed.


(** C76: drawing never panics for radii up to 32767 and keeps the size. *)

Theorem C76_drawing_total : forall L m (b : PixelBuffer Rgb) radius mode, valid b -> 0 <= radius <= 32767 -> exp_ok L ->
  exists out, drawing L m b radius mode = Ok out /\ valid out /\ width out = width b /\ height out = height b.
Proof. exact drawing_total. Qed.
Print Assumptions C76_drawing_total.


(** C76: in gray mode the result is in gamut and grey whatever the image, NaN
    and infinities included. *)

Theorem C76_drawing_gray_mode : forall L m (b : PixelBuffer Rgb) radius out, valid b -> 0 <= radius <= 32767 -> exp_ok L ->
  drawing L m b radius DGray = Ok out -> forall c, In c (data out) -> in_gamut c /\ d0 c = d1 c /\ d1 c = d2 c.
Proof. exact drawing_gray_mode. Qed.
Print Assumptions C76_drawing_gray_mode.


(** C76: in coloured mode an in-gamut image gives an in-gamut result. *)

Theorem C76_drawing_colored_mode : forall L m (b : PixelBuffer Rgb) radius out, valid b -> 0 <= radius <= 32767 -> exp_ok L ->
  (forall c, In c (data b) -> in_gamut c) ->
  drawing L m b radius DColored = Ok out -> forall c, In c (data out) -> in_gamut c.
Proof. exact drawing_colored_mode. Qed.
Print Assumptions C76_drawing_colored_mode.

Example C76_drawing_example :
  let b := mkPB 2 1 [RGB_RED; mkC fnan f2 f0 f1] in
  valid b /\
  match drawing step_libm Checked b 1 DGray, drawing step_libm Checked (mkPB 1 1 [RGB_RED]) 2 DColored with
  | Ok r, Ok r' => forallb (fun c => fle f0 (d0 c) && fle (d0 c) f1) (data r ++ data r') = true
  | _, _ => False
  end.
Proof. exact drawing_example. Qed.
