(** Property theorems, generated from SobelThm.v by tools/mkp.py. *)

From Coq Require Import Reals ZArith List.
From Flocq Require Import IEEE754.BinarySingleNaN.
From Verif Require Import Base PixelBuffer BufferSpec F32 Color ColorSpec Kernel KernelSpec MeaningSpec EnhanceSpec ResampleSpec GaussSpec.
Import ListNotations.
Open Scope Z_scope.

From Verif Require Import SobelThm.


(** C123: KernelDyn::new accepts exactly the lists of width times height
    weights, and panics on any other. *)

Theorem C123_kernel_new_iff : forall m d w h, 0 <= w <= 65535 -> 0 <= h <= 65535 ->
  (zlen d = w * h -> exists k, kernel_dyn_new m d w h = Ok k /\ kwidth k = w /\ kheight k = h) /\
  (zlen d <> w * h -> kernel_dyn_new m d w h = Panic).
Proof. exact kernel_new_iff. Qed.
Print Assumptions C123_kernel_new_iff.


(** C123: get(x, y) is the weight number x + y * width of the list given to
    new; it panics exactly if there is no such weight. *)

Theorem C123_kernel_get : forall m d w h k x y, 0 <= w <= 65535 -> 0 <= h <= 65535 -> kernel_dyn_new m d w h = Ok k ->
  0 <= x <= 65535 -> 0 <= y <= 65535 ->
  kernel_dyn_get m k x y = match nth_error d (Z.to_nat (x + y * w)) with Some v => Ok v | None => Panic end.
Proof. exact kernel_get. Qed.
Print Assumptions C123_kernel_get.


(** C123: a user expects a panic for every position outside the kernel; a
    column beyond the last one gives a weight of the next row instead. *)

Theorem C123_kernel_get_outside_refuted : exists k, kernel_dyn_new Checked [f1; f2; f0; f1] 2 2 = Ok k /\ kernel_dyn_get Checked k 3 0 = Ok f1 /\ kernel_dyn_get Checked k 3 1 = Panic.
Proof. exact kernel_get_outside_refuted. Qed.
Print Assumptions C123_kernel_get_outside_refuted.


(** C123: apply_kernel_dyn replaces every pixel by the sum of the pixels around
    it, get(i, j) being the weight of the one i - w/2 columns to the right and
    j - h/2 rows below; beyond the edges the nearest pixels count.  Products are
    added row by row, each step rounded to f32. *)

Theorem C123_kernel_weights : forall m (b : PixelBuffer Rgb) d w h k (weight : Z -> Z -> f32), valid b ->
  0 < w <= 65535 -> 0 < h <= 65535 -> kernel_dyn_new m d w h = Ok k ->
  (forall i j, 0 <= i < w -> 0 <= j < h -> kernel_dyn_get m k i j = Ok (weight i j)) ->
  exists r, apply_kernel_dyn m k b = Ok r /\ valid r /\ width r = width b /\ height r = height b /\
    forall x y, inside b x y ->
    let sum pick := fold_left (fun acc o => fadd acc (fmul (weight (fst o) (snd o)) (pick (edge_pixel b (x - w / 2 + fst o) (y - h / 2 + snd o)))))
                      (row_major w h) f0 in
    get_pixel m r x y = Ok (mkC (sum d0) (sum d1) (sum d2) (sum d3)).
Proof. exact kernel_weights. Qed.
Print Assumptions C123_kernel_weights.

Example C123_kernel_weights_example : let b := mkPB 2 1 [RGB_BLACK; RGB_WHITE] in
  valid b /\ exists k, kernel_dyn_new Checked [f1; f0; f2] 3 1 = Ok k /\
  (forall i j, 0 <= i < 3 -> 0 <= j < 1 -> kernel_dyn_get Checked k i j = Ok (if i =? 0 then f1 else if i =? 1 then f0 else f2)) /\
  (r <- apply_kernel_dyn Checked k b; Ok (map (fun c => feq (d0 c) f2) (data r))) = Ok [true; true].
Proof. exact kernel_weights_example. Qed.


(** C123: new_sobel_x measures how much the image rises from left to right and
    new_sobel_y how much it falls from top to bottom, up to 2^-14; and Sobel edge
    detection, which has kernels of its own, is the length of the two, limited to
    [0, 1], bit for bit. *)

Theorem C123_ready_made_sobel : forall m (b : PixelBuffer Rgb), valid b -> (forall c, In c (data b) -> in_gamut c) ->
  exists gx gy out, apply_kernel_dyn m new_sobel_x b = Ok gx /\ apply_kernel_dyn m new_sobel_y b = Ok gy /\ edge_detection m b Sobel = Ok out /\
    forall x y, inside b x y -> exists cx cy, get_pixel m gx x y = Ok cx /\ get_pixel m gy x y = Ok cy /\
      let len pick := clamp (fsqrt (fadd (fmul (pick cx) (pick cx)) (fmul (pick cy) (pick cy)))) in
      get_pixel m out x y = Ok (mkC (len d0) (len d1) (len d2) f1) /\
      forall pick, channel pick -> let v i j := B2R (pick (edge_pixel b (x + i) (y + j))) in
      close (/ 2 ^ 14) (- slope_x v) (pick cx) /\ close (/ 2 ^ 14) (slope_y v) (pick cy).
Proof. exact ready_made_sobel. Qed.
Print Assumptions C123_ready_made_sobel.

Example C123_ready_made_sobel_example : let b := mkPB 2 1 [RGB_BLACK; RGB_WHITE] in
  valid b /\ (forall c, In c (data b) -> in_gamut c) /\
  (gx <- apply_kernel_dyn Checked new_sobel_x b; Ok (map (fun c => (feq (d0 c) (ofZ 4), feq (d3 c) f0)) (data gx))) = Ok [(true, true); (true, true)].
Proof. exact ready_made_sobel_example. Qed.
