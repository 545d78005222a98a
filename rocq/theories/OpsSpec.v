(** Specification vocabulary for the histogram, palette, noise and temperature
    properties (C43-C49). *)
From Coq Require Import ZArith Reals List Bool.
From Flocq Require Import IEEE754.BinarySingleNaN.
From Verif Require Import Base PixelBuffer BufferSpec F32 F32Lemmas Color ColorSpec Kernel Ops.
Import ListNotations.
Open Scope Z_scope.

(** How many items of [l] satisfy [p]. *)
Definition count {A} (p : A -> bool) (l : list A) : Z := zlen (filter p l).

(** A channel value as one of 256 levels: [value * 255] rounded to the nearest
    integer, limited to 0..255; NaN counts as 0. *)
Definition level (v : f32) : Z := as_u8 (fround (fmul v (ofZ 255))).

(** The share of the pixels whose level is at most [k], to f32 precision. *)
Definition cdf (pick : col -> f32) (l : list col) (k : Z) : R :=
  rnd (IZR (count (fun c => level (pick c) <=? k) l) / IZR (zlen l)).

(** Histogram equalisation of a value: the share of pixels that are at most as
    bright, rescaled so that level 0 becomes 0 and level 255 becomes 1.  If
    (nearly) all pixels have level 0 everything becomes 0. *)
Definition equalized (pick : col -> f32) (l : list col) (v : f32) : R :=
  let lo := cdf pick l 0 in
  if Rlt_dec (rnd (1 - lo)) (/ 8388608) then 0%R
  else rnd (rnd (cdf pick l (level v) - lo) / rnd (1 - lo)).

(** [w] is [v] equalised: a number between 0 and 1 and, for images of less than
    2^24 pixels, where all counts are exact, the value above. *)
Definition equalized_to (pick : col -> f32) (l : list col) (v w : f32) : Prop :=
  in01 w /\ (zlen l < 16777216 -> B2R w = equalized pick l v).

(** The share [n / len] as the code accumulates it: [n] times [1 / len]. *)
Definition share (n len : Z) : f32 :=
  Nat.iter (Z.to_nat n) (fun s => fadd s (fdiv f1 (ofZ len))) f0.

(** The brightness of a pixel as one of 256 bins: [average * 255] rounded down. *)
Definition brightness_bin (c : Rgb) : Z := as_u8 (fmul (average c) (ofZ 255)).

(** The share of the pixels in each of the 256 bins, darkest first. *)
Definition shares {A} (bin_of : A -> Z) (l : list A) : list f32 :=
  map (fun k => share (count (fun c => bin_of c =? k) l) (zlen l)) (zrange 0 256).

(** The sum of the first [k + 1] shares. *)
Definition sum_to (k : Z) (l : list f32) : f32 := fold_left fadd (firstn (Z.to_nat (k + 1)) l) f0.

(** [k] is the first index at which the running sum of [l] exceeds [t]. *)
Definition first_exceeding (t : f32) (l : list f32) (k : Z) : Prop :=
  0 <= k < zlen l /\ flt t (sum_to k l) = true /\ forall j, 0 <= j < k -> flt t (sum_to j l) = false.
Definition never_exceeding (t : f32) (l : list f32) : Prop :=
  forall j, 0 <= j < zlen l -> flt t (sum_to j l) = false.

(** The darkest and the brightest value that more than a share [t] of the
    pixels reach, or 1 if there are too few pixels. *)
Definition black_point (t : f32) (l : list f32) (v : f32) : Prop :=
  (exists k, first_exceeding t l k /\ v = fdiv (ofZ k) (ofZ 255)) \/ (never_exceeding t l /\ v = f1).
Definition white_point (t : f32) (l : list f32) (v : f32) : Prop :=
  (exists k, first_exceeding t (rev l) k /\ v = fdiv (ofZ (255 - k)) (ofZ 255)) \/ (never_exceeding t (rev l) /\ v = f1).

(** The bin of a channel value: [value * 255] rounded down, limited to 0..255. *)
Definition channel_bin (v : f32) : Z := as_u8 (fmul v (ofZ 255)).

(** Stretch [v] from [black, white] towards [0, 1], with a strength [s] that
    falls from 1 to 0 as the interval shrinks. *)
Definition soft_level (L : libm) (black white v : f32) : f32 :=
  let s := ftanh L (fmul (fabs (fsub white black)) (ofZ 10)) in
  if fle s f32_EPSILON then v
  else fmul (fmul (fsub v (fmul black s)) (fdiv f1 (fsub white black))) s.

(** [w] is [v] stretched between the black and the white point of its channel
    among the colours [l]. *)
Definition balanced (L : libm) (t : f32) (pick : col -> f32) (l : list col) (v w : f32) : Prop :=
  exists lo hi, black_point t (shares (fun c => channel_bin (pick c)) l) lo /\
    white_point t (shares (fun c => channel_bin (pick c)) l) hi /\ w = soft_level L lo hi v.

(** The colour space a balance mode works in, and which of its channels it
    changes. *)
Definition balance_space (m : balance_mode) : kind * bool * bool * bool :=
  match m with
  | BRgb => (KRgb, true, true, true)
  | BSrgb => (KSrgb, true, true, true)
  | BHsv => (KHsv, false, true, true)
  | BHsl => (KHsl, false, true, true)
  | BLch => (KLch D65 O2, true, true, false)
  end.

(** The euclidean distance of two Lab colours. *)
Definition delta_e (a b : Lab) : f32 :=
  let sq x := fmul x x in
  fsqrt (fadd (fadd (sq (fsub (d0 a) (d0 b))) (sq (fsub (d1 a) (d1 b)))) (sq (fsub (d2 a) (d2 b)))).

(** [p] is the first of the palette colours closest to [c] in Lab space, or the
    default colour if no palette colour has a distance below [f32::MAX]. *)
Definition closest_entry (c : Lab) (palette : list Lab) (p : Lab) : Prop :=
  (exists i, idx palette i = Ok p /\ flt (delta_e c p) f32_MAX = true /\
     (forall q, In q palette -> flt (delta_e c q) (delta_e c p) = false) /\
     (forall j q, j < i -> idx palette j = Ok q -> fle (delta_e c q) (delta_e c p) = false)) \/
  ((forall q, In q palette -> flt (delta_e c q) f32_MAX = false) /\ p = RGB_NONE).

(** How a colour type stores a channel: Rgb and Srgb limit it to [0, 1]. *)
Definition stored (k : kind) (v : f32) : f32 :=
  match k with KRgb | KSrgb => clamp v | _ => v end.

(** [c'] is [c] with [noise * strength + (1 - strength) * value] in the colour
    channels, the noise of each channel being some value the generator draws. *)
Definition noisy {R} (gen : R -> R * f32) (k : kind) (strength : f32) (c c' : col) : Prop :=
  let drawn n := exists s, n = snd (gen s) in
  let mix n v := fadd (fmul n strength) (fmul (fsub f1 strength) v) in
  exists n0 n1 n2, drawn n0 /\ drawn n1 /\ drawn n2 /\
    c' = mkC (stored k (mix n0 (d0 c))) (stored k (mix n1 (d1 c))) (stored k (mix n2 (d2 c))) (stored k (d3 c)).

(** Draws and strengths far from overflow. *)
Definition small_draws {R} (gen : R -> R * f32) : Prop := forall s, fle (fabs (snd (gen s))) (ofZ 65536) = true.
Definition small_strength (s : f32) : Prop := fle (fabs s) (ofZ 1000000) = true.

(** A colour temperature as the code uses it: whole kelvins, limited to
    1000..12000; NaN counts as 0. *)
Definition kelvin (t : f32) : Z := Z.max 1000 (Z.min 12000 (f_as_usize t)).
