(** Model of the histogram, palette, noise, saturation, lightness and
    temperature operations of d10-ops/src. *)
From Coq Require Import ZArith List Bool.
From Verif Require Import Base PixelBuffer F32 Color Kernel.
Import ListNotations.
Open Scope Z_scope.

(** ** stretch_contrast.rs *)

(** stretch_contrast.rs:7-8, balance_channels.rs:16, as an index *)
Definition bin (v : f32) : Z := as_u8 (fclamp (fmul v (ofZ 255)) f0 (ofZ 255)).

(** stretch_contrast.rs:10-21 *)
Definition get_color_values (b : PixelBuffer Rgb) : res (list f32) :=
  let len := ofZ (zlen (data b)) in
  for_ (data b) (fun c result =>
    let v := bin (average c) in
    old <- idx result v;
    upd result v (fadd old (fdiv f1 len))) (repeat f0 256).

(** stretch_contrast.rs:23-52, balance_channels.rs:24-53: the loop with its
    [break], over the (index, value) pairs in the order they are visited *)
Fixpoint first_above (threshold agg : f32) (l : list (Z * f32)) : f32 :=
  match l with
  | [] => f1
  | (i, v) :: l' =>
      let agg := fadd agg v in
      if flt threshold agg then fdiv (ofZ i) (ofZ 255) else first_above threshold agg l'
  end.
Definition indexed {A} (l : list A) : list (Z * A) := combine (zrange 0 (zlen l)) l.
Definition get_min_value (values : list f32) (threshold : f32) : f32 :=
  first_above threshold f0 (indexed values).
Definition get_max_value (values : list f32) (threshold : f32) : f32 :=
  first_above threshold f0 (rev (indexed values)).

(** stretch_contrast.rs:54-65 *)
Definition stretch_contrast (L : libm) (b : PixelBuffer Rgb) (threshold : f32)
  : res (PixelBuffer Rgb) :=
  let threshold := fdiv threshold (ofZ 1000) in
  values <- get_color_values b;
  let min_value := get_min_value values threshold in
  let max_value := get_max_value values threshold in
  if flt f0 min_value || flt max_value f1
  then map_pure (with_level L min_value max_value f1) b
  else Ok b.

(** ** balance_channels.rs *)

(** balance_channels.rs:86-92 *)
Inductive balance_mode := BRgb | BSrgb | BHsv | BHsl | BLch.

(** balance_channels.rs:6-22; the arrays of one [NUM_CHANNELS]-array per
    channel are updated in turn for each pixel *)
Definition channel_values (L : libm) (k : kind) (start num : Z) (b : PixelBuffer Rgb)
  : res (list (list f32)) :=
  let len := ofZ (zlen (data b)) in
  for_ (data b) (fun c result =>
    let c := convert_color L KRgb k c in
    map_res (fun '(channel, r) =>
      x <- chan c (start + channel);
      let v := bin x in
      old <- idx r v;
      upd r v (fadd old (fdiv f1 len))) (indexed result))
    (repeat (repeat f0 256) (Z.to_nat num)).

(** balance_channels.rs:55-67 *)
Definition level_channel (L : libm) (value black_point white_point : f32) : f32 :=
  let diff := fsub white_point black_point in
  let scale := ftanh L (fmul (fabs diff) (ofZ 10)) in
  if fle scale f32_EPSILON then value
  else
    let factor := fdiv f1 diff in
    fmul (fmul (fsub value (fmul black_point scale)) factor) scale.

(** balance_channels.rs:69-84 *)
Definition balance_buffer (L : libm) (k : kind) (start num : Z) (b : PixelBuffer Rgb)
  (threshold : f32) : res (PixelBuffer Rgb) :=
  let threshold := fdiv threshold (ofZ 1000) in
  values <- channel_values L k start num b;
  let mn := map (fun v => get_min_value v threshold) values in
  let mx := map (fun v => get_max_value v threshold) values in
  '(_, r) <- map_colors (fun (_ : unit) c =>
    let c := convert_color L KRgb k c in
    c <- for_ (zrange 0 num) (fun i c =>
      v <- chan c (start + i);
      lo <- idx mn i;
      hi <- idx mx i;
      set_chan c (start + i) (level_channel L v lo hi)) c;
    Ok (tt, to_rgb L k c)) tt b;
  Ok r.

(** balance_channels.rs:120-128 *)
Definition balance (L : libm) (b : PixelBuffer Rgb) (mode : balance_mode) (threshold : f32)
  : res (PixelBuffer Rgb) :=
  match mode with
  | BRgb => balance_buffer L KRgb 0 3 b threshold
  | BSrgb => balance_buffer L KSrgb 0 3 b threshold
  | BHsv => balance_buffer L KHsv 1 2 b threshold
  | BHsl => balance_buffer L KHsl 1 2 b threshold
  | BLch => balance_buffer L (KLch D65 O2) 0 2 b threshold
  end.

(** ** equalize.rs *)

(** equalize.rs:6-13 *)
Inductive equalize_mode := ERgb | ESrgb | ESaturation | ELightness | ESaturationLightness.

(** equalize.rs:39-43: the counts of one channel *)
Definition count_channel (b : PixelBuffer col) (channel : Z) : res (list f32) :=
  for_ (data b) (fun c h =>
    x <- chan c channel;
    let v := fmul x (ofZ 255) in
    let index := f_as_usize (fclamp (fround v) f0 (ofZ 255)) in
    old <- idx h index;
    upd h index (fadd old f1)) (repeat f0 256).

(** equalize.rs:50-55: running sums divided by the number of pixels *)
Fixpoint cumulate (pixels sum : f32) (h : list f32) : list f32 :=
  match h with
  | [] => []
  | v :: h' => let sum := fadd sum v in fdiv sum pixels :: cumulate pixels sum h'
  end.

(** equalize.rs:57-78 *)
Definition normalise_table (h : list f32) : list f32 :=
  let mx := fold_left fmax h f0 in
  let mn := fold_left fmin h f32_MAX in
  let delta := fsub mx mn in
  if flt delta f32_EPSILON then map (fun _ => f0) h
  else map (fun v => fdiv (fsub v mn) delta) h.

(** equalize.rs:31-81; every loop treats its channels independently, so the
    table of each channel is computed on its own. *)
Definition channel_table (m : build) (b : PixelBuffer col) (channel : Z) : res (list f32) :=
  h <- count_channel b channel;
  n <- u32 m (width b * height b);
  let pixels := ofZ n in
  Ok (normalise_table (cumulate pixels f0 h)).

(** equalize.rs:83-86 *)
Definition pick_value (table : list f32) (value : f32) : res f32 :=
  let r := as_u8 (fround (fmul value (ofZ 255))) in
  idx table r.

(** equalize.rs:88-99 and 101-114: Rgb and Srgb *)
Definition equalize_colors (m : build) (back : col -> Rgb) (b : PixelBuffer col)
  : res (PixelBuffer Rgb) :=
  h0 <- channel_table m b 0;
  h1 <- channel_table m b 1;
  h2 <- channel_table m b 2;
  '(_, r) <- map_colors (fun (_ : unit) c =>
    r <- pick_value h0 (d0 c);
    g <- pick_value h1 (d1 c);
    bl <- pick_value h2 (d2 c);
    Ok (tt, back (rgb_new_with_alpha r g bl (alpha c)))) tt b;
  Ok r.

(** equalize.rs:116-158: saturation and lightness of the Hsl image *)
Definition equalize_hsl (L : libm) (m : build) (saturation lightness : bool) (b : PixelBuffer Rgb)
  : res (PixelBuffer Rgb) :=
  let b := convert (to_hsl L KRgb) b in
  hs <- (if saturation then channel_table m b 1 else Ok []);
  hl <- (if lightness then channel_table m b 2 else Ok []);
  '(_, r) <- map_colors (fun (_ : unit) c =>
    s <- (if saturation then pick_value hs (d1 c) else Ok (d1 c));
    l <- (if lightness then pick_value hl (d2 c) else Ok (d2 c));
    Ok (tt, hsl_to_rgb (raw_new_with_alpha (d0 c) s l (alpha c)))) tt b;
  Ok r.

(** equalize.rs:160-168 *)
Definition equalize (L : libm) (m : build) (b : PixelBuffer Rgb) (mode : equalize_mode)
  : res (PixelBuffer Rgb) :=
  match mode with
  | ERgb => equalize_colors m (fun c => c) b
  | ESrgb => equalize_colors m (srgb_to_rgb L) (convert (to_srgb L KRgb) b)
  | ESaturation => equalize_hsl L m true false b
  | ELightness => equalize_hsl L m false true b
  | ESaturationLightness => equalize_hsl L m true true b
  end.

(** ** apply_palette.rs *)

(** apply_palette.rs:37-43 *)
Definition lab_distance (c1 c2 : Lab) : f32 :=
  let dl := fsub (d0 c1) (d0 c2) in
  let da := fsub (d1 c1) (d1 c2) in
  let db := fsub (d2 c1) (d2 c2) in
  fsqrt (fadd (fadd (fmul dl dl) (fmul da da)) (fmul db db)).

(** apply_palette.rs:19-35 *)
Definition get_color_from_palette (L : libm) (palette : PixelBuffer Lab) (c : Rgb) : Rgb :=
  let test_c := to_lab L D65 O2 KRgb c in
  let '(result, _) := fold_left (fun '(result, min_diff) pal_c =>
      let diff := lab_distance test_c pal_c in
      if flt diff min_diff then (Some pal_c, diff) else (result, min_diff))
    (data palette) (None, f32_MAX) in
  to_rgb L (KLab D65 O2) (match result with Some p => p | None => RGB_NONE end).

(** apply_palette.rs:6-12; [k] is the palette's colour type *)
Definition apply_palette (L : libm) (k : kind) (b : PixelBuffer Rgb) (palette : PixelBuffer col)
  : res (PixelBuffer Rgb) :=
  let palette := convert (to_lab L D65 O2 k) palette in
  map_pure (get_color_from_palette L palette) b.

(** apply_palette.rs:14-17 *)
Definition apply_palette_in_place (L : libm) (k : kind) (b : PixelBuffer Rgb)
  (palette : PixelBuffer col) : res (PixelBuffer Rgb) :=
  let palette := convert (to_lab L D65 O2 k) palette in
  '(_, b') <- mod_colors (fun (_ : unit) c => Ok (tt, get_color_from_palette L palette c)) tt b;
  Ok b'.

(** ** Noise.  The random number generator is a state [R] with the draws the
    code makes; what a draw may return is assumed where it matters. *)
Record rng (R : Type) := mkRng {
  gen_unit : R -> R * f32;      (* gen_range(0.0..=1.0) *)
  gen_signed : R -> R * f32;    (* gen_range(-1.0..=1.0) *)
  gen_three : R -> R * Z;       (* gen_range(0..3) *)
  gen_normal : R -> R * f32     (* sample(StandardNormal) *)
}.
Arguments gen_unit {R}.
Arguments gen_signed {R}.
Arguments gen_three {R}.
Arguments gen_normal {R}.

(** salt_n_pepper_noise.rs:5-18 *)
Definition salt_n_pepper {R} (g : rng R) (threshold : f32) (s : R) (c : Rgb) : res (R * Rgb) :=
  let '(s, value) := gen_unit g s in
  Ok (s, if flt value threshold then RGB_BLACK
         else if flt (fsub f1 threshold) value then RGB_WHITE
         else c).

(** salt_n_pepper_noise.rs:20-24 and 26-30 *)
Definition salt_n_pepper_noise {R} (g : rng R) (s : R) (b : PixelBuffer Rgb) (threshold : f32)
  : res (R * PixelBuffer Rgb) := map_colors (salt_n_pepper g threshold) s b.
Definition add_salt_n_pepper_noise {R} (g : rng R) (s : R) (b : PixelBuffer Rgb) (threshold : f32)
  : res (R * PixelBuffer Rgb) := mod_colors (salt_n_pepper g threshold) s b.

(** rgb_noise.rs:5-20 *)
Definition rgb_noise_for_pixel {R} (g : rng R) (threshold : f32) (s : R) (c : Rgb) : res (R * Rgb) :=
  let '(s, value) := gen_unit g s in
  if flt value threshold then
    let '(s, i) := gen_three g s in
    Ok (s, if i =? 0 then with_0 c f1 else if i =? 1 then with_1 c f1 else with_2 c f1)
  else Ok (s, c).

(** rgb_noise.rs:22-26 and 28-32 *)
Definition rgb_noise {R} (g : rng R) (s : R) (b : PixelBuffer Rgb) (threshold : f32)
  : res (R * PixelBuffer Rgb) := map_colors (rgb_noise_for_pixel g threshold) s b.
Definition add_rgb_noise {R} (g : rng R) (s : R) (b : PixelBuffer Rgb) (threshold : f32)
  : res (R * PixelBuffer Rgb) := mod_colors (rgb_noise_for_pixel g threshold) s b.

(** random_noise.rs:13-14, gaussian_noise.rs:14-15: [alpha] is the strength *)
Definition mix_noise (strength noise v : f32) : f32 :=
  fadd (fmul noise strength) (fmul (fsub f1 strength) v).

(** random_noise.rs:5-17 and 19-31, for a buffer of colour type [k] *)
Definition random_noise {R} (g : rng R) (k : kind) (s : R) (b : PixelBuffer col) (strength : f32)
  : res (R * PixelBuffer col) :=
  map_colors (map_color_channels k (fun s v =>
    let '(s, noise) := gen_signed g s in Ok (s, mix_noise strength noise v))) s b.
Definition add_random_noise {R} (g : rng R) (k : kind) (s : R) (b : PixelBuffer col) (strength : f32)
  : res (R * PixelBuffer col) :=
  mod_colors (map_color_channels k (fun s v =>
    let '(s, noise) := gen_signed g s in Ok (s, mix_noise strength noise v))) s b.

(** gaussian_noise.rs:6-18 and 20-32 *)
Definition gaussian_noise {R} (g : rng R) (k : kind) (s : R) (b : PixelBuffer col) (strength : f32)
  : res (R * PixelBuffer col) :=
  map_colors (map_color_channels k (fun s v =>
    let '(s, noise) := gen_normal g s in Ok (s, mix_noise strength noise v))) s b.
Definition add_gaussian_noise {R} (g : rng R) (k : kind) (s : R) (b : PixelBuffer col) (strength : f32)
  : res (R * PixelBuffer col) :=
  mod_colors (map_color_channels k (fun s v =>
    let '(s, noise) := gen_normal g s in Ok (s, mix_noise strength noise v))) s b.

(** ** lightness.rs *)

(** lightness.rs:3-15 *)
Definition optimize_lightness (L : libm) (b : PixelBuffer Rgb) (factor : f32)
  : res (PixelBuffer Rgb) :=
  let sum := fold_left (fun sum c => dadd sum (f32_to_f64 (d2 (rgb_to_hsl c)))) (data b) (ofZ64 0) in
  let avg := ddiv sum (ofZ64 (zlen (data b))) in
  let gamma := fsub f1 (fmul (fsub (f64_to_f32 avg) (dec 5 10)) factor) in
  map_pure (with_gamma L gamma) b.

(** ** saturation.rs *)

(** saturation.rs:8-13 *)
Inductive saturation_mode := SHsl | SHsv | SLch.

(** saturation.rs:61-73 *)
Definition avg_saturation (L : libm) (b : PixelBuffer Rgb) (mode : saturation_mode) : f32 :=
  let sum := fold_left (fun sum c => fadd sum
      (match mode with
       | SHsl => d1 (rgb_to_hsl c)
       | SHsv => d1 (rgb_to_hsv c)
       | SLch => d1 (to_lch L D65 O2 KRgb c)
       end)) (data b) f0 in
  fdiv sum (ofZ (zlen (data b))).

(** saturation.rs:46-59 *)
Definition get_gamma_pow (gamma brightness : f32) : f32 :=
  let factor := fsub f1 (fmul (fabs (fsub brightness (dec 5 10))) f2) in
  let gamma :=
    if flt gamma f0 then let diff := fsub f1 gamma in fsub f1 (fmul diff factor)
    else let diff := fsub gamma f1 in fadd f1 (fmul diff factor) in
  fdiv f1 gamma.

(** saturation.rs:75-87 *)
Definition saturate_hsl (L : libm) (gamma : f32) (c : Rgb) : Rgb :=
  let hsl := rgb_to_hsl c in
  let pow := get_gamma_pow gamma (d2 hsl) in
  hsl_to_rgb (mkC (d0 hsl) (powf L (clamp (d1 hsl)) pow) (d2 hsl) (alpha c)).
(** saturation.rs:89-101 *)
Definition saturate_hsv (L : libm) (gamma : f32) (c : Rgb) : Rgb :=
  let hsv := rgb_to_hsv c in
  let pow := get_gamma_pow gamma (d2 hsv) in
  hsv_to_rgb (mkC (d0 hsv) (powf L (clamp (d1 hsv)) pow) (d2 hsv) (alpha c)).
(** saturation.rs:103-115 *)
Definition saturate_lch (L : libm) (gamma : f32) (c : Rgb) : Rgb :=
  let lch := to_lch L D65 O2 KRgb c in
  let pow := get_gamma_pow gamma (d0 lch) in
  to_rgb L (KLch D65 O2)
    (raw_new_with_alpha (d0 lch) (powf L (clamp (d1 lch)) pow) (d2 lch) (alpha c)).

(** saturation.rs:29-44 *)
Definition optimize_saturation (L : libm) (b : PixelBuffer Rgb) (offset : f32)
  (mode : saturation_mode) : res (PixelBuffer Rgb) :=
  let avg_sat := avg_saturation L b mode in
  let gamma := fadd offset (fdiv (fsub f1 avg_sat) (dec 15 10)) in
  map_pure (fun c => match mode with
                     | SHsl => saturate_hsl L gamma c
                     | SHsv => saturate_hsv L gamma c
                     | SLch => saturate_lch L gamma c
                     end) b.

(** ** temperature.rs *)

(** temperature.rs:86-99 *)
Definition TEMPERATURE_TABLE : list (f64 * f64) :=
  let e15 := 1000000000000000 in
  [(dec64 652750055750174 e15, dec64 344462227197370 e15);
   (dec64 526676280311873 e15, dec64 413297274507630 e15);
   (dec64 436929833678155 e15, dec64 404073616886221 e15);
   (dec64 380438429420364 e15, dec64 376746069841299 e15);
   (dec64 345100160725069 e15, dec64 351607005318840 e15);
   (dec64 322082269887888 e15, dec64 331752126277376 e15);
   (dec64 306372718718652 e15, dec64 316511125739794 e15);
   (dec64 295186142428596 e15, dec64 304763622626521 e15);
   (dec64 286924765725065 e15, dec64 295581717193809 e15);
   (dec64 280632719756407 e15, dec64 288286029784579 e15);
   (dec64 275714062105148 e15, dec64 282393589935205 e15);
   (dec64 271782994107569 e15, dec64 277561259748537 e15)].

(** temperature.rs:60-84 *)
Definition convert_kelvin_to_rgb (temperature : f32) : res Rgb :=
  let temperature := f_as_usize temperature in
  temperature <- clamp_int temperature 1000 12000;
  let i := temperature / 1000 in
  '(x, y) <- idx TEMPERATURE_TABLE (i - 1);
  let floor_temp := ofZ64 (i * 1000) in
  let temperature := ofZ64 temperature in
  '(x, y) <- (if dlt (ofZ64 1) (dabs (dsub temperature floor_temp)) then
                '(x2, y2) <- idx TEMPERATURE_TABLE i;
                let f := ddiv (dsub temperature floor_temp) (ofZ64 1000) in
                Ok (dadd (dmul x (dsub (ofZ64 1) f)) (dmul x2 f),
                    dadd (dmul y (dsub (ofZ64 1) f)) (dmul y2 f))
              else Ok (x, y));
  let z := dsub (dsub (ofZ64 1) x) y in
  let s := ddiv (ofZ64 1) y in
  Ok (xyz_to_rgb (raw_new (f64_to_f32 (dmul x s)) (f64_to_f32 (dmul y s)) (f64_to_f32 (dmul z s)))).

(** temperature.rs:49-58 *)
Definition calculate_factors (orig_temp new_temp : f32) : res (f32 * f32 * f32) :=
  orig <- convert_kelvin_to_rgb orig_temp;
  new <- convert_kelvin_to_rgb new_temp;
  Ok (fdiv (d0 orig) (d0 new), fdiv (d1 orig) (d1 new), fdiv (d2 orig) (d2 new)).

(** temperature.rs:101-119, 121-139, 141-159: [a] is the channel compared
    with [b] and [e]; [scale] multiplies the sum (the green one has none). *)
Definition tint_pow (L : libm) (term : Rgb -> f32) (scale : option f32) (b : PixelBuffer Rgb)
  (tint_correction : f32) : f32 :=
  if fle tint_correction f0 then f0
  else
    let sum := fold_left (fun sum c => fadd sum (term c)) (data b) f0 in
    let sum := match scale with Some k => fmul k sum | None => sum end in
    let avg := fdiv (fmul sum tint_correction) (ofZ (zlen (data b))) in
    if flt f0 avg then fdiv f1 (fsub f1 (ftanh L avg)) else f0.
Definition get_green_tint_pow (L : libm) (b : PixelBuffer Rgb) (t : f32) : f32 :=
  tint_pow L (fun c => fsub (fadd (fsub (d1 c) (d0 c)) (d1 c)) (d2 c)) None b t.
Definition get_red_tint_pow (L : libm) (b : PixelBuffer Rgb) (t : f32) : f32 :=
  tint_pow L (fun c => fsub (fadd (fsub (d0 c) (d1 c)) (d0 c)) (d2 c)) (Some (dec 25 100)) b t.
Definition get_blue_tint_pow (L : libm) (b : PixelBuffer Rgb) (t : f32) : f32 :=
  tint_pow L (fun c => fsub (fadd (fsub (d2 c) (d1 c)) (d2 c)) (d0 c)) (Some (dec 33 100)) b t.

(** temperature.rs:5-47 *)
Definition change_color_temperature (L : libm) (b : PixelBuffer Rgb)
  (orig_temp new_temp tint_correction : f32) : res (PixelBuffer Rgb) :=
  '(k0, k1, k2) <- calculate_factors orig_temp new_temp;
  let tint := if flt f0 tint_correction
              then fmax (get_green_tint_pow L b tint_correction) f0 else f0 in
  r <- (if flt f0 tint
        then map_pure (fun c => rgb_new_with_alpha (fmul (d0 c) k0) (fmul (powf L (d1 c) tint) k1)
                                                   (fmul (d2 c) k2) (alpha c)) b
        else map_pure (fun c => rgb_new_with_alpha (fmul (d0 c) k0) (fmul (d1 c) k1)
                                                   (fmul (d2 c) k2) (alpha c)) b);
  let red_pow := get_red_tint_pow L b tint_correction in
  let blue_pow := get_blue_tint_pow L b tint_correction in
  r <- (if flt f0 red_pow then map_pure (fun c => with_0 c (powf L (d0 c) red_pow)) r else Ok r);
  if flt f0 blue_pow then map_pure (fun c => with_2 c (powf L (d2 c) blue_pow)) r else Ok r.

(** temperature.rs:161-180 *)
Definition optimize_color_temperature (L : libm) (b : PixelBuffer Rgb) (factor tint_correction : f32)
  : res (PixelBuffer Rgb) :=
  let sum := fold_left (fun sum c => dadd sum (dsub (f32_to_f64 (d0 c)) (f32_to_f64 (d2 c))))
                       (data b) (ofZ64 0) in
  let avg := ddiv sum (ofZ64 (zlen (data b))) in
  let new_temp := f64_to_f32 (dsub (ofZ64 6500) (dmul (dtanh L avg) (dmul (f32_to_f64 factor) (ofZ64 4000)))) in
  change_color_temperature L b (ofZ 6500) new_temp tint_correction.
