(** What the methods of Python colours compute (the vocabulary of C131). *)
From Coq Require Import Reals ZArith List String.
From Flocq Require Import IEEE754.BinarySingleNaN.
From Verif Require Import F32 Color ColorSpec MeaningSpec DrawSpec LanczosSpec CliSpec PySpec PyColor.
Open Scope R_scope.

(** Arguments for which the formula below holds, and what it needs of the math
    library. *)
Definition reasonable (L : libm) (f : py_method) : Prop :=
  match f with
  | ToGray n => exists i, called intensity_names n "rec709luma" i
  | Invert | WithSepia => True
  | Difference d | AlphaBlend d => in_gamut d
  | WithGamma g | WithGammaOpt g => accurate_powf L /\ usual_gamma g
  | WithLevel black white g => accurate_powf L /\ in01 black /\ in01 white /\ / 2 ^ 20 <= B2R white - B2R black /\ usual_gamma g
  | WithBrightness v | WithContrast v | WithSaturation v | StretchSaturation v | WithLightness v => moderate v
  | WithBrightnessContrast b v => moderate b /\ moderate v
  | WithGammaSaturation g => accurate_powf L /\ bounded_powf L /\ usual_gamma g
  | WithHueRotate d => is_finite d = true /\ Rabs (B2R d) <= 360
  | WithVibrance v => accurate_sine L /\ is_finite v = true /\ Rabs (B2R v) <= 1000
  | Modulate h s l => moderate h /\ moderate s /\ moderate l
  end.

(** [o] is what the method [f] makes of the colour [c]. *)
Definition method_formula (L : libm) (f : py_method) (c o : Rgb) : Prop :=
  let r := B2R (d0 c) in let g := B2R (d1 c) in let b := B2R (d2 c) in
  let hsl := to_hsl L KRgb c in
  let h := B2R (d0 hsl) in let s := B2R (d1 hsl) in let l := B2R (d2 hsl) in
  match f with
  | ToGray n => d3 o = d3 c /\ forall i, called intensity_names n "rec709luma" i ->
      match gray_formula i r g b with Some y => colour_close (/ 2 ^ 21) y y y o | None => colour_close 0 s s s o end
  | Invert => channelwise (/ 2 ^ 25) (fun v => 1 - v) c o
  | Difference d => colour_close (/ 2 ^ 25) (Rabs (r - B2R (d0 d))) (Rabs (g - B2R (d1 d))) (Rabs (b - B2R (d2 d))) o /\ d3 o = f1
  | WithGamma gamma => channelwise (/ 2 ^ 19) (gamma_formula (B2R gamma)) c o
  | WithGammaOpt gamma => channelwise (/ 2 ^ 19) (gamma_opt_formula (B2R gamma)) c o
  | WithLevel black white gamma =>
      let stretched v t := 0 <= t <= 1 /\ Rabs (t - limited ((v - B2R black) / (B2R white - B2R black))) <= / 2 ^ 20 in
      let level v x := exists t, stretched v t /\ close (/ 2 ^ 19) (gamma_formula (B2R gamma) t) x in
      level r (d0 o) /\ level g (d1 o) /\ level b (d2 o) /\ d3 o = d3 c
  | WithBrightness k => channelwise (/ 2 ^ 24) (fun v => limited (v + B2R k)) c o
  | WithContrast k => channelwise ((4 + 4 * Rabs (B2R k)) / 2 ^ 24) (fun v => limited ((v - / 2) * B2R k + / 2)) c o
  | WithBrightnessContrast br k =>
      channelwise ((1 + Rabs (B2R k)) * (8 + 5 * Rabs (B2R br)) / 2 ^ 24) (fun v => limited ((v + B2R br - / 2) * B2R k + / 2)) c o
  | WithSaturation k => is_hsl (/ 2 ^ 17) h (limited (s * B2R k)) l o /\ d3 o = d3 c
  | StretchSaturation k => is_hsl ((1 + Rabs (B2R k)) / 2 ^ 17) h (limited ((s - / 2) * B2R k + / 2)) l o /\ d3 o = d3 c
  | WithGammaSaturation gamma => is_hsl (/ 2 ^ 17) h (gamma_formula (B2R gamma) s) l o /\ d3 o = d3 c
  | WithLightness k => is_hsl (/ 2 ^ 17) h s (limited (l * B2R k)) o /\ d3 o = d3 c
  | WithHueRotate degrees => exists n : Z, let t := h + B2R degrees / 360 + IZR n in 0 <= t <= 1 /\ is_hsl (/ 2 ^ 17) t s l o /\ d3 o = d3 c
  | AlphaBlend top =>
      let a := B2R (d3 top) in let mix v t := t * a + (1 - a) * v in
      colour_close (/ 2 ^ 22) (mix r (B2R (d0 top))) (mix g (B2R (d1 top))) (mix b (B2R (d2 top))) o /\
      close (/ 2 ^ 22) (Rmin (B2R (d3 c) + a) 1) (d3 o)
  | WithVibrance k => is_hsl ((1 + Rabs (B2R k)) / 2 ^ 15) h (vibrant (B2R k) h s) l o /\ d3 o = f1
  | WithSepia => colour_close (/ 2 ^ 21)
      (limited (393 / 1000 * r + 769 / 1000 * g + 189 / 1000 * b))
      (limited (349 / 1000 * r + 686 / 1000 * g + 168 / 1000 * b))
      (limited (272 / 1000 * r + 534 / 1000 * g + 131 / 1000 * b)) o /\ d3 o = d3 c
  | Modulate kh ks kl => is_hsl (/ 2 ^ 17) (limited (h * B2R kh)) (limited (s * B2R ks)) (limited (l * B2R kl)) o /\ d3 o = d3 c
  end.
