(** Model of the FromStr implementations: the names of the enum variants. *)
From Coq Require Import List Bool String.
From Verif Require Import Base Color Blend Resample Kernel Ops Codec.
Import ListNotations.
Local Open Scope string_scope.

(** d10-core/src/errors.rs:5-17 *)
Record ParseEnumError := mkPEE { input : string; enum_type : string }.

(** [match value { "a" | "b" => Ok(x), .. _ => Err(..) }]: the first arm one of
    whose patterns is the value. *)
Fixpoint match_str {A} (value ty : string) (arms : list (list string * A)) : Result A ParseEnumError :=
  match arms with
  | [] => RErr (mkPEE value ty)
  | (patterns, a) :: arms => if existsb (String.eqb value) patterns then ROk a else match_str value ty arms
  end.

(** d10-core/src/color/rgb.rs:20-38 *)
Definition parse_intensity (s : string) : Result intensity ParseEnumError :=
  match_str s "Intensity"
    [(["average"], Average); (["rec601luma"], Rec601Luma); (["rec709luma"; "default"], Rec709Luma);
     (["brightness"], Brightness); (["lightness"], Lightness); (["saturation"], Saturation);
     (["red"], IRed); (["green"], IGreen); (["blue"], IBlue)].
(** d10-ops/src/filters.rs:17-31 *)
Definition parse_filter_mode (s : string) : Result filter_mode ParseEnumError :=
  match_str s "FilterMode"
    [(["nearest"], Nearest); (["bilinear"], Bilinear); (["bicubic"], Bicubic);
     (["lanczos3"; "Lanczos"], Lanczos3); (["default"; "auto"], Auto)].
(** d10-ops/src/blend.rs:71-92 *)
Definition parse_blend_op (s : string) : Result blend_op ParseEnumError :=
  match_str s "BlendOp"
    [(["normal"], Normal); (["addition"], Addition); (["subtract"], Subtract); (["darken"], Darken);
     (["lighten"], Lighten); (["hsl_darken"], HslDarken); (["hsl_lighten"], HslLighten);
     (["lch_darken"], LchDarken); (["lch_lighten"], LchLighten); (["lch_hue"], LchHue);
     (["lch_saturation"], LchSaturation); (["lch_color"], LchColor)].
(** d10-ops/src/edge_detection.rs:14-24 *)
Definition parse_edge_mode (s : string) : Result edge_mode ParseEnumError :=
  match_str s "EdgeDetection" [(["sobel"; "default"], Sobel); (["laplace"], Laplace)].
(** d10-ops/src/drawing.rs:15-26 *)
Definition parse_drawing_mode (s : string) : Result drawing_mode ParseEnumError :=
  match_str s "DrawingMode" [(["gray"], DGray); (["colored"; "default"], DColored); (["reduced_colors"], DReducedColors)].
(** d10-ops/src/saturation.rs:15-27 *)
Definition parse_saturation_mode (s : string) : Result saturation_mode ParseEnumError :=
  match_str s "SaturationMode" [(["hsl"; "default"], SHsl); (["hsv"], SHsv); (["lch"], SLch)].
(** d10-ops/src/equalize.rs:15-29 *)
Definition parse_equalize_mode (s : string) : Result equalize_mode ParseEnumError :=
  match_str s "EqualizeMode"
    [(["rgb"], ERgb); (["srgb"], ESrgb); (["saturation"], ESaturation); (["lightness"], ELightness);
     (["saturation_lightness"], ESaturationLightness)].
(** d10-ops/src/balance_channels.rs:104-118 *)
Definition parse_balance_mode (s : string) : Result balance_mode ParseEnumError :=
  match_str s "BalanceMode"
    [(["rgb"], BRgb); (["srgb"], BSrgb); (["hsv"], BHsv); (["hsl"], BHsl); (["lch"], BLch)].
(** d10-codecs/src/png.rs:29-46 *)
Definition parse_png_color_type (s : string) : Result PngColorType ParseEnumError :=
  match_str s "PngColorType"
    [(["l8"], PL8); (["la8"], PLa8); (["l16"], PL16); (["la16"], PLa16);
     (["rgb8"], PRgb8); (["rgba8"], PRgba8); (["rgb16"], PRgb16); (["rgba16"], PRgba16)].
(** d10-codecs/src/png.rs:69-83 *)
Definition parse_png_filter_type (s : string) : Result PngFilterType ParseEnumError :=
  match_str s "PngFilterType"
    [(["no_filter"], FNoFilter); (["sub"], FSub); (["up"], FUp); (["avg"], FAvg); (["paeth"], FPaeth)].
(** d10-codecs/src/png.rs:102-114 *)
Definition parse_png_compression (s : string) : Result PngCompression ParseEnumError :=
  match_str s "PngCompression" [(["default"], CDefault); (["fast"], CFast); (["best"], CBest)].
(** d10-codecs/src/jpeg.rs:66-91 *)
Definition parse_jpeg_sampling_factor (s : string) : Result JpegSamplingFactor ParseEnumError :=
  match_str s "JpegSamplingFactor"
    [(["1x1"], F_1_1); (["1x2"], F_1_2); (["2x1"], F_2_1); (["2x2"], F_2_2); (["4x1"], F_4_1);
     (["4x2"], F_4_2); (["1x4"], F_1_4); (["2x4"], F_2_4);
     (["4:4:4"], R_4_4_4); (["4:4:0"], R_4_4_0); (["4:4:1"], R_4_4_1); (["4:2:2"], R_4_2_2);
     (["4:2:0"], R_4_2_0); (["4:2:1"], R_4_2_1); (["4:1:1"], R_4_1_1); (["4:1:0"], R_4_1_0)].
(** d10-codecs/src/webp.rs:33-49 *)
Definition parse_webp_preset (s : string) : Result WebPPreset ParseEnumError :=
  match_str s "WebPPreset"
    [(["default"], WDefault); (["picture"], WPicture); (["photo"], WPhoto); (["drawing"], WDrawing);
     (["icon"], WIcon); (["text"], WText); (["lossless"], WLossless)].
(** d10-codecs/src/bmp.rs:22-35 *)
Definition parse_bmp_color_type (s : string) : Result BmpColorType ParseEnumError :=
  match_str s "BmpColorType" [(["l8"], BL8); (["la8"], BLa8); (["rgb8"], BRgb8); (["rgba8"], BRgba8)].
(** d10-codecs/src/ico.rs:22-35; the variants are those of bmp *)
Definition parse_ico_color_type (s : string) : Result BmpColorType ParseEnumError :=
  match_str s "IcoColorType" [(["l8"], BL8); (["la8"], BLa8); (["rgb8"], BRgb8); (["rgba8"], BRgba8)].
