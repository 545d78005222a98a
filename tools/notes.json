{
 "C17": [
  "proved",
  "Holds for offsets below 2^30; C17_interlace_large_offset_refuted shows that offsets of 2^31 and more, which wrap when cast to i32, shift the other way."
 ],
 "C19": [
  "proved",
  "The property is false of the code: C19_compose_total_refuted. C19_compose_panics_iff gives the exact condition."
 ],
 "C27": [
  "proved",
  "The property is false of the code: with_vibrance and difference always return alpha 1 (C27_vibrance_is_opaque, C27_difference_is_opaque, C27_vibrance_alpha_refuted)."
 ],
 "C30": [
  "proved",
  "The property is false of the code: equality is not transitive and NaN equals everything (the two _refuted theorems). C30_equality_is_closeness says what equality of in-gamut colours does mean."
 ],
 "C34": [
  "proved",
  "The property is false of the code: every grey level from 2^-15 up has a NaN hue (C34_hsv_of_grey_is_nan, C34_hsv_in_range_refuted). It holds for all other in-gamut colours (C34_hsv_in_range)."
 ],
 "C40": [
  "proved",
  "Finiteness is needed: C40_identity_kernel_infinite_refuted."
 ],
 "C41": [
  "proved",
  "Radius 0 with the default sigma violates the expectation (C41_blur_radius_0_is_nan, C41_unsharp_radius_0_is_nan)."
 ],
 "C42": [
  "proved",
  "Amounts of 9 and more violate the expectation (C42_despeckle_dark_area_is_nan)."
 ],
 "C74": [
  "proved",
  "Laplace mode leaves the gamut (C74_laplace_in_gamut_refuted)."
 ],
 "C75": [
  "proved",
  "Radius 0 without the centre gives NaN (C75_snn_radius_zero)."
 ],
 "C46": [
  "proved",
  "A user expects alpha to be kept; the code takes it from the palette (C46_palette_alpha)."
 ],
 "C49": [
  "proved",
  "The unrestricted identity is false of the code (C49_temperature_identity_refuted); C49_temperature_same gives the exact bound."
 ],
 "C53": [
  "proved",
  "The usual expectation is false of the code (C53_save_success_refuted, C53_save_failure_refuted); C53_save_result says exactly what the file holds. Write failures are modelled as a limit on the size of the file."
 ],
 "C54": [
  "proved",
  "False for PngColorType::L16 (C54_png_l16_layout_refuted); the other layouts are proved."
 ],
 "C59": [
  "proved",
  "Never panicking is false for huge JPEG images (C59_decode_panics_refuted); C59_decode_panics_exactly is an equivalence."
 ],
 "C60": [
  "proved",
  "False for 16 bit RGB (C60_rgb16_opaque_refuted) and CMYK white (C60_cmyk_white_refuted); proved for the other pixel formats, together with C79."
 ],
 "C78": [
  "proved",
  "Exactness is false for 16 bits (C78_dark16_exact_refuted)."
 ],
 "C81": [
  "proved",
  "A finding: both theorems state what the code does instead of keeping white."
 ],
 "C61": [
  "proved",
  "What a printed line looks like before a panic is not modelled."
 ],
 "C65": [
  "proved",
  "The expectation that the first file name is always opened is false: C65_silent_first_refuted."
 ],
 "C67": [
  "proved",
  "Every constructor, decoder and method of Image as one inductive definition of histories (ImageSpec); calls that panic are excluded. Decoders are assumed to return as much data as they announce (good_decoders)."
 ],
 "C68": [
  "proved",
  "Sides scaled within the stated error, success, 100 percent, and non-positive percentages."
 ],
 "C82": [
  "proved",
  "has_transparency is exact; is_grayscale up to the rounding of the subtraction."
 ],
 "C69": [
  "proved",
  "The round trips that fail in the code are stated as C69_bool_round_trip_refuted, C69_lcha_refuted and C69_u32_array_refuted; the panic on one-dimensional arrays is part of C69_import_errors."
 ],
 "C83": [
  "proved",
  "The modes that violate it: C83_import_range_refuted."
 ],
 "C87": [
  "proved",
  "The violation: C87_hue_two_turns_refuted."
 ],
 "C90": [
  "proved",
  "The violation: C90_setter_keeps_range_refuted."
 ],
 "C91": [
  "proved",
  "The violation: C91_text_of_extremes_refuted. f32::to_string is a parameter; C91_printing_exists shows one that meets its specification."
 ],
 "C92": [
  "proved",
  "The violation: C92_python_ne_refuted."
 ],
 "C96": [
  "proved",
  "The violation: C96_white_neutral_refuted."
 ],
 "C95": [
  "proved",
  "powf is a parameter with a bounded relative error; full_libm shows that the bound can be met."
 ],
 "C97": [
  "proved",
  "sin, cos, atan2 and powf are parameters with bounded errors; full_libm shows that the bounds can be met."
 ],
 "C99": [
  "proved",
  "The violation: C99_optimize_saturation_any_size_refuted."
 ],
 "C100": [
  "proved",
  "The violation: C100_temperature_red_kept_refuted."
 ],
 "C103": [
  "proved",
  "The violation: C103_color_blend_near_refuted."
 ]
}