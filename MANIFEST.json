{
 "claims": [
  {
   "property": "C01",
   "status": "proved",
   "theorems": [
    "C01_reachable_valid"
   ],
   "note": ""
  },
  {
   "property": "C02",
   "status": "proved",
   "theorems": [
    "C02_new_with_color_iff",
    "C02_is_valid_buffer_size_iff",
    "C02_new_from_raw_iff",
    "C02_new_from_func_iff"
   ],
   "note": ""
  },
  {
   "property": "C03",
   "status": "proved",
   "theorems": [
    "C03_put_get",
    "C03_access_panics_outside",
    "C03_put_laws"
   ],
   "note": ""
  },
  {
   "property": "C04",
   "status": "proved",
   "theorems": [
    "C04_new_from_func_runs",
    "C04_new_from_func_pixel",
    "C04_row_major_spec"
   ],
   "note": ""
  },
  {
   "property": "C05",
   "status": "proved",
   "theorems": [
    "C05_try_new_from_func_ok",
    "C05_try_new_from_func_err",
    "C05_try_map_colors_ok",
    "C05_try_map_colors_err",
    "C05_try_map_enumerated"
   ],
   "note": ""
  },
  {
   "property": "C06",
   "status": "proved",
   "theorems": [
    "C06_try_mod_colors_spec",
    "C06_try_mod_colors_enumerated_err",
    "C06_try_mod_colors_atomic_refuted"
   ],
   "note": ""
  },
  {
   "property": "C07",
   "status": "proved",
   "theorems": [
    "C07_enumerate_spec",
    "C07_map_colors_enumerated_spec"
   ],
   "note": ""
  },
  {
   "property": "C08",
   "status": "proved",
   "theorems": [
    "C08_clamped_nearest",
    "C08_clamped_inside_and_empty"
   ],
   "note": ""
  },
  {
   "property": "C09",
   "status": "proved",
   "theorems": [
    "C09_optional_spec"
   ],
   "note": ""
  },
  {
   "property": "C10",
   "status": "proved",
   "theorems": [
    "C10_kernel_is_clamped"
   ],
   "note": ""
  },
  {
   "property": "C11",
   "status": "proved",
   "theorems": [
    "C11_builds_agree_access",
    "C11_builds_agree_new",
    "C11_builds_agree_geometry"
   ],
   "note": ""
  },
  {
   "property": "C12",
   "status": "proved",
   "theorems": [
    "C12_rotate90_placement",
    "C12_rotate180_placement",
    "C12_rotate270_placement",
    "C12_turns_same_pixels"
   ],
   "note": ""
  },
  {
   "property": "C13",
   "status": "proved",
   "theorems": [
    "C13_rotate90_twice",
    "C13_rotate90_thrice",
    "C13_rotate90_four_times",
    "C13_rotate90_270_inverse",
    "C13_rotate180_involution"
   ],
   "note": ""
  },
  {
   "property": "C14",
   "status": "proved",
   "theorems": [
    "C14_flip_placement",
    "C14_flip_involutions",
    "C14_flips_make_rotate180",
    "C14_flip_conjugates_rotation"
   ],
   "note": ""
  },
  {
   "property": "C15",
   "status": "proved",
   "theorems": [
    "C15_crop_intersection",
    "C15_crop_size"
   ],
   "note": ""
  },
  {
   "property": "C16",
   "status": "proved",
   "theorems": [
    "C16_crop_full",
    "C16_crop_crop",
    "C16_crop_flip"
   ],
   "note": ""
  },
  {
   "property": "C17",
   "status": "proved",
   "theorems": [
    "C17_interlace_spec",
    "C17_interlace_zero",
    "C17_interlace_large_offset_refuted"
   ],
   "note": "Holds for offsets below 2^30; C17_interlace_large_offset_refuted shows that offsets of 2^31 and more, which wrap when cast to i32, shift the other way."
  },
  {
   "property": "C18",
   "status": "proved",
   "theorems": [
    "C18_compose_spec",
    "C18_compose_slice_agrees",
    "C18_try_compose_err"
   ],
   "note": ""
  },
  {
   "property": "C19",
   "status": "proved",
   "theorems": [
    "C19_compose_panics_iff",
    "C19_compose_total_refuted"
   ],
   "note": "The property is false of the code: C19_compose_total_refuted. C19_compose_panics_iff gives the exact condition."
  },
  {
   "property": "C20",
   "status": "proved",
   "theorems": [
    "C20_blend_overlap",
    "C20_blend_too_big"
   ],
   "note": ""
  },
  {
   "property": "C21",
   "status": "proved",
   "theorems": [
    "C21_resize_total",
    "C21_resize_same_size",
    "C21_resize_invalid_size",
    "C21_resize_empty_source"
   ],
   "note": ""
  },
  {
   "property": "C22",
   "status": "proved",
   "theorems": [
    "C22_nearest_resize_colors",
    "C22_nearest_rotate_colors"
   ],
   "note": ""
  },
  {
   "property": "C23",
   "status": "proved",
   "theorems": [
    "C23_nearest_upscale_source",
    "C23_nearest_upscale_repeats_refuted"
   ],
   "note": ""
  },
  {
   "property": "C24",
   "status": "proved",
   "theorems": [
    "C24_rotate_total",
    "C24_rotate_360"
   ],
   "note": ""
  },
  {
   "property": "C25",
   "status": "proved",
   "theorems": [
    "C25_constructors_clamp",
    "C25_operations_clamp",
    "C25_conversions_clamp"
   ],
   "note": ""
  },
  {
   "property": "C26",
   "status": "proved",
   "theorems": [
    "C26_operations_keep_alpha"
   ],
   "note": ""
  },
  {
   "property": "C27",
   "status": "proved",
   "theorems": [
    "C27_vibrance_is_opaque",
    "C27_difference_is_opaque",
    "C27_vibrance_alpha_refuted"
   ],
   "note": "The property is false of the code: with_vibrance and difference always return alpha 1 (C27_vibrance_is_opaque, C27_difference_is_opaque, C27_vibrance_alpha_refuted)."
  },
  {
   "property": "C28",
   "status": "proved",
   "theorems": [
    "C28_conversions_keep_alpha",
    "C28_buffer_conversion_keeps_alpha"
   ],
   "note": ""
  },
  {
   "property": "C29",
   "status": "proved",
   "theorems": [
    "C29_equality_reflexive_symmetric"
   ],
   "note": ""
  },
  {
   "property": "C30",
   "status": "proved",
   "theorems": [
    "C30_equality_transitive_refuted",
    "C30_nan_equality_refuted",
    "C30_equality_is_closeness"
   ],
   "note": "The property is false of the code: equality is not transitive and NaN equals everything (the two _refuted theorems). C30_equality_is_closeness says what equality of in-gamut colours does mean."
  },
  {
   "property": "C31",
   "status": "proved",
   "theorems": [
    "C31_gray_is_grey",
    "C31_gray_in_gamut",
    "C31_gray_of_grey"
   ],
   "note": ""
  },
  {
   "property": "C32",
   "status": "proved",
   "theorems": [
    "C32_invert_in_gamut",
    "C32_invert_twice"
   ],
   "note": ""
  },
  {
   "property": "C33",
   "status": "proved",
   "theorems": [
    "C33_hsl_in_range"
   ],
   "note": ""
  },
  {
   "property": "C34",
   "status": "proved",
   "theorems": [
    "C34_hsv_in_range",
    "C34_hsv_of_grey_is_nan",
    "C34_hsv_in_range_refuted"
   ],
   "note": "The property is false of the code: every grey level from 2^-15 up has a NaN hue (C34_hsv_of_grey_is_nan, C34_hsv_in_range_refuted). It holds for all other in-gamut colours (C34_hsv_in_range)."
  },
  {
   "property": "C35",
   "status": "proved",
   "theorems": [
    "C35_grey_round_trips"
   ],
   "note": ""
  },
  {
   "property": "C36",
   "status": "proved",
   "theorems": [
    "C36_hsl_to_rgb_in_gamut",
    "C36_hsv_to_rgb_in_gamut"
   ],
   "note": ""
  },
  {
   "property": "C37",
   "status": "proved",
   "theorems": [
    "C37_blend_opaque",
    "C37_blend_transparent",
    "C37_blend_in_gamut"
   ],
   "note": ""
  },
  {
   "property": "C38",
   "status": "proved",
   "theorems": [
    "C38_normal_intensity_0",
    "C38_plain_intensity_0",
    "C38_intensity_0_identity_refuted",
    "C38_hsl_intensity_0",
    "C38_lch_intensity_0"
   ],
   "note": ""
  },
  {
   "property": "C39",
   "status": "proved",
   "theorems": [
    "C39_fixed_is_dynamic",
    "C39_fixed_convolves",
    "C39_dynamic_convolves",
    "C39_blur_is_dynamic",
    "C39_blur_convolves",
    "C39_unsharp_spec"
   ],
   "note": ""
  },
  {
   "property": "C40",
   "status": "proved",
   "theorems": [
    "C40_identity_kernel_identity",
    "C40_identity_kernel_infinite_refuted"
   ],
   "note": "Finiteness is needed: C40_identity_kernel_infinite_refuted."
  },
  {
   "property": "C41",
   "status": "proved",
   "theorems": [
    "C41_blur_gives_numbers",
    "C41_blur_averages",
    "C41_unsharp_stays_in_gamut",
    "C41_unsharp_factor_0",
    "C41_blur_radius_0_is_nan",
    "C41_unsharp_radius_0_is_nan",
    "C41_blur_large_radius_panics"
   ],
   "note": "Radius 0 with the default sigma violates the expectation (C41_blur_radius_0_is_nan, C41_unsharp_radius_0_is_nan)."
  },
  {
   "property": "C42",
   "status": "proved",
   "theorems": [
    "C42_despeckle_spec",
    "C42_despeckle_stays_in_gamut",
    "C42_despeckle_dark_area_is_nan",
    "C42_despeckle_is_mean"
   ],
   "note": "Amounts of 9 and more violate the expectation (C42_despeckle_dark_area_is_nan)."
  },
  {
   "property": "C43",
   "status": "proved",
   "theorems": [
    "C43_equalize_rgb_spec",
    "C43_equalize_srgb_spec",
    "C43_equalize_hsl_spec",
    "C43_equalize_keeps_order"
   ],
   "note": ""
  },
  {
   "property": "C44",
   "status": "proved",
   "theorems": [
    "C44_histograms_total"
   ],
   "note": ""
  },
  {
   "property": "C45",
   "status": "proved",
   "theorems": [
    "C45_stretch_contrast_spec",
    "C45_stretch_contrast_alpha",
    "C45_stretch_contrast_unchanged",
    "C45_stretch_contrast_zero"
   ],
   "note": ""
  },
  {
   "property": "C46",
   "status": "proved",
   "theorems": [
    "C46_palette_closest",
    "C46_palette_empty",
    "C46_palette_alpha"
   ],
   "note": "A user expects alpha to be kept; the code takes it from the palette (C46_palette_alpha)."
  },
  {
   "property": "C47",
   "status": "proved",
   "theorems": [
    "C47_threshold_noise_draws",
    "C47_salt_and_pepper",
    "C47_rgb_noise_spec",
    "C47_noise_threshold_0"
   ],
   "note": ""
  },
  {
   "property": "C48",
   "status": "proved",
   "theorems": [
    "C48_mixed_noise_draws",
    "C48_noise_formula",
    "C48_noise_mixes",
    "C48_noise_alpha",
    "C48_noise_strength_0",
    "C48_noise_in_gamut"
   ],
   "note": ""
  },
  {
   "property": "C49",
   "status": "proved",
   "theorems": [
    "C49_temperature_total",
    "C49_temperature_same",
    "C49_temperature_identity_refuted"
   ],
   "note": "The unrestricted identity is false of the code (C49_temperature_identity_refuted); C49_temperature_same gives the exact bound."
  },
  {
   "property": "C50",
   "status": "proved",
   "theorems": [
    "C50_signature_exact",
    "C50_signature_unique",
    "C50_signature_missing",
    "C50_signature_first_bytes"
   ],
   "note": ""
  },
  {
   "property": "C51",
   "status": "proved",
   "theorems": [
    "C51_contents_decide",
    "C51_extension_decides",
    "C51_extension_unique",
    "C51_nothing_decides",
    "C51_one_library"
   ],
   "note": ""
  },
  {
   "property": "C52",
   "status": "proved",
   "theorems": [
    "C52_unknown_extension",
    "C52_known_extension"
   ],
   "note": ""
  },
  {
   "property": "C53",
   "status": "proved",
   "theorems": [
    "C53_save_touches_one",
    "C53_save_not_started",
    "C53_save_result",
    "C53_save_rejected",
    "C53_save_success_refuted",
    "C53_save_failure_refuted",
    "C53_save_to_buffer"
   ],
   "note": "The usual expectation is false of the code (C53_save_success_refuted, C53_save_failure_refuted); C53_save_result says exactly what the file holds. Write failures are modelled as a limit on the size of the file."
  },
  {
   "property": "C54",
   "status": "proved",
   "theorems": [
    "C54_png_layout_exact",
    "C54_image_layout_exact",
    "C54_jpeg_layout_exact",
    "C54_gif_layout_exact",
    "C54_png_l16_layout_refuted"
   ],
   "note": "False for PngColorType::L16 (C54_png_l16_layout_refuted); the other layouts are proved."
  },
  {
   "property": "C55",
   "status": "proved",
   "theorems": [
    "C55_sample_round_trip",
    "C55_sample_saturates"
   ],
   "note": ""
  },
  {
   "property": "C56",
   "status": "proved",
   "theorems": [
    "C56_alpha_round_trip"
   ],
   "note": ""
  },
  {
   "property": "C57",
   "status": "proved",
   "theorems": [
    "C57_webp_layout_exact",
    "C57_webp_word_unpacks"
   ],
   "note": ""
  },
  {
   "property": "C58",
   "status": "proved",
   "theorems": [
    "C58_oversize_rejected",
    "C58_oversize_only",
    "C58_within_limit"
   ],
   "note": ""
  },
  {
   "property": "C59",
   "status": "proved",
   "theorems": [
    "C59_decode_panics_exactly",
    "C59_decode_gives_valid",
    "C59_decode_panics_refuted"
   ],
   "note": "Never panicking is false for huge JPEG images (C59_decode_panics_refuted); C59_decode_panics_exactly is an equivalence."
  },
  {
   "property": "C60",
   "status": "proved",
   "theorems": [
    "C60_opaque_sources",
    "C60_opaque_cmyk",
    "C60_rgb16_opaque_refuted",
    "C60_cmyk_white_refuted"
   ],
   "note": "False for 16 bit RGB (C60_rgb16_opaque_refuted) and CMYK white (C60_cmyk_white_refuted); proved for the other pixel formats, together with C79."
  },
  {
   "property": "C61",
   "status": "proved",
   "theorems": [
    "C61_queue_in_order",
    "C61_queue_does_all",
    "C61_queue_panics_exactly",
    "C61_one_outcome",
    "C61_builder_recolours",
    "C61_builder_rotates"
   ],
   "note": "What a printed line looks like before a panic is not modelled."
  },
  {
   "property": "C62",
   "status": "proved",
   "theorems": [
    "C62_missing_image_exactly",
    "C62_missing_image_inert"
   ],
   "note": ""
  },
  {
   "property": "C63",
   "status": "proved",
   "theorems": [
    "C63_log_numbers"
   ],
   "note": ""
  },
  {
   "property": "C64",
   "status": "proved",
   "theorems": [
    "C64_arguments_to_commands",
    "C64_bad_arguments",
    "C64_bad_command_line_inert",
    "C64_good_command_line_runs"
   ],
   "note": ""
  },
  {
   "property": "C65",
   "status": "proved",
   "theorems": [
    "C65_first_file_opens",
    "C65_later_files_save",
    "C65_silent_first_refuted"
   ],
   "note": "The expectation that the first file name is always opened is false: C65_silent_first_refuted."
  },
  {
   "property": "C66",
   "status": "proved",
   "theorems": [
    "C66_names_exact",
    "C66_codec_names_exact"
   ],
   "note": ""
  },
  {
   "property": "C67",
   "status": "proved",
   "theorems": [
    "C67_calls_keep_metadata",
    "C67_obtainable_images",
    "C67_rotation_fill"
   ],
   "note": "Every constructor, decoder and method of Image as one inductive definition of histories (ImageSpec); calls that panic are excluded. Decoders are assumed to return as much data as they announce (good_decoders)."
  },
  {
   "property": "C68",
   "status": "proved",
   "theorems": [
    "C68_resize_pct_sides",
    "C68_resize_pct_succeeds",
    "C68_resize_pct_100",
    "C68_resize_pct_nonpositive"
   ],
   "note": "Sides scaled within the stated error, success, 100 percent, and non-positive percentages."
  },
  {
   "property": "C69",
   "status": "proved",
   "theorems": [
    "C69_image_to_array",
    "C69_image_to_gray_array",
    "C69_export_names",
    "C69_array_to_image",
    "C69_gray_array_to_image",
    "C69_import_errors",
    "C69_float_round_trip",
    "C69_mode_round_trip",
    "C69_array_round_trips",
    "C69_integer_round_trip",
    "C69_bool_round_trip_refuted",
    "C69_lcha_refuted",
    "C69_u32_array_refuted"
   ],
   "note": "The round trips that fail in the code are stated as C69_bool_round_trip_refuted, C69_lcha_refuted and C69_u32_array_refuted; the panic on one-dimensional arrays is part of C69_import_errors."
  },
  {
   "property": "C70",
   "status": "proved",
   "theorems": [
    "C70_normal_intensity_1",
    "C70_plain_intensity_1"
   ],
   "note": ""
  },
  {
   "property": "C71",
   "status": "proved",
   "theorems": [
    "C71_blend_in_gamut",
    "C71_blend_lch_clamps"
   ],
   "note": ""
  },
  {
   "property": "C72",
   "status": "proved",
   "theorems": [
    "C72_resize_in_gamut",
    "C72_resize_single_color",
    "C72_resize_single_color_bicubic"
   ],
   "note": ""
  },
  {
   "property": "C73",
   "status": "proved",
   "theorems": [
    "C73_rotate_by_0"
   ],
   "note": ""
  },
  {
   "property": "C74",
   "status": "proved",
   "theorems": [
    "C74_edge_detection_total",
    "C74_sobel_spec",
    "C74_sobel_stays_in_gamut",
    "C74_laplace_spec",
    "C74_laplace_in_gamut_refuted",
    "C74_uniform_image_has_no_edges"
   ],
   "note": "Laplace mode leaves the gamut (C74_laplace_in_gamut_refuted)."
  },
  {
   "property": "C75",
   "status": "proved",
   "theorems": [
    "C75_snn_spec",
    "C75_snn_stays_in_gamut",
    "C75_snn_radius_zero",
    "C75_snn_is_mean"
   ],
   "note": "Radius 0 without the centre gives NaN (C75_snn_radius_zero)."
  },
  {
   "property": "C76",
   "status": "proved",
   "theorems": [
    "C76_drawing_reduced_mode",
    "C76_drawing_total",
    "C76_drawing_gray_mode",
    "C76_drawing_colored_mode",
    "C76_drawing_steps"
   ],
   "note": ""
  },
  {
   "property": "C77",
   "status": "proved",
   "theorems": [
    "C77_white_balance",
    "C77_balance_spec"
   ],
   "note": ""
  },
  {
   "property": "C78",
   "status": "proved",
   "theorems": [
    "C78_dark_round_trip",
    "C78_dark16_exact_refuted"
   ],
   "note": "Exactness is false for 16 bits (C78_dark16_exact_refuted)."
  },
  {
   "property": "C79",
   "status": "proved",
   "theorems": [
    "C79_png_pixels",
    "C79_jpeg_pixels_exact",
    "C79_cmyk_pixels",
    "C79_gif_pixels",
    "C79_webp_pixels",
    "C79_image_pixels"
   ],
   "note": ""
  },
  {
   "property": "C80",
   "status": "proved",
   "theorems": [
    "C80_jpeg_quality_result",
    "C80_jpeg_quality_panics"
   ],
   "note": ""
  },
  {
   "property": "C81",
   "status": "proved",
   "theorems": [
    "C81_white_saved_refuted",
    "C81_white_round_trip_refuted"
   ],
   "note": "A finding: both theorems state what the code does instead of keeping white."
  },
  {
   "property": "C82",
   "status": "proved",
   "theorems": [
    "C82_has_transparency_exact",
    "C82_is_grayscale_bounds"
   ],
   "note": "has_transparency is exact; is_grayscale up to the rounding of the subtraction."
  },
  {
   "property": "C83",
   "status": "proved",
   "theorems": [
    "C83_import_in_range",
    "C83_gray_in_range",
    "C83_import_range_refuted"
   ],
   "note": "The modes that violate it: C83_import_range_refuted."
  },
  {
   "property": "C84",
   "status": "proved",
   "theorems": [
    "C84_brightness",
    "C84_contrast",
    "C84_brightness_contrast",
    "C84_inverted",
    "C84_distances",
    "C84_gray",
    "C84_gray_default",
    "C84_sepia",
    "C84_blended",
    "C84_gamma_power",
    "C84_gamma_opt_power",
    "C84_level"
   ],
   "note": ""
  },
  {
   "property": "C85",
   "status": "proved",
   "theorems": [
    "C85_colour_of_hsl",
    "C85_hsl_of_colour",
    "C85_hsl_and_back",
    "C85_saturation_gray"
   ],
   "note": ""
  },
  {
   "property": "C86",
   "status": "proved",
   "theorems": [
    "C86_colour_of_hsv",
    "C86_hsv_of_colour",
    "C86_hsv_and_back"
   ],
   "note": ""
  },
  {
   "property": "C87",
   "status": "proved",
   "theorems": [
    "C87_saturated",
    "C87_saturation_stretched",
    "C87_saturation_gamma",
    "C87_lightened",
    "C87_modulated",
    "C87_hue_turned",
    "C87_hue_two_turns_refuted"
   ],
   "note": "The violation: C87_hue_two_turns_refuted."
  },
  {
   "property": "C88",
   "status": "proved",
   "theorems": [
    "C88_srgb_decodes",
    "C88_srgb_encodes",
    "C88_srgb_and_back",
    "C88_linear_and_back"
   ],
   "note": ""
  },
  {
   "property": "C89",
   "status": "proved",
   "theorems": [
    "C89_samples_survive",
    "C89_rounding_would_be_exact"
   ],
   "note": ""
  },
  {
   "property": "C90",
   "status": "proved",
   "theorems": [
    "C90_getters",
    "C90_setters",
    "C90_with_methods",
    "C90_no_other_accessor",
    "C90_setter_keeps_range_refuted",
    "C90_from_function"
   ],
   "note": "The violation: C90_setter_keeps_range_refuted."
  },
  {
   "property": "C91",
   "status": "proved",
   "theorems": [
    "C91_text_of_colour",
    "C91_text_tells_colours_apart",
    "C91_text_of_extremes_refuted"
   ],
   "note": "The violation: C91_text_of_extremes_refuted. f32::to_string is a parameter; C91_printing_exists shows one that meets its specification."
  },
  {
   "property": "C92",
   "status": "proved",
   "theorems": [
    "C92_python_new",
    "C92_python_to_lab_lch",
    "C92_python_lab_lch",
    "C92_python_lab_lch_error",
    "C92_python_eq",
    "C92_python_eq_other_class",
    "C92_python_ne_refuted",
    "C92_python_order"
   ],
   "note": "The violation: C92_python_ne_refuted."
  },
  {
   "property": "C93",
   "status": "proved",
   "theorems": [
    "C93_into_items",
    "C93_into_list"
   ],
   "note": ""
  },
  {
   "property": "C94",
   "status": "proved",
   "theorems": [
    "C94_xyz_of_colour",
    "C94_colour_of_xyz",
    "C94_xyz_and_back"
   ],
   "note": ""
  },
  {
   "property": "C95",
   "status": "proved",
   "theorems": [
    "C95_yuv_of_colour",
    "C95_colour_of_yuv",
    "C95_yuv_and_back_srgb",
    "C95_yuv_and_back"
   ],
   "note": "powf is a parameter with a bounded relative error; full_libm shows that the bound can be met."
  },
  {
   "property": "C96",
   "status": "proved",
   "theorems": [
    "C96_lab_of_xyz",
    "C96_xyz_of_lab",
    "C96_lab_and_back",
    "C96_greys_neutral",
    "C96_white_neutral_refuted"
   ],
   "note": "The violation: C96_white_neutral_refuted."
  },
  {
   "property": "C97",
   "status": "proved",
   "theorems": [
    "C97_lch_is_polar",
    "C97_lch_and_back"
   ],
   "note": "sin, cos, atan2 and powf are parameters with bounded errors; full_libm shows that the bounds can be met."
  },
  {
   "property": "C98",
   "status": "proved",
   "theorems": [
    "C98_optimize_lightness_is_gamma"
   ],
   "note": ""
  },
  {
   "property": "C99",
   "status": "proved",
   "theorems": [
    "C99_optimize_saturation_hsl",
    "C99_optimize_saturation_hsv",
    "C99_optimize_saturation_lch",
    "C99_optimize_saturation_any_size_refuted"
   ],
   "note": "The violation: C99_optimize_saturation_any_size_refuted."
  },
  {
   "property": "C100",
   "status": "proved",
   "theorems": [
    "C100_temperature_formula",
    "C100_temperature_red_kept_refuted"
   ],
   "note": "The violation: C100_temperature_red_kept_refuted."
  },
  {
   "property": "C101",
   "status": "proved",
   "theorems": [
    "C101_optimize_temperature_formula"
   ],
   "note": ""
  },
  {
   "property": "C102",
   "status": "proved",
   "theorems": [
    "C102_normal_blend",
    "C102_plain_blend",
    "C102_hsl_darken_blend",
    "C102_hsl_lighten_blend",
    "C102_lch_darken_blend",
    "C102_lch_lighten_blend",
    "C102_lch_saturation_blend"
   ],
   "note": ""
  },
  {
   "property": "C103",
   "status": "proved",
   "theorems": [
    "C103_hue_blend",
    "C103_color_blend",
    "C103_color_blend_near_refuted"
   ],
   "note": "The violation: C103_color_blend_near_refuted."
  },
  {
   "property": "C104",
   "status": "proved",
   "theorems": [
    "C104_bilinear_resize",
    "C104_bicubic_resize",
    "C104_nearest_resize"
   ],
   "note": ""
  },
  {
   "property": "C105",
   "status": "proved",
   "theorems": [
    "C105_bilinear_rotate",
    "C105_bicubic_rotate",
    "C105_nearest_rotate",
    "C105_background_rotate"
   ],
   "note": ""
  },
  {
   "property": "C106",
   "status": "proved",
   "theorems": [
    "C106_lanczos3_resize",
    "C106_auto_resize",
    "C106_lanczos3_rotate",
    "C106_plain_white_refuted"
   ],
   "note": ""
  },
  {
   "property": "C107",
   "status": "proved",
   "theorems": [
    "C107_tint_formula",
    "C107_tint_large_refuted"
   ],
   "note": ""
  },
  {
   "property": "C108",
   "status": "proved",
   "theorems": [
    "C108_blur_formula",
    "C108_unsharp_formula",
    "C108_sobel_formula"
   ],
   "note": ""
  },
  {
   "property": "C109",
   "status": "proved",
   "theorems": [
    "C109_stretch_formula",
    "C109_stretch_plain_refuted"
   ],
   "note": ""
  },
  {
   "property": "C110",
   "status": "proved",
   "theorems": [
    "C110_balance_formula",
    "C110_balance_range_refuted"
   ],
   "note": ""
  },
  {
   "property": "C111",
   "status": "proved",
   "theorems": [
    "C111_python_new",
    "C111_python_lists",
    "C111_python_list_round_trip",
    "C111_python_getitem",
    "C111_python_setitem_refuted",
    "C111_python_mod_colors",
    "C111_python_mod_colors_enumerated",
    "C111_python_map_colors",
    "C111_python_map_colors_enumerated",
    "C111_python_compose",
    "C111_python_compose_raises",
    "C111_python_open",
    "C111_python_get_pixel_clamped"
   ],
   "note": ""
  },
  {
   "property": "C112",
   "status": "proved",
   "theorems": [
    "C112_python_calls",
    "C112_python_defaults",
    "C112_python_formats",
    "C112_python_save_defaults_refuted",
    "C112_python_palette_in_place",
    "C112_python_noise"
   ],
   "note": ""
  },
  {
   "property": "C113",
   "status": "proved",
   "theorems": [
    "C113_vibrance_formula"
   ],
   "note": ""
  },
  {
   "property": "C114",
   "status": "proved",
   "theorems": [
    "C114_plain_area_is_white",
    "C114_plain_area_keeps_colour"
   ],
   "note": ""
  },
  {
   "property": "C115",
   "status": "proved",
   "theorems": [
    "C115_webp_lossless_refuted",
    "C115_webp_lossless_levels",
    "C115_webp_quality"
   ],
   "note": ""
  },
  {
   "property": "C116",
   "status": "proved",
   "theorems": [
    "C116_png_memory_reopened",
    "C116_png_file_reopened",
    "C116_png_saved_reopened",
    "C116_image_memory_reopened",
    "C116_file_like_memory",
    "C116_alpha_step"
   ],
   "note": ""
  },
  {
   "property": "C117",
   "status": "proved",
   "theorems": [
    "C117_generations",
    "C117_generation_loss_refuted",
    "C117_lowered_samples"
   ],
   "note": ""
  },
  {
   "property": "C118",
   "status": "proved",
   "theorems": [
    "C118_gif_opened",
    "C118_gif_screen_refuted",
    "C118_gif_only_first",
    "C118_gif_no_frame",
    "C118_gif_saved_again"
   ],
   "note": ""
  },
  {
   "property": "C119",
   "status": "proved",
   "theorems": [
    "C119_program_output",
    "C119_invert_program",
    "C119_brightness_program",
    "C119_contrast_program",
    "C119_grayscale_program"
   ],
   "note": ""
  },
  {
   "property": "C120",
   "status": "proved",
   "theorems": [
    "C120_palette_nearest",
    "C120_palette_twice",
    "C120_palette_cie76_refuted"
   ],
   "note": ""
  },
  {
   "property": "C121",
   "status": "proved",
   "theorems": [
    "C121_borrows_returned",
    "C121_others_unchanged",
    "C121_no_aliases",
    "C121_modified_is_busy",
    "C121_in_use_is_busy",
    "C121_calls_are_busy",
    "C121_mod_colors_calls",
    "C121_map_colors_calls",
    "C121_own_palette",
    "C121_compose_raises_refuted",
    "C121_save_while_read_refuted",
    "C121_methods_read_objects",
    "C121_methods_change_objects",
    "C121_attributes_of_objects",
    "C121_mod_colors_enumerated_calls",
    "C121_map_colors_enumerated_calls",
    "C121_compose_calls",
    "C121_compose_of_objects",
    "C121_map_color_channels_calls"
   ],
   "note": ""
  },
  {
   "property": "C122",
   "status": "proved",
   "theorems": [
    "C122_colours_and_turns",
    "C122_colours_and_crop",
    "C122_colours_and_interlace",
    "C122_colours_and_resize",
    "C122_statistics_and_turns",
    "C122_blend_and_turns"
   ],
   "note": ""
  },
  {
   "property": "C123",
   "status": "proved",
   "theorems": [
    "C123_kernel_new_iff",
    "C123_kernel_get",
    "C123_kernel_get_outside_refuted",
    "C123_kernel_weights",
    "C123_ready_made_sobel"
   ],
   "note": ""
  },
  {
   "property": "C124",
   "status": "proved",
   "theorems": [
    "C124_blur_keeps_order_any_sigma",
    "C124_tone_keeps_images",
    "C124_levels_with_any_points",
    "C124_exchanged_levels_refuted",
    "C124_moves_keep_order",
    "C124_tone_changes",
    "C124_tone_changes_in_a_row",
    "C124_program_tone",
    "C124_not_brighter_kept",
    "C124_saturation_grey_refuted",
    "C124_samples_in_order",
    "C124_stretch_tone",
    "C124_blur_keeps_order",
    "C124_nearest_keeps_order",
    "C124_bilinear_nearly_keeps_order",
    "C124_resize_order_refuted"
   ],
   "note": ""
  },
  {
   "property": "C125",
   "status": "proved",
   "theorems": [
    "C125_same_surroundings_same_result",
    "C125_filter_in_tiles",
    "C125_far_edits_do_not_matter"
   ],
   "note": ""
  },
  {
   "property": "C126",
   "status": "proved",
   "theorems": [
    "C126_channels_treated_alike",
    "C126_grey_images_stay_grey"
   ],
   "note": ""
  },
  {
   "property": "C127",
   "status": "proved",
   "theorems": [
    "C127_components_apart",
    "C127_colours_ignore_alpha",
    "C127_alpha_ignores_colours",
    "C127_hidden_stays_hidden",
    "C127_hidden_colours_show_refuted"
   ],
   "note": ""
  },
  {
   "property": "C128",
   "status": "proved",
   "theorems": [
    "C128_python_like_queue",
    "C128_python_like_command_line",
    "C128_python_channels",
    "C128_unknown_name_ends_program"
   ],
   "note": ""
  },
  {
   "property": "C129",
   "status": "proved",
   "theorems": [
    "C129_release_like_debug_programs",
    "C129_release_like_debug_calls",
    "C129_release_like_debug_compose",
    "C129_tool_same_in_both_builds",
    "C129_usual_calls_return",
    "C129_builds_differ_refuted"
   ],
   "note": ""
  },
  {
   "property": "C130",
   "status": "proved",
   "theorems": [
    "C130_blur_and_turns",
    "C130_unsharp_and_turns",
    "C130_sobel_and_turns",
    "C130_blur_keeps_alike",
    "C130_blur_of_mixture",
    "C130_blur_stays_between",
    "C130_sobel_ignores_brightness",
    "C130_resize_and_mirror_refuted",
    "C130_interlace_and_mirror_refuted"
   ],
   "note": ""
  },
  {
   "property": "C131",
   "status": "proved",
   "theorems": [
    "C131_python_methods",
    "C131_python_unknown_gray",
    "C131_python_methods_on_images",
    "C131_commands_compute_methods"
   ],
   "note": ""
  },
  {
   "property": "C132",
   "status": "proved",
   "theorems": [
    "C132_neutral_settings",
    "C132_neutral_brightness",
    "C132_neutral_vibrance",
    "C132_neutral_commands",
    "C132_neutral_program",
    "C132_brightness_adds_up",
    "C132_contrast_multiplies",
    "C132_gamma_multiplies",
    "C132_brightness_undone",
    "C132_contrast_undone",
    "C132_gamma_undone",
    "C132_cut_off_is_lost_refuted"
   ],
   "note": ""
  },
  {
   "property": "C133",
   "status": "proved",
   "theorems": [
    "C133_greys_have_no_hue",
    "C133_no_saturation",
    "C133_gray_again",
    "C133_saturation_gray_again_refuted",
    "C133_weak_stretch_reddens_refuted",
    "C133_grey_stays_grey_in_files"
   ],
   "note": ""
  },
  {
   "property": "C134",
   "status": "proved",
   "theorems": [
    "C134_tone_line",
    "C134_tone_formula",
    "C134_tone_line_program",
    "C134_repeated_brightness",
    "C134_order_of_tones_matters"
   ],
   "note": ""
  },
  {
   "property": "C135",
   "status": "proved",
   "theorems": [
    "C135_order_of_layers",
    "C135_stack_of_layers",
    "C135_same_layer_twice",
    "C135_layer_minus_itself",
    "C135_layers_give_layers",
    "C135_layers_absorb",
    "C135_black_and_white_layers",
    "C135_three_layers_added",
    "C135_layer_taken_away",
    "C135_three_images_added",
    "C135_image_taken_away",
    "C135_layer_taken_away_refuted",
    "C135_order_of_transparent_layers_refuted",
    "C135_stack_of_sizes_refuted"
   ],
   "note": ""
  },
  {
   "property": "C136",
   "status": "proved",
   "theorems": [
    "C136_methods_act",
    "C136_random_methods_act",
    "C136_methods_in_a_row",
    "C136_in_place_or_new",
    "C136_rotation_fills",
    "C136_functions_on_images",
    "C136_compose_on_images",
    "C136_resize_pct_is_resize"
   ],
   "note": ""
  },
  {
   "property": "C137",
   "status": "proved",
   "theorems": [
    "C137_pile_on_opaque_colour",
    "C137_pile_on_opaque_image",
    "C137_layers_in_groups",
    "C137_opacity_of_two",
    "C137_layer_on_nothing",
    "C137_layer_on_nothing_refuted",
    "C137_layers_in_groups_refuted"
   ],
   "note": ""
  }
 ]
}
