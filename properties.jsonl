{"id": "C01", "title": "Every buffer has exactly width*height pixels", "statement": "Whatever public constructors, pixel writes, colour mappings and geometric operations are applied, in whatever order, every PixelBuffer that results satisfies data().len() == width*height, has width==0 exactly when height==0, and has at most MAX_BUFFER_SIZE pixels.", "quantifier": "all colour types, all constructors and all finite sequences of operations with all arguments", "why_tests_cant": "A test follows a few sequences; the invariant has to survive every history.", "anchors": ["d10-core/src/pixelbuffer.rs:PixelBuffer", "d10-ops/src/rotate_90.rs", "d10-ops/src/flip.rs", "d10-ops/src/crop.rs", "d10-ops/src/interlace.rs", "d10-ops/src/compose.rs"]}
{"id": "C02", "title": "Constructors accept exactly the valid sizes", "statement": "new, new_with_color and new_from_func succeed exactly when is_valid_buffer_size(width,height), i.e. both dimensions are zero or both are positive with width*height <= 1073741823; new_from_raw additionally needs data.len()==width*height; otherwise they panic and no buffer exists.", "quantifier": "all u32 widths and heights, all data vectors, debug and release builds", "why_tests_cant": "2^64 pairs of dimensions; the interesting ones need gigabytes or wrap around u32.", "anchors": ["d10-core/src/pixelbuffer.rs:is_valid_buffer_size", "d10-core/src/pixelbuffer.rs:new_with_color", "d10-core/src/pixelbuffer.rs:new_from_raw", "d10-core/src/pixelbuffer.rs:new_from_func"]}
{"id": "C03", "title": "Reading a pixel after writing one", "statement": "After put_pixel(x,y,c), get_pixel(x,y) is c and get_pixel at every other coordinate is unchanged, as are width and height; both calls succeed exactly for x<width and y<height and panic otherwise.", "quantifier": "all valid buffers, all coordinates, all colours", "why_tests_cant": "The frame condition ranges over all other pixels of all image sizes.", "anchors": ["d10-core/src/pixelbuffer.rs:get_pixel", "d10-core/src/pixelbuffer.rs:put_pixel"]}
{"id": "C04", "title": "Building from a function calls it once per pixel in row-major order", "statement": "new_from_func(w,h,f) calls f exactly once for every (x,y), row by row from the left, and get_pixel(x,y) is the value that call returned, also when f carries mutable state.", "quantifier": "all valid sizes, all stateful closures", "why_tests_cant": "Closures and sizes are unbounded.", "anchors": ["d10-core/src/pixelbuffer.rs:new_from_func", "d10-core/src/pixelbuffer.rs:try_new_from_func"]}
{"id": "C05", "title": "Fallible constructors and maps return the first error", "statement": "try_new_from_func, try_map_colors and try_map_colors_enumerated return Ok exactly when the closure succeeds on every pixel, and otherwise return the error of the first failing pixel in row-major order, without calling the closure on later pixels.", "quantifier": "all buffers, all stateful fallible closures", "why_tests_cant": "Which pixel fails, and how many calls were made, ranges over all histories.", "anchors": ["d10-core/src/pixelbuffer.rs:try_new_from_func", "d10-core/src/pixelbuffer.rs:try_map_colors", "d10-core/src/pixelbuffer.rs:try_map_colors_enumerated"]}
{"id": "C06", "title": "In-place fallible modification changes exactly the prefix before the error", "statement": "When try_mod_colors returns Err the pixels before the failing one hold their new values and the failing pixel and all later ones are untouched; when it returns Ok every pixel has been replaced. It is therefore not atomic.", "quantifier": "all buffers, all stateful fallible closures and failing positions", "why_tests_cant": "The failing position is a crash point over all pixels.", "anchors": ["d10-core/src/pixelbuffer.rs:try_mod_colors", "d10-core/src/pixelbuffer.rs:try_mod_colors_enumerated"]}
{"id": "C07", "title": "enumerate visits every pixel once with its own coordinates", "statement": "enumerate() yields every (x,y) with x<width, y<height exactly once, in row-major order, paired with get_pixel(x,y); the enumerated mapping functions hand the closure those coordinates.", "quantifier": "all valid buffers", "why_tests_cant": "Coordinates come from division and remainder on u32-truncated indices for all sizes.", "anchors": ["d10-core/src/pixelbuffer.rs:enumerate", "d10-core/src/pixelbuffer.rs:enumerate_mut", "d10-core/src/pixelbuffer.rs:map_colors_enumerated", "d10-core/src/pixelbuffer.rs:mod_colors_enumerated"]}
{"id": "C08", "title": "Clamped reads return the nearest edge pixel and never fail on a non-empty image", "statement": "get_pixel_clamped(x,y) on a non-empty buffer returns the pixel whose coordinates are nearest to (x,y) inside the image, for every i32 pair including the extremes; on an empty buffer it panics.", "quantifier": "all valid buffers, all i32 coordinates, debug and release builds", "why_tests_cant": "i32 extremes and maximal widths cannot be sampled exhaustively.", "anchors": ["d10-core/src/pixelbuffer.rs:get_pixel_clamped"]}
{"id": "C09", "title": "Optional reads return Some exactly inside the image", "statement": "get_pixel_optional(x,y) is Some(get_pixel(x,y)) when is_in_image(x,y), i.e. 0<=x<width and 0<=y<height, and None otherwise; it never panics.", "quantifier": "all valid buffers, all i32 coordinates", "why_tests_cant": "All of i32 x i32 times all sizes.", "anchors": ["d10-core/src/pixelbuffer.rs:get_pixel_optional", "d10-core/src/pixelbuffer.rs:is_in_image"]}
{"id": "C10", "title": "The neighbourhood fast path equals the clamped definition", "statement": "get_kernel::<N>(x,y)[ty][tx] and get_kernel_dyn(x,y,N)[ty][tx] both equal get_pixel_clamped(x-N/2+tx, y-N/2+ty) for every odd or even N, whether or not the row-copying fast path is taken; they do not panic on non-empty images.", "quantifier": "all valid non-empty buffers, all N, all coordinates whose neighbourhood coordinates fit i32", "why_tests_cant": "The fast path triggers on an inequality over all positions, sizes and N.", "anchors": ["d10-core/src/pixelbuffer.rs:get_kernel", "d10-core/src/pixelbuffer.rs:get_kernel_dyn"]}
{"id": "C11", "title": "Debug and release builds agree", "statement": "For a valid buffer every constructor, accessor and geometric operation returns the same result, or panics alike, with overflow checks on and off: no index computation overflows u32 or i32 for any in-range argument.", "quantifier": "all valid buffers and arguments, both overflow modes", "why_tests_cant": "Overflow needs images of a billion pixels.", "anchors": ["d10-core/src/pixelbuffer.rs", "d10-ops/src/rotate_90.rs", "d10-ops/src/flip.rs", "d10-ops/src/crop.rs"]}
{"id": "C12", "title": "Quarter turns place every pixel exactly", "statement": "rotate90 swaps the dimensions and moves pixel (x,y) to (height-1-y, x); rotate180 moves it to (width-1-x, height-1-y); rotate270 swaps the dimensions and moves it to (y, width-1-x); no pixel is lost or invented and none of them panics on a valid buffer.", "quantifier": "all valid buffers of any colour type", "why_tests_cant": "All sizes and contents.", "anchors": ["d10-ops/src/rotate_90.rs:rotate90", "d10-ops/src/rotate_90.rs:rotate180", "d10-ops/src/rotate_90.rs:rotate270"]}
{"id": "C13", "title": "Quarter turns form the cyclic group of order four", "statement": "rotate90 applied twice is rotate180, three times is rotate270, four times is the identity; rotate90 and rotate270 undo each other; rotate180 undoes itself.", "quantifier": "all valid buffers", "why_tests_cant": "Equality of whole images for all sizes.", "anchors": ["d10-ops/src/rotate_90.rs"]}
{"id": "C14", "title": "Flips are involutions generating rotate180", "statement": "flip_horizontal moves (x,y) to (width-1-x,y), flip_vertical to (x,height-1-y); each undoes itself, they commute, and together they are rotate180; flipping conjugates rotate90 into rotate270.", "quantifier": "all valid buffers", "why_tests_cant": "Equality of whole images for all sizes.", "anchors": ["d10-ops/src/flip.rs:flip_horizontal", "d10-ops/src/flip.rs:flip_vertical", "d10-ops/src/rotate_90.rs"]}
{"id": "C15", "title": "crop returns exactly the requested part that lies in the image", "statement": "crop(ox,oy,w,h) never panics on a valid buffer; the result is the intersection of the requested rectangle with the image, pixel (x,y) of it being pixel (ox+x,oy+y) of the source, and the 0x0 image when that intersection is empty.", "quantifier": "all valid buffers, all u32 offsets and sizes including ones whose sum exceeds u32", "why_tests_cant": "2^128 argument combinations.", "anchors": ["d10-ops/src/crop.rs:crop"]}
{"id": "C16", "title": "crop laws", "statement": "Cropping to the full size is the identity, cropping a crop equals one crop with added offsets and the smaller remaining size, and cropping commutes with flips when the rectangle is mirrored.", "quantifier": "all valid buffers, all rectangles", "why_tests_cant": "Two rectangles over all sizes.", "anchors": ["d10-ops/src/crop.rs:crop", "d10-ops/src/flip.rs"]}
{"id": "C17", "title": "interlace shifts even and odd rows in opposite directions", "statement": "interlace(offset) keeps the dimensions; pixel (x,y) of the result is the source pixel at (x-offset,y) for even y and (x+offset,y) for odd y, clamped to the row; offset 0 is the identity; all of this, without a panic, for offsets below 2^30. A user expects it for every u32 offset; the code violates that: an offset of 2^31 or more wraps to a negative number and shifts the rows the other way.", "quantifier": "all valid buffers, all offsets", "why_tests_cant": "All sizes and offsets.", "anchors": ["d10-ops/src/interlace.rs:interlace"]}
{"id": "C18", "title": "compose covers the bounding box and fills missing pixels with the default", "statement": "The result of compose has the largest width and largest height among the inputs; at (x,y) the closure receives, for every input in order, its pixel there or the default colour when (x,y) lies outside it; compose_slice gives the same result; try_compose stops at the first error.", "quantifier": "all non-empty lists of valid buffers, all closures, all defaults", "why_tests_cant": "Number and sizes of inputs are unbounded.", "anchors": ["d10-ops/src/compose.rs:try_compose", "d10-ops/src/compose.rs:compose", "d10-ops/src/compose.rs:try_compose_slice"]}
{"id": "C19", "title": "When compose panics", "statement": "A user expects compose of valid images to return always. The code violates that: compose returns exactly when the bounding box of the images is itself a valid image size (and the list is not empty), and two valid images whose bounding box is too big make it panic.", "quantifier": "all lists of valid buffers", "why_tests_cant": "Needs gigapixel images.", "anchors": ["d10-ops/src/compose.rs", "d10-ops/src/blend.rs:blend_image_with_func", "d10-core/src/pixelbuffer.rs:validate_size"]}
{"id": "C20", "title": "Blending leaves pixels outside the overlap untouched", "statement": "blend_image has the bounding-box size; where only one image has a pixel the result is that pixel unchanged, where neither has one it is transparent black, where both have one it is the blend operation applied to that pair only.", "quantifier": "all pairs of valid images with valid bounding box, all blend operations and intensities", "why_tests_cant": "All sizes and contents.", "anchors": ["d10-ops/src/blend.rs:blend_image", "d10-ops/src/blend.rs:blend_image_with_func"]}
{"id": "C21", "title": "resize returns the requested size and is the identity on equal size", "statement": "resize(w,h,filter) returns an image of exactly w x h for every filter and never panics for a non-empty valid source and valid target size (for the filter Auto: a source with sides up to 2^28); it returns an identical image when the size is unchanged; it panics for an invalid target size, and when an empty image is to be enlarged.", "quantifier": "all non-empty valid images, all target sizes, all filters", "why_tests_cant": "All sizes and filters; float-derived coordinates must never leave the buffer or overflow.", "anchors": ["d10-ops/src/resize.rs:resize", "d10-ops/src/filters.rs"]}
{"id": "C22", "title": "Nearest resize and nearest rotate never invent colours", "statement": "Every pixel of resize(.., Nearest) is a pixel of the source; every pixel of rotate(.., Nearest) is a pixel of the source or the background colour.", "quantifier": "all valid images, sizes, angles, any sine and cosine implementation", "why_tests_cant": "All sizes, angles and float roundings.", "anchors": ["d10-ops/src/resize.rs:resize_pixel_nearest", "d10-ops/src/rotate.rs:rotate_pixel_nearest"]}
{"id": "C23", "title": "Nearest upscaling by an integer factor", "statement": "Resizing by an integer factor k with Nearest (target sides up to 2^20) gives an image whose pixel (x,y) is the source pixel (floor(x/k+1/2), floor(y/k+1/2)), limited to the image. A user expects the source pixel (floor(x/k), floor(y/k)), every pixel repeated k times; the code violates that for every k from 2 and every image whose first two pixels differ.", "quantifier": "all valid images and integer factors", "why_tests_cant": "Users expect it for every size; a wrong half-pixel offset shows only on some sizes.", "anchors": ["d10-ops/src/resize.rs:resize_pixel_nearest"]}
{"id": "C24", "title": "Free rotation keeps the size and a full turn is the identity", "statement": "rotate(angle,..) always has the size of its input and never panics on a valid image; rotate(360) returns the image unchanged.", "quantifier": "all valid images, angles (including NaN and infinities), filters", "why_tests_cant": "All f32 angles.", "anchors": ["d10-ops/src/rotate.rs:rotate", "d10/src/image.rs:rotate"]}
{"id": "C25", "title": "Constructed colours are in gamut", "statement": "Every channel of Rgb::new, Rgb::new_with_alpha, Srgb::new, Srgb::new_with_alpha and of the results of clamping colour operations is a number between 0 and 1, unless the corresponding input was NaN, in which case it is NaN.", "quantifier": "all f32 inputs including NaN, infinities, subnormals", "why_tests_cant": "2^32 values per channel.", "anchors": ["d10-core/src/color/rgb.rs:Rgb::new", "d10-core/src/color/mod.rs:clamp", "d10-core/src/color/srgb.rs"]}
{"id": "C26", "title": "Colour operations keep the alpha channel", "statement": "invert, to_gray, gamma, level, brightness, contrast, saturation, lightness, hue rotation, sepia and channel mapping return a colour with the alpha value of their input.", "quantifier": "all colours with alpha in [0,1], all parameters, any libm", "why_tests_cant": "All f32 inputs.", "anchors": ["d10-core/src/color/rgb.rs"]}
{"id": "C27", "title": "Vibrance and difference lose transparency", "statement": "A user expects with_vibrance and difference to keep the transparency of their input like the other colour operations. The code violates that: both always return an opaque colour, so a half transparent colour becomes opaque.", "quantifier": "all colours", "why_tests_cant": "Expected for every colour; no test looks at alpha there.", "anchors": ["d10-core/src/color/rgb.rs:with_vibrance", "d10-core/src/color/rgb.rs:difference"]}
{"id": "C28", "title": "Colour space conversions keep alpha", "statement": "Converting between Rgb, Srgb, Hsl, Hsv, Yuv, Xyz, Lab and Lch, and whole buffers between them, keeps the alpha value and the image dimensions.", "quantifier": "all colours with alpha in [0,1], all pairs of colour types, any libm", "why_tests_cant": "All colours times all pairs of spaces.", "anchors": ["d10-core/src/color/mod.rs", "d10-core/src/color/hsl.rs", "d10-core/src/color/hsv.rs", "d10-core/src/color/lab.rs", "d10-core/src/color/iter.rs"]}
{"id": "C29", "title": "Colour equality is reflexive and symmetric", "statement": "For all colours a==a and a==b implies b==a.", "quantifier": "all colours including NaN and infinite channels", "why_tests_cant": "All f32 inputs.", "anchors": ["d10-core/src/color/rgb.rs:PartialEq"]}
{"id": "C30", "title": "What colour equality means", "statement": "Two in-gamut colours are equal exactly when all channels differ by at most 2^-15, up to a rounding error of 2^-38. A user expects equality to be an equivalence that separates NaN from numbers; the code violates that: it is not transitive, and a colour whose channels are all NaN equals every colour.", "quantifier": "all colours", "why_tests_cant": "Tests compare with == itself, so a defect here hides other defects.", "anchors": ["d10-core/src/color/rgb.rs:PartialEq", "d10-core/src/color/hsv.rs:PartialEq"]}
{"id": "C31", "title": "Greyscale results are grey", "statement": "to_gray_with_intensity returns a colour whose three channels are identical, so is_grayscale holds for every finite result; converting an already grey in-gamut colour by Red, Green, Blue or Brightness intensity changes nothing.", "quantifier": "all colours, all nine intensities", "why_tests_cant": "All f32 inputs.", "anchors": ["d10-core/src/color/rgb.rs:to_gray_with_intensity", "d10-core/src/color/rgb.rs:is_grayscale", "d10-core/src/pixelbuffer.rs:is_grayscale"]}
{"id": "C32", "title": "Inverting twice restores the colour", "statement": "For every in-gamut colour c, c.invert().invert() == c under colour equality (difference below 2^-15 per channel), and invert keeps in-gamut colours in gamut.", "quantifier": "all colours with channels in [0,1]", "why_tests_cant": "2^30 values per channel; relies on rounding error bounds.", "anchors": ["d10-core/src/color/rgb.rs:invert"]}
{"id": "C33", "title": "HSL of an in-gamut colour is in range", "statement": "to_hsl of an in-gamut colour has hue, saturation and lightness in [0,1] and no NaN.", "quantifier": "all in-gamut colours", "why_tests_cant": "Rounding could push a quotient above 1 for some of 2^96 inputs.", "anchors": ["d10-core/src/color/mod.rs:to_hsl"]}
{"id": "C34", "title": "Range of HSV", "statement": "to_hsv of an in-gamut colour that is not grey, or darker than 2^-15, has hue, saturation and value in [0,1] and no NaN. A user expects that for every in-gamut colour; the code violates it: the hue of every grey level from 2^-15 up is NaN.", "quantifier": "all in-gamut colours", "why_tests_cant": "The existing test compares with an equality that accepts NaN.", "anchors": ["d10-core/src/color/mod.rs:to_hsv", "d10-core/src/color/hsv.rs:tests"]}
{"id": "C35", "title": "Grey survives HSL and HSV round trips exactly", "statement": "For every grey in-gamut colour, converting to HSL or HSV and back returns exactly the same channels and alpha.", "quantifier": "all grey levels in [0,1], all alpha in [0,1]", "why_tests_cant": "2^30 grey levels.", "anchors": ["d10-core/src/color/mod.rs:to_hsl", "d10-core/src/color/mod.rs:to_hsv", "d10-core/src/color/hsl.rs:to_rgb", "d10-core/src/color/hsv.rs:to_rgb"]}
{"id": "C36", "title": "HSL to RGB never produces NaN or out-of-gamut values", "statement": "Converting an HSL colour with finite in-range components to RGB gives channels in [0,1] and never NaN.", "quantifier": "all in-range HSL colours", "why_tests_cant": "2^96 inputs.", "anchors": ["d10-core/src/color/hsl.rs:to_rgb"]}
{"id": "C37", "title": "Alpha blending with opaque and fully transparent colours", "statement": "Blending a fully opaque in-gamut colour over any in-gamut colour gives exactly that colour; blending a fully transparent one leaves the base colour unchanged; the result is always in gamut and its alpha is never below either input's alpha.", "quantifier": "all in-gamut colours", "why_tests_cant": "All f32 inputs.", "anchors": ["d10-core/src/color/rgb.rs:alpha_blend"]}
{"id": "C38", "title": "Blending with intensity 0", "statement": "A user expects that intensity 0 leaves each pixel of the first image unchanged for every operation. That holds for normal blending. Addition, subtract, darken and lighten return the channels of the first colour but, against the expectation, the alpha of the second. The HSL and LCh operations return the first colour converted to HSL or LCh and back (for the LCh hue when the hues are at most half a turn apart, and always with the alpha of the first colour).", "quantifier": "all in-gamut colour pairs, all blend operations", "why_tests_cant": "All colours; a wrong alpha shows only with transparency.", "anchors": ["d10-ops/src/blend.rs:blend_color", "d10-ops/src/blend.rs:blend_normal"]}
{"id": "C39", "title": "Specialised convolution sizes give the same result as the general one", "statement": "apply_kernel with a fixed NxN kernel and apply_kernel_dyn with the same coefficients return the same image bit for bit, namely the convolution of the image with those coefficients, border pixels repeated outwards; gaussian_blur returns the same image as the run-time kernel for every radius up to 32767, namely the convolution with the normalised bell curve, and unsharp adds factor times the difference to it.", "quantifier": "all valid images, all N up to 65535, all coefficients, all radii up to 32767, all sigmas, any exp implementation, debug and release builds", "why_tests_cant": "The fast paths differ in code only for radius 1..3; equality must hold for all images and sigmas.", "anchors": ["d10-core/src/kernel.rs:apply_kernel", "d10-core/src/kernel_dyn.rs", "d10-core/src/pixelbuffer.rs:apply_kernel", "d10-core/src/pixelbuffer.rs:apply_kernel_dyn", "d10-ops/src/gaussian_blur.rs"]}
{"id": "C40", "title": "Identity kernel", "statement": "Convolving with the kernel that is 1 at the centre and 0 elsewhere returns every finite image unchanged.", "quantifier": "all valid images with finite channels, all sizes up to 65535 (odd or even), static and run-time kernels", "why_tests_cant": "All sizes and contents.", "anchors": ["d10-core/src/kernel.rs:apply_kernel", "d10-core/src/pixelbuffer.rs:apply_kernel"]}
{"id": "C41", "title": "Blur and unsharp give finite pixels, except for radius 0", "statement": "With the default sigma and a radius from 1 to 32767, gaussian_blur gives finite non-negative channels and unsharp with a finite factor gives in-gamut pixels for every in-gamut image; up to radius 500 the blurred channel stays within the range of the channel up to ((2r+1)^2+1)/2^22; factor 0 makes unsharp the identity. A user expects the same of radius 0; the code violates that: it turns every pixel into NaN. Radii of 32768 and more panic.", "quantifier": "all valid in-gamut images, all radii, any exp with values in [0,1] on arguments up to 0", "why_tests_cant": "The degenerate radius gives a zero sigma.", "anchors": ["d10-ops/src/gaussian_blur.rs:get_default_sigma", "d10-core/src/kernel_dyn.rs:new_gaussian"]}
{"id": "C42", "title": "despeckle only changes dark pixels with few dark neighbours", "statement": "despeckle leaves a pixel unchanged unless its average is below the threshold and at most amount of the nine neighbourhood pixels are dark; then red, green and blue become, within 1/800000, the mean of the neighbourhood pixels that are not dark, and alpha is kept. For amounts up to 8 an in-gamut image stays in gamut. A user expects this of every amount; the code violates that: for amounts of 9 and more a pixel in a fully dark area becomes NaN.", "quantifier": "all valid images, thresholds, amounts", "why_tests_cant": "All images; amount 9 on an all-dark area is the corner.", "anchors": ["d10-ops/src/despeckle.rs:despeckle"]}
{"id": "C43", "title": "Equalisation maps each value to its rank and keeps the order", "statement": "equalize replaces every equalised channel value by the share of pixels that are at most as bright (levels 0..255), rescaled so that level 0 becomes 0 and level 255 becomes 1; the result is always in [0,1], and a value never overtakes a brighter one. Counts are f32, so the shares are exact only for images of less than 2^24 pixels. In the Hsl modes the hue and the channel that is not equalised stay; alpha stays (clamped to [0,1]).", "quantifier": "all valid non-empty images, all five modes, any libm; exact value for fewer than 2^24 pixels, range and order for any size", "why_tests_cant": "Depends on accumulated float rounding over up to a billion pixels.", "anchors": ["d10-ops/src/equalize.rs:channel_histogram", "d10-ops/src/equalize.rs:pick_value"]}
{"id": "C44", "title": "Histogram bins are never out of bounds", "statement": "stretch_contrast, balance and equalize return an image of the same size for every input: they never index outside their 256 bins and never panic, whatever the pixel values, thresholds and modes, NaN and infinities included.", "quantifier": "all valid images with arbitrary f32 channels", "why_tests_cant": "All f32 values.", "anchors": ["d10-ops/src/stretch_contrast.rs", "d10-ops/src/balance_channels.rs", "d10-ops/src/equalize.rs"]}
{"id": "C45", "title": "stretch_contrast returns an image that already spans the full range unchanged", "statement": "stretch_contrast stretches the colour channels between the darkest and the brightest of 256 levels that more than threshold/1000 of the pixels reach, and keeps size and alpha. If an image has more than threshold/1000 of its pixels in the darkest bin and more than that in the brightest bin it is returned unchanged; with threshold 0 one pixel in each is enough.", "quantifier": "all valid images and thresholds", "why_tests_cant": "All images.", "anchors": ["d10-ops/src/stretch_contrast.rs:stretch_contrast"]}
{"id": "C46", "title": "Palette application picks a closest palette colour", "statement": "apply_palette replaces each pixel by a palette colour at minimal Lab distance, the first such in palette order, converted to Lab and back to Rgb; the in-place variant gives the same image; with an empty palette (or when no distance is below f32::MAX) every pixel becomes the default colour. A user expects the pixel to keep its alpha; the code gives it the palette colour's alpha.", "quantifier": "all images, all palettes, any libm", "why_tests_cant": "Palettes are unbounded.", "anchors": ["d10-ops/src/apply_palette.rs"]}
{"id": "C47", "title": "Salt and pepper and RGB noise change pixels only as documented", "statement": "Whatever the random numbers, each pixel after salt-and-pepper noise is black if its number is below the threshold, white if above 1 - threshold, else unchanged, and after RGB noise is its old value or, if its number is below the threshold, its old value with one colour channel set to 1; threshold 0 changes nothing. Every pixel has its own numbers, drawn one after the other in the order of the pixels (one for salt and pepper, one or two for RGB noise), and nothing else is drawn.", "quantifier": "all images, all thresholds, all random streams", "why_tests_cant": "All random streams.", "anchors": ["d10-ops/src/salt_n_pepper_noise.rs", "d10-ops/src/rgb_noise.rs"]}
{"id": "C48", "title": "Random and gaussian noise mix fresh numbers into the colour channels and never touch alpha", "statement": "random_noise and gaussian_noise replace each colour channel v by noise*strength + (1-strength)*v, limited to [0,1] (within 2^-19 for Rgb and Srgb), with three fresh numbers for each pixel, drawn in order; with strength 0 they return in-gamut pixels unchanged, for any strength they keep every pixel's alpha, and as Rgb or Srgb they keep pixels in gamut.", "quantifier": "all images, all random streams; strength 0, alpha and the formula for in-gamut images; the gamut claim for draws up to 65536 in size and strengths up to 10^6 in size; the formula for draws up to 8 in size and strengths in [0,1]", "why_tests_cant": "All random streams.", "anchors": ["d10-ops/src/random_noise.rs", "d10-ops/src/gaussian_noise.rs", "d10-core/src/color/mod.rs:map_color_channels"]}
{"id": "C49", "title": "Changing the temperature to itself", "statement": "change_color_temperature(t,t,0) leaves size, red, green and alpha of in-gamut images unchanged, and blue too when t is at least 1786 K (after limiting to 1000..12000); below that every blue channel becomes NaN. A user expects the identity for every t; the code violates that for t below 1786 K. No temperature makes the table lookup go out of bounds.", "quantifier": "all in-gamut images, all f32 temperatures including NaN and infinities", "why_tests_cant": "All f32 temperatures.", "anchors": ["d10-ops/src/temperature.rs"]}
{"id": "C50", "title": "Format detection by content", "statement": "Format::from_reader returns a format exactly when the first bytes are one of that format's signatures; no byte sequence matches two formats, and bytes after the twelfth never matter.", "quantifier": "all byte sequences of any length", "why_tests_cant": "All byte sequences.", "anchors": ["d10-codecs/src/lib.rs:Format::from_reader"]}
{"id": "C51", "title": "File contents decide before the file name", "statement": "decode_file uses the content signature when there is one whatever the extension is, falls back to the case-insensitive extension only otherwise, and reports UnknownFormat when neither is known.", "quantifier": "all paths and file contents", "why_tests_cant": "All names times all contents.", "anchors": ["d10-codecs/src/lib.rs:decode_file", "d10-codecs/src/lib.rs:Format::from_path"]}
{"id": "C52", "title": "An unknown extension never touches the file system", "statement": "encode_to_file without explicit format and with an unknown extension returns BadFileExtension and neither creates nor truncates any file.", "quantifier": "all paths, all file system states", "why_tests_cant": "All paths and states.", "anchors": ["d10-codecs/src/lib.rs:encode_to_file"]}
{"id": "C53", "title": "What a save leaves in the file system", "statement": "encode_to_file touches no file but its target, and nothing at all if the format is unknown or the file cannot be created. Otherwise the target is replaced whatever the result: it holds the encoded bytes up to the first failed write, all of them if no write fails. A user expects that a failed save keeps the previous content and that Ok means that all bytes are stored; the code violates both: an error such as BadDimensions leaves an empty file, and errors while the last 8192 buffered bytes are written are lost (unless the encoder flushes, Ok only guarantees all but 8192 bytes). Saving to memory gives exactly the bytes the encoder writes, or its error.", "quantifier": "all images, formats, file systems with any write failure point", "why_tests_cant": "Write failures at every position.", "anchors": ["d10-codecs/src/lib.rs:encode_to_file", "d10/src/image.rs:save_to_buffer"]}
{"id": "C54", "title": "Encoder byte buffers have the size the format promises", "statement": "For every colour type the bytes handed to the encoder are exactly width*height*channels*bytes-per-sample, laid out pixel by pixel in row-major order with channels in order and 16-bit samples big-endian. A user expects this of all colour types; the code violates it for 16 bit gray PNG, where it hands over four bytes per pixel instead of two.", "quantifier": "all valid images, all eight PNG colour types and the BMP/ICO/JPEG/GIF layouts", "why_tests_cant": "All images; one of the layouts is never tested.", "anchors": ["d10-codecs/src/utils.rs", "d10-codecs/src/png.rs:encode_png"]}
{"id": "C55", "title": "8 and 16 bit samples survive the float representation", "statement": "as_u8(from_u8(b)) == b for every byte and as_u16(from_u16(v)) == v for every 16-bit value, quantisation is monotone, saturates outside [0,1] and maps NaN to 0.", "quantifier": "all 256 and 65536 samples, all f32 values", "why_tests_cant": "Truncating conversion makes a one-step loss likely for some value.", "anchors": ["d10-codecs/src/utils.rs:as_u8", "d10-codecs/src/utils.rs:as_u16", "d10-codecs/src/utils.rs:from_u8", "d10-codecs/src/utils.rs:from_u16_be"]}
{"id": "C56", "title": "Alpha survives decode then encode", "statement": "For every RGBA8 and RGBA16 image the alpha samples written by the encoder equal the alpha samples read by the decoder, for any powf implementation.", "quantifier": "all images", "why_tests_cant": "All samples and any libm.", "anchors": ["d10-codecs/src/utils.rs", "d10-codecs/src/png.rs:decode_png"]}
{"id": "C57", "title": "ARGB packing for WebP is lossless", "statement": "Each 32-bit word handed to the WebP encoder contains alpha, red, green and blue in bits 31-24, 23-16, 15-8, 7-0 and nothing else.", "quantifier": "all images", "why_tests_cant": "All 2^32 words.", "anchors": ["d10-codecs/src/utils.rs:to_argb8_vec32"]}
{"id": "C58", "title": "Oversized images are rejected before encoding", "statement": "Encoding as JPEG or GIF fails with BadDimensions exactly when a dimension exceeds 65535, before any byte is written, and JPEG quality is always passed on within 1..=100.", "quantifier": "all valid images, all qualities", "why_tests_cant": "All sizes.", "anchors": ["d10-codecs/src/jpeg.rs:encode_jpeg", "d10-codecs/src/gif.rs:encode_gif"]}
{"id": "C59", "title": "Decoders panic on nothing but JPEG files of more than 2^30-1 pixels", "statement": "If the codec libraries deliver as much data as the size says, decode returns a valid buffer or an error. A user expects that it never panics; the code violates that for JPEG images of more than 2^30-1 pixels, and for nothing else.", "quantifier": "all library results", "why_tests_cant": "All dimension and length combinations.", "anchors": ["d10-codecs/src/png.rs:decode_png", "d10-codecs/src/jpeg.rs:decode_jpeg", "d10-codecs/src/gif.rs:decode_gif", "d10-codecs/src/utils.rs:read_into_buffer"]}
{"id": "C60", "title": "Opaque sources decode to opaque images", "statement": "Formats without alpha decode to alpha 1.0. A user expects this of all pixel formats and that CMYK white decodes to (1,1,1); the code violates the first for 16 bit RGB images of the image crate (BMP, ICO), which become fully transparent, and the second for CMYK, where the value of no ink is 65025/65536.", "quantifier": "all pixel formats and samples", "why_tests_cant": "Some pixel formats are never tested.", "anchors": ["d10-codecs/src/utils.rs:read_into_buffer", "d10-codecs/src/utils.rs:cmyk_to_rgb"]}
{"id": "C61", "title": "A command queue does its commands in order up to the first error", "statement": "Queue::run does the commands in the order pushed, each with exactly the effect of the corresponding image operation on the image in hand, the files and the random numbers. It returns Ok exactly when all succeed; otherwise it returns the error of the first that fails, and no later command has any effect. It panics exactly when, after commands that succeeded, it opens a file whose decoding panics, which is a JPEG file of more than 2^30-1 pixels. A queue written with the builder methods (open, any recolourings, save) saves the opened image with the methods' colour functions applied to every pixel in the order written.", "quantifier": "all command sequences, file systems, encoders, well-behaved decoders and random generators", "why_tests_cant": "All sequences and failing positions.", "anchors": ["d10-commands/src/commands.rs:execute", "d10-commands/src/queue.rs:run", "d10-commands/src/queue.rs:open", "d10-commands/src/queue.rs:level"]}
{"id": "C62", "title": "Commands without an opened image report MissingImage", "statement": "A queue fails with MissingImage exactly when it has a command other than Silent and the first such command is not Open; then no file is changed and no random number is drawn.", "quantifier": "all command sequences and worlds", "why_tests_cant": "All sequences.", "anchors": ["d10-commands/src/commands.rs:Context"]}
{"id": "C63", "title": "Progress log numbers are consistent", "statement": "The printed lines are, for the commands that were started up to the first Silent, k/total where total is the number of commands of the queue that are not Silent and k the position of the command; nothing else is printed.", "quantifier": "all command sequences and worlds", "why_tests_cant": "All sequences.", "anchors": ["d10-commands/src/log.rs", "d10-commands/src/queue.rs:run"]}
{"id": "C64", "title": "Command line arguments map to commands in order, bad ones are reported", "statement": "Parsing gives a queue exactly when the arguments after the program name are file names and known options, each with its well-formed parameter; the queue then holds one command per option or file name in command line order. Otherwise the error names the first bad argument: unknown option, missing parameter, malformed number list or unknown intensity. A bad or empty command line makes the program fail without touching files or output; a good one succeeds exactly when its queue does.", "quantifier": "all argument lists, all decodings of arguments to text, all number grammars", "why_tests_cant": "All argument lists.", "anchors": ["d10-cli/src/main.rs:Args::parse", "d10-cli/src/main.rs:parse_arg"]}
{"id": "C65", "title": "The first argument opens if it is a file name, all other file names save", "statement": "A file name that is the first argument is opened; every file name after another argument is saved to. A user expects the first file name to be opened wherever options such as -silent stand; the code violates that: d10 -silent in.png out.png becomes Silent, Save in.png, Save out.png and fails with MissingImage.", "quantifier": "all argument lists", "why_tests_cant": "All orders of options.", "anchors": ["d10-cli/src/main.rs:Args::parse"]}
{"id": "C66", "title": "Names of enum variants parse exactly", "statement": "For each of the fifteen parsed enums: every documented name parses to its variant, every variant has a name, and every other text is rejected with an error that holds the text and the type.", "quantifier": "all strings", "why_tests_cant": "All strings.", "anchors": ["d10-core/src/color/rgb.rs:Intensity::from_str", "d10-ops/src/blend.rs:BlendOp::from_str", "d10-ops/src/filters.rs:FilterMode::from_str", "d10-codecs/src/png.rs", "d10-codecs/src/jpeg.rs", "d10-codecs/src/webp.rs"]}
{"id": "C67", "title": "Image calls keep metadata, give well-formed images of the documented size, and rotation fills with transparent black", "statement": "Every Image method that returns an image, or changes one, keeps the background colour of the image it is called on, gives an image whose pixel data fits its sides, and, where the size is documented (unchanged, sides swapped, the size asked for, or the size covering all images used), gives that size. So every image a program can make by any sequence of constructors, decoders and methods is well-formed and has no background colour, and free rotation of it fills uncovered pixels with transparent black.", "quantifier": "all images, all method calls with all arguments, all sequences of calls, all codec libraries that meet their contract", "why_tests_cant": "All histories of calls.", "anchors": ["d10/src/image.rs:Image"]}
{"id": "C68", "title": "resize_pct scales both sides by the percentage and never yields an empty image", "statement": "resize_pct(p) of a non-empty image gives sides that are p/100 of the original ones, rounded to the nearest whole number and not below 1, up to a relative error of 1/4194304 before rounding; it succeeds whenever that size is within the limits; p = 100 returns the same image for sides below 2^24; p that is 0, negative or NaN gives a 1x1 image.", "quantifier": "all images, all f32 percentages, all filters", "why_tests_cant": "All sizes and f32 percentages.", "anchors": ["d10/src/image.rs:resize_pct"]}
{"id": "C69", "title": "NumPy arrays: layout, values and round trips", "statement": "The array of an image has shape [height, width, channels], entry [y, x, k] is channel k of the pixel (x, y) in the chosen colour space stored in the chosen element type, and reading an array does the reverse; unknown names are errors. A floating point rgba array restores an image within the gamut exactly (rgb makes it opaque); integer rgba arrays lose at most one step per channel; uint8 and uint16 rgb/rgba arrays survive becoming an image unchanged; the other colour spaces give the library's own conversion there and back. A user expects that for every mode and type; the code violates it in three cases: boolean arrays come back negated, four-channel lch arrays are read as Lab, and uint32 numbers above 2^24 lose their low bits. An array of less than two dimensions panics instead of raising an error.", "quantifier": "all images, all arrays NumPy can hold, all modes, all element types", "why_tests_cant": "Modes times element types times images; some modes are never tested.", "anchors": ["d10-python/src/image.rs:to_np_array", "d10-python/src/image.rs:from_np_array", "d10-python/src/image.rs:extract_data_type", "d10-python/src/image.rs:from_np_array_iter"]}
{"id": "C70", "title": "Blending with intensity 1 and an opaque second image", "statement": "With intensity 1 and an opaque second colour, normal blending returns the second colour; addition, subtract, darken and lighten return the channel-wise sum, difference, minimum and maximum limited to [0,1], opaque.", "quantifier": "all pairs of in-gamut colours whose second member is opaque", "why_tests_cant": "All colour pairs, in f32 arithmetic.", "anchors": ["d10-ops/src/blend.rs:blend_color", "d10-ops/src/blend.rs:blend_normal", "d10-ops/src/blend.rs:apply_intensity"]}
{"id": "C71", "title": "Blending stays in gamut", "statement": "Blending two in-gamut colours with an intensity in [0,1] by any operation other than the LCh ones gives a colour with all channels and alpha in [0,1]. For the LCh operations every channel is in [0,1] or NaN and alpha is that of the first colour, whatever the inputs and the accuracy of the maths library.", "quantifier": "all in-gamut colour pairs, all intensities in [0,1], all operations", "why_tests_cant": "f32 rounding at the range borders over all colours.", "anchors": ["d10-ops/src/blend.rs"]}
{"id": "C72", "title": "Resizing keeps the gamut and single-coloured images", "statement": "Resizing with Nearest, Bilinear or Bicubic keeps an in-gamut image in gamut, with no NaN. An image of a single in-gamut colour keeps exactly that colour with Nearest and Bilinear, and every channel within 1/50000 of it with Bicubic.", "quantifier": "all non-empty in-gamut images, all source and target sizes", "why_tests_cant": "f32 rounding of coordinates and weights for all sizes.", "anchors": ["d10-ops/src/resize.rs", "d10-ops/src/filters.rs"]}
{"id": "C73", "title": "Rotation by 0 is the identity", "statement": "rotate(0) with Nearest, Bilinear, Bicubic or Auto returns the same colour for every pixel of an in-gamut image with sides up to 2^22, provided sin 0 = 0 and cos 0 = 1.", "quantifier": "all in-gamut images of that size, all backgrounds, these filters", "why_tests_cant": "Centre and coordinates are computed in f32 for every size.", "anchors": ["d10-ops/src/rotate.rs:rotate_with_fn", "d10-ops/src/filters.rs"]}
{"id": "C74", "title": "Edge detection of a flat image is black", "statement": "edge_detection never panics, keeps the size and makes every pixel opaque. Sobel mode returns the length of the Sobel gradient limited to [0,1] and so stays in gamut; Laplace mode returns, within 2^-14, the exact Laplace sum. A uniform image gives channels within 2^-13 of 0 in both modes. A user expects in-gamut results of Laplace mode too; the code violates that: it does not limit its result.", "quantifier": "all valid images (for the value claims: in-gamut images), both modes", "why_tests_cant": "All images and sizes; the rounding errors of the sums depend on every pixel value.", "anchors": ["d10-ops/src/edge_detection.rs:edge_detection"]}
{"id": "C75", "title": "Symmetric nearest neighbour averages the nearer pixel of each opposite pair", "statement": "symmetric_nearest_neighbor takes from each pair of opposite pixels in the eight directions and up to the radius the one nearer in colour to the pixel, and returns the mean of the taken colours (with the pixel itself if with_center), within (n+1)/2^23 for n colours. In-gamut images stay in gamut if radius > 0 or with_center. Radius 0 is the identity with the centre; without it every pixel becomes NaN, which no user expects.", "quantifier": "all valid images, radii up to 4194302 (in gamut: up to 2000000, mean within (n+1)/2^23: up to 1000000), with and without the centre", "why_tests_cant": "All images and radii.", "anchors": ["d10-ops/src/symmetric_nearest_neighbor.rs:symmetric_nearest_neighbor"]}
{"id": "C76", "title": "drawing is total; its steps; grey, in gamut and opaque results", "statement": "drawing never panics for radii up to 32767 and keeps the size; it is made by exactly the specified steps (lines from the quotient of a sharpened and a blurred image, whose lightness limits that of the image in coloured mode, and which get the colours of blurred images in reduced colours mode); in gray mode every pixel of the result is grey and in gamut, and in reduced colours mode in gamut and opaque, whatever the input, NaN and infinities included; in coloured mode an in-gamut image gives an in-gamut result.", "quantifier": "all valid images, radii up to 32767, all modes, any exp with values in [0,1] on arguments up to 0, any powf that stays in [0,1]", "why_tests_cant": "All images, including non-finite pixels passed through nine float stages (twenty in reduced colours mode).", "anchors": ["d10-ops/src/drawing.rs:drawing"]}
{"id": "C77", "title": "balance stretches each channel on its own", "statement": "balance stretches every channel it works on in the chosen colour space between the black and the white point of that channel alone, blending softly; the other channels and alpha stay and the size is kept. white_balance does this for red, green and blue.", "quantifier": "all valid images, all five modes, all thresholds, any libm", "why_tests_cant": "The black and white points depend on the whole histogram of arbitrary f32 channels, including NaN and out-of-range values; tests sample a few images.", "anchors": ["d10-ops/src/balance_channels.rs:balance", "d10-ops/src/balance_channels.rs:BalanceMode", "d10/src/image.rs:white_balance"]}
{"id": "C78", "title": "Dark samples survive decode then encode", "statement": "When a PNG image of RGB or RGBA samples is decoded and encoded again with the same colour type, 8 bit samples from 0 to 10 are unchanged and 16 bit samples from 0 to 2650 change by at most one, downwards, for any powf implementation. A user expects no change at all; the code violates that, for example sample 53 of 16 bits becomes 52.", "quantifier": "all images, all dark samples, any powf", "why_tests_cant": "All samples and any libm.", "anchors": ["d10-core/src/color/srgb.rs:gamma_to_linear", "d10-core/src/color/srgb.rs:linear_to_gamma", "d10-codecs/src/utils.rs:as_u8", "d10-codecs/src/png.rs:decode_png"]}
{"id": "C79", "title": "Decoded images show the samples of the file", "statement": "Pixel (x,y) of a decoded image is the colour of the samples found in the data of the codec library at row y, column x, with channels in order and 16-bit samples in the byte order of the library, for PNG, JPEG, GIF, WebP, BMP and ICO and all pixel formats (except that of C60).", "quantifier": "all images, pixel formats and positions", "why_tests_cant": "All sizes and layouts.", "anchors": ["d10-codecs/src/png.rs:decode_png", "d10-codecs/src/jpeg.rs:decode_jpeg", "d10-codecs/src/gif.rs:decode_gif", "d10-codecs/src/webp.rs:decode_webp", "d10-codecs/src/utils.rs:read_into_buffer"]}
{"id": "C80", "title": "Simulated JPEG compression keeps size and alpha", "statement": "jpeg_quality returns an image of the same size, with the alpha of the original if preserve_alpha is set and opaque otherwise, provided that the JPEG library reads back what it wrote; it panics for images with a side of more than 65535 pixels.", "quantifier": "all images, qualities and well-behaved JPEG libraries", "why_tests_cant": "All sizes and library results.", "anchors": ["d10-ops/src/jpeg_quality.rs:jpeg_quality"]}
{"id": "C81", "title": "White is not saved as white", "statement": "A user expects that a white pixel is saved as 255 of 255 and that a white file stays white when it is read and saved; the code violates that: with every powf that gives powf(1,y) = 1 the samples written are 254 (of 255) and 65534 (of 65535).", "quantifier": "all alpha values, all powf implementations with powf(1,y)=1", "why_tests_cant": "Depends on the rounding of every step; it must hold for any libm.", "anchors": ["d10-core/src/color/srgb.rs:linear_to_gamma", "d10-codecs/src/utils.rs:as_u8", "d10-codecs/src/utils.rs:as_u16"]}
{"id": "C82", "title": "has_transparency and is_grayscale decide what they say", "statement": "For an image whose alpha values lie in [0,1], has_transparency is true exactly if some pixel has an alpha below 1 - 1/32768. For an in-gamut image, is_grayscale true means that in every pixel red and green, and green and blue, differ by less than 1/32768, and it is true whenever all these differences are below (1 - 2^-24)/32768.", "quantifier": "all images", "why_tests_cant": "All pixel values and positions; float comparisons near the threshold.", "anchors": ["d10/src/image.rs:has_transparency", "d10/src/image.rs:is_grayscale", "d10-core/src/color/mod.rs:has_transparency", "d10-core/src/color/rgb.rs:is_grayscale"]}
{"id": "C83", "title": "Pixels read from arrays stay in range", "statement": "Every channel of an image read from an array is a number from 0 to 1 (or NaN if the array or the conversion gives NaN) in the modes gray, rgb(a), srgb(a), hsl(a), yuv(a), xyz, lab and lch with three channels. A user expects that for all modes; the code violates it for hsv, where values without saturation are not limited, and for the alpha channel of xyza and laba.", "quantifier": "all arrays and all modes", "why_tests_cant": "Must hold for every number an array can hold, including huge, negative and infinite ones.", "anchors": ["d10-python/src/image.rs:from_np_array_iter", "d10-core/src/color/hsv.rs:to_rgb", "d10-core/src/color/mod.rs:apply_matrix_clamped"]}
{"id": "C84", "title": "Colour operations compute their formulas", "statement": "For colours in range, each elementary colour operation gives, within a stated rounding error, the number its formula says: brightness limited(v+f), contrast limited((v-1/2)f+1/2), both combined, inversion 1-v, difference |a-b|, the grey formulas (average, Rec. 601, Rec. 709, maximum, mean of extremes, single channels), sepia, alpha blending, gamma v^(1/g), optimised gamma, and level. The powers assume a powf with relative error at most 2^-20.", "quantifier": "all in-range colours, all finite factors up to 2^60, gammas from 1/1000 to 1000, all level ranges of at least 2^-20", "why_tests_cant": "Rounding errors must be bounded for every colour and every factor, not for the sampled ones.", "anchors": ["d10-core/src/color/rgb.rs:with_brightness", "d10-core/src/color/rgb.rs:with_contrast", "d10-core/src/color/rgb.rs:with_brightness_contrast", "d10-core/src/color/rgb.rs:to_gray_with_intensity", "d10-core/src/color/rgb.rs:alpha_blend", "d10-core/src/color/rgb.rs:with_gamma", "d10-core/src/color/rgb.rs:with_level", "d10-core/src/color/rgb.rs:with_sepia", "d10-core/src/color/rgb.rs:invert", "d10-core/src/color/rgb.rs:difference"]}
{"id": "C85", "title": "HSL describes the colour", "statement": "Converting hue, saturation and lightness in [0,1] to RGB gives, within 2^-18 per channel, the colour of the HSL formula, and the alpha is kept. to_hsl of an in-range colour gives components whose formula is that colour within 2^-15 + 2^-19. Converting to HSL and back changes no channel by more than 2^-15 + 2^-17. The grey value for the saturation intensity is the HSL saturation.", "quantifier": "all in-range colours and all HSL components in [0,1]", "why_tests_cant": "Sector boundaries, the wrap of the hue at a full turn and rounding must be right for all 2^96 colours.", "anchors": ["d10-core/src/color/mod.rs:to_hsl", "d10-core/src/color/hsl.rs:to_rgb", "d10-core/src/color/rgb.rs:to_gray_with_intensity"]}
{"id": "C86", "title": "HSV describes the colour", "statement": "Converting hue, saturation and value in [0,1] to RGB gives, within 2^-20 per channel, the colour of the HSV formula, and the alpha is kept. to_hsv of an in-range colour gives components whose formula is that colour within 2^-19, or within 2^-15 for colours darker than 2^-15. Converting to HSV and back changes no channel by more than 2^-15, also for grey, where the hue is NaN.", "quantifier": "all in-range colours and all HSV components in [0,1]", "why_tests_cant": "Sector boundaries, the wrap of the hue at a full turn and rounding must be right for all 2^96 colours.", "anchors": ["d10-core/src/color/mod.rs:to_hsv", "d10-core/src/color/hsv.rs:to_rgb"]}
{"id": "C87", "title": "Operations on hue, saturation and lightness", "statement": "with_saturation, stretch_saturation, with_gamma_saturation, with_lightness and modulate give, within a stated rounding error, the colour whose HSL components are those of the input with the named component changed by the formula and limited to [0,1], and keep the others and alpha. with_hue_rotate turns the hue by the given number of degrees, modulo a full turn, for up to 360 degrees either way. A user expects larger turns to be reduced too; the code violates that: turning by 720 degrees makes a red lose all its red.", "quantifier": "all in-range colours, all finite factors up to 2^60, all gammas from 1/1000 to 1000, all turns up to 360 degrees", "why_tests_cant": "The result must be right for every colour and factor, including the wrap of the hue and the limits of the range.", "anchors": ["d10-core/src/color/rgb.rs:with_saturation", "d10-core/src/color/rgb.rs:stretch_saturation", "d10-core/src/color/rgb.rs:with_gamma_saturation", "d10-core/src/color/rgb.rs:with_lightness", "d10-core/src/color/rgb.rs:with_hue_rotate", "d10-core/src/color/rgb.rs:modulate"]}
{"id": "C88", "title": "sRGB transfer function", "statement": "Given a powf within 2^-20 (relative), converting an in-range sRGB colour to linear RGB applies to each channel, within 2^-19, the IEC 61966-2-1 decoding curve (v/12.92 up to 0.04045, else ((v+0.055)/1.055)^2.4), and converting linear RGB to sRGB applies the encoding curve within 2^-19; alpha is kept. From sRGB to linear and back no channel changes by more than 2^-18, from linear to sRGB and back by no more than 2^-17, also where the two conversions take different branches of the curve.", "quantifier": "all in-range colours, every powf with that accuracy", "why_tests_cant": "All 2^96 colours, and the result of powf differs between platforms.", "anchors": ["d10-core/src/color/srgb.rs:gamma_to_linear", "d10-core/src/color/srgb.rs:linear_to_gamma", "d10-core/src/color/srgb.rs:to_rgb", "d10-core/src/color/mod.rs:to_srgb"]}
{"id": "C89", "title": "Samples survive decode then encode up to one", "statement": "When a PNG image is decoded and encoded again with its own colour type (any but L16), every colour or grey sample of 8 or 16 bits is unchanged or lowered by one, and every alpha sample is unchanged, given a powf within 2^-20. Before the truncation the value is within half a step of the original sample, so rounding would have kept every sample.", "quantifier": "all images, all samples, every powf with that accuracy", "why_tests_cant": "All images and all samples, on every platform's powf.", "anchors": ["d10-codecs/src/png.rs:decode_png", "d10-codecs/src/png.rs:encode_png", "d10-codecs/src/utils.rs:as_u8", "d10-core/src/color/srgb.rs:gamma_to_linear", "d10-core/src/color/srgb.rs:linear_to_gamma"]}
{"id": "C90", "title": "Accessors touch one component", "statement": "For each of the eight colour types and each component name (red, hue, l, ..., alpha), the getter returns that component, and the setter and the with_ method change that component and no other, to exactly the given value. A user expects Rgb and Srgb to stay in [0, 1], as their constructors ensure; the code violates that: setters and with_ methods store any value. new_from_fn builds what the constructor builds.", "quantifier": "all colour types, components, colours and values", "why_tests_cant": "All 2^32 values of each component.", "anchors": ["d10-core/src/color/rgb.rs:set_red, with_red, set_alpha", "d10-core/src/color/srgb.rs:new_from_fn, set_red", "d10-core/src/color/hsl.rs:set_hue", "d10-core/src/color/hsv.rs:set_value", "d10-core/src/color/yuv.rs:set_y", "d10-core/src/color/xyz.rs:set_x", "d10-core/src/color/lab.rs:set_l, with_l, new_from_fn"]}
{"id": "C91", "title": "The text form of a colour", "statement": "The text of a colour is the name of its type, an a if alpha differs from 1 by more than 1/32768, and in parentheses the components separated by commas, with alpha last in that case. Each number is a decimal number with one to four digits after the point, within 1/19999 plus 2^-22 of its size of the component. Two colours with the same text are of the same type and nearly equal. A user expects every number to be readable; the code violates that for NaN and infinities, shown as NaN.0 and inf.0, and for huge finite numbers, shown as inf.0.", "quantifier": "all colour types, all components of size up to 2^100, every to_string that is shortest and reads back", "why_tests_cant": "All values of four components, on any implementation of number printing.", "anchors": ["d10-core/src/color/mod.rs:format_color", "d10-core/src/color/mod.rs:has_transparency", "d10-core/src/color/rgb.rs:Display, type_name", "d10-core/src/color/lab.rs:type_name"]}
{"id": "C92", "title": "Colours from Python", "statement": "The Python constructors take alpha as 1 when it is left out. to_lab, to_lch, Lab and Lch accept exactly the illuminants D65, D50 and E and the observers 2 and 10, take D65 and 2 when left out, give the class asked for with the colour the library computes, and raise an error naming the choice otherwise. == compares the components of colours of one class with the library's tolerance. A user expects != to be the opposite of ==; the code violates that: two objects with equal colours are both equal and unequal. The order operators raise TypeError.", "quantifier": "all colours, all strings, all operators", "why_tests_cant": "All strings and all colours.", "anchors": ["d10-python/src/color.rs:new, to_lab, to_lch, __richcmp__", "d10-python/src/lib.rs:lab, lch"]}
{"id": "C93", "title": "Converting iterators", "statement": "The iterators made by into_rgb, into_srgb, into_hsl, into_hsv, into_yuv, into_xyz, into_lab and into_lch give the converted items one for one and in order, advance the iterator inside as often as they are asked, end when it ends and report its number of remaining items.", "quantifier": "all iterators, also ones with effects, any number of calls, all pairs of colour types", "why_tests_cant": "All iterators and any number of calls.", "anchors": ["d10-core/src/color/iter.rs:ColorIter, ColorIterRef, ToRgbIter"]}
{"id": "C94", "title": "XYZ colours", "statement": "to_xyz of an RGB colour gives the standard linear combinations of its channels with an error of at most 2^-21. to_rgb of an XYZ colour with channels up to M, 1 <= M <= 100, gives the inverse combinations limited to [0, 1] with an error of at most M * 2^-19. RGB to XYZ and back changes each channel by at most 2^-17. Alpha is kept.", "quantifier": "all RGB colours with channels in [0, 1], all XYZ colours with channels of size up to 100", "why_tests_cant": "All 2^96 triples of floats.", "anchors": ["d10-core/src/color/xyz.rs:RGB_TO_XYZ, XYZ_TO_RGB, to_xyz, to_rgb", "d10-core/src/color/mod.rs:apply_matrix, apply_matrix_clamped, to_xyz"]}
{"id": "C95", "title": "YUV colours", "statement": "to_yuv of an sRGB colour gives the luma and the two colour differences of its channels with an error of at most 2^-21; greys have zero differences. to_rgb of a YUV colour with channels in [-1, 1] gives the inverse combinations, limited to [0, 1] and decoded, with an error of at most 2^-17. sRGB to YUV and back changes each channel by at most 2^-17, RGB to YUV and back by at most 2^-15. An alpha in [0, 1] is kept.", "quantifier": "all colours with channels in [0, 1], all YUV colours with channels in [-1, 1], every powf with a relative error of at most 2^-20", "why_tests_cant": "All 2^96 triples of floats, on any platform with a reasonable powf.", "anchors": ["d10-core/src/color/yuv.rs:RGB_TO_YUV, YUV_TO_RGB, to_yuv, to_rgb", "d10-core/src/color/mod.rs:apply_matrix, to_yuv, to_srgb"]}
{"id": "C96", "title": "Lab colours", "statement": "to_lab of an XYZ colour with channels from -0.005 to 2 gives the CIE values for the reference white of the illuminant and observer, l divided by 100 and a and b by 128, with errors of at most 2^-17, 2^-15 and 2^-16. to_xyz of a Lab colour gives the inverse with an error of at most 2^-13. RGB to Lab and back changes each channel by at most 2^-12, for every illuminant and observer. With D65 and the 2 degree observer a grey has a and b within 2^-10 of 0. A user expects white to be neutral for each illuminant; the code violates that: it does not adapt the white, so white has b below -0.007 for every other choice and below -0.15 for D50.", "quantifier": "all colours in these ranges, all illuminants and observers, every powf with a relative error of at most 2^-20", "why_tests_cant": "All 2^96 triples of floats for six pairs of illuminant and observer, on any platform.", "anchors": ["d10-core/src/color/lab.rs:to_xyz, to_rgb, get_refs", "d10-core/src/color/lab.rs:D50, D65, E, O2, O10", "d10-core/src/color/mod.rs:to_lab"]}
{"id": "C97", "title": "LCh colours", "statement": "LCh is the polar form of Lab: the same l and alpha, the chroma sqrt(a^2 + b^2) with an error of at most 2^-18, and an angle in [-pi, pi] (in radians) whose cosine and sine times the chroma give a and b, with an error of at most 2^-20. RGB to LCh and back changes each channel by at most 2^-11, for every illuminant and observer.", "quantifier": "all RGB colours with channels in [0, 1], all Lab colours in range, all illuminants and observers, every powf, sin, cos and atan2 of the stated accuracy", "why_tests_cant": "All 2^96 triples of floats for six pairs of illuminant and observer, on any platform.", "anchors": ["d10-core/src/color/lab.rs:Lch, to_xyz, to_rgb", "d10-core/src/color/mod.rs:to_lch, to_lab"]}
{"id": "C98", "title": "Automatic lightness", "statement": "optimize_lightness(factor) with |factor| <= 1.5 is a gamma correction of every pixel with gamma 1 - (m - 1/2) * factor, where m is the mean HSL lightness of the image: each channel v becomes v^(1/gamma) with an error of at most 2^-16, for images of any size. Size and alpha are kept.", "quantifier": "all images with channels in [0, 1] up to the largest size, all factors in [-1.5, 1.5], every powf with a relative error of at most 2^-20", "why_tests_cant": "All images of up to 2^30 pixels: the mean is a sum of up to 2^30 rounded terms.", "anchors": ["d10-ops/src/lightness.rs:optimize_lightness", "d10/src/image.rs:optimize_lightness"]}
{"id": "C99", "title": "Automatic saturation", "statement": "optimize_saturation(offset, mode) with 0.5 <= offset <= 1.25 keeps the hue, the lightness (value) and alpha of every pixel and raises its saturation s to the power 1/g', g' = 1 + (g - 1)(1 - |2l - 1|) for its lightness l: mid tones get the full gamma g, black and white none (error at most 2^-17). The gamma g is common to all pixels and is offset + 2/3 (1 - mean saturation), up to (n + 12) 2^-23 for n pixels (up to 2^22), and always in [0.5, 2] in the modes HSL and HSV. The mode LCh does the same to the chroma, limited to [0, 1], with eight times that error, as long as g is in [0.5, 2]. A user expects the result not to depend on the size of the image; the code violates that: the f32 sum stops growing, so an 8192 x 4096 image of one colour gets another colour than a 1 x 1 image of it.", "quantifier": "all images with channels in [0, 1], all offsets in [0.5, 1.25], the three modes, every powf, sin, cos and atan2 of the stated accuracy", "why_tests_cant": "All images; the error of the sum grows with the number of pixels.", "anchors": ["d10-ops/src/saturation.rs:optimize_saturation, get_gamma_pow, avg_saturation, saturate_hsl, saturate_hsv, saturate_lch", "d10/src/image.rs:optimize_saturation"]}
{"id": "C100", "title": "Colour temperature", "statement": "change_color_temperature(old, new) without tint correction and with new of at least 3000 K multiplies each channel by the ratio of the whites of the old and the new temperature and limits it to [0, 1], with an error of at most 2^-12; alpha and size are kept. The white of a temperature (whole kelvins from 1000 to 12000) is found by linear interpolation in a table of CIE chromaticities, with luminance 1, and limited to [0, 1]. A user expects every change of temperature to change red; the code violates that: because of the limiting every white up to 7000 K has red 1, and red stays the same between two such temperatures.", "quantifier": "all images with channels in [0, 1], all f32 temperatures including NaN and infinities (new at least 3000 K)", "why_tests_cant": "All images and pairs of the 11001 distinct temperatures.", "anchors": ["d10-ops/src/temperature.rs:change_color_temperature, calculate_factors, convert_kelvin_to_rgb, TEMPERATURE_TABLE"]}
{"id": "C101", "title": "Automatic colour temperature", "statement": "optimize_color_temperature(factor, tint) with |factor| <= 2 gives exactly what change_color_temperature(6500, t, tint) gives, for a t within 1/400 K of 6500 - 4000 * factor * tanh(m), where m is the mean of red minus blue over the image.", "quantifier": "all images with channels in [0, 1] up to the largest size, all factors in [-2, 2], all tints, every tanh with an error of at most 2^-40", "why_tests_cant": "All images of up to 2^30 pixels: the mean is a sum of up to 2^30 rounded terms.", "anchors": ["d10-ops/src/temperature.rs:optimize_color_temperature", "d10/src/image.rs:optimize_color_temperature"]}
{"id": "C102", "title": "What the blend operations compute", "statement": "Blending an in-gamut colour with another one, at an intensity in [0, 1]: with t the intensity times the alpha of the second colour, Normal mixes each channel as (1-t)*first + t*second and adds t to the alpha of the first (at most 1); Addition, Subtract, Darken and Lighten mix each channel in the same way with the sum, difference, minimum or maximum of both, limit the result to [0, 1] and take the alpha of the second colour, all within 2^-20. The HSL and LCh operations mix, with the intensity alone, only the lightness (with the smaller or larger of the two) or the chroma, keeping the other components and the alpha of the first colour.", "quantifier": "all pairs of colours with channels in [0, 1], all intensities in [0, 1], every accurate math library", "why_tests_cant": "All pairs of f32 colours and all intensities.", "anchors": ["d10-ops/src/blend.rs:blend_normal, blend_color, blend_hsl_darken, blend_lch_darken, blend_lch_saturation", "d10-core/src/color/rgb.rs:alpha_blend"]}
{"id": "C103", "title": "Blending hues", "statement": "LchHue mixes the hues of the two colours along the shorter arc: the second hue is taken modulo a full turn next to the first one (at most pi away, up to 2^-20) and the result is the mix of the two within 2^-18, with lightness, chroma and alpha of the first colour. A user expects the same of LchColor; the code violates that: it mixes the two hues as plain numbers between -pi and pi, so half a green without red blended with half a turquoise without red gives a colour with red of at least 1/2.", "quantifier": "all pairs of colours with channels in [0, 1], all intensities in [0, 1], every accurate math library whose atan2 stays between -pi and pi", "why_tests_cant": "All pairs of f32 colours and all intensities, on both sides of the cut of atan2.", "anchors": ["d10-ops/src/blend.rs:blend_lch_hue, blend_lch_color"]}
{"id": "C104", "title": "What resizing computes", "statement": "Resizing an in-gamut image with Bilinear gives, in every channel, the value of the piecewise linear surface through the pixels at the centre of the new pixel scaled to the old image (beyond the outermost pixel centres the edge pixels are repeated), up to (width + height) / 2^21 + 2^-20; Bicubic, and Auto unless both sides shrink, gives the value of the Catmull-Rom spline surface limited to [0, 1], up to (width + height) / 2^20 + 2^-16. Nearest takes exactly the pixel nearest to the scaled position of the new pixel's corner, unless that is within width / 2^21 of being half way between two pixels.", "quantifier": "all non-empty images with channels in [0, 1] (any colours for Nearest), all valid new sizes, every math library", "why_tests_cant": "All images and all pairs of sizes.", "anchors": ["d10-ops/src/resize.rs:resize", "d10-ops/src/filters.rs:get_pixel_bilinear, get_pixel_bicubic"]}
{"id": "C105", "title": "What free rotation computes", "statement": "Rotating by a (finite, at most 360 either way) turns the picture clockwise by a degrees about its middle, although the parameter is called radians. For a new pixel take the position it has when turned back, and e = (width + height) / 2^19. If that position is inside the image by more than e, Bilinear shows the piecewise linear surface through the pixels there (up to 2^-20 + 2e), Bicubic and Auto the Catmull-Rom spline surface limited to [0, 1] (up to 2^-16 + 4e), and Nearest exactly the nearest pixel (if it is nearest by more than e). If it is outside by more than e, every filter shows the background colour.", "quantifier": "all images with channels in [0, 1] (any colours for Nearest and the background), all angles up to 360 degrees either way, every math library with sine and cosine accurate to 2^-20", "why_tests_cant": "All images, angles and pixels.", "anchors": ["d10-ops/src/rotate.rs:rotate, rotate_with_fn", "d10-ops/src/filters.rs:get_pixel_bilinear, get_pixel_bicubic"]}
{"id": "C106", "title": "What the Lanczos filter computes", "statement": "Resizing with Lanczos3 gives each new pixel the sum of the seven by seven pixels around the scaled position of its centre, weighted with the Lanczos window of three lobes; the weights are not normalised and the result is not limited to [0, 1] (up to 68/2^16, at a position within size/2^21 of the ideal one). Rotating with Lanczos3 does the same at the turned-back position. Auto does it when both sides shrink (by a factor of at most 10000), reading size pixels to each side, where size is twice the larger reduction, at least 3, rounded up; the half-width of its window is size for size 3 and above 6, but 2 * size + 1 for the sizes 4 to 6. A user expects that shrinking keeps a plain colour; because of that width the code violates it: a plain white 8 by 8 image shrunk to 4 by 4 with Auto gets channels above 1.03.", "quantifier": "all images with channels in [0, 1], all target sizes (for Auto: both sides shrink, by at most 10000), all angles up to 360 degrees either way, every math library with a sine accurate to 2^-19 relative to its argument (and, for rotation, sine and cosine accurate to 2^-20)", "why_tests_cant": "All images, sizes and pixels.", "anchors": ["d10-ops/src/filters.rs:get_pixel_lanczos, get_pixel_lanczos_dyn, lanczos, lanczos_dyn", "d10-ops/src/resize.rs:resize, resize_auto", "d10-ops/src/rotate.rs:rotate"]}
{"id": "C107", "title": "What the tint correction computes", "statement": "Changing the colour temperature with a tint above 0 (up to 1) also corrects colour casts. Green is raised to the power 1 / (1 - tanh u) before it is scaled by the ratio of the white points, where u is the tint times the mean over the image of 2 * green - red - blue, if that is positive; after the scaling red and blue are darkened the same way, with u a quarter of the tint times the mean of 2 * red - green - blue, and 33/100 of the tint times the mean of 2 * blue - green - red, all means taken over the image as it was. Alpha is kept. This holds up to 1/2^9 per channel for images of up to 2^20 pixels, with u accurate to pixels/2^22 + 1/2^18. A user expects it for images of any size; the code violates that: the excess is added up in single precision and stops growing at 2^24, so a plain half-green image of 2^25 pixels or more keeps green above 1/5 although darkening it by its mean excess gives at most 1/8.", "quantifier": "all images with channels in [0, 1] of up to 2^20 pixels, all temperatures with a target of at least 3000 K, all tints in (0, 1], every math library with an accurate powf and tanh; for the violation, all plain half-green images of 2^25 pixels or more", "why_tests_cant": "A formula for every image, and a loss of precision that needs tens of millions of pixels to show.", "anchors": ["d10-ops/src/temperature.rs:change_color_temperature, get_green_tint_pow, get_red_tint_pow, get_blue_tint_pow"]}
{"id": "C108", "title": "What blurring, sharpening and Sobel edge detection compute", "statement": "Every channel of an image blurred with radius r and sigma s is the mean of the pixels up to r columns and r rows away, each weighted by exp(-(i^2 + j^2) / (2 s^2)), where (i, j) is its offset, pixels beyond the edges count as the nearest ones inside, and s is half the radius if none is given; up to (2r + 1)^2 / 2^17. Sharpening gives v + factor * (v - that mean) limited to [0, 1], up to (|factor| + 2) * (2r + 1)^2 / 2^16. Sobel edge detection gives the square root of gx^2 + gy^2 limited to [0, 1], up to 1/2^12, where gx is the sum of the three pixels to the left minus that of the three to the right, the middle ones counted twice, and gy the same for the pixels above and below; the result is opaque.", "quantifier": "all images with channels in [0, 1], all radii up to 500, every sigma from 10^-6 to 10^6 or the default one, all factors up to 32, all pixels and channels, every math library with an accurate exponential function", "why_tests_cant": "A formula for every image, radius and sigma, with a bound on the accumulated rounding error.", "anchors": ["d10-ops/src/gaussian_blur.rs:gaussian_blur", "d10-ops/src/unsharp.rs:unsharp", "d10-ops/src/edge_detection.rs:edge_detection", "d10-core/src/kernel.rs:new_gaussian", "d10-core/src/kernel_dyn.rs:new_gaussian"]}
{"id": "C109", "title": "What contrast stretching computes", "statement": "Contrast stretching puts every pixel into one of 256 brightness levels (its average times 255, rounded down), finds the lowest level lo that more than threshold/1000 of the pixels do not exceed and the highest level hi that more than as many reach, up to a relative error of (pixels + 300) / 2^23 in the count, and maps every channel v to (v - lo/255) / (hi/255 - lo/255) limited to [0, 1], up to 1/2^15; alpha is kept, and lo is never above hi. A user expects an image without contrast to be left alone; the code violates that: if lo = hi, v becomes 2^15 * (v - lo/255) limited to [0, 1], so that every image of one mid grey becomes white.", "quantifier": "all images of 1 to 2^20 pixels with channels in [0, 1], all thresholds that are 0 or lie between 2^-20 and 400, all pixels, every math library with an accurate power function", "why_tests_cant": "A formula for every image and threshold, with a bound on the error of counting in f32.", "anchors": ["d10-ops/src/stretch_contrast.rs:stretch_contrast", "d10-core/src/color/rgb.rs:with_level"]}
{"id": "C110", "title": "What balancing the channels computes", "statement": "Balancing an image in RGB finds for every channel the lowest of the 256 levels lo that more than threshold/1000 of the pixels do not exceed and the highest level hi that more than as many reach, up to a relative error of (pixels + 300) / 2^23 in the count, and maps a value v of that channel to (v - s * lo/255) * s / d with d = (hi - lo)/255 and s = tanh(10 d), up to 1/2^10; a channel with lo = hi and alpha are kept exactly. A user expects channels that start in [0, 1] to stay there; the code violates that: in an image of the greys 103/256 and 154/256, balanced with threshold 0, the brighter one ends above 1.01.", "quantifier": "all images of 1 to 2^20 pixels with channels in [0, 1], all thresholds that are 0 or lie between 2^-20 and 400, all pixels and channels, every math library with an accurate hyperbolic tangent", "why_tests_cant": "A formula for every image and threshold, with a bound on the error of counting in f32.", "anchors": ["d10-ops/src/balance_channels.rs:balance", "d10-ops/src/balance_channels.rs:level_channel", "d10-ops/src/balance_channels.rs:get_min_value"]}
{"id": "C111", "title": "Python images: creation, lists, pixels and functions", "statement": "In Python, Image(w, h, color), open, from_list, to_list, len, img[x, y], get_pixel, get_pixel_clamped, is_in_image, mod_colors, map_colors (plain and enumerated) and compose do what they do in Rust for arbitrary Python integers and functions: integers that do not fit raise OverflowError, reading outside raises OSError and never panics (get_pixel_clamped gives a nearest pixel and panics only on an image without pixels), a file that cannot be opened or decoded raises OSError with the reason, to_list and from_list are inverse, a Python function is called once per pixel in row-major order and the first exception it raises ends the call (with the pixels before it changed by mod_colors and no image made by map_colors). A user expects that writing outside the image raises an exception too; the code violates that: img[x, y] = c and put_pixel panic for every position outside that fits u32.", "quantifier": "all valid images, all Python integers as sizes and positions, all lists, all Python functions with state and exceptions, both builds", "why_tests_cant": "All integers, lists and functions with any interpreter state; the exception can come at any pixel.", "anchors": ["d10-python/src/image.rs:Image", "d10-python/src/lib.rs:IntoPyErr"]}
{"id": "C112", "title": "Python defaults and names", "statement": "Every Python method that returns a new image is the library's operation with the documented value for each omitted argument; an integer that does not fit raises OverflowError and an unknown name an OSError that holds the name and the type, both before anything is computed. The noise methods keep size and background colour and change the pixels as in Rust, in place or not, and so does apply_palette_in_place. The rules for integers and names also hold for the constructors of EncodingFormat. A user expects save(path) and save(path, format) with the format of the path and no further arguments to write the same file; that holds for JPEG, PNG, GIF, BMP and ICO, but the code violates it for WebP: without a format the quality is 90, with EncodingFormat.webp() it is 85.", "quantifier": "all images, all calls with any integers, floats and names given or omitted, all libraries, files and paths", "why_tests_cant": "All combinations of arguments, names and libraries.", "anchors": ["d10-python/src/image.rs:Image", "d10-python/src/image.rs:EncodingFormat", "d10-codecs/src/lib.rs:EncodingFormat::webp_default"]}
{"id": "C113", "title": "Vibrance formula", "statement": "with_vibrance(f) gives, within (1+|f|)/2^15, the opaque colour with the hue and lightness of the input and the saturation s + sin(pi s) f min(3/2 sin(pi h), 1), limited to [0,1]: grey and fully saturated colours and reds stay, middle saturations change most.", "quantifier": "all in-range colours, all finite factors up to 1000, every sine within |x|/2^19", "why_tests_cant": "Must hold for every colour and factor, with the rounding of the sine and the conversions to and from HSL.", "anchors": ["d10-core/src/color/rgb.rs:with_vibrance"]}
{"id": "C114", "title": "Plain areas stay blank in a drawing", "statement": "Where all pixels of the image at most max(5, radius) + 2 columns and rows away from a pixel have the same in-range colour, the drawing is white there in gray mode (all four channels within 2^-16 of 1) and has the colour and alpha of the image in coloured mode (within 2^-13), whatever the rest of the image contains.", "quantifier": "all valid images, also with NaN and infinities outside the plain area, all radii from 1 to 100, every in-range colour, any exp with values in [0,1] on arguments up to 0", "why_tests_cant": "All images and colours; the rounding errors of two blurs, two sharpenings and a quotient must not be visible as lines for any colour.", "anchors": ["d10-ops/src/drawing.rs:drawing", "d10-ops/src/drawing.rs:merge_color", "d10-ops/src/unsharp.rs:unsharp", "d10-ops/src/despeckle.rs:despeckle"]}
{"id": "C115", "title": "WebP: the lossless preset", "statement": "A WebP file is encoded lossy with the given quality (at most 100) for every preset but lossless. A user expects the lossless preset to keep the pixels; the code violates that: it activates the lossless mode with the level 100, but the library only accepts 0 to 9 and then changes nothing, so that every image and quality is encoded lossy with quality 75.", "quantifier": "all images, qualities and presets; the functions of libwebp as documented in its header", "why_tests_cant": "All images and qualities; the wrong level is silently ignored.", "anchors": ["d10-codecs/src/webp.rs:encode_webp"]}
{"id": "C116", "title": "what is saved as PNG, BMP or ICO can be opened again", "statement": "With lossless libraries and an accurate powf, every valid non-empty image with colours in [0,1] that is saved as PNG, BMP or ICO, to memory or to a file, with any colour type but 16 bit gray (C54), can be opened again; the result has the same size and every pixel is at its place: each channel is the sRGB decoding of the largest sample v/255 or v/65535 not above the sRGB encoding of the saved channel, up to rounding errors of 1/2^18; gray types store the luma; alpha is stored as it is, or is 1 for types without alpha. The same holds for BMP and ICO with 8 bits, and a saved file shows what the bytes saved to memory show.", "quantifier": "all images, colour types, compressions, filters, file names and file systems; all PNG, BMP and ICO libraries that restore what they are given; all libms whose powf is accurate", "why_tests_cant": "All images and both directions of the codec together; a test compares a few pixels.", "anchors": ["d10/src/image.rs:save_to_buffer, read_from_buffer, save, save_with_format, open", "d10-codecs/src/png.rs:encode_png, decode_png", "d10-codecs/src/utils.rs:to_rgba8_vec, from_u8"]}
{"id": "C117", "title": "opening and saving a PNG file again and again", "statement": "With a lossless PNG library and an accurate powf, a PNG file can be opened and saved with its own colour type any number of times; n times lower every sample by at most n and keep all alpha samples. A user expects colour samples to settle after the first time; the code violates that: for every powf with an error of at most 7/8 units in the last place, every time lowers each 8 bit colour sample from 39 to 63 by one, so that 63 has become 38 after 25 times. With an error below 0.515 units exactly 62 of the samples below 255 are lowered by one each time, and these are listed.", "quantifier": "all PNG files of RGB and RGBA samples (the bound: all colour types but 16 bit gray), all numbers of times, all libms with the stated error of powf, all lossless libraries", "why_tests_cant": "All files, all numbers of generations and all powf implementations of some accuracy.", "anchors": ["d10/src/image.rs:read_from_buffer, save_to_buffer", "d10-codecs/src/utils.rs:to_rgb8_vec", "d10-core/src/color/mod.rs:gamma_to_linear, linear_to_gamma"]}
{"id": "C118", "title": "GIF files with a screen and several frames", "statement": "An opened GIF file is its first frame alone, in the size of that frame. A user expects the picture that a viewer shows first, the frame at its place on the screen; the code violates that: they get it exactly if the first frame fills the screen, and a picture of another size otherwise. The screen, the place of the frame and later frames make no difference, a file without frames is an error, and a file that is opened and saved as GIF becomes one of the size of the first frame.", "quantifier": "all GIF files (screens, frames, places, data), all libms, both build modes, all libraries that deliver the first frame in its own size", "why_tests_cant": "All combinations of screens and frames.", "anchors": ["d10-codecs/src/gif.rs:decode_gif, encode_gif", "d10/src/image.rs:read_from_buffer"]}
{"id": "C119", "title": "The program, from file to file", "statement": "A command line that opens a file, recolours its pixels in any number of steps and saves to a PNG file succeeds, touches no other file, and every pixel of the new file holds the new colour of the pixel at the same place, each sample being the byte just below its sRGB value. In particular, for a PNG file with RGBA samples of 8 bits: -invert stores 1 minus the light of each sample, -brightness p the light plus p, -contrast p the light stretched by p around 1/2 and -grayscale default the luminance in all three samples, each correct to 1/64 of a step (times 1+|p| for -contrast), and alpha is unchanged.", "quantifier": "all arguments, all pictures, all recolouring commands in any order and number, all parameters up to 2^60, all world states in which the output can be written, all builds, libms with an accurate powf, and PNG libraries that fit together", "why_tests_cant": "All pictures, all sequences of commands and all parameters; the composition of parsing, decoding, colour conversion, operation, rounding and encoding.", "anchors": ["d10-cli/src/main.rs:main", "d10-commands/src/queue.rs:Queue", "d10-codecs/src/png.rs:decode_png, encode_png", "d10-core/src/color/rgb.rs:invert, with_brightness, with_contrast, to_gray_with_intensity", "d10-core/src/color/srgb.rs:gamma_to_linear, linear_to_gamma"]}
{"id": "C120", "title": "Which palette colour is the nearest", "statement": "With a palette of linear RGB colours from 0 to 1, apply_palette gives each pixel a colour of the palette, correct to 2^-12 per channel and with that colour's alpha, and no other colour of the palette is nearer by more than 1/2000, where the distance is that of the exact CIE Lab values of the two colours, with L divided by 100 and a and b by 128. If different colours of the palette are more than 1/20 apart, applying the palette again changes nothing. A user expects the distance to be the CIE delta E (1976); the code violates that: because of the division black becomes a dark blue (delta E 60) although the palette also has a dark grey (delta E 57).", "quantifier": "all pictures and palettes of any size with channels in [0, 1], all pixels, all builds, all libms with an accurate powf", "why_tests_cant": "All pixels and palettes, ties and near ties; rounding in the conversions and in the distance must never prefer a colour that is clearly further away.", "anchors": ["d10-ops/src/apply_palette.rs:apply_palette, get_color_from_palette, get_delta_e", "d10/src/image.rs:apply_palette"]}
{"id": "C121", "title": "Python programs: objects, references and functions called back", "statement": "Whatever a Python program does with images and colours, also when functions it passes to mod_colors, map_colors, their _enumerated forms, compose and map_color_channels raise, call further methods or modify other objects: in the end no object stays locked, and an object that was in use has not changed. An image changes only by the methods that say so; colours are copies, never views into an image. While mod_colors runs, every method on that image raises a RuntimeError and does nothing. mod_colors calls the function for each pixel in turn and stores the colour returned; if a call fails, the pixels before it are changed, the others are not, and the error is passed on; map_colors makes no image then. The _enumerated forms pass the coordinates as well, compose passes the colours of all images in the given order, and map_color_channels passes the three channels in turn and keeps class and transparency. On objects that are not in use every method does exactly what the library does with their values, makes a new object or changes the one it is called on, and nothing else. An image cannot be its own palette in place. A user expects that compose, too, raises an error for an image in use, and that an image that is only read by map_colors can be saved; the code violates both: compose panics, and save raises a RuntimeError.", "quantifier": "all programs: any nesting of calls and functions, any references between objects, any state of variables kept by the functions, all builds and encoders", "why_tests_cant": "The functions are arbitrary programs and may refer to any object, also to the one being processed; the histories are unbounded.", "anchors": ["d10-python/src/image.rs:mod_colors, mod_colors_enumerated, map_colors, map_colors_enumerated, compose, save, put_pixel, get_pixel, apply_palette_in_place", "d10-python/src/color.rs:map_color_channels"]}
{"id": "C122", "title": "The order of steps", "statement": "Changing the colours of an image with any function, and turning it by a multiple of 90 degrees or mirroring it: the order makes no difference, to the last bit, and a function that panics does so either way. The same holds for changing the colours and cropping, interlacing or resizing to the nearest pixel. stretch_contrast, balance, white_balance and equalize look at all pixels first, but not at where they are: they, too, give the same before and after turning or mirroring. Two images of the same size may be blended before or after both are turned.", "quantifier": "all images, all functions, all parameters, all libms and builds", "why_tests_cant": "All images and functions; the float sums in the histograms must not depend on the order of the pixels.", "anchors": ["d10/src/image.rs:mod_colors, crop, flip_horizontal, flip_vertical, rotate90, rotate180, rotate270, interlace, resize, blend, stretch_contrast, balance, white_balance, equalize"]}
{"id": "C123", "title": "Kernels built at run time and the ready-made Sobel kernels", "statement": "KernelDyn::new accepts exactly the lists of width times height weights and panics on any other. get(x, y) is the weight number x + y * width; it panics exactly if there is none. apply_kernel_dyn replaces every channel of a pixel by the sum of those of the pixels around it, get(i, j) being the weight of the one i - width/2 columns to the right and j - height/2 rows below, the nearest pixel counting beyond an edge. new_sobel_x gives, up to 2^-14, how much the image rises from left to right and new_sobel_y how much it falls from top to bottom; Sobel edge detection, which has kernels of its own, is the length of these two, limited to [0, 1], bit for bit. A user expects get to panic for every position outside the kernel; the code violates that: a column beyond the last one gives a weight of a later row.", "quantifier": "all kernel sizes up to 65535 x 65535, all weights, all valid images (for the Sobel kernels: with channels in [0, 1]), all pixels and channels, debug and release builds", "why_tests_cant": "All kernels and images; bit for bit equality must survive the rounding of every sum.", "anchors": ["d10-core/src/kernel_dyn.rs:new, get, enumerate, new_sobel_x, new_sobel_y", "d10-core/src/pixelbuffer.rs:apply_kernel_dyn, get_kernel_value", "d10-ops/src/edge_detection.rs:edge_detection"]}
{"id": "C124", "title": "Darker stays darker: tone changes keep or reverse the order of shades", "statement": "with_brightness, with_contrast (factor not negative), with_brightness_contrast, with_gamma, with_gamma_opt and with_level (black point not above white point) send red, green and blue through one curve from [0, 1] to [0, 1] that never falls, so that no darker value ends up brighter than a lighter one; with a contrast factor that is not positive, for invert, and for levels with the black point above the white point by 2^-23 or more, the curve never rises. Changes in a row give such a curve again, rising if an even number of them falls. A command line of such changes sends all bytes of an 8-bit RGBA PNG file through one table that never falls (or never rises). stretch_contrast applies one rising curve to the whole image. If a colour is in no channel brighter than another, neither is its grey value (for every intensity but the saturation), its sepia tone or its blend under one overlay; if an image is nowhere brighter than another, neither is its Gaussian blur with the default sigma or one from 10^-6 to 10^6; nor is it after such changes in a row and a blur, the two images being exchanged if the curve falls. Turns, flips, crops and resizing with Nearest keep the order of two images, with Bilinear up to the rounding; a user may expect this of all filters and exactly, which the code violates: Bilinear may exchange two values by rounding, and with Bicubic a pixel gets darker if one two places away gets brighter. A user may expect the same of grey by saturation; the code violates that: black and white become black, red becomes white. Nor do exchanged levels always reverse the order, as may be expected: points closer than 2^-24 give a rising step whichever is the greater.", "quantifier": "all colours in gamut, all finite factors, gammas from 1/1000 to 1000, all levels in [0, 1], all sequences of such commands and all files they are applied to, all images and blur radii from 1 (with a given sigma: 0) to 32767; any math library whose power function is accurate, bounded and monotone", "why_tests_cant": "Every pair of neighbouring floats would have to be compared, for every parameter; rounding could swap a single pair.", "anchors": ["d10-core/src/color/rgb.rs:with_brightness, with_contrast, with_brightness_contrast, with_gamma, with_gamma_opt, with_level, invert, to_gray_with_intensity, with_sepia, alpha_blend", "d10-ops/src/stretch_contrast.rs:stretch_contrast", "d10-ops/src/gaussian_blur.rs:gaussian_blur", "d10-commands/src/commands.rs:execute", "d10-ops/src/resize.rs:resize"]}
{"id": "C125", "title": "Filters look only so far: images may be filtered in tiles", "statement": "A pixel of the result of apply_kernel, apply_kernel_dyn, gaussian_blur, unsharp, edge_detection, despeckle, symmetric_nearest_neighbor, drawing or a change of colours depends only on the pixels at most as many columns and rows away as the filter reaches (half the kernel, the radius, 1 for edges and despeckle, max(5, radius) + 3 for a drawing and + 6 for one with reduced colours); for several filters in a row the reaches add up. Two pixels with the same surroundings within the reach, of the same image or of different ones, get the same colour bit for bit. So an image may be filtered in tiles that overlap by the reach and the pieces put together, and setting a pixel farther away changes nothing.", "quantifier": "all valid images, all lists of these filters with all their parameters, all positions, all rectangles inside the image, debug and release builds, any math library", "why_tests_cant": "The claim is about all images that agree near a pixel and differ elsewhere; no finite set of images covers what lies elsewhere.", "anchors": ["d10-core/src/pixelbuffer.rs:apply_kernel, apply_kernel_dyn, get_kernel, get_pixel_clamped", "d10-ops/src/gaussian_blur.rs:gaussian_blur", "d10-ops/src/unsharp.rs:unsharp", "d10-ops/src/edge_detection.rs:edge_detection", "d10-ops/src/despeckle.rs:despeckle", "d10-ops/src/symmetric_nearest_neighbor.rs:symmetric_nearest_neighbor", "d10-ops/src/drawing.rs:drawing", "d10-ops/src/crop.rs:crop"]}
{"id": "C126", "title": "Red, green and blue are treated alike: no colour casts", "statement": "Changes of brightness, contrast, gamma and levels, inverting, any other curve over the channels, turning, mirroring, cropping, interlacing, resizing and rotating with every filter, kernels, gaussian_blur, unsharp, edge_detection and the blends Normal, Addition, Subtract, Darken and Lighten treat red, green and blue alike: putting the channels of the images and of the background into another order before a sequence of these steps gives, to the last bit, the same image as doing so afterwards, and a step that panics does so either way. In particular an image of greys stays grey through all of them, exactly.", "quantifier": "all images, all sequences of these steps with all parameters, all six orders of the channels, debug and release builds, any math library", "why_tests_cant": "A difference between channels may be a single rounding at a single pixel; all images, parameters and sequences are claimed.", "anchors": ["d10-core/src/color/rgb.rs:with_brightness, with_contrast, with_brightness_contrast, with_gamma, with_gamma_opt, with_level, invert, map_channels, alpha_blend", "d10-ops/src/resize.rs:resize", "d10-ops/src/rotate.rs:rotate", "d10-ops/src/filters.rs:get_pixel_bilinear, get_pixel_bicubic, get_pixel_lanczos3", "d10-ops/src/gaussian_blur.rs:gaussian_blur", "d10-ops/src/unsharp.rs:unsharp", "d10-ops/src/edge_detection.rs:edge_detection", "d10-ops/src/blend.rs:blend_image", "d10-core/src/pixelbuffer.rs:apply_kernel, apply_kernel_dyn"]}
{"id": "C127", "title": "Colours and transparency are treated apart, so hidden colours can show", "statement": "Turning, mirroring, cropping, interlacing, resizing and rotating with every filter, kernels, gaussian_blur and unsharp treat red, green, blue and alpha alike and each on its own, to the last bit. So the colours of a result never depend on the alpha values of the image and its alpha values never depend on the colours; this holds as well for changes of brightness, contrast, gamma and levels, inverting, other curves over the channels and edge_detection, and for sequences of all of these. A user expects that the colour of fully transparent pixels never shows. That is true of sequences of steps that mix no pixels (all but kernels, blurring, sharpening, edges, and resizing and rotating with filters other than Nearest). It is false in general: two images that look the same look different after resize with the bilinear filter, because hidden colours are averaged into visible pixels.", "quantifier": "all images, all sequences of these steps with all parameters, all choices of components, debug and release builds, any math library", "why_tests_cant": "That one number of a pixel has no influence on another is a statement about pairs of runs on all images; tests look at single runs.", "anchors": ["d10-ops/src/resize.rs:resize", "d10-ops/src/rotate.rs:rotate", "d10-ops/src/filters.rs:get_pixel_bilinear, get_pixel_bicubic, get_pixel_lanczos3", "d10-ops/src/gaussian_blur.rs:gaussian_blur", "d10-ops/src/unsharp.rs:unsharp", "d10-ops/src/edge_detection.rs:edge_detection", "d10-core/src/color/rgb.rs:with_brightness, with_contrast, with_brightness_contrast, with_gamma, with_gamma_opt, with_level, invert, map_channels", "d10-core/src/pixelbuffer.rs:apply_kernel, apply_kernel_dyn"]}
{"id": "C128", "title": "A Python program and a command line for the same edits give the same files", "statement": "For every command line that opens a picture and then edits and saves it, the Python program that opens the picture with Image.open and does the same edits line by line, leaves the same files with the same bytes, uses the same random numbers, and ends the same way: it finishes, or raises an OSError made from the same error at the same line, or panics when the tool panics. Colour edits may be made in place with mod_colors or with map_colors and the methods of the Python colour (to_gray, invert, with_gamma, with_level and the others), noise in place or as a new image, and names may be left to their defaults. map_color_channels of a Python colour calls the function for the three channels in order, stops at the first exception and passes it on, and otherwise keeps alpha. A line that makes an image grey by an unknown name ends the program with an exception that tells the name, leaving files and random numbers as they were.", "quantifier": "all command lines and queues of commands, all Python programs with the same edits, all files and file systems, all image libraries, all random number generators, debug and release builds, any math library; for map_color_channels all functions with any state", "why_tests_cant": "Two front ends agree on every sequence of edits, every picture and every failure only by a proof over all of them; tests compare a few pictures.", "anchors": ["d10-python/src/color.rs:to_gray, invert, with_gamma, with_level, with_brightness, with_saturation, stretch_saturation, with_lightness, with_hue_rotate, with_contrast, with_brightness_contrast, map_color_channels", "d10-python/src/image.rs:open, save, mod_colors, map_colors, rotate, random_noise, salt_n_pepper_noise, rgb_noise", "d10-commands/src/commands.rs:execute", "d10-commands/src/queue.rs:run", "d10-cli/src/main.rs:main"]}
{"id": "C129", "title": "A release build does what the debug build does, and usual calls never panic", "statement": "Whatever a Python program, with any objects and callbacks, gives in the debug build without a panic, it gives in the release build: the same results, images, files and exceptions; so does each call for itself, and putting images together with any function that behaves like this. The command line tool does exactly the same in both builds, panics included. Usual calls, one after the other, on an image with 1 to 16384 pixels in each direction never panic in either build: sizes up to 16384 (or up to 100 percent), a part to cut out that has pixels, radii up to 32767, shifts below 2^30, any other parameters, unknown names and integers that do not fit included; the result is an exception or again an image of at most that size, the same in both builds. With other calls the builds can differ: a user expects them to agree, but a shift of 2147483647 in interlace panics in the debug build and returns an image in the release build.", "quantifier": "all Python programs over images and colours with all callbacks, all calls and parameters, all images, all command lines and queues, all files, random number generators and image libraries (for the tool: libraries that deliver as much data as the size says; for usual calls: a JPEG library that reads what it wrote, and an exponential function between 0 and 1 for negative arguments)", "why_tests_cant": "Tests run in one build, on a few images. That no arithmetic overflow anywhere separates the two builds, or panics for any ordinary image and any sequence of usual calls, needs a proof.", "anchors": ["d10-core/src/pixelbuffer.rs", "d10-python/src/image.rs", "d10-ops/src/interlace.rs:interlace", "d10-cli/src/main.rs:main", "d10-commands/src/queue.rs:run"]}
{"id": "C130", "title": "Blurring, sharpening and edges have no preferred direction and stay in proportion", "statement": "For images with channels between 0 and 1 and radii up to 500: gaussian_blur, unsharp and Sobel edge_detection give the same before and after turning the image by a multiple of 90 degrees or mirroring it, up to rounding (at most (2r+1)^2/2^16 per channel for the blur, (|factor|+2)(2r+1)^2/2^15 for sharpening with a factor up to 32, 2^-11 for edges). A blur does not make differences larger: images that differ by at most e in every channel differ by at most e + (2r+1)^2/2^16 afterwards. The blur of a mixture of two images is the mixture of their blurs, and a blurred pixel lies between the lowest and the highest pixel in its surroundings, each up to rounding. Edges do not depend on the overall brightness: adding k to all channels, up to d, changes them by at most 12d + 2^-11. A user expects the same directional symmetry of all operations, but resizing to the nearest pixel and interlace violate it: mirroring before and after gives other images.", "quantifier": "all images in gamut of all sizes, all radii up to 500, all sigmas from 10^-6 to 10^6 or the default, all finite factors up to 32, all five turns and mirrors, all pixels and channels, debug and release builds; any math library whose exponential function is accurate to 2^-22", "why_tests_cant": "Symmetry and proportion up to a bound on the rounding error must hold for every picture and every radius; tests compare a few pictures with a guessed tolerance.", "anchors": ["d10-ops/src/gaussian_blur.rs:gaussian_blur", "d10-ops/src/unsharp.rs:unsharp", "d10-ops/src/edge_detection.rs:edge_detection", "d10-ops/src/rotate_90.rs", "d10-ops/src/flip.rs", "d10-ops/src/interlace.rs:interlace", "d10-ops/src/resize.rs:resize"]}
{"id": "C131", "title": "The methods of Python colours compute their formulas, alone, on images and as commands", "statement": "Each of the eighteen methods of a Python Rgb colour that return a colour (to_gray, invert, difference, with_gamma, with_gamma_opt, with_level, with_brightness, with_saturation, stretch_saturation, with_gamma_saturation, with_lightness, with_hue_rotate, with_contrast, with_brightness_contrast, alpha_blend, with_vibrance, with_sepia, modulate) returns for colours in gamut and usual arguments the value of its formula, up to a stated rounding error, with the arguments in the documented order and the transparency kept (difference and with_vibrance return opaque colours, alpha_blend adds the transparencies). to_gray with an unknown name is an OSError that holds the name and changes nothing. mod_colors and map_colors with such a method apply the formula to every pixel and keep size and background colour, and the eleven commands with the same meaning do the same.", "quantifier": "all colours and images in gamut of all sizes, all eighteen methods, all arguments in the usual range, all names, all eleven commands with a method of the same meaning and all surrounding states; any math library whose power and sine functions are accurate", "why_tests_cant": "A formula must hold for every colour and every argument at once; a test compares a few values, and two methods that agree on these can be mixed up without notice.", "anchors": ["d10-python/src/color.rs:to_gray", "d10-python/src/color.rs:difference", "d10-python/src/color.rs:with_level", "d10-python/src/color.rs:modulate", "d10-python/src/image.rs:mod_colors", "d10-python/src/image.rs:map_colors", "d10-core/src/color/rgb.rs", "d10-commands/src/commands.rs:execute"]}
{"id": "C132", "title": "Neutral settings change nothing, adjustments add up and can be undone unless something was cut off", "statement": "The settings that are meant to change nothing (brightness 0, contrast 1, brightness 0 with contrast 1, gamma 1, optimised gamma 1, level from 0 to 1 with gamma 1, saturation 1, stretched saturation 1, gamma of the saturation 1, lightness 1, hue rotation by 0 or a full turn, modulate by 1, 1, 1) change no colour channel by more than 2^-14 and not the transparency, as a method of a Python colour and as a command; brightness 0 changes nothing at all and vibrance 0 changes opaque colours by at most 2^-13. The program with one such command makes no sample of an 8 bit RGBA file brighter and none darker by more than one step. Two changes of brightness add up, two changes of contrast multiply if the first cuts nothing off, two gamma corrections always multiply, each up to a stated rounding error. So each is undone by the opposite brightness, the inverse factor or the inverse gamma. A user might expect that also where values were cut off at 0 or 1; that is lost: raising and lowering brightness by one half, or doubling and halving contrast, changes some colours by one quarter.", "quantifier": "all colours and images in gamut, all neutral settings, all brightness and contrast settings up to 2^60, all gammas from 1/1000 to 1000, all PNG files with 8 bit RGBA samples, all command lines that open, apply one neutral command and save; any math library with an accurate and bounded power function", "why_tests_cant": "A bound on the change must hold for every colour, setting and file; a test sees single values, and rounding errors differ from value to value.", "anchors": ["d10-core/src/color/rgb.rs:with_brightness", "d10-core/src/color/rgb.rs:with_contrast", "d10-core/src/color/rgb.rs:with_gamma", "d10-core/src/color/rgb.rs:with_hue_rotate", "d10-core/src/color/rgb.rs:modulate", "d10-commands/src/commands.rs:execute", "d10-cli/src/main.rs:main"]}
{"id": "C133", "title": "Greys have no hue: colour changes leave them grey, except a weakened stretch of the saturation", "statement": "with_saturation, with_gamma_saturation, with_hue_rotate, with_vibrance and stretch_saturation with a factor of at least 1 leave every grey exactly as it is (with_vibrance makes it opaque). with_saturation(0) gives exactly the grey of to_gray('lightness'). Making grey what is already grey by the same rule changes no channel by more than 2^-21, and nothing at all for the rules brightness, lightness, red, green and blue. A command line that opens an 8 bit RGBA file, changes its colours in any number of steps with usual arguments and saves keeps every grey pixel grey. A user expects this of all rules and factors, but the code violates it twice: grey by saturation, done again, makes the picture black, and stretch_saturation with a factor k < 1 makes greys red: a grey v becomes v + w, v - w, v - w with w = (1 - k)(1 - |2v - 1|)/4, so that the middle grey becomes a strong red for k = 0.", "quantifier": "all greys and colours in gamut, all transparencies, all finite factors, all angles, all gammas from 1/1000 to 1000, all rules for grey, all command lines of colour changes of any length, all 8 bit RGBA files; any math library with accurate power and sine functions", "why_tests_cant": "That grey stays grey must hold to the last bit for every level, setting and sequence of steps; a test tries a few, and the middle of the range is where the exception shows.", "anchors": ["d10-core/src/color/rgb.rs:with_saturation", "d10-core/src/color/rgb.rs:stretch_saturation", "d10-core/src/color/rgb.rs:with_hue_rotate", "d10-core/src/color/rgb.rs:with_vibrance", "d10-core/src/color/rgb.rs:to_gray_with_intensity", "d10-core/src/color/hsl.rs", "d10-commands/src/commands.rs:execute"]}
{"id": "C134", "title": "A command line with several changes of tone computes one formula after the other, from file to file", "statement": "For a command line that opens an 8 bit RGBA file, changes its tone in any number of steps - invert, brightness, contrast, brightness-contrast and gamma up to 1, in any order - and saves, every sample of the new file is the byte of the composed formula: decode to light, apply the formulas of the steps in the given order, encode, take the byte below. Rounding errors do not build up beyond their sum: each step adds its own, enlarged by at most the product of the later factors, and the byte is off by at most 1/64 as long as the errors together stay below 4/1000000, in proportion beyond. Transparency and size stay as they are and no other file is touched. n changes of brightness by the same k, up or down, are one change by n k. The order of different steps matters.", "quantifier": "all 8 bit RGBA files of any size, all command lines of these steps of any length, all finite settings up to 2^60, all gammas from 1/1000 to 1; any math library with an accurate power function, any lossless PNG library", "why_tests_cant": "The sequences of steps and their settings are unbounded, and errors that build up show only in long ones.", "anchors": ["d10-cli/src/main.rs", "d10-commands/src/commands.rs:execute", "d10-core/src/color/rgb.rs:with_brightness", "d10-core/src/color/rgb.rs:with_contrast", "d10-core/src/color/rgb.rs:with_brightness_contrast", "d10-core/src/color/rgb.rs:with_gamma", "d10-core/src/color/rgb.rs:invert"]}
{"id": "C135", "title": "Opaque layers can be put together in any order, and taken apart again", "statement": "For opaque images blended at full intensity: the order of the two images makes no difference for addition, darken and lighten, whatever their sizes. A stack of images of one size can be darkened or lightened from either end, the same layer twice changes nothing, darken and lighten absorb each other, and an image minus itself is black. Black changes nothing when added, subtracted or used to lighten; white changes nothing when used to darken. Three layers can be added from either end, up to 1/4194304 per channel. Subtract takes an added layer away again, up to 1/8388608 per channel, as long as nothing was cut off. A user may expect the same without these conditions; the code violates that: what was cut off is lost (white plus white minus white is black), with transparency the result has that of the second image, so the order matters, and for images of different sizes the grouping matters, because a corner that belongs to neither image is filled with transparent black and takes part in the next step as black.", "quantifier": "all opaque images of all sizes with any colours in range, both build modes, any math library", "why_tests_cant": "The laws are about all pairs and triples of images; that two groupings agree on every colour cannot be sampled.", "anchors": ["d10-ops/src/blend.rs:blend_image", "d10-ops/src/blend.rs:blend_image_with_func", "d10-ops/src/blend.rs:blend_color"]}
{"id": "C136", "title": "The methods of images do to the pixels what the operations of their names do", "statement": "Each of the library's methods on images - geometry, filters, colours, noise, palettes, blending, functions of colours and compose - replaces the pixels by what the operation of the same name makes of them with the arguments as given, keeps the background colour (compose: that of the first image), advances the random numbers as the operation does, and panics or reports an error only when the operation does. Any number of methods in a row is the row of the operations. The methods that change an image in place leave it as what their counterparts return. Free rotation fills with the background colour if there is one. resize_pct is resize to the size it gives, with its filter.", "quantifier": "all images, all methods with all arguments, all sequences of methods of any length, both builds, any libraries and random numbers", "why_tests_cant": "A test calls a method with some arguments; a swapped or dropped argument shows only for others, and sequences are unbounded.", "anchors": ["d10/src/image.rs:Image", "d10-ops/src/blend.rs:blend_image"]}
{"id": "C137", "title": "Translucent layers pile up correctly over an opaque image only", "statement": "Any number of translucent colours laid one after the other over an opaque colour by alpha_blend, or translucent images of one size over an opaque image by Normal with any intensities, give what a pile of such layers looks like (the over operator of Porter and Duff), within n/4194304 (n/2097152 for images) per channel for n layers, and stay opaque. A user may expect the same without an opaque image below, and that layers may be put together first, which makes no difference for a pile; the code violates that: alpha_blend adds the opacities, so one translucent colour over another gets less transparent than a pile by min(ab, (1-a)(1-b)), and the colour below counts whatever its own transparency, so that a translucent colour over nothing is darkened to its value times its opacity. Half transparent red on nothing becomes dark red, and two half transparent layers put together first hide what is below, of which a quarter is seen if they are laid on one by one.", "quantifier": "all colours and images in range, any number of layers, all intensities in [0, 1], both builds, any math library", "why_tests_cant": "The number of layers is unbounded and errors might build up; the laws are about all colours and opacities.", "anchors": ["d10-core/src/color/rgb.rs:alpha_blend", "d10-ops/src/blend.rs:blend_image", "d10-ops/src/blend.rs:blend_normal"]}
