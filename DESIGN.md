# Formal model of vstroebel/d10 in Rocq (Coq 8.16.1)

`/repo` is read as text only.  The model is a hand translation of the Rust
source into total Gallina functions, one definition per Rust function, each
with a comment citing file and lines.  For each area `X` there are

* `X.v` (Base, F32, PixelBuffer, Geometry, Color, Blend, Kernel, Ops, Resample,
  Codec, Image, Commands, Names, Cli, Numpy, Text): the model, no proofs;
* `XSpec.v` (BufferSpec, Reachable, ColorSpec, KernelSpec, OpsSpec, CodecSpec,
  CommandsSpec, CliSpec, ImageSpec, NumpySpec, MeaningSpec, TextSpec): the vocabulary of the properties;
* `*Proofs.v` and other lemma files: proofs;
* `XThm.v`: each property as a lemma with its proof, and examples showing that
  the hypotheses are met by concrete, non-trivial cases;
* `P_X.v`, generated from `XThm.v` by `tools/mkp.py`: the property theorems
  `Cnn_...`, their `Print Assumptions` and the examples.  Start reading here.

This file is generated by `tools/mkdesign.py`; `MANIFEST.json` by
`tools/mkmanifest.py`.  `tools/mutate.py` tests the theorems against wrong
programs; its log is `seeded/LOG.jsonl`.

## 1. Modelling conventions

* **Panics** are a value: `res A := Ok a | Panic`.  A Rust function that may
  panic (assert, index out of bounds, arithmetic overflow with checks on)
  returns `res`.  A Rust `Result` is data inside `res`.
* **Integer arithmetic.** `u32`/`i32` expressions go through `u32 m z` /
  `i32 m z`, where `m : build` is `Checked` (overflow panics, debug) or
  `Wrapping` (release).  Theorems quantify over `m`.  `usize` is an unbounded
  `Z` (a 64-bit target; lengths are at most 2^30 pixels).  Allocation failure
  is not modelled.
* **Buffers** are records of `width`, `height` and a list of pixels,
  polymorphic in the colour type.
* **Closures.** `FnMut` closures are state-passing functions
  `S -> args -> S * result`; `Fn` closures are Gallina functions.
* **f32/f64** are Flocq's `binary_float 24 128` / `binary_float 53 1024`
  with round-to-nearest-even, single NaN.  (Rust's f32 operations `+ - * /`,
  sqrt, comparisons are IEEE 754 operations; NaN payload bits are not
  modelled.)  Casts `as u8/u32/i32` are saturating truncations with NaN to 0.
* **libm** (`powf`, `sin`, `cos`, `atan2`, `exp`, `ln`, `tanh`) is not
  modelled: these are explicit parameters of the model and theorems quantify
  over all implementations, or state the hypothesis they need on them.
* **External crates** (png, jpeg, gif, image, webp codecs, rand, numpy,
  pyo3) are parameters: an encoder is a function of the bytes it is handed,
  a decoder an arbitrary result.  Their contents are not verified.
* **File system**: a map from path to bytes, with a parameter for the point
  at which writes fail.

## 2. Properties and plan

The statements are in `properties.jsonl`, the theorems of each in `MANIFEST.json`.

* **C01** Every buffer has exactly width*height pixels: PixelBuffer.v + Geometry.v; inductive set of operations on buffers, invariant by induction over the history.
* **C02** Constructors accept exactly the valid sizes: Constructors with both build modes; iff with the spec `valid_size`.
* **C03** Reading a pixel after writing one: Index arithmetic x+y*w injective on the rectangle.
* **C04** Building from a function calls it once per pixel in row-major order: State-passing loop; induction on the index range; trace of calls.
* **C05** Fallible constructors and maps return the first error: Same loop with early exit; induction.
* **C06** In-place fallible modification changes exactly the prefix before the error: Loop returning old suffix; induction.
* **C07** enumerate visits every pixel once with its own coordinates: Index <-> coordinate bijection by div/mod.
* **C08** Clamped reads return the nearest edge pixel and never fail on a non-empty image: Clamp with i32/u32 casts; spec minimises distance.
* **C09** Optional reads return Some exactly inside the image: Case split with i32 range.
* **C10** The neighbourhood fast path equals the clamped definition: Both kernels against clamped spec; fast path by list slicing lemma.
* **C11** Debug and release builds agree: Corollary of each function's result not mentioning the build mode.
* **C12** Quarter turns place every pixel exactly: Pixel-wise equation.
* **C13** Quarter turns form the cyclic group of order four: From C12 by extensionality of buffers.
* **C14** Flips are involutions generating rotate180: Same.
* **C15** crop returns exactly the requested part that lies in the image: Pixel-wise with saturating arithmetic.
* **C16** crop laws: From C15 by extensionality.
* **C17** interlace shifts even and odd rows in opposite directions: Pixel-wise; parity of y.
* **C18** compose covers the bounding box and fills missing pixels with the default: Fold of maxima; pixel-wise.
* **C19** When compose panics: Counterexample 1x2^29 and 2^29x1; totality proved when the bounding box is a valid size.
* **C20** Blending leaves pixels outside the overlap untouched: Instance of compose; the closure only sees Options.
* **C21** resize returns the requested size and is the identity on equal size: Float coordinates to i32 saturate, hence clamped reads are total.
* **C22** Nearest resize and nearest rotate never invent colours: Nearest reads go through clamped read; membership.
* **C23** Nearest upscaling by an integer factor: The exact source pixel of every target pixel; the expected repetition is refuted by a concrete size.
* **C24** Free rotation keeps the size and a full turn is the identity: Same as 21.
* **C25** Constructed colours are in gamut: Clamp on Flocq floats, case analysis.
* **C26** Colour operations keep the alpha channel: Model of each colour op; alpha projection.
* **C27** Vibrance and difference lose transparency: Refuted by concrete colours; what does hold is proved.
* **C28** Colour space conversions keep alpha: Projection of alpha in each conversion.
* **C29** Colour equality is reflexive and symmetric: Flocq subtraction antisymmetry under abs.
* **C30** What colour equality means: Refuted by concrete colours.
* **C31** Greyscale results are grey: Channels identical by construction; Flocq x-x=0.
* **C32** Inverting twice restores the colour: Rounding error bound for 1-(1-x).
* **C33** HSL of an in-gamut colour is in range: Monotone rounding between representable bounds.
* **C34** Range of HSV: Range proved for all colours but grey; NaN hue proved for all grey levels from 2^-15.
* **C35** Grey survives HSL and HSV round trips exactly: Flocq case analysis.
* **C36** HSL to RGB never produces NaN or out-of-gamut values: Monotone rounding.
* **C37** Alpha blending with opaque and fully transparent colours: Exactness of x*1, x*0, x+0, monotone rounding.
* **C38** Blending with intensity 0: Proved for the operations where it holds, refuted for the others.
* **C39** Specialised convolution sizes give the same result as the general one: Fold equality over same order of accumulation.
* **C40** Identity kernel: Absorption of signed zeros; x*1+0.
* **C41** Blur and unsharp give finite pixels, except for radius 0: Refuted at radius 0; otherwise bounds of the gaussian coefficients by real analysis (exp) and error analysis of the normalised sum.
* **C42** despeckle only changes dark pixels with few dark neighbours: Model and case analysis; the dark areas that become NaN are characterised.
* **C43** Equalisation maps each value to its rank and keeps the order: Monotone accumulate; division monotone.
* **C44** Histogram bins are never out of bounds: Saturating cast then min; bound.
* **C45** stretch_contrast returns an image that already spans the full range unchanged: Counting histogram; search loops.
* **C46** Palette application picks a closest palette colour: Fold minimum with float compare.
* **C47** Salt and pepper and RGB noise change pixels only as documented: Random stream as list parameter.
* **C48** Random and gaussian noise mix fresh numbers into the colour channels and never touch alpha: Same with colour map.
* **C49** Changing the temperature to itself: Table index bound; identity x/x=1.
* **C50** Format detection by content: Byte pattern matching.
* **C51** File contents decide before the file name: Model of decode_file.
* **C52** An unknown extension never touches the file system: File system state.
* **C53** What a save leaves in the file system: File system with failing writes; refuted, with the exact contents after a failed save.
* **C54** Encoder byte buffers have the size the format promises: flat_map length and nth.
* **C55** 8 and 16 bit samples survive the float representation: 8 bit by a finite sweep, 16 bit by error bounds of the two roundings; monotone rounding.
* **C56** Alpha survives decode then encode: From C55.
* **C57** ARGB packing for WebP is lossless: Bit operations.
* **C58** Oversized images are rejected before encoding: Model of encoder prologue.
* **C59** Decoders panic on nothing but JPEG files of more than 2^30-1 pixels: Model of decoder prologue; the JPEG size overflow is the exception.
* **C60** Opaque sources decode to opaque images: Exact list of formats where it holds; Rgb16 and CMYK refuted.
* **C61** A command queue does its commands in order up to the first error: Induction on queue.
* **C62** Commands without an opened image report MissingImage: Induction on queue.
* **C63** Progress log numbers are consistent: Induction on queue.
* **C64** Command line arguments map to commands in order, bad ones are reported: Parser model on lists of strings.
* **C65** The first argument opens if it is a file name, all other file names save: Refuted with -silent; the exact rule is proved.
* **C66** Names of enum variants parse exactly: String tables.
* **C67** Image calls keep metadata, give well-formed images of the documented size, and rotation fills with transparent black: Induction on operations.
* **C68** resize_pct scales both sides by the percentage and never yields an empty image: Float casts.
* **C69** NumPy arrays: layout, values and round trips: Model of array conversion.
* **C70** Blending with intensity 1 and an opaque second image: Exactness of multiplication by 1 and 0; monotone rounding.
* **C71** Blending stays in gamut: Monotone rounding through each formula; for LCh the final clamp.
* **C72** Resizing keeps the gamut and single-coloured images: Weights in [0,1]: convex combinations and Hermite polynomial with rounding error analysis.
* **C73** Rotation by 0 is the identity: Coordinates are exact below 2^22; fractions are 0.
* **C74** Edge detection of a flat image is black: Convolution spec of C39 with explicit kernels; error analysis for the sums.
* **C75** Symmetric nearest neighbour averages the nearer pixel of each opposite pair: Fold over pairs; mean of numbers in [0,1] with rounding.
* **C76** drawing is total; its steps; grey, in gamut and opaque results: Composition of the proved stages (blur, difference, ...), clamp absorbs NaN.
* **C77** balance stretches each channel on its own: Histogram search characterised by counting; per-channel formula.
* **C78** Dark samples survive decode then encode: 8 bit by a finite sweep over the linear part of the transfer function, 16 bit by error bounds; both for every powf.
* **C79** Decoded images show the samples of the file: Index arithmetic of each decoder against a row/column specification of the library data.
* **C80** Simulated JPEG compression keeps size and alpha: Composition of encoder and decoder; the library is a parameter with a hypothesis.
* **C81** White is not saved as white: Evaluation with the parameter powf; the hypothesis fixes its value at 1.
* **C82** has_transparency and is_grayscale decide what they say: Quantifier over pixels, float comparison to real comparison.
* **C83** Pixels read from arrays stay in range: Per-mode case analysis of the conversion functions.
* **C84** Colour operations compute their formulas: Forward error analysis: lemmas `close_add`, `close_mul`, ... in Approx.v compose rounding errors; specification in MeaningSpec.v on real numbers.
* **C85** HSL describes the colour: Same; hue circle functions are 6-Lipschitz on the circle; sector analysis.
* **C86** HSV describes the colour: Same, with the relative error of the differences.
* **C87** Operations on hue, saturation and lightness: C85 and Lipschitz continuity of the HSL formula in its three components.
* **C88** sRGB transfer function: The curves on real numbers against the binary32 code with powf of accuracy 2^-20; the limits of the code are the binary32 numbers below the decimals, so no number lies between. Round trips by x^(a b) near x and bounds on the powers at the limits.
* **C89** Samples survive decode then encode up to one: C88's round trip, the relative error of the luma of a grey, and the floor of the scaled value; lifted to files by the layout theorems of C56.
* **C90** Accessors touch one component: Accessors as a table from names to components; a colour is four numbers. By cases on the type.
* **C91** The text form of a colour: format_color and its helper modelled on strings, with to_string as a parameter that is only required to read back and to use no more decimals than needed; a decimal grammar as specification, and a to_string that meets it. The error of the rounding is bounded with the f32 lemmas; texts are told apart by the first parenthesis, comma and point.
* **C92** Colours from Python: The match of the Python functions as string comparisons; the interpreter's rule for comparison operators as its documented fallback.
* **C93** Converting iterators: An iterator is a state and a step; induction on the number of calls.
* **C94** XYZ colours: The matrices as written; real combinations in ConvSpec; each sum of three products bounded with the f32 lemmas, the round trip from the residual of the product of the two matrices.
* **C95** YUV colours: As C94, then the error goes through the sRGB curve with its Lipschitz bound (C88); powf is a parameter with a relative error bound, and a correctly rounded powf shows that it can be met.
* **C96** Lab colours: The CIE curve as a real function in ConvSpec. lab_f and lab_finv are within small errors of it, the curve is Lipschitz apart from the gap at its joint, where the two constants of the code do not meet exactly. The violation from the cube roots of the ratios of the whites.
* **C97** LCh colours: sqrt from Flocq, cos, sin and atan2 as parameters with an error bound, and correctly rounded ones that meet it. The product of the perturbed radius and angle is near a and b.
* **C98** Automatic lightness: The f64 sum as a fold over the pixels; the error of a sequential sum by induction over the list; then the perturbation of the exponent of the gamma correction of C84.
* **C99** Automatic saturation: The f32 sum by induction, also its stalling: sums of numbers up to 1 never exceed 2^24. The pixel functions from the meaning of HSL, HSV (C85, C86) and LCh (C97). The violation by induction over an image of one colour, not by computation.
* **C100** Colour temperature: The table as real numbers in TempSpec, the f64 interpolation and the conversion bounded with error lemmas; linear conditions on chromaticities carry over from the entries to the points between them.
* **C101** Automatic colour temperature: The f64 sum as in C98; tanh is a parameter with an error bound (a correctly rounded one meets it) and is 1-Lipschitz by the mean value theorem.
* **C102** What the blend operations compute: The formulas in BlendSpec; error lemmas for apply_intensity, composed with the HSL and LCh conversions of C90 and C97.
* **C103** Blending hues: Case analysis on the three branches of the hue function with a bound on pi from Machin's formula; the violation by bounding lightness, chroma, hue and the way back to RGB for two fixed colours and every accurate library.
* **C104** What resizing computes: The surfaces are defined on real numbers in ResampleSpec. Error bounds for the float positions and interpolations, and Lipschitz bounds of the surfaces for the error of the position.
* **C105** What free rotation computes: Ideal position in ResampleSpec; the float position is within (width + height) / 2^19 by error lemmas relative to the size; then as C104. A full turn, which the code treats apart, agrees with the ideal position.
* **C106** What the Lanczos filter computes: The filter as a formula on reals (LanczosSpec). Lipschitz bounds for sin x / x by the mean value theorem, error bounds for the float weights relative to their size, and for the two nested sums by induction on their length; the window of Auto by relative errors of the scale; the plain white counterexample from exact values of the cardinal sine.
* **C107** What the tint correction computes: The darkening as a formula on reals with the hyperbolic tangent of the reals (TintSpec). Error of the float sum by induction on the image, of the power by relative errors, and the Lipschitz bound of the power for the channels that are scaled first. For large images the bound on single-precision sums used for C98 and C99 caps the excess at 2^24 over the number of pixels.
* **C108** What blurring, sharpening and Sobel edge detection compute: The bell curve, the weighted mean and the two slopes as formulas on reals (GaussSpec). The argument of exp by relative errors, exp by t * exp(-t/2) <= 2, the quotient of sums by a bound on both sums with the centre weighing 1, the f32 sums by induction; the Sobel root by the triangle inequality and relative errors.
* **C109** What contrast stretching computes: The two levels by counting pixels (StretchSpec). Each share is the f32 sum of count times 1/n and each running sum an f32 sum of shares, both by relative errors over the number of additions; the sum of the counts of the bins is the count of pixels in the range, by induction; the quotient by a Lipschitz bound on a limited ratio. The plain grey image by computing its level.
* **C110** What balancing the channels computes: The levels as in C109 and the soft stretch as a formula on reals (StretchSpec). The points are unique, so all pixels use the same levels; tanh by its Lipschitz bound and tanh u <= u, the product of three factors by their relative errors. The two greys by evaluating the formula with bounds on tanh 2.
* **C111** Python images: creation, lists, pixels and functions: Model of the Python class with PyO3's integer conversion, exceptions and panics (PyImage.v); Python functions are state-passing functions that can fail. From the properties of the buffer (C02, C05, C06, C09, C18) and a case split on the integers.
* **C112** Python defaults and names: An inductive relation gives the operation each call means with its defaults (PySpec.v), another the unknown names, a list the integers. Every call is covered; proved by cases with the exact names of C66. WebP by an encoder that writes the quality it is asked for.
* **C113** Vibrance formula: The formula is a real function (DrawSpec.v); the sine is any sine within |x|/2^19, as in C106. Rounding error bounds through the float operations and the meaning of HSL (C85).
* **C114** Plain areas stay blank in a drawing: Error bounds for a window that shrinks by the kernel radius at each stage: both blurs keep a constant area within a rounding error, the quotient of the two is above 0.8 there, so drawing_pixel returns exactly 1; then sharpening and despeckling keep it, and merge_color only changes the lightness by the rounding error.
* **C115** WebP: the lossless preset: The three configuration functions of libwebp that the code calls are modelled from its header (WebPConfig.v); the configuration of every job is computed from the arguments the code passes. The library's encoder itself is a parameter.
* **C116** what is saved as PNG, BMP or ICO can be opened again: The models of saving and opening are composed through a pair of PNG libraries of which only losslessness is assumed. Per pixel: the meaning of the sRGB encoding (C88), truncation to a sample, splitting in bytes and joining, and the meaning of decoding; no sample lies near the limit of the decoding formula, so it is Lipschitz there.
* **C117** opening and saving a PNG file again and again: The bound by induction on the number of times from C89. The exact losses: powers with the float exponents of the code are enclosed with integers (interval powers rounded to 64 bits, proved sound), which gives, for every powf with the stated error, a short list of possible results; the rest of the pipeline is evaluated by the kernel for each of them and each of the 255 samples.
* **C118** GIF files with a screen and several frames: A GIF file is modelled as a screen and a list of placed frames; the library delivers the first frame in its own size, as the gif crate documents. The pixels come from C79; the screen is shown exactly if the frame fills it, by arithmetic on the places.
* **C119** The program, from file to file: Composition of the command line (C64), the queue (C61), decoding (C79), the meaning of the operations (C84), sRGB (C88) and the layout of stored pixels (C54). The sRGB curve is Lipschitz continuous with constant 13 up to its small jump, by the mean value theorem, which turns errors in the light into errors in the byte.
* **C120** Which palette colour is the nearest: The exact Lab values are real numbers (C94, C96). The error of the float distance is at most 1/4000: error bounds of the conversion (C94, C96), of the differences, squares, sums and root, and the triangle inequality. For the second application: the way to Lab and back moves a colour by less than 24/1000, and of equal distances the first wins both times. The example with black is computed with bounds on cube roots.
* **C121** Python programs: objects, references and functions called back: Objects are numbered cells with PyO3's borrow flag; a program is a tree of method calls whose branches depend on the results, with functions as subtrees. By induction on the tree: every run relates the cells before and after (guarded). The calls of mod_colors and map_colors are stated as an inductive chain of runs of the function.
* **C122** The order of steps: Turning permutes the pixel list (a coordinate bijection, C12, C14). The histograms depend only on the number of pixels in each bin, so on the list up to permutation; each operation then recolours with a function that is the same before and after. Cropping, interlacing and nearest resizing read pixels at positions that do not depend on the colours.
* **C123** Kernels built at run time and the ready-made Sobel kernels: The list of weights is the image of get under the row by row order of offsets; with C39 this gives the sum. The x kernel of new_sobel_x is the negated one of edge_detection: rounding to nearest commutes with negation, so the two sums are opposite (or zeros of any sign) and their squares the same float.
* **C124** Darker stays darker: tone changes keep or reverse the order of shades: Rounding to nearest is monotone, also where it overflows to an infinity: each float operation keeps the order of its operands. The curves are compositions of such operations; the two branches of the sRGB functions are compared at the point where they meet. With C119 this carries over to files, with C109 to contrast stretching, with C39 and weights in [0, 1] to the blur. Levels: the factor is negative if the black point is above the white point, except where the code replaces a small difference by a positive constant. Sums of large blur weights stop growing at 2^63, so the weights are in [0, 1] for every sigma. Resizing: Nearest copies from the same places of both images; Bilinear by the surface of C104, which is monotone; the counterexamples are computed for both builds.
* **C125** Filters look only so far: images may be filtered in tiles: Relate two pixels of two images if the pixels and the borders around them agree up to k columns and rows away. Each filter is shown to turn related pixels into equal ones, from the pixel-wise descriptions of C39, C42, C74 and C75; relations of j + k become relations of j under a filter that reaches k, so filters in a row, and the steps inside drawing, compose.
* **C126** Red, green and blue are treated alike: no colour casts: Each function of the model is shown to commute with a reordering of the channels, from single pixel reads up to whole operations, including the case that it panics; no validity is assumed. A colour that no reordering changes is grey, so greys staying grey is a corollary.
* **C127** Colours and transparency are treated apart, so hidden colours can show: As C126, with an arbitrary choice of components instead of a reordering; the choices that forget alpha or the colours give the statements about pairs of runs. Copying steps commute with blanking the invisible pixels. The counterexample is computed for every math library and both builds.
* **C128** A Python program and a command line for the same edits give the same files: Both front ends are modelled call by call. Each command is matched with the Python lines for it; one step of the queue and one line agree on files, random numbers, image and error; induction over the queue. The command line is reduced to its queue with C64's reading of arguments.
* **C129** A release build does what the debug build does, and usual calls never panic: The build is a parameter of the model: arithmetic on fixed-width integers panics or wraps. A relation between the two builds (every value of the first is one of the second) is shown for the arithmetic and carried through every function, by induction for loops and for Python programs. For the tool, the panics are the same by C59 and C61. For usual calls the total-correctness theorems of the operations (C09 to C80) are combined along the sequence of calls.
* **C130** Blurring, sharpening and edges have no preferred direction and stay in proportion: C108 gives each result as a formula on real numbers up to a bound. The formulas do not change when the surroundings are turned: the offsets of a window are permuted and the bell curve depends on the distance only. The weighted mean is linear, monotone and keeps constants; the length of the slope obeys the triangle inequality. Pixels at the edges of a turned image are found with C12 and C14.
* **C131** The methods of Python colours compute their formulas, alone, on images and as commands: The formulas of all methods are collected in one definition over real numbers. Each method is matched with the operation it calls, whose formula is C84, C85, C87, C113 or C27; the loops are runs of the method over the pixels (C111), the commands apply the same functions (C61).
* **C132** Neutral settings change nothing, adjustments add up and can be undone unless something was cut off: The formulas of C131 with neutral settings are the identity, that of the hue up to a full turn of the circle. Two formulas are composed: limiting to [0,1] is contracting, the power x^p is Hölder continuous for p < 1 and has slope at most p for p > 1 (mean value theorem). For files the error is carried through the sRGB function as in C119, where encoding the light of a byte gives the byte back.
* **C133** Greys have no hue: colour changes leave them grey, except a weakened stretch of the saturation: The HSL form of a grey has saturation and hue 0 and its lightness is the grey itself. A saturation of 0 stays 0 through products, powers and the sine of 0, and HSL with saturation 0 gives three equal channels. The weakened stretch is the formula of C87 at saturation 0. For files: each step keeps gamut, transparency and greys, by induction on the command line; equal samples decode to equal numbers and are stored as equal bytes (C119).
* **C134** A command line with several changes of tone computes one formula after the other, from file to file: By induction on the command line: the formula of a step (C84, C86) maps [0,1] into [0,1] and has a slope bound; composing multiplies the bounds and adds the errors. The end-to-end argument of C119 then takes the sum through decoding and encoding. Repeated brightness by induction on the number of steps: cutting off twice on the same side is cutting off once.
* **C135** Opaque layers can be put together in any order, and taken apart again: At full intensity and full alpha the channel of the result is the operation on reals, cut off to [0,1]; minimum and maximum are exact, so their laws carry over, and sums carry one rounding per step, bounded by half a unit below 2. Images by the pixelwise description of blend_image (C20); the refutations are concrete images.
* **C136** The methods of images do to the pixels what the operations of their names do: A table of methods and operations is the specification; each line is checked against the method, panics included. Rows of methods by induction on the row.
* **C137** Translucent layers pile up correctly over an opaque image only: One step over an opaque colour is the formula of C84, which equals the over operator there, and the result is opaque again; an error below a layer is multiplied by what the layer lets through, so induction on the number of layers adds the errors. Images by the pixelwise description of blend_image (C20). The associativity of the over operator over the reals shows what is lost; the refutations are concrete colours.

## 3. Modelled and not modelled

| Rust source | model | notes |
|---|---|---|
| d10-core/src/pixelbuffer.rs | PixelBuffer.v, Kernel.v | all functions except `Debug` |
| d10-core/src/kernel.rs, kernel_dyn.rs | Kernel.v | const generics become a size argument |
| d10-core/src/color/*.rs | Color.v, Text.v (accessors, text form, iter.rs) | one record of four floats for the eight types |
| d10-core/src/errors.rs | Names.v | without the message text |
| d10-ops/src/rotate_90.rs, flip.rs, crop.rs, interlace.rs, compose.rs | Geometry.v | |
| d10-ops/src/blend.rs | Blend.v | |
| d10-ops/src/filters.rs, resize.rs, rotate.rs | Resample.v | |
| d10-ops/src/gaussian_blur.rs, unsharp.rs, edge_detection.rs, despeckle.rs, symmetric_nearest_neighbor.rs, drawing.rs | Kernel.v | |
| other files of d10-ops/src | Ops.v, Codec.v (jpeg_quality.rs) | random numbers are a parameter |
| d10-codecs/src | Codec.v, WebPConfig.v | the codec libraries are parameters, except three configuration functions of libwebp, modelled as its header documents them; error messages are not modelled |
| d10/src/image.rs | Image.v | |
| d10-commands/src | Commands.v | a printed line is data, not text |
| d10-cli/src/main.rs | Cli.v, Names.v | the standard library's number parser and lossy string conversion are parameters |
| d10-python/src/image.rs | Numpy.v, PyImage.v, PyObjects.v (objects, references, functions called back, with PyO3's borrow checks) | PyO3 as far as it is visible: integers that do not fit, OSError, panics; floats after their conversion |
| d10-python/src/color.rs, lib.rs | Text.v | the interpreter's rule for `==`, `!=` and `<` is part of the model |

Not modelled: `Debug` texts, most error message
texts, the rest of the generated PyO3 glue (PyObjects.v has its run-time borrow checks, for a selection of the
methods; a program that catches a panic, and several Python threads inside a function, are left out), the methods of the Python colour
classes that only forward their arguments, memory allocation and its failure, threads (the code has none that
share state), the running time, and everything inside the external crates.

Assumptions about the translation that no theorem checks:

* Rust evaluates f32 expressions in binary32 with no extra precision and no
  fused operations (true for the tier-1 targets; x87 is the exception).
* `f32::powf`, `sin`, `cos`, `exp`, `tanh`, `atan2`, `f64::tanh` are functions of
  their arguments.  What else is assumed of them is a hypothesis of the theorem
  that needs it (`accurate_powf`, `bounded_powf`, sin 0 = 0, ...).
* A decimal literal is the nearest binary32 number (`dec n d`).
* Iteration over slices is in order; `usize` has 64 bits.

## 4. Findings

Properties a user expects and the code violates, each with a theorem that
shows it (suffix `_refuted`, or a characterisation of the bad inputs):

* **C06** When try_mod_colors returns Err the pixels before the failing one hold their new values and the failing pixel and all later ones are untouched; when it returns Ok every pixel has been replaced. It is therefore not atomic. (`C06_try_mod_colors_atomic_refuted`)
* **C17** A user expects it for every u32 offset; the code violates that: an offset of 2^31 or more wraps to a negative number and shifts the rows the other way. (`C17_interlace_large_offset_refuted`)
* **C19** A user expects compose of valid images to return always. The code violates that: compose returns exactly when the bounding box of the images is itself a valid image size (and the list is not empty), and two valid images whose bounding box is too big make it panic. (`C19_compose_total_refuted`)
* **C23** A user expects the source pixel (floor(x/k), floor(y/k)), every pixel repeated k times; the code violates that for every k from 2 and every image whose first two pixels differ. (`C23_nearest_upscale_repeats_refuted`)
* **C27** A user expects with_vibrance and difference to keep the transparency of their input like the other colour operations. The code violates that: both always return an opaque colour, so a half transparent colour becomes opaque. (`C27_vibrance_alpha_refuted`)
* **C30** A user expects equality to be an equivalence that separates NaN from numbers; the code violates that: it is not transitive, and a colour whose channels are all NaN equals every colour. (`C30_equality_transitive_refuted`, `C30_nan_equality_refuted`)
* **C34** A user expects that for every in-gamut colour; the code violates it: the hue of every grey level from 2^-15 up is NaN. (`C34_hsv_in_range_refuted`)
* **C38** A user expects that intensity 0 leaves each pixel of the first image unchanged for every operation. That holds for normal blending. Addition, subtract, darken and lighten return the channels of the first colour but, against the expectation, the alpha of the second. The HSL and LCh operations return the first colour converted to HSL or LCh and back (for the LCh hue when the hues are at most half a turn apart, and always with the alpha of the first colour). (`C38_intensity_0_identity_refuted`)
* **C40** Convolving with the kernel that is 1 at the centre and 0 elsewhere returns every finite image unchanged. (`C40_identity_kernel_infinite_refuted`)
* **C41** A user expects the same of radius 0; the code violates that: it turns every pixel into NaN. Radii of 32768 and more panic.
* **C42** A user expects this of every amount; the code violates that: for amounts of 9 and more a pixel in a fully dark area becomes NaN.
* **C46** A user expects the pixel to keep its alpha; the code gives it the palette colour's alpha.
* **C49** A user expects the identity for every t; the code violates that for t below 1786 K. No temperature makes the table lookup go out of bounds. (`C49_temperature_identity_refuted`)
* **C53** A user expects that a failed save keeps the previous content and that Ok means that all bytes are stored; the code violates both: an error such as BadDimensions leaves an empty file, and errors while the last 8192 buffered bytes are written are lost (unless the encoder flushes, Ok only guarantees all but 8192 bytes). Saving to memory gives exactly the bytes the encoder writes, or its error. (`C53_save_success_refuted`, `C53_save_failure_refuted`)
* **C54** A user expects this of all colour types; the code violates it for 16 bit gray PNG, where it hands over four bytes per pixel instead of two. (`C54_png_l16_layout_refuted`)
* **C59** A user expects that it never panics; the code violates that for JPEG images of more than 2^30-1 pixels, and for nothing else. (`C59_decode_panics_refuted`)
* **C60** A user expects this of all pixel formats and that CMYK white decodes to (1,1,1); the code violates the first for 16 bit RGB images of the image crate (BMP, ICO), which become fully transparent, and the second for CMYK, where the value of no ink is 65025/65536. (`C60_rgb16_opaque_refuted`, `C60_cmyk_white_refuted`)
* **C65** A user expects the first file name to be opened wherever options such as -silent stand; the code violates that: d10 -silent in.png out.png becomes Silent, Save in.png, Save out.png and fails with MissingImage. (`C65_silent_first_refuted`)
* **C69** A user expects that for every mode and type; the code violates it in three cases: boolean arrays come back negated, four-channel lch arrays are read as Lab, and uint32 numbers above 2^24 lose their low bits. An array of less than two dimensions panics instead of raising an error. (`C69_bool_round_trip_refuted`, `C69_lcha_refuted`, `C69_u32_array_refuted`)
* **C74** A user expects in-gamut results of Laplace mode too; the code violates that: it does not limit its result. (`C74_laplace_in_gamut_refuted`)
* **C78** A user expects no change at all; the code violates that, for example sample 53 of 16 bits becomes 52. (`C78_dark16_exact_refuted`)
* **C81** A user expects that a white pixel is saved as 255 of 255 and that a white file stays white when it is read and saved; the code violates that: with every powf that gives powf(1,y) = 1 the samples written are 254 (of 255) and 65534 (of 65535). (`C81_white_saved_refuted`, `C81_white_round_trip_refuted`)
* **C83** A user expects that for all modes; the code violates it for hsv, where values without saturation are not limited, and for the alpha channel of xyza and laba. (`C83_import_range_refuted`)
* **C87** A user expects larger turns to be reduced too; the code violates that: turning by 720 degrees makes a red lose all its red. (`C87_hue_two_turns_refuted`)
* **C90** A user expects Rgb and Srgb to stay in [0, 1], as their constructors ensure; the code violates that: setters and with_ methods store any value. new_from_fn builds what the constructor builds. (`C90_setter_keeps_range_refuted`)
* **C91** A user expects every number to be readable; the code violates that for NaN and infinities, shown as NaN.0 and inf.0, and for huge finite numbers, shown as inf.0. (`C91_text_of_extremes_refuted`)
* **C92** A user expects != to be the opposite of ==; the code violates that: two objects with equal colours are both equal and unequal. The order operators raise TypeError. (`C92_python_ne_refuted`)
* **C96** A user expects white to be neutral for each illuminant; the code violates that: it does not adapt the white, so white has b below -0.007 for every other choice and below -0.15 for D50. (`C96_white_neutral_refuted`)
* **C99** A user expects the result not to depend on the size of the image; the code violates that: the f32 sum stops growing, so an 8192 x 4096 image of one colour gets another colour than a 1 x 1 image of it. (`C99_optimize_saturation_any_size_refuted`)
* **C100** A user expects every change of temperature to change red; the code violates that: because of the limiting every white up to 7000 K has red 1, and red stays the same between two such temperatures. (`C100_temperature_red_kept_refuted`)
* **C103** A user expects the same of LchColor; the code violates that: it mixes the two hues as plain numbers between -pi and pi, so half a green without red blended with half a turquoise without red gives a colour with red of at least 1/2. (`C103_color_blend_near_refuted`)
* **C106** A user expects that shrinking keeps a plain colour; because of that width the code violates it: a plain white 8 by 8 image shrunk to 4 by 4 with Auto gets channels above 1.03. (`C106_plain_white_refuted`)
* **C107** A user expects it for images of any size; the code violates that: the excess is added up in single precision and stops growing at 2^24, so a plain half-green image of 2^25 pixels or more keeps green above 1/5 although darkening it by its mean excess gives at most 1/8. (`C107_tint_large_refuted`)
* **C109** A user expects an image without contrast to be left alone; the code violates that: if lo = hi, v becomes 2^15 * (v - lo/255) limited to [0, 1], so that every image of one mid grey becomes white. (`C109_stretch_plain_refuted`)
* **C110** A user expects channels that start in [0, 1] to stay there; the code violates that: in an image of the greys 103/256 and 154/256, balanced with threshold 0, the brighter one ends above 1.01. (`C110_balance_range_refuted`)
* **C111** A user expects that writing outside the image raises an exception too; the code violates that: img[x, y] = c and put_pixel panic for every position outside that fits u32. (`C111_python_setitem_refuted`)
* **C112** A user expects save(path) and save(path, format) with the format of the path and no further arguments to write the same file; that holds for JPEG, PNG, GIF, BMP and ICO, but the code violates it for WebP: without a format the quality is 90, with EncodingFormat.webp() it is 85. (`C112_python_save_defaults_refuted`)
* **C115** A user expects the lossless preset to keep the pixels; the code violates that: it activates the lossless mode with the level 100, but the library only accepts 0 to 9 and then changes nothing, so that every image and quality is encoded lossy with quality 75. (`C115_webp_lossless_refuted`)
* **C117** A user expects colour samples to settle after the first time; the code violates that: for every powf with an error of at most 7/8 units in the last place, every time lowers each 8 bit colour sample from 39 to 63 by one, so that 63 has become 38 after 25 times. With an error below 0.515 units exactly 62 of the samples below 255 are lowered by one each time, and these are listed. (`C117_generation_loss_refuted`)
* **C118** A user expects the picture that a viewer shows first, the frame at its place on the screen; the code violates that: they get it exactly if the first frame fills the screen, and a picture of another size otherwise. The screen, the place of the frame and later frames make no difference, a file without frames is an error, and a file that is opened and saved as GIF becomes one of the size of the first frame. (`C118_gif_screen_refuted`)
* **C120** A user expects the distance to be the CIE delta E (1976); the code violates that: because of the division black becomes a dark blue (delta E 60) although the palette also has a dark grey (delta E 57). (`C120_palette_cie76_refuted`)
* **C121** A user expects that compose, too, raises an error for an image in use, and that an image that is only read by map_colors can be saved; the code violates both: compose panics, and save raises a RuntimeError. (`C121_compose_raises_refuted`, `C121_save_while_read_refuted`)
* **C123** A user expects get to panic for every position outside the kernel; the code violates that: a column beyond the last one gives a weight of a later row. (`C123_kernel_get_outside_refuted`)
* **C124** with_brightness, with_contrast (factor not negative), with_brightness_contrast, with_gamma, with_gamma_opt and with_level (black point not above white point) send red, green and blue through one curve from [0, 1] to [0, 1] that never falls, so that no darker value ends up brighter than a lighter one; with a contrast factor that is not positive, for invert, and for levels with the black point above the white point by 2^-23 or more, the curve never rises. Changes in a row give such a curve again, rising if an even number of them falls. A command line of such changes sends all bytes of an 8-bit RGBA PNG file through one table that never falls (or never rises). stretch_contrast applies one rising curve to the whole image. If a colour is in no channel brighter than another, neither is its grey value (for every intensity but the saturation), its sepia tone or its blend under one overlay; if an image is nowhere brighter than another, neither is its Gaussian blur with the default sigma or one from 10^-6 to 10^6; nor is it after such changes in a row and a blur, the two images being exchanged if the curve falls. Turns, flips, crops and resizing with Nearest keep the order of two images, with Bilinear up to the rounding; a user may expect this of all filters and exactly, which the code violates: Bilinear may exchange two values by rounding, and with Bicubic a pixel gets darker if one two places away gets brighter. A user may expect the same of grey by saturation; the code violates that: black and white become black, red becomes white. Nor do exchanged levels always reverse the order, as may be expected: points closer than 2^-24 give a rising step whichever is the greater. (`C124_exchanged_levels_refuted`, `C124_saturation_grey_refuted`, `C124_resize_order_refuted`)
* **C127** A user expects that the colour of fully transparent pixels never shows. That is true of sequences of steps that mix no pixels (all but kernels, blurring, sharpening, edges, and resizing and rotating with filters other than Nearest). It is false in general: two images that look the same look different after resize with the bilinear filter, because hidden colours are averaged into visible pixels. (`C127_hidden_colours_show_refuted`)
* **C129** Whatever a Python program, with any objects and callbacks, gives in the debug build without a panic, it gives in the release build: the same results, images, files and exceptions; so does each call for itself, and putting images together with any function that behaves like this. The command line tool does exactly the same in both builds, panics included. Usual calls, one after the other, on an image with 1 to 16384 pixels in each direction never panic in either build: sizes up to 16384 (or up to 100 percent), a part to cut out that has pixels, radii up to 32767, shifts below 2^30, any other parameters, unknown names and integers that do not fit included; the result is an exception or again an image of at most that size, the same in both builds. With other calls the builds can differ: a user expects them to agree, but a shift of 2147483647 in interlace panics in the debug build and returns an image in the release build. (`C129_builds_differ_refuted`)
* **C130** A user expects the same directional symmetry of all operations, but resizing to the nearest pixel and interlace violate it: mirroring before and after gives other images. (`C130_resize_and_mirror_refuted`, `C130_interlace_and_mirror_refuted`)
* **C132** The settings that are meant to change nothing (brightness 0, contrast 1, brightness 0 with contrast 1, gamma 1, optimised gamma 1, level from 0 to 1 with gamma 1, saturation 1, stretched saturation 1, gamma of the saturation 1, lightness 1, hue rotation by 0 or a full turn, modulate by 1, 1, 1) change no colour channel by more than 2^-14 and not the transparency, as a method of a Python colour and as a command; brightness 0 changes nothing at all and vibrance 0 changes opaque colours by at most 2^-13. The program with one such command makes no sample of an 8 bit RGBA file brighter and none darker by more than one step. Two changes of brightness add up, two changes of contrast multiply if the first cuts nothing off, two gamma corrections always multiply, each up to a stated rounding error. So each is undone by the opposite brightness, the inverse factor or the inverse gamma. A user might expect that also where values were cut off at 0 or 1; that is lost: raising and lowering brightness by one half, or doubling and halving contrast, changes some colours by one quarter. (`C132_cut_off_is_lost_refuted`)
* **C133** A user expects this of all rules and factors, but the code violates it twice: grey by saturation, done again, makes the picture black, and stretch_saturation with a factor k < 1 makes greys red: a grey v becomes v + w, v - w, v - w with w = (1 - k)(1 - |2v - 1|)/4, so that the middle grey becomes a strong red for k = 0. (`C133_saturation_gray_again_refuted`, `C133_weak_stretch_reddens_refuted`)
* **C135** For opaque images blended at full intensity: the order of the two images makes no difference for addition, darken and lighten, whatever their sizes. A stack of images of one size can be darkened or lightened from either end, the same layer twice changes nothing, darken and lighten absorb each other, and an image minus itself is black. Black changes nothing when added, subtracted or used to lighten; white changes nothing when used to darken. Three layers can be added from either end, up to 1/4194304 per channel. Subtract takes an added layer away again, up to 1/8388608 per channel, as long as nothing was cut off. A user may expect the same without these conditions; the code violates that: what was cut off is lost (white plus white minus white is black), with transparency the result has that of the second image, so the order matters, and for images of different sizes the grouping matters, because a corner that belongs to neither image is filled with transparent black and takes part in the next step as black. (`C135_layer_taken_away_refuted`, `C135_order_of_transparent_layers_refuted`, `C135_stack_of_sizes_refuted`)
* **C137** Any number of translucent colours laid one after the other over an opaque colour by alpha_blend, or translucent images of one size over an opaque image by Normal with any intensities, give what a pile of such layers looks like (the over operator of Porter and Duff), within n/4194304 (n/2097152 for images) per channel for n layers, and stay opaque. A user may expect the same without an opaque image below, and that layers may be put together first, which makes no difference for a pile; the code violates that: alpha_blend adds the opacities, so one translucent colour over another gets less transparent than a pile by min(ab, (1-a)(1-b)), and the colour below counts whatever its own transparency, so that a translucent colour over nothing is darkened to its value times its opacity. Half transparent red on nothing becomes dark red, and two half transparent layers put together first hide what is below, of which a quarter is seen if they are laid on one by one. (`C137_layer_on_nothing_refuted`, `C137_layers_in_groups_refuted`)

## 5. Trusted base

* Coq 8.16.1's kernel.  Proofs by `vm_compute` also trust the bytecode
  machine, which is part of it.  No kernel check is switched off.
* The model is a faithful translation (section 3), and the specification files
  say what the English says.
* Libraries: Flocq (definitions of binary32 and binary64 and their proofs) and
  Coq's standard library.  No axiom comes from Flocq.
* What the codec crates, the C library's mathematical functions and the file
  system do is never assumed outright: it is a parameter of the model, and
  where a theorem needs more of it (`good_decoders`, `lossless_png`,
  `accurate_powf`, `powf_within`, `holds_gif` and similar) that is a hypothesis
  in its statement.  Examples show that these hypotheses can be met; that the
  real libraries meet them is not proved.

`Print Assumptions` is run on every property theorem in the `P_*.v` files.
It lists at most these four axioms, all of Coq's standard library (its real
numbers and classical logic):

* `ClassicalDedekindReals.sig_not_dec`
* `ClassicalDedekindReals.sig_forall_dec`
* `FunctionalExtensionality.functional_extensionality_dep`
* `Classical_Prop.classic`

No axioms at all ("Closed under the global context"), 94 theorems: C01_reachable_valid, C02_is_valid_buffer_size_iff, C02_new_from_func_iff, C02_new_from_raw_iff, C02_new_with_color_iff, C03_access_panics_outside, C03_put_get, C03_put_laws, C04_new_from_func_pixel, C04_new_from_func_runs, C04_row_major_spec, C05_try_map_colors_err, C05_try_map_colors_ok, C05_try_map_enumerated, C05_try_new_from_func_err, C05_try_new_from_func_ok, C06_try_mod_colors_atomic_refuted, C06_try_mod_colors_enumerated_err, C06_try_mod_colors_spec, C07_enumerate_spec, C07_map_colors_enumerated_spec, C08_clamped_inside_and_empty, C08_clamped_nearest, C09_optional_spec, C10_kernel_is_clamped, C111_python_compose, C111_python_compose_raises, C111_python_get_pixel_clamped, C111_python_getitem, C111_python_list_round_trip, C111_python_lists, C111_python_map_colors, C111_python_map_colors_enumerated, C111_python_mod_colors, C111_python_mod_colors_enumerated, C111_python_new, C111_python_setitem_refuted, C112_python_formats, C115_webp_lossless_levels, C11_builds_agree_access, C11_builds_agree_geometry, C11_builds_agree_new, C122_colours_and_crop, C122_colours_and_interlace, C122_colours_and_turns, C123_kernel_get, C123_kernel_new_iff, C124_moves_keep_order, C129_release_like_debug_compose, C12_rotate180_placement, C12_rotate270_placement, C12_rotate90_placement, C12_turns_same_pixels, C136_compose_on_images, C136_functions_on_images, C13_rotate180_involution, C13_rotate90_270_inverse, C13_rotate90_four_times, C13_rotate90_thrice, C13_rotate90_twice, C14_flip_conjugates_rotation, C14_flip_involutions, C14_flip_placement, C14_flips_make_rotate180, C15_crop_intersection, C15_crop_size, C16_crop_crop, C16_crop_flip, C16_crop_full, C17_interlace_large_offset_refuted, C17_interlace_spec, C17_interlace_zero, C18_compose_slice_agrees, C18_compose_spec, C18_try_compose_err, C19_compose_panics_iff, C19_compose_total_refuted, C50_signature_exact, C50_signature_first_bytes, C50_signature_missing, C50_signature_unique, C51_extension_unique, C52_known_extension, C57_webp_word_unpacks, C64_arguments_to_commands, C64_bad_arguments, C65_first_file_opens, C65_later_files_save, C66_codec_names_exact, C66_names_exact, C90_getters, C90_no_other_accessor, C90_setters, C90_with_methods.

2 axioms (`sig_forall_dec`, `functional_extensionality_dep`), 2 theorems: C116_alpha_step, C137_layers_in_groups.

4 axioms (`sig_forall_dec`, `sig_not_dec`, `classic`, `functional_extensionality_dep`), 446 theorems: C100_temperature_formula, C100_temperature_red_kept_refuted, C101_optimize_temperature_formula, C102_hsl_darken_blend, C102_hsl_lighten_blend, C102_lch_darken_blend, C102_lch_lighten_blend, C102_lch_saturation_blend, C102_normal_blend, C102_plain_blend, C103_color_blend, C103_color_blend_near_refuted, C103_hue_blend, C104_bicubic_resize, C104_bilinear_resize, C104_nearest_resize, C105_background_rotate, C105_bicubic_rotate, C105_bilinear_rotate, C105_nearest_rotate, C106_auto_resize, C106_lanczos3_resize, C106_lanczos3_rotate, C106_plain_white_refuted, C107_tint_formula, C107_tint_large_refuted, C108_blur_formula, C108_sobel_formula, C108_unsharp_formula, C109_stretch_formula, C109_stretch_plain_refuted, C110_balance_formula, C110_balance_range_refuted, C111_python_open, C112_python_calls, C112_python_defaults, C112_python_noise, C112_python_palette_in_place, C112_python_save_defaults_refuted, C113_vibrance_formula, C114_plain_area_is_white, C114_plain_area_keeps_colour, C115_webp_lossless_refuted, C115_webp_quality, C116_file_like_memory, C116_image_memory_reopened, C116_png_file_reopened, C116_png_memory_reopened, C116_png_saved_reopened, C117_generation_loss_refuted, C117_generations, C117_lowered_samples, C118_gif_no_frame, C118_gif_only_first, C118_gif_opened, C118_gif_saved_again, C118_gif_screen_refuted, C119_brightness_program, C119_contrast_program, C119_grayscale_program, C119_invert_program, C119_program_output, C120_palette_cie76_refuted, C120_palette_nearest, C120_palette_twice, C121_attributes_of_objects, C121_borrows_returned, C121_calls_are_busy, C121_compose_calls, C121_compose_of_objects, C121_compose_raises_refuted, C121_in_use_is_busy, C121_map_color_channels_calls, C121_map_colors_calls, C121_map_colors_enumerated_calls, C121_methods_change_objects, C121_methods_read_objects, C121_mod_colors_calls, C121_mod_colors_enumerated_calls, C121_modified_is_busy, C121_no_aliases, C121_others_unchanged, C121_own_palette, C121_save_while_read_refuted, C122_blend_and_turns, C122_colours_and_resize, C122_statistics_and_turns, C123_kernel_get_outside_refuted, C123_kernel_weights, C123_ready_made_sobel, C124_bilinear_nearly_keeps_order, C124_blur_keeps_order, C124_blur_keeps_order_any_sigma, C124_exchanged_levels_refuted, C124_levels_with_any_points, C124_nearest_keeps_order, C124_not_brighter_kept, C124_program_tone, C124_resize_order_refuted, C124_samples_in_order, C124_saturation_grey_refuted, C124_stretch_tone, C124_tone_changes, C124_tone_changes_in_a_row, C124_tone_keeps_images, C125_far_edits_do_not_matter, C125_filter_in_tiles, C125_same_surroundings_same_result, C126_channels_treated_alike, C126_grey_images_stay_grey, C127_alpha_ignores_colours, C127_colours_ignore_alpha, C127_components_apart, C127_hidden_colours_show_refuted, C127_hidden_stays_hidden, C128_python_channels, C128_python_like_command_line, C128_python_like_queue, C128_unknown_name_ends_program, C129_builds_differ_refuted, C129_release_like_debug_calls, C129_release_like_debug_programs, C129_tool_same_in_both_builds, C129_usual_calls_return, C130_blur_and_turns, C130_blur_keeps_alike, C130_blur_of_mixture, C130_blur_stays_between, C130_interlace_and_mirror_refuted, C130_resize_and_mirror_refuted, C130_sobel_and_turns, C130_sobel_ignores_brightness, C130_unsharp_and_turns, C131_commands_compute_methods, C131_python_methods, C131_python_methods_on_images, C131_python_unknown_gray, C132_brightness_adds_up, C132_brightness_undone, C132_contrast_multiplies, C132_contrast_undone, C132_cut_off_is_lost_refuted, C132_gamma_multiplies, C132_gamma_undone, C132_neutral_brightness, C132_neutral_commands, C132_neutral_program, C132_neutral_settings, C132_neutral_vibrance, C133_gray_again, C133_grey_stays_grey_in_files, C133_greys_have_no_hue, C133_no_saturation, C133_saturation_gray_again_refuted, C133_weak_stretch_reddens_refuted, C134_order_of_tones_matters, C134_repeated_brightness, C134_tone_formula, C134_tone_line, C134_tone_line_program, C135_black_and_white_layers, C135_image_taken_away, C135_layer_minus_itself, C135_layer_taken_away, C135_layer_taken_away_refuted, C135_layers_absorb, C135_layers_give_layers, C135_order_of_layers, C135_order_of_transparent_layers_refuted, C135_same_layer_twice, C135_stack_of_layers, C135_stack_of_sizes_refuted, C135_three_images_added, C135_three_layers_added, C136_in_place_or_new, C136_methods_act, C136_methods_in_a_row, C136_random_methods_act, C136_resize_pct_is_resize, C136_rotation_fills, C137_layer_on_nothing, C137_layer_on_nothing_refuted, C137_layers_in_groups_refuted, C137_opacity_of_two, C137_pile_on_opaque_colour, C137_pile_on_opaque_image, C20_blend_overlap, C20_blend_too_big, C21_resize_empty_source, C21_resize_invalid_size, C21_resize_same_size, C21_resize_total, C22_nearest_resize_colors, C22_nearest_rotate_colors, C23_nearest_upscale_repeats_refuted, C23_nearest_upscale_source, C24_rotate_360, C24_rotate_total, C25_constructors_clamp, C25_conversions_clamp, C25_operations_clamp, C26_operations_keep_alpha, C27_difference_is_opaque, C27_vibrance_alpha_refuted, C27_vibrance_is_opaque, C28_buffer_conversion_keeps_alpha, C28_conversions_keep_alpha, C29_equality_reflexive_symmetric, C30_equality_is_closeness, C30_equality_transitive_refuted, C30_nan_equality_refuted, C31_gray_in_gamut, C31_gray_is_grey, C31_gray_of_grey, C32_invert_in_gamut, C32_invert_twice, C33_hsl_in_range, C34_hsv_in_range, C34_hsv_in_range_refuted, C34_hsv_of_grey_is_nan, C35_grey_round_trips, C36_hsl_to_rgb_in_gamut, C36_hsv_to_rgb_in_gamut, C37_blend_in_gamut, C37_blend_opaque, C37_blend_transparent, C38_hsl_intensity_0, C38_intensity_0_identity_refuted, C38_lch_intensity_0, C38_normal_intensity_0, C38_plain_intensity_0, C39_blur_convolves, C39_blur_is_dynamic, C39_dynamic_convolves, C39_fixed_convolves, C39_fixed_is_dynamic, C39_unsharp_spec, C40_identity_kernel_identity, C40_identity_kernel_infinite_refuted, C41_blur_averages, C41_blur_gives_numbers, C41_blur_large_radius_panics, C41_blur_radius_0_is_nan, C41_unsharp_factor_0, C41_unsharp_radius_0_is_nan, C41_unsharp_stays_in_gamut, C42_despeckle_dark_area_is_nan, C42_despeckle_is_mean, C42_despeckle_spec, C42_despeckle_stays_in_gamut, C43_equalize_hsl_spec, C43_equalize_keeps_order, C43_equalize_rgb_spec, C43_equalize_srgb_spec, C44_histograms_total, C45_stretch_contrast_alpha, C45_stretch_contrast_spec, C45_stretch_contrast_unchanged, C45_stretch_contrast_zero, C46_palette_alpha, C46_palette_closest, C46_palette_empty, C47_noise_threshold_0, C47_rgb_noise_spec, C47_salt_and_pepper, C47_threshold_noise_draws, C48_mixed_noise_draws, C48_noise_alpha, C48_noise_formula, C48_noise_in_gamut, C48_noise_mixes, C48_noise_strength_0, C49_temperature_identity_refuted, C49_temperature_same, C49_temperature_total, C51_contents_decide, C51_extension_decides, C51_nothing_decides, C51_one_library, C52_unknown_extension, C53_save_failure_refuted, C53_save_not_started, C53_save_rejected, C53_save_result, C53_save_success_refuted, C53_save_to_buffer, C53_save_touches_one, C54_gif_layout_exact, C54_image_layout_exact, C54_jpeg_layout_exact, C54_png_l16_layout_refuted, C54_png_layout_exact, C55_sample_round_trip, C55_sample_saturates, C56_alpha_round_trip, C57_webp_layout_exact, C58_oversize_only, C58_oversize_rejected, C58_within_limit, C59_decode_gives_valid, C59_decode_panics_exactly, C59_decode_panics_refuted, C60_cmyk_white_refuted, C60_opaque_cmyk, C60_opaque_sources, C60_rgb16_opaque_refuted, C61_builder_recolours, C61_builder_rotates, C61_one_outcome, C61_queue_does_all, C61_queue_in_order, C61_queue_panics_exactly, C62_missing_image_exactly, C62_missing_image_inert, C63_log_numbers, C64_bad_command_line_inert, C64_good_command_line_runs, C65_silent_first_refuted, C67_calls_keep_metadata, C67_obtainable_images, C67_rotation_fill, C68_resize_pct_100, C68_resize_pct_nonpositive, C68_resize_pct_sides, C68_resize_pct_succeeds, C69_array_round_trips, C69_array_to_image, C69_bool_round_trip_refuted, C69_export_names, C69_float_round_trip, C69_gray_array_to_image, C69_image_to_array, C69_image_to_gray_array, C69_import_errors, C69_integer_round_trip, C69_lcha_refuted, C69_mode_round_trip, C69_u32_array_refuted, C70_normal_intensity_1, C70_plain_intensity_1, C71_blend_in_gamut, C71_blend_lch_clamps, C72_resize_in_gamut, C72_resize_single_color, C72_resize_single_color_bicubic, C73_rotate_by_0, C74_edge_detection_total, C74_laplace_in_gamut_refuted, C74_laplace_spec, C74_sobel_spec, C74_sobel_stays_in_gamut, C74_uniform_image_has_no_edges, C75_snn_is_mean, C75_snn_radius_zero, C75_snn_spec, C75_snn_stays_in_gamut, C76_drawing_colored_mode, C76_drawing_gray_mode, C76_drawing_reduced_mode, C76_drawing_steps, C76_drawing_total, C77_balance_spec, C77_white_balance, C78_dark16_exact_refuted, C78_dark_round_trip, C79_cmyk_pixels, C79_gif_pixels, C79_image_pixels, C79_jpeg_pixels_exact, C79_png_pixels, C79_webp_pixels, C80_jpeg_quality_panics, C80_jpeg_quality_result, C81_white_round_trip_refuted, C81_white_saved_refuted, C82_has_transparency_exact, C82_is_grayscale_bounds, C83_gray_in_range, C83_import_in_range, C83_import_range_refuted, C84_blended, C84_brightness, C84_brightness_contrast, C84_contrast, C84_distances, C84_gamma_opt_power, C84_gamma_power, C84_gray, C84_gray_default, C84_inverted, C84_level, C84_sepia, C85_colour_of_hsl, C85_hsl_and_back, C85_hsl_of_colour, C85_saturation_gray, C86_colour_of_hsv, C86_hsv_and_back, C86_hsv_of_colour, C87_hue_turned, C87_hue_two_turns_refuted, C87_lightened, C87_modulated, C87_saturated, C87_saturation_gamma, C87_saturation_stretched, C88_linear_and_back, C88_srgb_and_back, C88_srgb_decodes, C88_srgb_encodes, C89_rounding_would_be_exact, C89_samples_survive, C90_from_function, C90_setter_keeps_range_refuted, C91_text_of_colour, C91_text_of_extremes_refuted, C91_text_tells_colours_apart, C92_python_eq, C92_python_eq_other_class, C92_python_lab_lch, C92_python_lab_lch_error, C92_python_ne_refuted, C92_python_new, C92_python_order, C92_python_to_lab_lch, C93_into_items, C93_into_list, C94_colour_of_xyz, C94_xyz_and_back, C94_xyz_of_colour, C95_colour_of_yuv, C95_yuv_and_back, C95_yuv_and_back_srgb, C95_yuv_of_colour, C96_greys_neutral, C96_lab_and_back, C96_lab_of_xyz, C96_white_neutral_refuted, C96_xyz_of_lab, C97_lch_and_back, C97_lch_is_polar, C98_optimize_lightness_is_gamma, C99_optimize_saturation_any_size_refuted, C99_optimize_saturation_hsl, C99_optimize_saturation_hsv, C99_optimize_saturation_lch.
