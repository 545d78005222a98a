{
 "C01": "PixelBuffer.v + Geometry.v; inductive set of operations on buffers, invariant by induction over the history.",
 "C02": "Constructors with both build modes; iff with the spec `valid_size`.",
 "C03": "Index arithmetic x+y*w injective on the rectangle.",
 "C04": "State-passing loop; induction on the index range; trace of calls.",
 "C05": "Same loop with early exit; induction.",
 "C06": "Loop returning old suffix; induction.",
 "C07": "Index <-> coordinate bijection by div/mod.",
 "C08": "Clamp with i32/u32 casts; spec minimises distance.",
 "C09": "Case split with i32 range.",
 "C10": "Both kernels against clamped spec; fast path by list slicing lemma.",
 "C11": "Corollary of each function's result not mentioning the build mode.",
 "C12": "Pixel-wise equation.",
 "C13": "From C12 by extensionality of buffers.",
 "C14": "Same.",
 "C15": "Pixel-wise with saturating arithmetic.",
 "C16": "From C15 by extensionality.",
 "C17": "Pixel-wise; parity of y.",
 "C18": "Fold of maxima; pixel-wise.",
 "C19": "Counterexample 1x2^29 and 2^29x1; totality proved when the bounding box is a valid size.",
 "C20": "Instance of compose; the closure only sees Options.",
 "C21": "Float coordinates to i32 saturate, hence clamped reads are total.",
 "C22": "Nearest reads go through clamped read; membership.",
 "C23": "The exact source pixel of every target pixel; the expected repetition is refuted by a concrete size.",
 "C24": "Same as 21.",
 "C25": "Clamp on Flocq floats, case analysis.",
 "C26": "Model of each colour op; alpha projection.",
 "C27": "Refuted by concrete colours; what does hold is proved.",
 "C28": "Projection of alpha in each conversion.",
 "C29": "Flocq subtraction antisymmetry under abs.",
 "C30": "Refuted by concrete colours.",
 "C31": "Channels identical by construction; Flocq x-x=0.",
 "C32": "Rounding error bound for 1-(1-x).",
 "C33": "Monotone rounding between representable bounds.",
 "C34": "Range proved for all colours but grey; NaN hue proved for all grey levels from 2^-15.",
 "C35": "Flocq case analysis.",
 "C36": "Monotone rounding.",
 "C37": "Exactness of x*1, x*0, x+0, monotone rounding.",
 "C38": "Proved for the operations where it holds, refuted for the others.",
 "C39": "Fold equality over same order of accumulation.",
 "C40": "Absorption of signed zeros; x*1+0.",
 "C41": "Refuted at radius 0; otherwise bounds of the gaussian coefficients by real analysis (exp) and error analysis of the normalised sum.",
 "C42": "Model and case analysis; the dark areas that become NaN are characterised.",
 "C43": "Monotone accumulate; division monotone.",
 "C44": "Saturating cast then min; bound.",
 "C45": "Counting histogram; search loops.",
 "C46": "Fold minimum with float compare.",
 "C47": "Random stream as list parameter.",
 "C48": "Same with colour map.",
 "C49": "Table index bound; identity x/x=1.",
 "C50": "Byte pattern matching.",
 "C51": "Model of decode_file.",
 "C52": "File system state.",
 "C53": "File system with failing writes; refuted, with the exact contents after a failed save.",
 "C54": "flat_map length and nth.",
 "C55": "8 bit by a finite sweep, 16 bit by error bounds of the two roundings; monotone rounding.",
 "C56": "From C55.",
 "C57": "Bit operations.",
 "C58": "Model of encoder prologue.",
 "C59": "Model of decoder prologue; the JPEG size overflow is the exception.",
 "C60": "Exact list of formats where it holds; Rgb16 and CMYK refuted.",
 "C61": "Induction on queue.",
 "C62": "Induction on queue.",
 "C63": "Induction on queue.",
 "C64": "Parser model on lists of strings.",
 "C65": "Refuted with -silent; the exact rule is proved.",
 "C66": "String tables.",
 "C67": "Induction on operations.",
 "C68": "Float casts.",
 "C69": "Model of array conversion.",
 "C70": "Exactness of multiplication by 1 and 0; monotone rounding.",
 "C71": "Monotone rounding through each formula; for LCh the final clamp.",
 "C72": "Weights in [0,1]: convex combinations and Hermite polynomial with rounding error analysis.",
 "C73": "Coordinates are exact below 2^22; fractions are 0.",
 "C74": "Convolution spec of C39 with explicit kernels; error analysis for the sums.",
 "C75": "Fold over pairs; mean of numbers in [0,1] with rounding.",
 "C76": "Composition of the proved stages (blur, difference, ...), clamp absorbs NaN.",
 "C77": "Histogram search characterised by counting; per-channel formula.",
 "C78": "8 bit by a finite sweep over the linear part of the transfer function, 16 bit by error bounds; both for every powf.",
 "C79": "Index arithmetic of each decoder against a row/column specification of the library data.",
 "C80": "Composition of encoder and decoder; the library is a parameter with a hypothesis.",
 "C81": "Evaluation with the parameter powf; the hypothesis fixes its value at 1.",
 "C82": "Quantifier over pixels, float comparison to real comparison.",
 "C83": "Per-mode case analysis of the conversion functions.",
 "C84": "Forward error analysis: lemmas `close_add`, `close_mul`, ... in Approx.v compose rounding errors; specification in MeaningSpec.v on real numbers.",
 "C85": "Same; hue circle functions are 6-Lipschitz on the circle; sector analysis.",
 "C86": "Same, with the relative error of the differences.",
 "C87": "C85 and Lipschitz continuity of the HSL formula in its three components.",
 "C88": "The curves on real numbers against the binary32 code with powf of accuracy 2^-20; the limits of the code are the binary32 numbers below the decimals, so no number lies between. Round trips by x^(a b) near x and bounds on the powers at the limits.",
 "C89": "C88's round trip, the relative error of the luma of a grey, and the floor of the scaled value; lifted to files by the layout theorems of C56.",
 "C90": "Accessors as a table from names to components; a colour is four numbers. By cases on the type.",
 "C91": "format_color and its helper modelled on strings, with to_string as a parameter that is only required to read back and to use no more decimals than needed; a decimal grammar as specification, and a to_string that meets it. The error of the rounding is bounded with the f32 lemmas; texts are told apart by the first parenthesis, comma and point.",
 "C92": "The match of the Python functions as string comparisons; the interpreter's rule for comparison operators as its documented fallback.",
 "C93": "An iterator is a state and a step; induction on the number of calls.",
 "C94": "The matrices as written; real combinations in ConvSpec; each sum of three products bounded with the f32 lemmas, the round trip from the residual of the product of the two matrices.",
 "C95": "As C94, then the error goes through the sRGB curve with its Lipschitz bound (C88); powf is a parameter with a relative error bound, and a correctly rounded powf shows that it can be met.",
 "C96": "The CIE curve as a real function in ConvSpec. lab_f and lab_finv are within small errors of it, the curve is Lipschitz apart from the gap at its joint, where the two constants of the code do not meet exactly. The violation from the cube roots of the ratios of the whites.",
 "C97": "sqrt from Flocq, cos, sin and atan2 as parameters with an error bound, and correctly rounded ones that meet it. The product of the perturbed radius and angle is near a and b.",
 "C98": "The f64 sum as a fold over the pixels; the error of a sequential sum by induction over the list; then the perturbation of the exponent of the gamma correction of C84.",
 "C99": "The f32 sum by induction, also its stalling: sums of numbers up to 1 never exceed 2^24. The pixel functions from the meaning of HSL, HSV (C85, C86) and LCh (C97). The violation by induction over an image of one colour, not by computation.",
 "C100": "The table as real numbers in TempSpec, the f64 interpolation and the conversion bounded with error lemmas; linear conditions on chromaticities carry over from the entries to the points between them.",
 "C101": "The f64 sum as in C98; tanh is a parameter with an error bound (a correctly rounded one meets it) and is 1-Lipschitz by the mean value theorem.",
 "C102": "The formulas in BlendSpec; error lemmas for apply_intensity, composed with the HSL and LCh conversions of C90 and C97.",
 "C103": "Case analysis on the three branches of the hue function with a bound on pi from Machin's formula; the violation by bounding lightness, chroma, hue and the way back to RGB for two fixed colours and every accurate library.",
 "C104": "The surfaces are defined on real numbers in ResampleSpec. Error bounds for the float positions and interpolations, and Lipschitz bounds of the surfaces for the error of the position.",
 "C105": "Ideal position in ResampleSpec; the float position is within (width + height) / 2^19 by error lemmas relative to the size; then as C104. A full turn, which the code treats apart, agrees with the ideal position.",
 "C106": "The filter as a formula on reals (LanczosSpec). Lipschitz bounds for sin x / x by the mean value theorem, error bounds for the float weights relative to their size, and for the two nested sums by induction on their length; the window of Auto by relative errors of the scale; the plain white counterexample from exact values of the cardinal sine.",
 "C107": "The darkening as a formula on reals with the hyperbolic tangent of the reals (TintSpec). Error of the float sum by induction on the image, of the power by relative errors, and the Lipschitz bound of the power for the channels that are scaled first. For large images the bound on single-precision sums used for C98 and C99 caps the excess at 2^24 over the number of pixels.",
 "C108": "The bell curve, the weighted mean and the two slopes as formulas on reals (GaussSpec). The argument of exp by relative errors, exp by t * exp(-t/2) <= 2, the quotient of sums by a bound on both sums with the centre weighing 1, the f32 sums by induction; the Sobel root by the triangle inequality and relative errors.",
 "C109": "The two levels by counting pixels (StretchSpec). Each share is the f32 sum of count times 1/n and each running sum an f32 sum of shares, both by relative errors over the number of additions; the sum of the counts of the bins is the count of pixels in the range, by induction; the quotient by a Lipschitz bound on a limited ratio. The plain grey image by computing its level.",
 "C110": "The levels as in C109 and the soft stretch as a formula on reals (StretchSpec). The points are unique, so all pixels use the same levels; tanh by its Lipschitz bound and tanh u <= u, the product of three factors by their relative errors. The two greys by evaluating the formula with bounds on tanh 2.",
 "C111": "Model of the Python class with PyO3's integer conversion, exceptions and panics (PyImage.v); Python functions are state-passing functions that can fail. From the properties of the buffer (C02, C05, C06, C09, C18) and a case split on the integers.",
 "C112": "An inductive relation gives the operation each call means with its defaults (PySpec.v), another the unknown names, a list the integers. Every call is covered; proved by cases with the exact names of C66. WebP by an encoder that writes the quality it is asked for.",
 "C113": "The formula is a real function (DrawSpec.v); the sine is any sine within |x|/2^19, as in C106. Rounding error bounds through the float operations and the meaning of HSL (C85).",
 "C114": "Error bounds for a window that shrinks by the kernel radius at each stage: both blurs keep a constant area within a rounding error, the quotient of the two is above 0.8 there, so drawing_pixel returns exactly 1; then sharpening and despeckling keep it, and merge_color only changes the lightness by the rounding error.",
 "C115": "The three configuration functions of libwebp that the code calls are modelled from its header (WebPConfig.v); the configuration of every job is computed from the arguments the code passes. The library's encoder itself is a parameter.",
 "C116": "The models of saving and opening are composed through a pair of PNG libraries of which only losslessness is assumed. Per pixel: the meaning of the sRGB encoding (C88), truncation to a sample, splitting in bytes and joining, and the meaning of decoding; no sample lies near the limit of the decoding formula, so it is Lipschitz there.",
 "C117": "The bound by induction on the number of times from C89. The exact losses: powers with the float exponents of the code are enclosed with integers (interval powers rounded to 64 bits, proved sound), which gives, for every powf with the stated error, a short list of possible results; the rest of the pipeline is evaluated by the kernel for each of them and each of the 255 samples.",
 "C118": "A GIF file is modelled as a screen and a list of placed frames; the library delivers the first frame in its own size, as the gif crate documents. The pixels come from C79; the screen is shown exactly if the frame fills it, by arithmetic on the places.",
 "C119": "Composition of the command line (C64), the queue (C61), decoding (C79), the meaning of the operations (C84), sRGB (C88) and the layout of stored pixels (C54). The sRGB curve is Lipschitz continuous with constant 13 up to its small jump, by the mean value theorem, which turns errors in the light into errors in the byte.",
 "C120": "The exact Lab values are real numbers (C94, C96). The error of the float distance is at most 1/4000: error bounds of the conversion (C94, C96), of the differences, squares, sums and root, and the triangle inequality. For the second application: the way to Lab and back moves a colour by less than 24/1000, and of equal distances the first wins both times. The example with black is computed with bounds on cube roots.",
 "C121": "Objects are numbered cells with PyO3's borrow flag; a program is a tree of method calls whose branches depend on the results, with functions as subtrees. By induction on the tree: every run relates the cells before and after (guarded). The calls of mod_colors and map_colors are stated as an inductive chain of runs of the function.",
 "C122": "Turning permutes the pixel list (a coordinate bijection, C12, C14). The histograms depend only on the number of pixels in each bin, so on the list up to permutation; each operation then recolours with a function that is the same before and after. Cropping, interlacing and nearest resizing read pixels at positions that do not depend on the colours.",
 "C123": "The list of weights is the image of get under the row by row order of offsets; with C39 this gives the sum. The x kernel of new_sobel_x is the negated one of edge_detection: rounding to nearest commutes with negation, so the two sums are opposite (or zeros of any sign) and their squares the same float.",
 "C124": "Rounding to nearest is monotone, also where it overflows to an infinity: each float operation keeps the order of its operands. The curves are compositions of such operations; the two branches of the sRGB functions are compared at the point where they meet. With C119 this carries over to files, with C109 to contrast stretching, with C39 and weights in [0, 1] to the blur. Levels: the factor is negative if the black point is above the white point, except where the code replaces a small difference by a positive constant. Sums of large blur weights stop growing at 2^63, so the weights are in [0, 1] for every sigma. Resizing: Nearest copies from the same places of both images; Bilinear by the surface of C104, which is monotone; the counterexamples are computed for both builds.",
 "C125": "Relate two pixels of two images if the pixels and the borders around them agree up to k columns and rows away. Each filter is shown to turn related pixels into equal ones, from the pixel-wise descriptions of C39, C42, C74 and C75; relations of j + k become relations of j under a filter that reaches k, so filters in a row, and the steps inside drawing, compose.",
 "C126": "Each function of the model is shown to commute with a reordering of the channels, from single pixel reads up to whole operations, including the case that it panics; no validity is assumed. A colour that no reordering changes is grey, so greys staying grey is a corollary.",
 "C127": "As C126, with an arbitrary choice of components instead of a reordering; the choices that forget alpha or the colours give the statements about pairs of runs. Copying steps commute with blanking the invisible pixels. The counterexample is computed for every math library and both builds.",
 "C128": "Both front ends are modelled call by call. Each command is matched with the Python lines for it; one step of the queue and one line agree on files, random numbers, image and error; induction over the queue. The command line is reduced to its queue with C64's reading of arguments.",
 "C129": "The build is a parameter of the model: arithmetic on fixed-width integers panics or wraps. A relation between the two builds (every value of the first is one of the second) is shown for the arithmetic and carried through every function, by induction for loops and for Python programs. For the tool, the panics are the same by C59 and C61. For usual calls the total-correctness theorems of the operations (C09 to C80) are combined along the sequence of calls.",
 "C130": "C108 gives each result as a formula on real numbers up to a bound. The formulas do not change when the surroundings are turned: the offsets of a window are permuted and the bell curve depends on the distance only. The weighted mean is linear, monotone and keeps constants; the length of the slope obeys the triangle inequality. Pixels at the edges of a turned image are found with C12 and C14.",
 "C131": "The formulas of all methods are collected in one definition over real numbers. Each method is matched with the operation it calls, whose formula is C84, C85, C87, C113 or C27; the loops are runs of the method over the pixels (C111), the commands apply the same functions (C61).",
 "C132": "The formulas of C131 with neutral settings are the identity, that of the hue up to a full turn of the circle. Two formulas are composed: limiting to [0,1] is contracting, the power x^p is Hölder continuous for p < 1 and has slope at most p for p > 1 (mean value theorem). For files the error is carried through the sRGB function as in C119, where encoding the light of a byte gives the byte back.",
 "C133": "The HSL form of a grey has saturation and hue 0 and its lightness is the grey itself. A saturation of 0 stays 0 through products, powers and the sine of 0, and HSL with saturation 0 gives three equal channels. The weakened stretch is the formula of C87 at saturation 0. For files: each step keeps gamut, transparency and greys, by induction on the command line; equal samples decode to equal numbers and are stored as equal bytes (C119).",
 "C134": "By induction on the command line: the formula of a step (C84, C86) maps [0,1] into [0,1] and has a slope bound; composing multiplies the bounds and adds the errors. The end-to-end argument of C119 then takes the sum through decoding and encoding. Repeated brightness by induction on the number of steps: cutting off twice on the same side is cutting off once.",
 "C135": "At full intensity and full alpha the channel of the result is the operation on reals, cut off to [0,1]; minimum and maximum are exact, so their laws carry over, and sums carry one rounding per step, bounded by half a unit below 2. Images by the pixelwise description of blend_image (C20); the refutations are concrete images.",
 "C136": "A table of methods and operations is the specification; each line is checked against the method, panics included. Rows of methods by induction on the row.",
 "C137": "One step over an opaque colour is the formula of C84, which equals the over operator there, and the result is opaque again; an error below a layer is multiplied by what the layer lets through, so induction on the number of layers adds the errors. Images by the pixelwise description of blend_image (C20). The associativity of the over operator over the reals shows what is lost; the refutations are concrete colours."
}