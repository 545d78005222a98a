## 3. Modelled and not modelled

| Rust source | model | notes |
|---|---|---|
| d10-core/src/pixelbuffer.rs | PixelBuffer.v, Kernel.v | all functions except `Debug` |
| d10-core/src/kernel.rs, kernel_dyn.rs | Kernel.v | const generics become a size argument |
| d10-core/src/color/*.rs | Color.v, Text.v (accessors, text form, iter.rs) | one record of four floats for the eight types |
| d10-core/src/errors.rs | Names.v | without the message text |
| d10-ops/src/rotate_90.rs, flip.rs, crop.rs, interlace.rs, compose.rs | Geometry.v | |
| d10-ops/src/blend.rs | Blend.v | |
| d10-ops/src/filters.rs, resize.rs, rotate.rs | Resample.v | |
| d10-ops/src/gaussian_blur.rs, unsharp.rs, edge_detection.rs, despeckle.rs, symmetric_nearest_neighbor.rs, drawing.rs | Kernel.v | |
| other files of d10-ops/src | Ops.v, Codec.v (jpeg_quality.rs) | random numbers are a parameter |
| d10-codecs/src | Codec.v, WebPConfig.v | the codec libraries are parameters, except three configuration functions of libwebp, modelled as its header documents them; error messages are not modelled |
| d10/src/image.rs | Image.v | |
| d10-commands/src | Commands.v | a printed line is data, not text |
| d10-cli/src/main.rs | Cli.v, Names.v | the standard library's number parser and lossy string conversion are parameters |
| d10-python/src/image.rs | Numpy.v, PyImage.v, PyObjects.v (objects, references, functions called back, with PyO3's borrow checks) | PyO3 as far as it is visible: integers that do not fit, OSError, panics; floats after their conversion |
| d10-python/src/color.rs, lib.rs | Text.v | the interpreter's rule for `==`, `!=` and `<` is part of the model |

Not modelled: `Debug` texts, most error message
texts, the rest of the generated PyO3 glue (PyObjects.v has its run-time borrow checks, for a selection of the
methods; a program that catches a panic, and several Python threads inside a function, are left out), the methods of the Python colour
classes that only forward their arguments, memory allocation and its failure, threads (the code has none that
share state), the running time, and everything inside the external crates.

Assumptions about the translation that no theorem checks:

* Rust evaluates f32 expressions in binary32 with no extra precision and no
  fused operations (true for the tier-1 targets; x87 is the exception).
* `f32::powf`, `sin`, `cos`, `exp`, `tanh`, `atan2`, `f64::tanh` are functions of
  their arguments.  What else is assumed of them is a hypothesis of the theorem
  that needs it (`accurate_powf`, `bounded_powf`, sin 0 = 0, ...).
* A decimal literal is the nearest binary32 number (`dec n d`).
* Iteration over slices is in order; `usize` has 64 bits.

## 4. Findings

Properties a user expects and the code violates, each with a theorem that
shows it (suffix `_refuted`, or a characterisation of the bad inputs):

@FINDINGS@

## 5. Trusted base

* Coq 8.16.1's kernel.  Proofs by `vm_compute` also trust the bytecode
  machine, which is part of it.  No kernel check is switched off.
* The model is a faithful translation (section 3), and the specification files
  say what the English says.
* Libraries: Flocq (definitions of binary32 and binary64 and their proofs) and
  Coq's standard library.  No axiom comes from Flocq.
* What the codec crates, the C library's mathematical functions and the file
  system do is never assumed outright: it is a parameter of the model, and
  where a theorem needs more of it (`good_decoders`, `lossless_png`,
  `accurate_powf`, `powf_within`, `holds_gif` and similar) that is a hypothesis
  in its statement.  Examples show that these hypotheses can be met; that the
  real libraries meet them is not proved.

`Print Assumptions` is run on every property theorem in the `P_*.v` files.
It lists at most these four axioms, all of Coq's standard library (its real
numbers and classical logic):

* `ClassicalDedekindReals.sig_not_dec`
* `ClassicalDedekindReals.sig_forall_dec`
* `FunctionalExtensionality.functional_extensionality_dep`
* `Classical_Prop.classic`

@ASSUMPTIONS@
