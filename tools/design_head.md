# Formal model of vstroebel/d10 in Rocq (Coq 8.16.1)

`/repo` is read as text only.  The model is a hand translation of the Rust
source into total Gallina functions, one definition per Rust function, each
with a comment citing file and lines.  For each area `X` there are

* `X.v` (Base, F32, PixelBuffer, Geometry, Color, Blend, Kernel, Ops, Resample,
  Codec, Image, Commands, Names, Cli, Numpy, Text): the model, no proofs;
* `XSpec.v` (BufferSpec, Reachable, ColorSpec, KernelSpec, OpsSpec, CodecSpec,
  CommandsSpec, CliSpec, ImageSpec, NumpySpec, MeaningSpec, TextSpec): the vocabulary of the properties;
* `*Proofs.v` and other lemma files: proofs;
* `XThm.v`: each property as a lemma with its proof, and examples showing that
  the hypotheses are met by concrete, non-trivial cases;
* `P_X.v`, generated from `XThm.v` by `tools/mkp.py`: the property theorems
  `Cnn_...`, their `Print Assumptions` and the examples.  Start reading here.

This file is generated by `tools/mkdesign.py`; `MANIFEST.json` by
`tools/mkmanifest.py`.  `tools/mutate.py` tests the theorems against wrong
programs; its log is `seeded/LOG.jsonl`.

## 1. Modelling conventions

* **Panics** are a value: `res A := Ok a | Panic`.  A Rust function that may
  panic (assert, index out of bounds, arithmetic overflow with checks on)
  returns `res`.  A Rust `Result` is data inside `res`.
* **Integer arithmetic.** `u32`/`i32` expressions go through `u32 m z` /
  `i32 m z`, where `m : build` is `Checked` (overflow panics, debug) or
  `Wrapping` (release).  Theorems quantify over `m`.  `usize` is an unbounded
  `Z` (a 64-bit target; lengths are at most 2^30 pixels).  Allocation failure
  is not modelled.
* **Buffers** are records of `width`, `height` and a list of pixels,
  polymorphic in the colour type.
* **Closures.** `FnMut` closures are state-passing functions
  `S -> args -> S * result`; `Fn` closures are Gallina functions.
* **f32/f64** are Flocq's `binary_float 24 128` / `binary_float 53 1024`
  with round-to-nearest-even, single NaN.  (Rust's f32 operations `+ - * /`,
  sqrt, comparisons are IEEE 754 operations; NaN payload bits are not
  modelled.)  Casts `as u8/u32/i32` are saturating truncations with NaN to 0.
* **libm** (`powf`, `sin`, `cos`, `atan2`, `exp`, `ln`, `tanh`) is not
  modelled: these are explicit parameters of the model and theorems quantify
  over all implementations, or state the hypothesis they need on them.
* **External crates** (png, jpeg, gif, image, webp codecs, rand, numpy,
  pyo3) are parameters: an encoder is a function of the bytes it is handed,
  a decoder an arbitrary result.  Their contents are not verified.
* **File system**: a map from path to bytes, with a parameter for the point
  at which writes fail.

