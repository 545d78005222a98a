(** Model of the NumPy conversions of d10-python/src/image.rs.  An array is
    its dimensions and its elements in row-major order, which is the order
    ndarray iterates in whatever the memory layout.  Errors are PyOSError
    values; their messages are data.  [extract_data_type] on a Python object
    that is a string is modelled; [data_type_of] stands for the same function
    on the type object of an array, which names one of the six types. *)
From Coq Require Import ZArith List Bool String.
From Verif Require Import Base PixelBuffer F32 Color Image.
Import ListNotations.
Local Open Scope string_scope.
Open Scope Z_scope.

(** image.rs:858-865 *)
Inductive DataType := Float32 | Float64 | Uint8 | Uint16 | Uint32 | Bool.
(** The elements of a NumPy array of one of these types. *)
Inductive elements :=
| F32s (l : list f32) | F64s (l : list f64)
| U8s (l : list Z) | U16s (l : list Z) | U32s (l : list Z)
| Bools (l : list bool).
Record nparray := mkArray { dims : list Z; elems : elements }.
Definition num_elements (e : elements) : Z :=
  match e with
  | F32s l => zlen l | F64s l => zlen l | U8s l => zlen l | U16s l => zlen l | U32s l => zlen l | Bools l => zlen l
  end.

Inductive py_error :=
| UnsupportedDataType (name : string)
| UnknownColorspace (name : string)
| BadColorspace (name : string) (ndims : Z)
| BadColorDimensions (n : Z)
| BadNumberOfDimensions (n : Z)
| ReshapeError.

(** image.rs:867-888, a missing argument or a string *)
Definition extract_data_type (data_type : option string) : Result DataType py_error :=
  match data_type with
  | None => ROk Float32
  | Some s =>
      if String.eqb s "float32" then ROk Float32
      else if String.eqb s "float64" then ROk Float64
      else if String.eqb s "uint8" then ROk Uint8
      else if String.eqb s "uint16" then ROk Uint16
      else if String.eqb s "uint32" then ROk Uint32
      else if String.eqb s "bool" then ROk Bool
      else RErr (UnsupportedDataType s)
  end.

(** image.rs:1036-1062: the first N channels *)
Definition color_iter (n : nat) (c : col) : list f32 := firstn n [d0 c; d1 c; d2 c; d3 c].

(** image.rs:424-575: the samples and the depth for a colour space *)
Definition array_samples (L : libm) (colorspace : string) (b : PixelBuffer Rgb) : Result (list f32 * Z) py_error :=
  let all (n : nat) (f : Rgb -> col) := ROk (flat_map (fun c => color_iter n (f c)) (data b), Z.of_nat n) in
  if String.eqb colorspace "hsl" then all 3%nat (to_hsl L KRgb)
  else if String.eqb colorspace "hsla" then all 4%nat (to_hsl L KRgb)
  else if String.eqb colorspace "hsv" then all 3%nat (to_hsv L KRgb)
  else if String.eqb colorspace "hsva" then all 4%nat (to_hsv L KRgb)
  else if String.eqb colorspace "yuv" then all 3%nat (to_yuv L KRgb)
  else if String.eqb colorspace "yuva" then all 4%nat (to_yuv L KRgb)
  else if String.eqb colorspace "rgb" then all 3%nat (fun c => c)
  else if String.eqb colorspace "rgba" then all 4%nat (fun c => c)
  else if String.eqb colorspace "srgb" then all 3%nat (to_srgb L KRgb)
  else if String.eqb colorspace "srgba" then all 4%nat (to_srgb L KRgb)
  else if String.eqb colorspace "gray" then ROk (map (fun c => d0 (to_gray c)) (data b), 1)
  else if String.eqb colorspace "xyz" then all 3%nat (to_xyz L KRgb)
  else if String.eqb colorspace "xyza" then all 4%nat (to_xyz L KRgb)
  else if String.eqb colorspace "lab" then all 3%nat (to_lab L D65 O2 KRgb)
  else if String.eqb colorspace "laba" then all 4%nat (to_lab L D65 O2 KRgb)
  else if String.eqb colorspace "lch" then all 3%nat (to_lch L D65 O2 KRgb)
  else if String.eqb colorspace "lcha" then all 4%nat (to_lch L D65 O2 KRgb)
  else RErr (UnknownColorspace colorspace).

(** image.rs:577-641: conversion of the samples *)
Definition store (t : DataType) (l : list f32) : elements :=
  match t with
  | Float32 => F32s l
  | Float64 => F64s (map f32_to_f64 l)
  | Uint8 => U8s (map (fun v => as_u8 (fmul v (ofZ 255))) l)
  | Uint16 => U16s (map (fun v => as_u16 (fmul v (ofZ 65535))) l)
  | Uint32 => U32s (map (fun v => f_as_u32 (fmul v (ofZ 4294967295))) l)
  | Bool => Bools (map (fun v => fle (dec 5 10) v) l)
  end.
(** numpy's reshape fails if the number of elements differs *)
Definition reshape (ds : list Z) (e : elements) : Result nparray py_error :=
  if fold_right Z.mul 1 ds =? num_elements e then ROk (mkArray ds e) else RErr ReshapeError.
(** image.rs:412-642 *)
Definition to_np_array (L : libm) (colorspace data_type : option string) (i : Image) : Result nparray py_error :=
  match extract_data_type data_type with
  | RErr e => RErr e
  | ROk t =>
      let colorspace := match colorspace with Some s => s | None => "rgba"%string end in
      match array_samples L colorspace (buffer i) with
      | RErr e => RErr e
      | ROk (l, depth) => reshape [height (buffer i); width (buffer i); depth] (store t l)
      end
  end.

(** image.rs:663-726: the elements as f32 *)
Definition load (e : elements) : list f32 :=
  match e with
  | F32s l => l
  | F64s l => map f64_to_f32 l
  | Bools l => map (fun v : bool => if v then f0 else f1) l
  | U8s l => map (fun v => fdiv (ofZ v) (ofZ 255)) l
  | U16s l => map (fun v => fdiv (ofZ v) (ofZ 65535)) l
  | U32s l => map (fun v => fdiv (ofZ v) (ofZ 4294967295)) l
  end.

(** image.rs:1064-1086: complete chunks of N elements *)
Fixpoint chunked_ (fuel n : nat) (l : list f32) : list (list f32) :=
  match fuel with
  | O => []
  | S fuel => if (List.length l <? n)%nat then [] else firstn n l :: chunked_ fuel n (skipn n l)
  end.
Definition chunked (n : nat) (l : list f32) : list (list f32) := chunked_ (List.length l) n l.
Definition on4 (f : f32 -> f32 -> f32 -> f32 -> Rgb) (chunk : list f32) : Rgb :=
  f (nth 0 chunk f0) (nth 1 chunk f0) (nth 2 chunk f0) (nth 3 chunk f0).
Definition on3 (f : f32 -> f32 -> f32 -> Rgb) (chunk : list f32) : Rgb :=
  f (nth 0 chunk f0) (nth 1 chunk f0) (nth 2 chunk f0).

(** image.rs:918-971: colours from four channels *)
Definition colors4 (L : libm) (colorspace : string) (ndims : Z) (l : list f32) : Result (list Rgb) py_error :=
  let with_ (k : kind) := ROk (map (on4 (fun a b c d => to_rgb L k (raw_new_with_alpha a b c d))) (chunked 4 l)) in
  let is_ (s : string) := String.eqb colorspace s in
  if is_ "rgba" || is_ "rgb" || is_ "auto" then ROk (map (on4 rgb_new_with_alpha) (chunked 4 l))
  else if is_ "srgba" || is_ "srgb" then ROk (map (on4 (fun a b c d => to_rgb L KSrgb (rgb_new_with_alpha a b c d))) (chunked 4 l))
  else if is_ "hsla" || is_ "hsl" then with_ KHsl
  else if is_ "hsva" || is_ "hsv" then with_ KHsv
  else if is_ "yuva" || is_ "yuv" then with_ KYuv
  else if is_ "xyza" || is_ "xyz" then with_ KXyz
  else if is_ "laba" || is_ "lab" then with_ (KLab D65 O2)
  else if is_ "lcha" || is_ "lch" then with_ (KLab D65 O2)
  else RErr (BadColorspace colorspace ndims).
(** image.rs:972-1005: from three *)
Definition colors3 (L : libm) (colorspace : string) (ndims : Z) (l : list f32) : Result (list Rgb) py_error :=
  let with_ (k : kind) := ROk (map (on3 (fun a b c => to_rgb L k (raw_new a b c))) (chunked 3 l)) in
  let is_ (s : string) := String.eqb colorspace s in
  if is_ "rgb" || is_ "auto" then ROk (map (on3 rgb_new) (chunked 3 l))
  else if is_ "srgb" then ROk (map (on3 (fun a b c => to_rgb L KSrgb (rgb_new a b c))) (chunked 3 l))
  else if is_ "hsl" then with_ KHsl
  else if is_ "hsv" then with_ KHsv
  else if is_ "yuv" then with_ KYuv
  else if is_ "xyz" then with_ KXyz
  else if is_ "lab" then with_ (KLab D65 O2)
  else if is_ "lch" then with_ (KLch D65 O2)
  else RErr (BadColorspace colorspace ndims).
(** image.rs:1006-1014 and 1021-1028: gray values *)
Definition colors1 (colorspace : string) (ndims : Z) (l : list f32) : Result (list Rgb) py_error :=
  if negb (String.eqb colorspace "gray") && negb (String.eqb colorspace "auto") then RErr (BadColorspace colorspace ndims)
  else ROk (map (fun v => rgb_new_with_alpha v v v f1) l).

(** image.rs:906-1034 *)
Definition from_np_array_iter (L : libm) (ds : list Z) (l : list f32) (colorspace : option string) : res (Result Image py_error) :=
  let ndims := zlen ds in
  w <- idx ds 1;
  h <- idx ds 0;
  let colorspace := match colorspace with Some s => s | None => "auto"%string end in
  r <- (if ndims =? 3 then
          n <- idx ds 2;
          Ok (if n =? 4 then colors4 L colorspace ndims l
              else if n =? 3 then colors3 L colorspace ndims l
              else if n =? 1 then colors1 colorspace ndims l
              else RErr (BadColorDimensions n))
        else if ndims =? 2 then Ok (colors1 colorspace ndims l)
        else Ok (RErr (BadNumberOfDimensions ndims)));
  match r with
  | RErr e => Ok (RErr e)
  | ROk d =>
      _ <- assert_ (w * h =? zlen d);
      i <- image_new_from_raw (as_u32 w) (as_u32 h) d;
      Ok (ROk i)
  end.
(** image.rs:644-727 *)
Definition from_np_array (L : libm) (a : nparray) (colorspace : option string) : res (Result Image py_error) :=
  from_np_array_iter L (dims a) (load (elems a)) colorspace.
