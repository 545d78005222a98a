(** Specification vocabulary for NumPy arrays (C69, C83). *)
From Coq Require Import Reals.
From Coq Require Import ZArith List Bool String.
From Flocq Require Import BinarySingleNaN.
From Verif Require Import Base PixelBuffer BufferSpec F32 Color ColorSpec Image ImageSpec Numpy.
Import ListNotations.
Local Open Scope string_scope.
Open Scope Z_scope.

(** One number of an array. *)
Inductive number := NF32 (v : f32) | NF64 (v : f64) | NInt (n : Z) | NBool (b : bool).
Definition numbers (e : elements) : list number :=
  match e with
  | F32s l => map NF32 l | F64s l => map NF64 l
  | U8s l => map NInt l | U16s l => map NInt l | U32s l => map NInt l
  | Bools l => map NBool l
  end.
(** NumPy's [a[y, x, k]], and [a[y, x]] with [k = 0]. *)
Definition at_ (a : nparray) (y x k : Z) : option number :=
  match dims a with
  | [h; w; n] => nth_error (numbers (elems a)) (Z.to_nat ((y * w + x) * n + k))
  | [h; w] => nth_error (numbers (elems a)) (Z.to_nat (y * w + x + k))
  | _ => None
  end.
Definition type_of (e : elements) : DataType :=
  match e with
  | F32s _ => Float32 | F64s _ => Float64 | U8s _ => Uint8 | U16s _ => Uint16 | U32s _ => Uint32 | Bools _ => Bool
  end.
(** An array NumPy can hold: as many numbers as the dimensions say, and
    integers within the range of their type. *)
Definition good_array (a : nparray) : Prop :=
  (forall d, In d (dims a) -> 0 <= d) /\
  zlen (numbers (elems a)) = fold_right Z.mul 1 (dims a) /\
  match elems a with
  | U8s l => forall n, In n l -> 0 <= n <= 255
  | U16s l => forall n, In n l -> 0 <= n <= 65535
  | U32s l => forall n, In n l -> 0 <= n <= 4294967295
  | _ => True
  end.

(** The names of the element types. *)
Definition type_names : list (option string * DataType) :=
  [(None, Float32); (Some "float32", Float32); (Some "float64", Float64); (Some "uint8", Uint8);
   (Some "uint16", Uint16); (Some "uint32", Uint32); (Some "bool", Bool)].
(** The names of the colour spaces an image is exported in, with the number of
    channels; "gray" is separate. *)
Definition export_modes : list (string * kind * Z) :=
  [("rgb", KRgb, 3); ("rgba", KRgb, 4); ("srgb", KSrgb, 3); ("srgba", KSrgb, 4);
   ("hsl", KHsl, 3); ("hsla", KHsl, 4); ("hsv", KHsv, 3); ("hsva", KHsv, 4);
   ("yuv", KYuv, 3); ("yuva", KYuv, 4); ("xyz", KXyz, 3); ("xyza", KXyz, 4);
   ("lab", KLab D65 O2, 3); ("laba", KLab D65 O2, 4); ("lch", KLch D65 O2, 3); ("lcha", KLch D65 O2, 4)].
(** The names an array of 3 or 4 channels is imported with. *)
Definition import_modes : list (string * kind * Z) :=
  [("auto", KRgb, 3); ("rgb", KRgb, 3); ("srgb", KSrgb, 3); ("hsl", KHsl, 3); ("hsv", KHsv, 3);
   ("yuv", KYuv, 3); ("xyz", KXyz, 3); ("lab", KLab D65 O2, 3); ("lch", KLch D65 O2, 3);
   ("auto", KRgb, 4); ("rgb", KRgb, 4); ("srgb", KSrgb, 4); ("hsl", KHsl, 4); ("hsv", KHsv, 4);
   ("yuv", KYuv, 4); ("xyz", KXyz, 4); ("lab", KLab D65 O2, 4);
   ("rgba", KRgb, 4); ("srgba", KSrgb, 4); ("hsla", KHsl, 4); ("hsva", KHsv, 4); ("yuva", KYuv, 4);
   ("xyza", KXyz, 4); ("laba", KLab D65 O2, 4);
   (* the polar form with an alpha channel is read as if it was Lab *)
   ("lch", KLab D65 O2, 4); ("lcha", KLab D65 O2, 4)].
Definition mode_name (cs : option string) (default : string) : string :=
  match cs with Some s => s | None => default end.

(** Channel [k] of a colour. *)
Definition channel (k : Z) (c : col) : f32 :=
  if k =? 0 then d0 c else if k =? 1 then d1 c else if k =? 2 then d2 c else d3 c.

(** [n] is [v] scaled to 0..max and rounded down, up to a relative error of
    2^-24 before rounding down; values outside of 0..1 give the nearest end
    of the range and a NaN gives 0. *)
Definition scaled_down (max : Z) (v : f32) (n : Z) : Prop :=
  0 <= n <= max /\
  (fle v f0 = true -> n = 0) /\
  (fle f1 v = true -> n = max) /\
  (is_nan v = true -> n = 0) /\
  (in01 v -> (IZR n <= B2R v * IZR max * (1 + / 16777216) /\ B2R v * IZR max * (1 - / 16777216) < IZR n + 1)%R).
(** How a sample is stored. *)
Definition stored_as (t : DataType) (v : f32) (n : number) : Prop :=
  match t, n with
  | Float32, NF32 w => w = v
  | Float64, NF64 w => (is_nan w = is_nan v /\ is_finite w = is_finite v /\ Bsign w = Bsign v /\ B2R w = B2R v)%R
  | Uint8, NInt n => scaled_down 255 v n
  | Uint16, NInt n => scaled_down 65535 v n
  | Uint32, NInt n => scaled_down 4294967295 v n
  | Bool, NBool b => b = fle (fdiv f1 f2) v
  | _, _ => False
  end.
(** [v] is the 32-bit number nearest to [r], ties to even. *)
Definition nearest (r : R) (v : f32) : Prop :=
  is_finite v = true /\ B2R v = Generic_fmt.round Zaux.radix2 (FLT.FLT_exp (-149) 24) (Generic_fmt.Znearest (fun n => negb (Z.even n))) r.
(** How a stored number is read.  A true element is read as 0, a false one
    as 1. *)
Definition read_as (t : DataType) (n : number) (v : f32) : Prop :=
  match t, n with
  | Float32, NF32 w => v = w
  | Float64, NF64 w => is_nan v = is_nan w /\ (is_finite w = true -> (Rabs (B2R w) <= 1)%R -> nearest (B2R w) v)
  | Uint8, NInt n => nearest (IZR n / 255) v
  | Uint16, NInt n => nearest (IZR n / 65535) v
  | Uint32, NInt n => in01 v /\ (Rabs (B2R v - IZR n / 4294967296) <= IZR n / 4294967296 / 16777216)%R
  | Bool, NBool b => v = if b then f0 else f1
  | _, _ => False
  end.
(** An image with the given pixels. *)
Definition image_of (w h : Z) (pixel : Z -> Z -> Rgb -> Prop) (i : Image) : Prop :=
  good_image i /\ bg_color i = None /\ width (buffer i) = w /\ height (buffer i) = h /\
  forall m x y, inside (buffer i) x y -> exists c, get_pixel m (buffer i) x y = Ok c /\ pixel x y c.

(** A plain mode: the channels are stored as they are. *)
Definition plain_mode (name : string) (n : Z) : Prop := (name = "rgb" /\ n = 3) \/ (name = "rgba" /\ n = 4).
(** Each channel is a number from 0 to 1 or NaN. *)
Definition in_range (c : Rgb) : Prop := in01_or_nan (d0 c) /\ in01_or_nan (d1 c) /\ in01_or_nan (d2 c) /\ in01_or_nan (d3 c).
(** [v'] is what is left of [v] after it was stored as an integer. *)
Definition loses (t : DataType) (v v' : f32) : Prop :=
  match t with
  | Uint8 => (B2R v - / 255 - / 8388608 <= B2R v' <= B2R v + / 8388608)%R
  | Uint16 => (B2R v - / 65535 - / 8388608 <= B2R v' <= B2R v + / 8388608)%R
  | Uint32 => (B2R v - / 4294967296 <= B2R v' <= B2R v)%R
  | _ => v' = v
  end.
(** A library whose angles are 1 and whose powers are exact inverses. *)
Definition polar_libm : libm :=
  mkLibm (fun x _ => x) (fun x => x) (fun x => x) (fun x => x) (fun x => x) (fun _ _ => f1) (fun x => x).
(** A picture of two pixels. *)
Definition two_pixels : Image := mkImage (mkPB 2 1 [mkC f1 f0 (fdiv f1 f2) f1; mkC f0 f1 f1 f0]) None.
