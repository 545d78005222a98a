(** Property theorems, generated from NumpyThm.v by tools/mkp.py. *)

From Coq Require Import Reals.
From Coq Require Import ZArith List Bool String.
From Flocq Require Import BinarySingleNaN.
From Verif Require Import Base PixelBuffer BufferSpec F32 Color ColorSpec Image ImageSpec Numpy NumpySpec.
Import ListNotations.
Local Open Scope string_scope.
Open Scope Z_scope.

From Verif Require Import NumpyThm.


(** C69: the array of an image has one row per pixel row, one column per
    pixel column and one number per channel of the chosen colour space, each
    stored in the chosen element type. *)

Theorem C69_image_to_array : forall L i name k n tn t, good_image i -> In (name, k, n) export_modes -> In (tn, t) type_names ->
  exists a, to_np_array L (Some name) tn i = ROk a /\ good_array a /\
    dims a = [height (buffer i); width (buffer i); n] /\ type_of (elems a) = t /\
    forall m x y j c, inside (buffer i) x y -> get_pixel m (buffer i) x y = Ok c -> 0 <= j < n ->
      exists v, at_ a y x j = Some v /\ stored_as t (channel j (convert_color L KRgb k c)) v.
Proof. exact image_to_array. Qed.
Print Assumptions C69_image_to_array.


(** C69: in gray mode it has one number per pixel. *)

Theorem C69_image_to_gray_array : forall L i tn t, good_image i -> In (tn, t) type_names ->
  exists a, to_np_array L (Some "gray") tn i = ROk a /\ good_array a /\
    dims a = [height (buffer i); width (buffer i); 1] /\ type_of (elems a) = t /\
    forall m x y c, inside (buffer i) x y -> get_pixel m (buffer i) x y = Ok c ->
      exists v, at_ a y x 0 = Some v /\ stored_as t (d0 (to_gray c)) v.
Proof. exact image_to_gray_array. Qed.
Print Assumptions C69_image_to_gray_array.


(** C69: without a mode "rgba" is used; other names are errors. *)

Theorem C69_export_names : forall L i tn,
  to_np_array L None tn i = to_np_array L (Some "rgba") tn i /\
  (forall cs, (forall t, ~ In (tn, t) type_names) -> exists s, tn = Some s /\ to_np_array L cs tn i = RErr (UnsupportedDataType s)) /\
  (forall t name, In (tn, t) type_names -> name <> "gray" -> (forall k n, ~ In (name, k, n) export_modes) ->
     to_np_array L (Some name) tn i = RErr (UnknownColorspace name)).
Proof. exact export_names. Qed.
Print Assumptions C69_export_names.


(** C69: the image of an array with 3 or 4 channels has one pixel per row and
    column, made of the numbers of that place read in the chosen colour space. *)

Theorem C69_array_to_image : forall L a cs h w n k, good_array a -> dims a = [h; w; n] -> valid_size w h ->
  In (mode_name cs "auto", k, n) import_modes ->
  exists i, from_np_array L a cs = Ok (ROk i) /\
    image_of w h (fun x y c => exists v : Z -> f32,
      (forall j, 0 <= j < n -> exists e, at_ a y x j = Some e /\ read_as (type_of (elems a)) e (v j)) /\
      c = to_rgb L k (new_with_alpha k (v 0) (v 1) (v 2) (if n =? 4 then v 3 else f1))) i.
Proof. exact array_to_image. Qed.
Print Assumptions C69_array_to_image.


(** C69: the image of an array with one channel is gray. *)

Theorem C69_gray_array_to_image : forall L a cs h w, good_array a -> dims a = [h; w] \/ dims a = [h; w; 1] -> valid_size w h ->
  mode_name cs "auto" = "gray" \/ mode_name cs "auto" = "auto" ->
  exists i, from_np_array L a cs = Ok (ROk i) /\
    image_of w h (fun x y c => exists e v, at_ a y x 0 = Some e /\ read_as (type_of (elems a)) e v /\ c = rgb_new v v v) i.
Proof. exact gray_array_to_image. Qed.
Print Assumptions C69_gray_array_to_image.


(** C69: every other mode or number of dimensions is an error, but an array
    of less than two dimensions is a panic. *)

Theorem C69_import_errors : forall L a cs,
  (forall h w n, dims a = [h; w; n] -> (forall k, ~ In (mode_name cs "auto", k, n) import_modes) ->
     (n = 1 -> mode_name cs "auto" <> "gray" /\ mode_name cs "auto" <> "auto") ->
     exists e, from_np_array L a cs = Ok (RErr e)) /\
  (forall h w, dims a = [h; w] -> mode_name cs "auto" <> "gray" -> mode_name cs "auto" <> "auto" ->
     exists e, from_np_array L a cs = Ok (RErr e)) /\
  (3 < zlen (dims a) -> exists e, from_np_array L a cs = Ok (RErr e)) /\
  (zlen (dims a) < 2 -> from_np_array L a cs = Panic).
Proof. exact import_errors. Qed.
Print Assumptions C69_import_errors.


(** C69: an image within the gamut survives a rgba array of floating point
    numbers unchanged; a rgb array makes it opaque. *)

Theorem C69_float_round_trip : forall L i tn t, good_image i -> In (tn, t) type_names -> t = Float32 \/ t = Float64 ->
  (forall c, In c (data (buffer i)) -> in_gamut c) ->
  (exists a, to_np_array L (Some "rgba") tn i = ROk a /\ from_np_array L a (Some "rgba") = Ok (ROk (mkImage (buffer i) None))) /\
  (exists a, to_np_array L (Some "rgb") tn i = ROk a /\ from_np_array L a (Some "rgb") =
     Ok (ROk (mkImage (mkPB (width (buffer i)) (height (buffer i)) (map (fun c => with_alpha c f1) (data (buffer i)))) None))).
Proof. exact float_round_trip. Qed.
Print Assumptions C69_float_round_trip.


(** C69: in the other colour spaces each pixel becomes what the library's own
    conversion there and back makes of it, except in the mode "lcha". *)

Theorem C69_mode_round_trip : forall L i name k n tn t, good_image i -> In (tn, t) type_names -> t = Float32 \/ t = Float64 ->
  In (name, k, n) export_modes -> k <> KRgb -> k <> KSrgb -> name <> "lcha" ->
  exists a, to_np_array L (Some name) tn i = ROk a /\ from_np_array L a (Some name) =
    Ok (ROk (mkImage (mkPB (width (buffer i)) (height (buffer i))
      (map (fun c => let s := convert_color L KRgb k c in to_rgb L k (if n =? 4 then s else with_alpha s f1)) (data (buffer i)))) None)).
Proof. exact mode_round_trip. Qed.
Print Assumptions C69_mode_round_trip.


(** C69: arrays of 8 and 16 bit integers, of 32 bit integers up to 2^24 and
    of 32 bit floating point numbers from 0 to 1 survive becoming an image
    unchanged in the modes rgb and rgba. *)

Theorem C69_array_round_trips : forall L a h w n name tn, good_array a -> dims a = [h; w; n] -> valid_size w h -> plain_mode name n ->
  In (tn, type_of (elems a)) type_names ->
  match elems a with
  | U8s _ | U16s _ => True
  | U32s l => forall v, In v l -> v <= 16777216
  | F32s l => forall v, In v l -> in01 v
  | _ => False
  end ->
  exists i, from_np_array L a (Some name) = Ok (ROk i) /\ to_np_array L (Some name) tn i = ROk a.
Proof. exact array_round_trips. Qed.
Print Assumptions C69_array_round_trips.


(** C69: an image within the gamut loses at most one step of the integer type
    in a rgba array of integers. *)

Theorem C69_integer_round_trip : forall L i tn t, good_image i -> In (tn, t) type_names -> t = Uint8 \/ t = Uint16 \/ t = Uint32 ->
  (forall c, In c (data (buffer i)) -> in_gamut c) ->
  exists a i', to_np_array L (Some "rgba") tn i = ROk a /\ from_np_array L a (Some "rgba") = Ok (ROk i') /\
    image_of (width (buffer i)) (height (buffer i)) (fun x y c' => forall m, exists c, get_pixel m (buffer i) x y = Ok c /\
      in_gamut c' /\ forall j, 0 <= j < 4 -> loses t (channel j c) (channel j c')) i'.
Proof. exact integer_round_trip. Qed.
Print Assumptions C69_integer_round_trip.


(** C69: truth values come back negated, in both directions. *)

Theorem C69_bool_round_trip_refuted : forall L,
  (forall a h w n name l, good_array a -> dims a = [h; w; n] -> valid_size w h -> plain_mode name n -> elems a = Bools l ->
    exists i, from_np_array L a (Some name) = Ok (ROk i) /\
      to_np_array L (Some name) (Some "bool") i = ROk (mkArray (dims a) (Bools (map negb l)))) /\
  (forall i, good_image i -> exists a, to_np_array L (Some "rgba") (Some "bool") i = ROk a /\
    from_np_array L a (Some "rgba") = Ok (ROk (mkImage (mkPB (width (buffer i)) (height (buffer i))
      (map (fun c => let flip v := if fle (fdiv f1 f2) v then f0 else f1 in mkC (flip (d0 c)) (flip (d1 c)) (flip (d2 c)) (flip (d3 c)))
           (data (buffer i)))) None))).
Proof. exact bool_round_trip_refuted. Qed.
Print Assumptions C69_bool_round_trip_refuted.


(** C69: a four channel array in the mode "lcha" or "lch" is read as Lab, so
    an array in the mode "lcha" is not read back in the colour space it was
    written in: white, for example, comes back as another colour although the
    conversions themselves restore it. *)

Theorem C69_lcha_refuted : forall L,
  (forall a h w cs, dims a = [h; w; 4] -> mode_name cs "auto" = "lcha" \/ mode_name cs "auto" = "lch" ->
     from_np_array L a cs = from_np_array L a (Some "laba")) /\
  (forall i tn t, good_image i -> In (tn, t) type_names -> t = Float32 \/ t = Float64 ->
     exists a, to_np_array L (Some "lcha") tn i = ROk a /\ from_np_array L a (Some "lcha") =
       Ok (ROk (mkImage (mkPB (width (buffer i)) (height (buffer i))
         (map (fun c => to_rgb L (KLab D65 O2) (convert_color L KRgb (KLch D65 O2) c)) (data (buffer i)))) None))) /\
  (let polar := to_rgb polar_libm (KLch D65 O2) (convert_color polar_libm KRgb (KLch D65 O2) RGB_WHITE) in
   let back := to_rgb polar_libm (KLab D65 O2) (convert_color polar_libm KRgb (KLch D65 O2) RGB_WHITE) in
   forallb (fun v => flt (dec 999 1000) v) [d0 polar; d1 polar; d2 polar] = true /\ flt (d2 back) (dec 5 10) = true).
Proof. exact lcha_refuted. Qed.
Print Assumptions C69_lcha_refuted.


(** C69: the number 16777217 does not survive becoming an image. *)

Theorem C69_u32_array_refuted : forall L, exists i,
  from_np_array L (mkArray [1; 1; 4] (U32s [16777217; 0; 0; 0])) (Some "rgba") = Ok (ROk i) /\
  to_np_array L (Some "rgba") (Some "uint32") i = ROk (mkArray [1; 1; 4] (U32s [16777216; 0; 0; 0])).
Proof. exact u32_array_refuted. Qed.
Print Assumptions C69_u32_array_refuted.


(** C69: two pixels and their array of bytes. *)

Example C69_numpy_example : good_image two_pixels /\ (forall c, In c (data (buffer two_pixels)) -> in_gamut c) /\
  to_np_array example_libm (Some "rgba") (Some "uint8") two_pixels = ROk (mkArray [1; 2; 4] (U8s [255; 0; 127; 255; 0; 255; 255; 0])) /\
  good_array (mkArray [1; 2; 4] (U8s [255; 0; 127; 255; 0; 255; 255; 0])) /\
  to_np_array example_libm (Some "rgb") (Some "bool") two_pixels = ROk (mkArray [1; 2; 3] (Bools [true; false; true; false; true; true])).
Proof. exact numpy_example. Qed.


(** C83: a pixel read from an array is in range, or NaN where the array holds
    NaN or a conversion gives NaN, in the modes whose conversion clamps. *)

Theorem C83_import_in_range : forall L a cs h w n k i, good_array a -> dims a = [h; w; n] -> valid_size w h ->
  In (mode_name cs "auto", k, n) import_modes -> from_np_array L a cs = Ok (ROk i) ->
  k = KRgb \/ k = KSrgb \/ k = KHsl \/ k = KYuv \/ (n = 3 /\ k <> KHsv) ->
  forall c, In c (data (buffer i)) -> in_range c.
Proof. exact import_in_range. Qed.
Print Assumptions C83_import_in_range.


(** C83: so is a pixel read from an array of one channel. *)

Theorem C83_gray_in_range : forall L a cs h w i, good_array a -> dims a = [h; w] \/ dims a = [h; w; 1] -> valid_size w h ->
  mode_name cs "auto" = "gray" \/ mode_name cs "auto" = "auto" -> from_np_array L a cs = Ok (ROk i) ->
  forall c, In c (data (buffer i)) -> in_range c.
Proof. exact gray_in_range. Qed.
Print Assumptions C83_gray_in_range.


(** C83: the other modes let numbers out of range pass: gray HSV values and
    the alpha channel of XYZ and Lab. *)

Theorem C83_import_range_refuted : forall L,
  (exists i, from_np_array L (mkArray [1; 1; 3] (F32s [f0; f0; f2])) (Some "hsv") = Ok (ROk i) /\ data (buffer i) = [mkC f2 f2 f2 f1]) /\
  (exists i c, from_np_array L (mkArray [1; 1; 4] (F32s [f0; f0; f0; f2])) (Some "xyza") = Ok (ROk i) /\ data (buffer i) = [c] /\ alpha c = f2) /\
  (exists i c, from_np_array L (mkArray [1; 1; 4] (F32s [f0; f0; f0; f2])) (Some "laba") = Ok (ROk i) /\ data (buffer i) = [c] /\ alpha c = f2).
Proof. exact import_range_refuted. Qed.
Print Assumptions C83_import_range_refuted.
