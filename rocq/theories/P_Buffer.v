(** Property theorems, generated from BufferThm.v by tools/mkp.py. *)

From Coq Require Import ZArith List Bool Lia.
From Verif Require Import Base PixelBuffer BufferSpec Geometry Reachable.
Import ListNotations.
Open Scope Z_scope.

From Verif Require Import BufferThm.


(** C01: every buffer that any sequence of operations can produce is
    well-formed. *)

Theorem C01_reachable_valid : forall T (b : PixelBuffer T), reachable T b ->
  zlen (data b) = width b * height b /\
  (width b = 0 <-> height b = 0) /\
  0 <= width b * height b <= 1073741823.
Proof. exact reachable_valid. Qed.
Print Assumptions C01_reachable_valid.

Example C01_reachable_some : exists b : PixelBuffer Z, reachable Z b /\
  width b = 2 /\ height b = 3 /\ data b = [5; 1; 6; 9; 7; 3].
Proof. exact reachable_some. Qed.


(** C02: [new_with_color] (hence [new]) succeeds exactly on valid sizes; the
    result has that size and only that colour. *)

Theorem C02_new_with_color_iff : forall T m w h (c : T), is_u32 w -> is_u32 h ->
  (valid_size w h /\
   exists b, new_with_color m w h c = Ok b /\ width b = w /\ height b = h /\
     zlen (data b) = w * h /\ Forall (eq c) (data b)) \/
  (~ valid_size w h /\ new_with_color m w h c = Panic).
Proof. exact new_with_color_iff. Qed.
Print Assumptions C02_new_with_color_iff.


(** C02: [is_valid_buffer_size] decides validity. *)

Theorem C02_is_valid_buffer_size_iff : forall w h, is_u32 w -> is_u32 h ->
  is_valid_buffer_size w h = true <-> valid_size w h.
Proof. exact is_valid_buffer_size_iff. Qed.
Print Assumptions C02_is_valid_buffer_size_iff.


(** C02: [new_from_raw] succeeds exactly when size and length fit and keeps the
    data. *)

Theorem C02_new_from_raw_iff : forall T w h (d : list T), is_u32 w -> is_u32 h ->
  (valid_size w h /\ zlen d = w * h /\ new_from_raw w h d = Ok (mkPB w h d)) \/
  (~ (valid_size w h /\ zlen d = w * h) /\ new_from_raw w h d = Panic).
Proof. exact new_from_raw_iff. Qed.
Print Assumptions C02_new_from_raw_iff.


(** C02: [new_from_func] panics on invalid sizes before calling the closure
    and, for a closure that never panics, succeeds on valid ones. *)

Theorem C02_new_from_func_iff : forall S T m w h (f : S -> Z -> Z -> res (S * T)) s,
  is_u32 w -> is_u32 h ->
  (forall s x y, exists r, f s x y = Ok r) ->
  ((exists r, new_from_func m w h f s = Ok r) <-> valid_size w h).
Proof. exact new_from_func_iff. Qed.
Print Assumptions C02_new_from_func_iff.

Example C02_valid_sizes_differ : valid_size 0 0 /\ valid_size 32767 32767 /\
  ~ valid_size 0 1 /\ ~ valid_size 65536 65536 /\ ~ valid_size 1 1073741824.
Proof. exact valid_sizes_differ. Qed.


(** C03: write then read, with the frame condition. *)

Theorem C03_put_get : forall T m (b : PixelBuffer T) x y c, valid b -> inside b x y ->
  exists b', put_pixel m b x y c = Ok b' /\
    width b' = width b /\ height b' = height b /\ valid b' /\
    get_pixel m b' x y = Ok c /\
    forall x' y', is_u32 x' -> is_u32 y' -> (x', y') <> (x, y) ->
      get_pixel m b' x' y' = get_pixel m b x' y'.
Proof. exact put_get. Qed.
Print Assumptions C03_put_get.


(** C03: reads and writes succeed exactly inside the image. *)

Theorem C03_access_panics_outside : forall T m (b : PixelBuffer T) x y c, valid b ->
  is_u32 x -> is_u32 y ->
  ((exists v, get_pixel m b x y = Ok v) <-> inside b x y) /\
  ((exists b', put_pixel m b x y c = Ok b') <-> inside b x y).
Proof. exact access_panics_outside. Qed.
Print Assumptions C03_access_panics_outside.


(** C03: writing back what is there changes nothing, and the last write wins. *)

Theorem C03_put_laws : forall T m (b : PixelBuffer T) x y c c', valid b -> inside b x y ->
  (get_pixel m b x y = Ok c -> put_pixel m b x y c = Ok b) /\
  (forall b1, put_pixel m b x y c = Ok b1 -> put_pixel m b1 x y c' = put_pixel m b x y c').
Proof. exact put_laws. Qed.
Print Assumptions C03_put_laws.

Example C03_put_get_example :
  valid (mkPB 3 2 [1; 2; 3; 4; 5; 6]) /\ inside (mkPB 3 2 [1; 2; 3; 4; 5; 6]) 1 1 /\
  put_pixel Checked (mkPB 3 2 [1; 2; 3; 4; 5; 6]) 1 1 9 = Ok (mkPB 3 2 [1; 2; 3; 4; 9; 6]).
Proof. exact put_get_example. Qed.


(** C04: [new_from_func] feeds the coordinates in row-major order, each once,
    to the closure, and stores what it returns. *)

Theorem C04_new_from_func_runs : forall S T m w h (f : S -> Z -> Z -> res (S * T)) s s' b,
  is_u32 w -> is_u32 h ->
  (new_from_func m w h f s = Ok (s', b) <->
   valid_size w h /\ width b = w /\ height b = h /\
   runs (call (fun s p => f s (fst p) (snd p))) s (row_major w h) s' (data b)).
Proof. exact new_from_func_runs. Qed.
Print Assumptions C04_new_from_func_runs.


(** C04: the pixel at (x,y) is what the call for (x,y) returned, made in the
    state left by the calls for all earlier coordinates. *)

Theorem C04_new_from_func_pixel : forall S T m w h (f : S -> Z -> Z -> res (S * T)) s s' b x y,
  is_u32 w -> is_u32 h -> new_from_func m w h f s = Ok (s', b) ->
  0 <= x < w -> 0 <= y < h ->
  exists s1 s2 c vs,
    runs (call (fun s p => f s (fst p) (snd p))) s
         (firstn (Z.to_nat (x + y * w)) (row_major w h)) s1 vs /\
    f s1 x y = Ok (s2, c) /\ get_pixel m b x y = Ok c.
Proof. exact new_from_func_pixel. Qed.
Print Assumptions C04_new_from_func_pixel.


(** C04: [row_major] is what its name says: every coordinate exactly once,
    ordered by row, then by column. *)

Theorem C04_row_major_spec : forall w h, 0 <= w -> 0 <= h ->
  NoDup (row_major w h) /\
  (forall x y, In (x, y) (row_major w h) <-> 0 <= x < w /\ 0 <= y < h) /\
  (forall x y, 0 <= x < w -> 0 <= y < h -> idx (row_major w h) (x + y * w) = Ok (x, y)).
Proof. exact row_major_spec. Qed.
Print Assumptions C04_row_major_spec.

Example C04_new_from_func_example :
  new_from_func Checked 3 2 (fun s x y => Ok (s ++ [(x, y)], zlen s * 10 + x)) [] =
  Ok ([(0, 0); (1, 0); (2, 0); (0, 1); (1, 1); (2, 1)], mkPB 3 2 [0; 11; 22; 30; 41; 52]).
Proof. exact new_from_func_example. Qed.


(** C05: [try_new_from_func] returns Ok exactly when every call does. *)

Theorem C05_try_new_from_func_ok : forall S T E m w h (f : S -> Z -> Z -> res (S * Result T E)) s s' b,
  is_u32 w -> is_u32 h ->
  (try_new_from_func m w h f s = Ok (s', ROk b) <->
   valid_size w h /\ width b = w /\ height b = h /\
   runs (call_ok (fun s p => f s (fst p) (snd p))) s (row_major w h) s' (data b)).
Proof. exact try_new_from_func_ok. Qed.
Print Assumptions C05_try_new_from_func_ok.


(** C05: and otherwise the error of the first failing coordinate in row-major
    order; the closure state is the one left by that call. *)

Theorem C05_try_new_from_func_err : forall S T E m w h (f : S -> Z -> Z -> res (S * Result T E)) s s' e,
  is_u32 w -> is_u32 h ->
  (try_new_from_func m w h f s = Ok (s', RErr e) <->
   valid_size w h /\ exists pre bs p post,
     first_error (fun s p => f s (fst p) (snd p)) s (row_major w h) s' e pre bs p post).
Proof. exact try_new_from_func_err. Qed.
Print Assumptions C05_try_new_from_func_err.


(** C05: [try_map_colors] likewise, over the pixels in storage order. *)

Theorem C05_try_map_colors_ok : forall S T R E (f : S -> T -> res (S * Result R E)) s b s' b',
  try_map_colors f s b = Ok (s', ROk b') <->
  width b' = width b /\ height b' = height b /\ runs (call_ok f) s (data b) s' (data b').
Proof. exact try_map_colors_ok. Qed.
Print Assumptions C05_try_map_colors_ok.

Theorem C05_try_map_colors_err : forall S T R E (f : S -> T -> res (S * Result R E)) s b s' e,
  try_map_colors f s b = Ok (s', RErr e) <->
  exists pre bs p post, first_error f s (data b) s' e pre bs p post.
Proof. exact try_map_colors_err. Qed.
Print Assumptions C05_try_map_colors_err.


(** C05: [try_map_colors_enumerated] gives the closure each pixel with its
    coordinates and returns the first error. *)

Theorem C05_try_map_enumerated : forall T E m (f : Z -> Z -> T -> res (Result T E)) b r, valid b ->
  try_map_colors_enumerated f b = Ok r ->
  match r with
  | ROk b' => width b' = width b /\ height b' = height b /\ valid b' /\
      forall x y c, inside b x y -> get_pixel m b x y = Ok c ->
        exists c', f x y c = Ok (ROk c') /\ get_pixel m b' x y = Ok c'
  | RErr e => exists x y c, inside b x y /\ get_pixel m b x y = Ok c /\ f x y c = Ok (RErr e) /\
      forall x' y' c', inside b x' y' -> y' < y \/ y' = y /\ x' < x -> get_pixel m b x' y' = Ok c' ->
        exists v, f x' y' c' = Ok (ROk v)
  end.
Proof. exact try_map_enumerated. Qed.
Print Assumptions C05_try_map_enumerated.

Example C05_try_example :
  try_new_from_func Checked 2 2 (fun s x y => Ok (s + 1, if y =? 1 then RErr (x, y) else ROk x)) 0
  = Ok (3, RErr (0, 1)) /\
  try_map_colors (fun s c => Ok (s + c, if c =? 3 then RErr tt else ROk (c * 2))) 0 (mkPB 2 2 [1; 2; 3; 4])
  = Ok (6, RErr tt).
Proof. exact try_example. Qed.


(** C06: on error exactly the prefix has been replaced. *)

Theorem C06_try_mod_colors_spec : forall S T E (f : S -> T -> res (S * Result T E)) s b s' b' r,
  try_mod_colors f s b = Ok (s', b', r) <->
  width b' = width b /\ height b' = height b /\
  match r with
  | ROk _ => runs (call_ok f) s (data b) s' (data b')
  | RErr e => exists pre bs p post, first_error f s (data b) s' e pre bs p post /\
                data b' = bs ++ p :: post
  end.
Proof. exact try_mod_colors_spec. Qed.
Print Assumptions C06_try_mod_colors_spec.


(** C06: in a w x h buffer that means: pixels before the failing one, in
    row-major order, hold results of the closure; the others are unchanged. *)

Theorem C06_try_mod_colors_enumerated_err : forall T E m (f : Z -> Z -> T -> res (Result T E)) b b' e,
  valid b -> try_mod_colors_enumerated f b = Ok (b', RErr e) ->
  width b' = width b /\ height b' = height b /\ valid b' /\
  exists x y c, inside b x y /\ get_pixel m b x y = Ok c /\ f x y c = Ok (RErr e) /\
    forall x' y' c', inside b x' y' -> get_pixel m b x' y' = Ok c' ->
      (y' < y \/ y' = y /\ x' < x ->
         exists v, f x' y' c' = Ok (ROk v) /\ get_pixel m b' x' y' = Ok v) /\
      (y < y' \/ y' = y /\ x <= x' -> get_pixel m b' x' y' = Ok c').
Proof. exact try_mod_colors_enumerated_err. Qed.
Print Assumptions C06_try_mod_colors_enumerated_err.


(** C06: it is not atomic: an error can leave a changed buffer. *)

Theorem C06_try_mod_colors_atomic_refuted : exists (f : unit -> Z -> res (unit * Result Z unit)) b s' b',
  try_mod_colors f tt b = Ok (s', b', RErr tt) /\ valid b /\ data b' <> data b.
Proof. exact try_mod_colors_atomic_refuted. Qed.
Print Assumptions C06_try_mod_colors_atomic_refuted.


(** C07: [enumerate] yields the coordinates in row-major order, each with its
    own pixel. *)

Theorem C07_enumerate_spec : forall T m (b : PixelBuffer T), valid b ->
  exists items, enumerate b = Ok items /\
    map fst items = row_major (width b) (height b) /\
    (forall x y c, In (x, y, c) items <-> inside b x y /\ get_pixel m b x y = Ok c).
Proof. exact enumerate_spec. Qed.
Print Assumptions C07_enumerate_spec.


(** C07: the enumerated maps give each closure call the pixel's own
    coordinates and value and store its result there. *)

Theorem C07_map_colors_enumerated_spec : forall T (b : PixelBuffer T) (f : Z -> Z -> T -> res T), valid b ->
  (forall x y c, inside b x y -> exists c', f x y c = Ok c') ->
  exists b', map_colors_enumerated f b = Ok b' /\ mod_colors_enumerated f b = Ok b' /\
    valid b' /\ width b' = width b /\ height b' = height b /\
    forall m x y, inside b x y -> get_pixel m b' x y = bind (get_pixel m b x y) (f x y).
Proof. exact map_colors_enumerated_spec. Qed.
Print Assumptions C07_map_colors_enumerated_spec.

Example C07_enumerate_example :
  enumerate (mkPB 2 2 [7; 8; 9; 10]) = Ok [(0, 0, 7); (1, 0, 8); (0, 1, 9); (1, 1, 10)].
Proof. exact enumerate_example. Qed.


(** C08: clamped reads return a nearest pixel, for every i32 pair. *)

Theorem C08_clamped_nearest : forall T m (b : PixelBuffer T) x y, valid b -> nonempty b ->
  is_i32 x -> is_i32 y ->
  exists cx cy, inside b cx cy /\ get_pixel_clamped m b x y = get_pixel m b cx cy /\
    (exists c, get_pixel m b cx cy = Ok c) /\
    forall x' y', inside b x' y' -> Z.abs (x - cx) <= Z.abs (x - x') /\ Z.abs (y - cy) <= Z.abs (y - y').
Proof. exact clamped_nearest. Qed.
Print Assumptions C08_clamped_nearest.


(** C08: on pixels of the image they are plain reads; on an empty image they
    panic in both build modes. *)

Theorem C08_clamped_inside_and_empty : forall T m (b : PixelBuffer T) x y, valid b ->
  (inside b x y -> get_pixel_clamped m b x y = get_pixel m b x y) /\
  (width b = 0 -> get_pixel_clamped m b x y = Panic).
Proof. exact clamped_inside_and_empty. Qed.
Print Assumptions C08_clamped_inside_and_empty.

Example C08_clamped_example :
  get_pixel_clamped Wrapping (mkPB 2 2 [7; 8; 9; 10]) 2147483647 (-2147483648) = Ok 8.
Proof. exact clamped_example. Qed.


(** C09: optional reads *)

Theorem C09_optional_spec : forall T m (b : PixelBuffer T) x y, valid b -> is_i32 x -> is_i32 y ->
  (is_in_image b x y = true <-> inside b x y) /\
  (inside b x y -> exists c, get_pixel m b x y = Ok c /\ get_pixel_optional m b x y = Ok (Some c)) /\
  (~ inside b x y -> get_pixel_optional m b x y = Ok None).
Proof. exact optional_spec. Qed.
Print Assumptions C09_optional_spec.

Example C09_optional_example :
  get_pixel_optional Checked (mkPB 2 2 [7; 8; 9; 10]) 1 1 = Ok (Some 10) /\
  get_pixel_optional Checked (mkPB 2 2 [7; 8; 9; 10]) 2 0 = Ok None.
Proof. exact optional_example. Qed.


(** C10: both neighbourhood functions return the N x N matrix of clamped reads
    around (x,y), whichever path they take. *)

Theorem C10_kernel_is_clamped : forall T m m' (b : PixelBuffer T) N x y, valid b -> nonempty b ->
  0 <= N < 2147483648 -> is_i32 x -> is_i32 y ->
  is_i32 (x - N / 2) -> is_i32 (y - N / 2) -> is_i32 (x + N - 1) -> is_i32 (y + N - 1) ->
  get_kernel m b N x y = get_kernel_dyn m b x y N /\
  exists k, get_kernel m b N x y = Ok k /\ zlen k = N /\
    forall ty, 0 <= ty < N -> exists row, idx k ty = Ok row /\ zlen row = N /\
      forall tx, 0 <= tx < N ->
        idx row tx = get_pixel_clamped m' b (x - N / 2 + tx) (y - N / 2 + ty).
Proof. exact kernel_is_clamped. Qed.
Print Assumptions C10_kernel_is_clamped.

Example C10_kernel_example :
  get_kernel Checked (mkPB 3 3 [1; 2; 3; 4; 5; 6; 7; 8; 9]) 3 1 1 = Ok [[1; 2; 3]; [4; 5; 6]; [7; 8; 9]] /\
  get_kernel Checked (mkPB 3 3 [1; 2; 3; 4; 5; 6; 7; 8; 9]) 3 0 2 = Ok [[4; 4; 5]; [7; 7; 8]; [7; 7; 8]] /\
  get_kernel_dyn Checked (mkPB 3 3 [1; 2; 3; 4; 5; 6; 7; 8; 9]) 1 1 2 = Ok [[1; 2]; [4; 5]].
Proof. exact kernel_example. Qed.


(** C11: with and without overflow checks every operation gives the same
    result, panics included. *)

Theorem C11_builds_agree_access : forall T (b : PixelBuffer T) x y c, valid b ->
  (is_u32 x -> is_u32 y ->
     get_pixel Checked b x y = get_pixel Wrapping b x y /\
     put_pixel Checked b x y c = put_pixel Wrapping b x y c) /\
  (is_i32 x -> is_i32 y ->
     get_pixel_clamped Checked b x y = get_pixel_clamped Wrapping b x y /\
     get_pixel_optional Checked b x y = get_pixel_optional Wrapping b x y).
Proof. exact builds_agree_access. Qed.
Print Assumptions C11_builds_agree_access.


(** C11: constructors agree for all u32 sizes, whatever the closure. *)

Theorem C11_builds_agree_new : forall S T E w h (c : T) (f : S -> Z -> Z -> res (S * T))
  (g : S -> Z -> Z -> res (S * Result T E)) s, is_u32 w -> is_u32 h ->
  new_with_color Checked w h c = new_with_color Wrapping w h c /\
  new_from_func Checked w h f s = new_from_func Wrapping w h f s /\
  try_new_from_func Checked w h g s = try_new_from_func Wrapping w h g s.
Proof. exact builds_agree_new. Qed.
Print Assumptions C11_builds_agree_new.


(** C11: and so do the geometric operations on valid buffers. *)

Theorem C11_builds_agree_geometry : forall T (d : T) b ox oy w h o, valid b ->
  is_u32 ox -> is_u32 oy -> is_u32 w -> is_u32 h -> 0 <= o < 1073741824 ->
  rotate90 Checked d b = rotate90 Wrapping d b /\ rotate180 Checked d b = rotate180 Wrapping d b /\
  rotate270 Checked d b = rotate270 Wrapping d b /\
  flip_horizontal Checked d b = flip_horizontal Wrapping d b /\
  flip_vertical Checked d b = flip_vertical Wrapping d b /\
  crop Checked d b ox oy w h = crop Wrapping d b ox oy w h /\
  interlace Checked b o = interlace Wrapping b o.
Proof. exact builds_agree_geometry. Qed.
Print Assumptions C11_builds_agree_geometry.

Example C11_builds_agree_example : is_u32 4294967295 /\ valid (mkPB 2 1 [1; 2]) /\
  crop Checked 0 (mkPB 2 1 [1; 2]) 1 0 4294967295 4294967295 = Ok (mkPB 1 1 [2]).
Proof. exact builds_agree_example. Qed.
