(** Model of the geometric operations of d10-ops: rotate_90.rs, flip.rs,
    crop.rs, interlace.rs and compose.rs.  They are generic in the colour. *)
From Coq Require Import ZArith List Bool.
From Verif Require Import Base PixelBuffer.
Import ListNotations.
Open Scope Z_scope.

(** The loop shared by rotate_90.rs and flip.rs:
    [for x in 0..width { for y in 0..height { result[dst] = data[x + y*width] } }]. *)
Definition copy_loop {T} (m : build) (dst : Z -> Z -> res Z) (b : PixelBuffer T)
  (result : list T) : res (list T) :=
  for_ (zrange 0 (width b)) (fun x r =>
    for_ (zrange 0 (height b)) (fun y r =>
      d <- dst x y;
      yw <- u32 m (y * width b);
      s <- u32 m (x + yw);
      v <- idx (data b) s;
      upd r d v) r) result.

(** rotate_90.rs:5-21 *)
Definition rotate90 {T} (m : build) (dflt : T) (b : PixelBuffer T) : res (PixelBuffer T) :=
  let result := repeat dflt (length (data b)) in
  result <- copy_loop m (fun x y =>
      a <- u32 m (height b - y); x2 <- u32 m (a - 1);
      let y2 := x in
      o <- u32 m (y2 * height b);
      u32 m (x2 + o)) b result;
  new_from_raw (height b) (width b) result.

(** rotate_90.rs:24-40 *)
Definition rotate180 {T} (m : build) (dflt : T) (b : PixelBuffer T) : res (PixelBuffer T) :=
  let result := repeat dflt (length (data b)) in
  result <- copy_loop m (fun x y =>
      a <- u32 m (width b - x); x2 <- u32 m (a - 1);
      c <- u32 m (height b - y); y2 <- u32 m (c - 1);
      o <- u32 m (y2 * width b);
      u32 m (x2 + o)) b result;
  new_from_raw (width b) (height b) result.

(** rotate_90.rs:43-59 *)
Definition rotate270 {T} (m : build) (dflt : T) (b : PixelBuffer T) : res (PixelBuffer T) :=
  let result := repeat dflt (length (data b)) in
  result <- copy_loop m (fun x y =>
      let x2 := y in
      a <- u32 m (width b - x); y2 <- u32 m (a - 1);
      o <- u32 m (y2 * height b);
      u32 m (x2 + o)) b result;
  new_from_raw (height b) (width b) result.

(** flip.rs:5-19 *)
Definition flip_horizontal {T} (m : build) (dflt : T) (b : PixelBuffer T)
  : res (PixelBuffer T) :=
  let result := repeat dflt (length (data b)) in
  result <- copy_loop m (fun x y =>
      a <- u32 m (width b - x); x2 <- u32 m (a - 1);
      o <- u32 m (y * width b);
      u32 m (x2 + o)) b result;
  new_from_raw (width b) (height b) result.

(** flip.rs:22-36 *)
Definition flip_vertical {T} (m : build) (dflt : T) (b : PixelBuffer T)
  : res (PixelBuffer T) :=
  let result := repeat dflt (length (data b)) in
  result <- copy_loop m (fun x y =>
      a <- u32 m (height b - y); y2 <- u32 m (a - 1);
      o <- u32 m (y2 * width b);
      u32 m (x + o)) b result;
  new_from_raw (width b) (height b) result.

(** crop.rs:4-39; the capacity hint [(width * height) as usize] can overflow in
    a checked build and is kept for that reason. *)
Definition crop {T} (m : build) (dflt : T) (b : PixelBuffer T)
  (offset_x offset_y w h : Z) : res (PixelBuffer T) :=
  if is_empty b then Ok b
  else
    let ox := Z.min offset_x (width b) in
    let oy := Z.min offset_y (height b) in
    rw <- u32 m (width b - ox);
    let w := Z.min w rw in
    rh <- u32 m (height b - oy);
    let h := Z.min h rh in
    if (w =? 0) || (h =? 0) then new m dflt 0 0
    else
      _ <- u32 m (w * h);
      d <- for_ (zrange 0 h) (fun y d =>
             a <- u32 m (oy + y);
             p <- u32 m (a * width b);
             offset <- u32 m (p + ox);
             row <- slice (data b) offset (offset + w);
             Ok (d ++ row)) [];
      new_from_raw w h d.

(** interlace.rs:4-14 *)
Definition interlace {T} (m : build) (b : PixelBuffer T) (offset : Z)
  : res (PixelBuffer T) :=
  let offset := as_i32 offset in
  new_from_fn m (width b) (height b) (fun x y =>
    if y mod 2 =? 0 then
      px <- i32 m (as_i32 x - offset); get_pixel_clamped m b px (as_i32 y)
    else
      px <- i32 m (as_i32 x + offset); get_pixel_clamped m b px (as_i32 y)).

(** [iter().max().unwrap()] on a list of dimensions. *)
Fixpoint max_list (l : list Z) : res Z :=
  match l with
  | [] => Panic
  | [a] => Ok a
  | a :: l' => r <- max_list l'; Ok (Z.max a r)
  end.

(** compose.rs:4-28.  The scratch array [pixels] is overwritten entirely before
    each call of the closure. *)
Definition try_compose {S T E} (m : build) (buffers : list (PixelBuffer T)) (default : T)
  (func : S -> Z -> Z -> list T -> res (S * Result T E)) (s : S)
  : res (S * Result (PixelBuffer T) E) :=
  _ <- assert_ (0 <? zlen buffers);
  w <- max_list (map width buffers);
  h <- max_list (map height buffers);
  try_new_from_func m w h (fun s x y =>
    pixels <- map_res (fun b =>
      o <- get_pixel_optional m b (as_i32 x) (as_i32 y);
      Ok (match o with Some c => c | None => default end)) buffers;
    func s x y pixels) s.

(** compose.rs:30-40; the error type is [()], and [unwrap] panics on an error,
    which the wrapped closure never returns. *)
Definition compose {S T} (m : build) (buffers : list (PixelBuffer T)) (default : T)
  (func : S -> Z -> Z -> list T -> res (S * T)) (s : S) : res (S * PixelBuffer T) :=
  '(s', r) <- try_compose m buffers default
     (fun s x y colors => '(s1, c) <- func s x y colors; Ok (s1, @ROk T unit c)) s;
  match r with ROk b => Ok (s', b) | RErr _ => Panic end.

(** compose.rs:42-66; the same text as try_compose with a slice of buffers. *)
Definition try_compose_slice {S T E} (m : build) (buffers : list (PixelBuffer T))
  (default : T) (func : S -> Z -> Z -> list T -> res (S * Result T E)) (s : S)
  : res (S * Result (PixelBuffer T) E) :=
  _ <- assert_ (negb (zlen buffers =? 0));
  w <- max_list (map width buffers);
  h <- max_list (map height buffers);
  try_new_from_func m w h (fun s x y =>
    pixels <- map_res (fun b =>
      o <- get_pixel_optional m b (as_i32 x) (as_i32 y);
      Ok (match o with Some c => c | None => default end)) buffers;
    func s x y pixels) s.

(** compose.rs:68-74 *)
Definition compose_slice {S T} (m : build) (buffers : list (PixelBuffer T)) (default : T)
  (func : S -> Z -> Z -> list T -> res (S * T)) (s : S) : res (S * PixelBuffer T) :=
  '(s', r) <- try_compose_slice m buffers default
     (fun s x y colors => '(s1, c) <- func s x y colors; Ok (s1, @ROk T unit c)) s;
  match r with ROk b => Ok (s', b) | RErr _ => Panic end.
