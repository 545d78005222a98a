(** Model of d10-core/src/pixelbuffer.rs (the part independent of the colour
    type).  Simplifications: [usize] is unbounded, allocation never fails, the
    trait bound [T: Color] is only used for [T::default()], passed as [dflt]. *)
From Coq Require Import ZArith List Bool.
From Verif Require Import Base.
Import ListNotations.
Open Scope Z_scope.

(** pixelbuffer.rs:7 *)
Definition MAX_BUFFER_SIZE : Z := 2147483647 / 2.

(** pixelbuffer.rs:9-17; the product is taken in u64 and cannot overflow. *)
Definition is_valid_buffer_size (width height : Z) : bool :=
  if width =? 0 then height =? 0
  else if height =? 0 then width =? 0
  else width * height <=? MAX_BUFFER_SIZE.

(** pixelbuffer.rs:19-23 *)
Definition validate_size (width height : Z) : res unit :=
  if negb (is_valid_buffer_size width height) then Panic else Ok tt.

(** pixelbuffer.rs:29-33 *)
Record PixelBuffer (T : Type) := mkPB { width : Z; height : Z; data : list T }.
Arguments mkPB {T}.
Arguments width {T}.
Arguments height {T}.
Arguments data {T}.

(** pixelbuffer.rs:46-54; [vec![color; n]] is [repeat]. *)
Definition new_with_color {T} (m : build) (w h : Z) (color : T) : res (PixelBuffer T) :=
  _ <- validate_size w h;
  n <- u32 m (w * h);
  Ok (mkPB w h (repeat color (Z.to_nat n))).

(** pixelbuffer.rs:42-44 *)
Definition new {T} (m : build) (dflt : T) (w h : Z) : res (PixelBuffer T) :=
  new_with_color m w h dflt.

(** pixelbuffer.rs:56-76; [usize::MAX] is that of a 64-bit target, so that the
    first disjunct of the test is always false. *)
Definition new_from_raw {T} (w h : Z) (d : list T) : res (PixelBuffer T) :=
  let required_len := w * h in
  if negb (required_len =? zlen d) then Panic
  else _ <- validate_size w h; Ok (mkPB w h d).

(** pixelbuffer.rs:78-97; [i % width] and [i / width] panic for width 0, which
    cannot happen since the range is empty then. *)
Definition try_new_from_func {S T E} (m : build) (w h : Z)
  (func : S -> Z -> Z -> res (S * Result T E)) (s : S)
  : res (S * Result (PixelBuffer T) E) :=
  _ <- validate_size w h;
  n <- u32 m (w * h);
  '(s', r) <- try_map_st (fun s i => _ <- assert_ (negb (w =? 0)); func s (i mod w) (i / w)) (zrange 0 n) s;
  Ok (s', match r with ROk d => ROk (mkPB w h d) | RErr e => RErr e end).

(** pixelbuffer.rs:99-114 *)
Definition new_from_func {S T} (m : build) (w h : Z)
  (func : S -> Z -> Z -> res (S * T)) (s : S) : res (S * PixelBuffer T) :=
  _ <- validate_size w h;
  n <- u32 m (w * h);
  '(s', d) <- map_st (fun s i => _ <- assert_ (negb (w =? 0)); func s (i mod w) (i / w)) (zrange 0 n) s;
  Ok (s', mkPB w h d).

(** pixelbuffer.rs:99-114 for a closure without state of its own. *)
Definition new_from_fn {T} (m : build) (w h : Z) (func : Z -> Z -> res T)
  : res (PixelBuffer T) :=
  '(_, b) <- new_from_func m w h (fun (_ : unit) x y => c <- func x y; Ok (tt, c)) tt;
  Ok b.

(** pixelbuffer.rs:124-126 *)
Definition is_empty {T} (b : PixelBuffer T) : bool :=
  (width b =? 0) && (height b =? 0).

(** pixelbuffer.rs:136-143; the iterator as the list of its items.  The
    division panics for width 0. *)
Fixpoint enumerate_from {T} (w : Z) (i : Z) (l : list T) : res (list (Z * Z * T)) :=
  match l with
  | [] => Ok []
  | v :: l' =>
      _ <- assert_ (negb (w =? 0));
      r <- enumerate_from w (i + 1) l';
      Ok ((as_u32 i mod w, as_u32 i / w, v) :: r)
  end.
Definition enumerate {T} (b : PixelBuffer T) : res (list (Z * Z * T)) :=
  enumerate_from (width b) 0 (data b).

(** pixelbuffer.rs:154-160: loop over [iter_mut()] replacing each pixel. *)
Definition mod_colors {S T} (func : S -> T -> res (S * T)) (s : S) (b : PixelBuffer T)
  : res (S * PixelBuffer T) :=
  '(s', d) <- map_st func (data b) s;
  Ok (s', mkPB (width b) (height b) d).

(** pixelbuffer.rs:162-173: [?] leaves the loop; pixels already written stay
    written.  Returns the closure state, the buffer after the call and the
    returned Result. *)
Fixpoint try_mod_list {S A T E} (func : S -> A -> res (S * Result T E)) (old : A -> T)
  (s : S) (l : list A) : res (S * list T * Result unit E) :=
  match l with
  | [] => Ok (s, [], ROk tt)
  | p :: l' =>
      '(s1, r) <- func s p;
      match r with
      | RErr e => Ok (s1, map old (p :: l'), RErr e)
      | ROk c =>
          '(s2, l2, r2) <- try_mod_list func old s1 l';
          Ok (s2, c :: l2, r2)
      end
  end.
Definition try_mod_colors {S T E} (func : S -> T -> res (S * Result T E)) (s : S)
  (b : PixelBuffer T) : res (S * PixelBuffer T * Result unit E) :=
  '(s', d, r) <- try_mod_list func (fun p => p) s (data b);
  Ok (s', mkPB (width b) (height b) d, r).

(** pixelbuffer.rs:175-181 (with enumerate_mut, 145-152); an [Fn] closure. *)
Definition mod_colors_enumerated {T} (func : Z -> Z -> T -> res T) (b : PixelBuffer T)
  : res (PixelBuffer T) :=
  items <- enumerate b;
  d <- map_res (fun '(x, y, c) => func x y c) items;
  Ok (mkPB (width b) (height b) d).

(** pixelbuffer.rs:183-194 *)
Definition try_mod_colors_enumerated {T E} (func : Z -> Z -> T -> res (Result T E))
  (b : PixelBuffer T) : res (PixelBuffer T * Result unit E) :=
  items <- enumerate b;
  '(_, d, r) <- try_mod_list (fun (_ : unit) '(x, y, c) => r <- func x y c; Ok (tt, r))
                             (fun '(_, _, c) => c) tt items;
  Ok (mkPB (width b) (height b) d, r).

(** pixelbuffer.rs:196-203 *)
Definition map_colors {S T R} (func : S -> T -> res (S * R)) (s : S) (b : PixelBuffer T)
  : res (S * PixelBuffer R) :=
  '(s', d) <- map_st func (data b) s;
  Ok (s', mkPB (width b) (height b) d).

(** pixelbuffer.rs:205-215 *)
Definition try_map_colors {S T R E} (func : S -> T -> res (S * Result R E)) (s : S)
  (b : PixelBuffer T) : res (S * Result (PixelBuffer R) E) :=
  '(s', r) <- try_map_st func (data b) s;
  Ok (s', match r with ROk d => ROk (mkPB (width b) (height b) d) | RErr e => RErr e end).

(** pixelbuffer.rs:217-224 *)
Definition map_colors_enumerated {T} (func : Z -> Z -> T -> res T) (b : PixelBuffer T)
  : res (PixelBuffer T) :=
  items <- enumerate b;
  d <- map_res (fun '(x, y, c) => func x y c) items;
  Ok (mkPB (width b) (height b) d).

(** pixelbuffer.rs:226-239 *)
Definition try_map_colors_enumerated {T E} (func : Z -> Z -> T -> res (Result T E))
  (b : PixelBuffer T) : res (Result (PixelBuffer T) E) :=
  items <- enumerate b;
  '(_, r) <- try_map_st (fun (_ : unit) '(x, y, c) => r <- func x y c; Ok (tt, r)) items tt;
  Ok (match r with ROk d => ROk (mkPB (width b) (height b) d) | RErr e => RErr e end).

(** pixelbuffer.rs:241-245 *)
Definition get_pixel {T} (m : build) (b : PixelBuffer T) (x y : Z) : res T :=
  _ <- assert_ (x <? width b);
  _ <- assert_ (y <? height b);
  yw <- u32 m (y * width b);
  i <- u32 m (x + yw);
  idx (data b) i.

(** pixelbuffer.rs:247-251 *)
Definition put_pixel {T} (m : build) (b : PixelBuffer T) (x y : Z) (c : T)
  : res (PixelBuffer T) :=
  _ <- assert_ (x <? width b);
  _ <- assert_ (y <? height b);
  yw <- u32 m (y * width b);
  i <- u32 m (x + yw);
  d <- upd (data b) i c;
  Ok (mkPB (width b) (height b) d).

(** pixelbuffer.rs:253-258 *)
Definition get_pixel_clamped {T} (m : build) (b : PixelBuffer T) (x y : Z) : res T :=
  w1 <- u32 m (width b - 1);
  cx <- clamp_int x 0 (as_i32 w1);
  h1 <- u32 m (height b - 1);
  cy <- clamp_int y 0 (as_i32 h1);
  get_pixel m b (as_u32 cx) (as_u32 cy).

(** pixelbuffer.rs:269-271 *)
Definition is_in_image {T} (b : PixelBuffer T) (x y : Z) : bool :=
  (0 <=? x) && (x <? as_i32 (width b)) && (0 <=? y) && (y <? as_i32 (height b)).

(** pixelbuffer.rs:260-266 *)
Definition get_pixel_optional {T} (m : build) (b : PixelBuffer T) (x y : Z)
  : res (option T) :=
  if is_in_image b x y then
    yw <- u32 m (as_u32 y * width b);
    i <- u32 m (as_u32 x + yw);
    c <- idx (data b) i;
    Ok (Some c)
  else Ok None.

(** pixelbuffer.rs:273-298; [N as i32] truncates.  A row is overwritten
    completely in both branches, so the initial default colours never show. *)
Definition get_kernel {T} (m : build) (b : PixelBuffer T) (N : Z) (x y : Z)
  : res (list (list T)) :=
  let offset := Z.quot (as_i32 N) 2 in
  start_x <- i32 m (x - offset);
  start_y <- i32 m (y - offset);
  fast <- (if is_in_image b start_x start_y then
             ex <- i32 m (x + offset);
             ey <- i32 m (y + offset);
             Ok (is_in_image b ex ey)
           else Ok false);
  if fast then
    map_res (fun ty =>
      let start := width b * (ty + start_y) + start_x in
      slice (data b) start (start + N)) (zrange 0 N)
  else
    map_res (fun ty =>
      map_res (fun tx =>
        a <- i32 m (as_i32 tx + x);
        px <- i32 m (a - offset);
        c <- i32 m (as_i32 ty + y);
        py <- i32 m (c - offset);
        get_pixel_clamped m b px py) (zrange 0 N)) (zrange 0 N).

(** pixelbuffer.rs:300-326; the Rust text repeats get_kernel with a run-time
    size. *)
Definition get_kernel_dyn {T} (m : build) (b : PixelBuffer T) (x y : Z) (size : Z)
  : res (list (list T)) :=
  let offset := Z.quot (as_i32 size) 2 in
  start_x <- i32 m (x - offset);
  start_y <- i32 m (y - offset);
  fast <- (if is_in_image b start_x start_y then
             ex <- i32 m (x + offset);
             ey <- i32 m (y + offset);
             Ok (is_in_image b ex ey)
           else Ok false);
  if fast then
    map_res (fun ty =>
      let start := width b * (ty + start_y) + start_x in
      slice (data b) start (start + size)) (zrange 0 size)
  else
    map_res (fun ty =>
      map_res (fun tx =>
        a <- i32 m (as_i32 tx + x);
        px <- i32 m (a - offset);
        c <- i32 m (as_i32 ty + y);
        py <- i32 m (c - offset);
        get_pixel_clamped m b px py) (zrange 0 size)) (zrange 0 size).

(** pixelbuffer.rs:332-394: the buffer conversions [to_rgb], [to_hsl], ... all
    map one conversion over the data; the iterator adaptors of
    color/iter.rs apply it item by item. *)
Definition convert {T R} (f : T -> R) (b : PixelBuffer T) : PixelBuffer R :=
  mkPB (width b) (height b) (map f (data b)).
