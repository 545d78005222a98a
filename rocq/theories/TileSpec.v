(** How far a filter looks (the vocabulary of C125). *)
From Coq Require Import ZArith List.
From Verif Require Import Base PixelBuffer BufferSpec F32 Color Kernel KernelSpec Image.
Import ListNotations.
Open Scope Z_scope.

(** The operations that compute a pixel from the pixels around it; the two
    kinds of kernels are applied to the buffer of the image. *)
Inductive filter :=
| Recolor (f : Rgb -> Rgb)
| FixedKernel (N : Z) (k : list (list f32))
| RunTimeKernel (w h : Z) (k : list f32)
| Blur (radius : Z) (sigma : option f32)
| Unsharp (radius : Z) (factor : f32) (sigma : option f32)
| Edges (mode : edge_mode)
| Despeckle (threshold : f32) (amount : Z)
| Snn (radius : Z) (with_center : bool)
| Draw (radius : Z) (mode : drawing_mode).

Definition filtered (L : libm) (m : build) (f : filter) (i : Image) : res Image :=
  match f with
  | Recolor g => '(_, r) <- image_map_colors (fun (_ : unit) c => Ok (tt, g c)) tt i; Ok r
  | FixedKernel N k => with_meta i (apply_kernel m N k (buffer i))
  | RunTimeKernel w h k => with_meta i (apply_kernel_dyn m (mkKD k w h) (buffer i))
  | Blur r s => image_gaussian_blur L m r s i
  | Unsharp r a s => image_unsharp L m r a s i
  | Edges mode => image_edge_detection m mode i
  | Despeckle t a => image_despeckle m t a i
  | Snn r c => image_symmetric_nearest_neighbor m r c i
  | Draw r mode => image_drawing L m r mode i
  end.

(** Sizes the filters can be called with. *)
Definition usable (f : filter) : Prop :=
  match f with
  | FixedKernel N k => 0 < N <= 65535 /\ square N k
  | RunTimeKernel w h k => 0 < w <= 1073741823 /\ 0 < h <= 1073741823 /\ w * h <= 4294967295 /\ zlen k = w * h
  | Blur r _ | Unsharp r _ _ | Draw r _ => 0 <= r <= 32767
  | Snn r _ => 0 <= r <= 4194302
  | _ => True
  end.

(** How many columns and rows away the farthest pixel is that has a say. *)
Definition reach (f : filter) : Z :=
  match f with
  | Recolor _ => 0
  | FixedKernel N _ => N / 2
  | RunTimeKernel w h _ => Z.max (w / 2) (h / 2)
  | Blur r _ | Unsharp r _ _ | Snn r _ => r
  | Edges _ | Despeckle _ _ => 1
  | Draw r DReducedColors => Z.max 5 r + 6
  | Draw r _ => Z.max 5 r + 3
  end.

(** Several filters one after the other. *)
Fixpoint filtered_all (L : libm) (m : build) (fs : list filter) (i : Image) : res Image :=
  match fs with
  | [] => Ok i
  | f :: fs => j <- filtered L m f i; filtered_all L m fs j
  end.
Definition reach_all (fs : list filter) : Z := fold_right Z.add 0 (map reach fs).

(** The pixel of [b] at [(x, y)] has the same surroundings as the one of [b']
    at [(x', y')], up to [k] columns and rows away: the same pixels, and the
    border of the image in the same places. *)
Definition same_around (m : build) (k : Z) (b : PixelBuffer Rgb) (x y : Z) (b' : PixelBuffer Rgb) (x' y' : Z) : Prop :=
  forall dx dy, Z.abs dx <= k -> Z.abs dy <= k ->
    (inside b (x + dx) (y + dy) <-> inside b' (x' + dx) (y' + dy)) /\
    (inside b (x + dx) (y + dy) -> get_pixel m b (x + dx) (y + dy) = get_pixel m b' (x' + dx) (y' + dy)).

(** A red dot on black, for examples. *)
Definition red_dot (n at_ : Z) : Image :=
  mkImage (mkPB n 1 (map (fun x => if x =? at_ then RGB_RED else RGB_BLACK) (zrange 0 n))) None.
