(** Debug and release builds (the vocabulary of C129). *)
From Coq Require Import ZArith Reals List String.
From Verif Require Import Base PixelBuffer BufferSpec F32 Color Resample Ops Codec Image Commands PySpec PyImage.
From Flocq Require Import IEEE754.BinarySingleNaN.
Import ListNotations.
Open Scope Z_scope.

(** The same libraries and random numbers in another build. *)
Definition built {R} (m : build) (e : env R) : env R := mkEnv R (e_libm e) m (e_rng e) (e_enc e) (e_dec e).
(** What the debug build gives without panicking, the release build gives. *)
Definition release_follows {A} (r : build -> res A) : Prop := forall v, r Checked = Ok v -> r Wrapping = Ok v.

(** An image with pixels, up to 16384 in each direction. *)
Definition ordinary (i : Image) : Prop :=
  valid (buffer i) /\ 1 <= width (buffer i) <= 16384 /\ 1 <= height (buffer i) <= 16384.
(** A call asking for nothing out of proportion: a part of the image is cut
    out that has pixels, sizes are at most 16384 (up to 100 percent), radii at
    most 32767, shifts less than 2^30; other images are ordinary.  Unknown names
    and integers that do not fit are allowed. *)
Definition usual_call (i : Image) (c : py_call) : Prop :=
  match c with
  | CallCrop x y w h => x < width (buffer i) /\ y < height (buffer i) /\ w <> 0 /\ h <> 0
  | CallResize w h _ => 1 <= w <= 16384 /\ 1 <= h <= 16384
  | CallResizePct p _ => is_finite p = true /\ (0 <= B2R p <= 100)%R
  | CallGaussianBlur r _ | CallUnsharp r _ _ | CallDrawing r _ | CallSymmetricNearestNeighbor (Some r) _ => r <= 32767
  | CallInterlace o => o < 1073741824
  | CallBlend other _ _ => ordinary other
  | _ => True
  end.
Section Calls.
Context (E : encoders) (D : decoders) (L : libm).
(** Calls in a row, up to the first exception. *)
Fixpoint all_calls (m : build) (i : Image) (cs : list py_call) : py Image :=
  match cs with
  | [] => Ok (ROk i)
  | c :: cs => r <- py_run m E D L i c; match r with ROk i => all_calls m i cs | RErr x => Ok (RErr x) end
  end.
(** Each of them a usual one for the image it is made on. *)
Fixpoint usual_calls (i : Image) (cs : list py_call) : Prop :=
  match cs with
  | [] => True
  | c :: cs => usual_call i c /\ forall i', py_run Checked E D L i c = Ok (ROk i') -> usual_calls i' cs
  end.
End Calls.
