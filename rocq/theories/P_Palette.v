(** Property theorems, generated from PaletteThm.v by tools/mkp.py. *)

From Coq Require Import Reals ZArith List.
From Flocq Require Import IEEE754.BinarySingleNaN.
From Verif Require Import Base PixelBuffer BufferSpec F32 Color ColorSpec Ops MeaningSpec ConvSpec IdealPowf IdealLibm PaletteSpec.
Import ListNotations.
Open Scope R_scope.

From Verif Require Import PaletteThm.


(** C120: each pixel becomes a colour of the palette, to 2^-12 per channel and
    with its alpha, and no other colour of the palette is nearer to the pixel by
    more than 1/2000 in Lab. *)

Theorem C120_palette_nearest : forall L b palette r m x y, accurate_powf L -> accurate_powf_above L -> valid b -> inside b x y -> data palette <> [] ->
  (forall q, In q (data palette) -> in_gamut q) -> (forall c, In c (data b) -> in_gamut c) -> apply_palette L KRgb b palette = Ok r ->
  exists c q c', get_pixel m b x y = Ok c /\ get_pixel m r x y = Ok c' /\ In q (data palette) /\ channelwise (/ 2 ^ 12) (fun v => v) q c' /\
    forall q', In q' (data palette) -> lab_dist c q <= lab_dist c q' + / 2000.
Proof. exact palette_nearest. Qed.
Print Assumptions C120_palette_nearest.


(** C120: a second time changes nothing, if different colours of the palette
    are more than 1/20 apart. *)

Theorem C120_palette_twice : forall L b palette r, accurate_powf L -> accurate_powf_above L -> valid b -> data palette <> [] ->
  (forall q, In q (data palette) -> in_gamut q) -> (forall c, In c (data b) -> in_gamut c) -> separated (data palette) ->
  apply_palette L KRgb b palette = Ok r -> apply_palette L KRgb r palette = Ok r.
Proof. exact palette_twice. Qed.
Print Assumptions C120_palette_twice.


(** C120: the nearest colour of the CIE of 1976 is not what is picked: black
    becomes a dark blue although a dark grey is nearer. *)

Theorem C120_palette_cie76_refuted : forall L, accurate_powf L -> accurate_powf_above L ->
  exists c', apply_palette L KRgb (one_pixel black) two_colours = Ok (one_pixel c') /\ channelwise (/ 2 ^ 12) (fun v => v) dark_blue c' /\
    In dark_grey (data two_colours) /\ cie76 black dark_grey < cie76 black dark_blue.
Proof. exact palette_cie76_refuted. Qed.
Print Assumptions C120_palette_cie76_refuted.


(** The example meets the hypotheses of all three theorems. *)

Example C120_two_colours_ready : forall L, accurate_powf (full_libm L) /\ accurate_powf_above (full_libm L) /\ valid (one_pixel black) /\ data two_colours <> [] /\
  (forall q, In q (data two_colours) -> in_gamut q) /\ (forall c, In c (data (one_pixel black)) -> in_gamut c) /\ separated (data two_colours).
Proof. exact two_colours_ready. Qed.
