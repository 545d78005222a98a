(** The buffers a program can get hold of: specification for C01.  One
    constructor per public function that returns or changes a buffer.  The
    type index changes where a mapping changes the colour type. *)
From Coq Require Import ZArith List.
From Verif Require Import Base PixelBuffer BufferSpec Geometry.
Import ListNotations.
Open Scope Z_scope.

Inductive reachable : forall T : Type, PixelBuffer T -> Prop :=
| reach_new T m (d : T) w h b : is_u32 w -> is_u32 h -> new m d w h = Ok b -> reachable T b
| reach_color T m (c : T) w h b : is_u32 w -> is_u32 h -> new_with_color m w h c = Ok b -> reachable T b
| reach_raw T w h (d : list T) b : is_u32 w -> is_u32 h -> new_from_raw w h d = Ok b -> reachable T b
| reach_func T S m w h (f : S -> Z -> Z -> res (S * T)) s s' b : is_u32 w -> is_u32 h ->
    new_from_func m w h f s = Ok (s', b) -> reachable T b
| reach_try_func T S E m w h (f : S -> Z -> Z -> res (S * Result T E)) s s' b : is_u32 w -> is_u32 h ->
    try_new_from_func m w h f s = Ok (s', ROk b) -> reachable T b
| reach_data_mut T b (d : list T) : reachable T b -> length d = length (data b) ->
    reachable T (mkPB (width b) (height b) d) (* arbitrary writes through data_mut() *)
| reach_put T m b x y (c : T) b' : reachable T b -> is_u32 x -> is_u32 y ->
    put_pixel m b x y c = Ok b' -> reachable T b'
| reach_mod T S (f : S -> T -> res (S * T)) s b s' b' : reachable T b ->
    mod_colors f s b = Ok (s', b') -> reachable T b'
| reach_try_mod T S E (f : S -> T -> res (S * Result T E)) s b s' b' r : reachable T b ->
    try_mod_colors f s b = Ok (s', b', r) -> reachable T b'
| reach_mod_enum T (f : Z -> Z -> T -> res T) b b' : reachable T b ->
    mod_colors_enumerated f b = Ok b' -> reachable T b'
| reach_try_mod_enum T E (f : Z -> Z -> T -> res (Result T E)) b b' r : reachable T b ->
    try_mod_colors_enumerated f b = Ok (b', r) -> reachable T b'
| reach_map T R S (f : S -> T -> res (S * R)) s b s' b' : reachable T b ->
    map_colors f s b = Ok (s', b') -> reachable R b'
| reach_try_map T R S E (f : S -> T -> res (S * Result R E)) s b s' b' : reachable T b ->
    try_map_colors f s b = Ok (s', ROk b') -> reachable R b'
| reach_map_enum T (f : Z -> Z -> T -> res T) b b' : reachable T b ->
    map_colors_enumerated f b = Ok b' -> reachable T b'
| reach_try_map_enum T E (f : Z -> Z -> T -> res (Result T E)) b b' : reachable T b ->
    try_map_colors_enumerated f b = Ok (ROk b') -> reachable T b'
| reach_convert T R (f : T -> R) b : reachable T b -> reachable R (convert f b)
| reach_rotate90 T m (d : T) b b' : reachable T b -> rotate90 m d b = Ok b' -> reachable T b'
| reach_rotate180 T m (d : T) b b' : reachable T b -> rotate180 m d b = Ok b' -> reachable T b'
| reach_rotate270 T m (d : T) b b' : reachable T b -> rotate270 m d b = Ok b' -> reachable T b'
| reach_flip_h T m (d : T) b b' : reachable T b -> flip_horizontal m d b = Ok b' -> reachable T b'
| reach_flip_v T m (d : T) b b' : reachable T b -> flip_vertical m d b = Ok b' -> reachable T b'
| reach_crop T m (d : T) b ox oy w h b' : reachable T b ->
    is_u32 ox -> is_u32 oy -> is_u32 w -> is_u32 h ->
    crop m d b ox oy w h = Ok b' -> reachable T b'
| reach_interlace T m (b : PixelBuffer T) o b' : reachable T b -> is_u32 o ->
    interlace m b o = Ok b' -> reachable T b'
| reach_try_compose T S E m (bs : list (PixelBuffer T)) d
    (f : S -> Z -> Z -> list T -> res (S * Result T E)) s s' b :
    (forall b, In b bs -> reachable T b) ->
    try_compose m bs d f s = Ok (s', ROk b) -> reachable T b
| reach_compose T S m (bs : list (PixelBuffer T)) d
    (f : S -> Z -> Z -> list T -> res (S * T)) s s' b :
    (forall b, In b bs -> reachable T b) ->
    compose m bs d f s = Ok (s', b) -> reachable T b.
