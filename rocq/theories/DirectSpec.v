(** What the caller's planes must hold after decoding into them. *)
From Verif Require Import Base PrecinctModel PrecinctSpec MarkerModel OutModel OutSpec StripSpec DirectModel.

(** A sample as it is kept in a plane: within the bounds the caller gives, and
    in a plane of bytes without its low bits. *)
Definition as_stored (d : desc) (w : Z) : Z :=
  let w := Z.max (d_min d) (Z.min w (d_max d)) in if d_16 d then w else w / 2 ^ d_shift d.

(** A descriptor that fits component [c], for an array of [n] samples. *)
Record plane_ok (s : siz) (r c n : Z) (d : desc) : Prop := {
  po_width : d_width d = extent (columns s r c);
  po_height : d_height d = extent (lines s r c);
  po_yr : d_yr d = sub_y s c;
  po_stride : d_width d <= d_stride d;
  po_size : d_height d * d_stride d <= n;
  po_bounds : 0 <= d_min d <= d_max d;
  po_shift : 0 <= d_shift d;
  po_fits : if d_16 d then d_max d <= 65535 else d_max d / 2 ^ d_shift d <= 255 }.

(** Where the plane of component [c] keeps its sample [(u, v)]. *)
Definition place_of (s : siz) (r c : Z) (d : desc) (u v : Z) : Z :=
  (v - fst (lines s r c)) * d_stride d + (u - fst (columns s r c)).
