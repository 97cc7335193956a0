(** Which row of a component goes with which call of the callback. *)
From Verif Require Import Base PrecinctModel PrecinctSpec MarkerModel OutModel OutSpec.

(** Rows of component 0 per row of component [c]. *)
Definition ratio (s : siz) (c : Z) : Z := sub_y s c / sub_y s 0.
Definition extent (ab : Z * Z) : Z := snd ab - fst ab.

(** Row [v] of component [c] goes with row [y] of component 0, counted from
    the top of the image: both lie in the same row of tiles, and [v] is the
    [ratio]-th part of [y] counted from the top of the tiles, or their last
    row. *)
Definition goes_with (s : siz) (r c y v : Z) : Prop :=
  exists q, 0 <= q < rows_of_tiles s /\
    within (tile_lines s r 0 q) (fst (lines s r 0) + y) /\ within (tile_lines s r c q) v /\
    v = fst (tile_lines s r c q) +
        Z.min ((fst (lines s r 0) + y - fst (tile_lines s r 0 q)) / ratio s c) (extent (tile_lines s r c q) - 1).

(** A tile as it is decoded when the caller may ask for the colour transform
    to be left out. *)
Definition as_decoded (skip : bool) (t : tile_in) : tile_in := {| t_mct := t_mct t && negb skip; t_NL := t_NL t |}.

(** Samplings the row driver is made for: the first component is not
    subsampled vertically and of two factors the smaller divides the larger,
    or there are three components, all under the colour transform. *)
Definition sampling_ok (s : siz) (tiles : Z -> tile_in) : Prop :=
  (sub_y s 0 = 1 /\ forall c c', 0 <= c < Csiz s -> 0 <= c' < Csiz s -> sub_y s c <= sub_y s c' -> (sub_y s c | sub_y s c')) \/
  (Csiz s = 3 /\ forall i, t_mct (tiles i) = true).
