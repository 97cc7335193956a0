(** Vocabulary for stating the precinct-index and view-window properties,
    independent of the code: exact integer geometry of ITU-T T.800 annex B. *)
From Verif Require Import Base PrecinctModel.

(** Ceiling division on unbounded integers. *)
Definition ceil_div (a b : Z) : Z := - ((- a) / b).

(** The half-open interval of the canvas covered by tile number [i] along one
    axis. *)
Definition tile_span (size origin tsize torigin i : Z) : Z * Z :=
  (Z.max (torigin + i * tsize) origin, Z.min (torigin + (i + 1) * tsize) size).

(** The samples of a component subsampled by [sub] that lie on an interval. *)
Definition comp_span (sub : Z) (ab : Z * Z) : Z * Z :=
  (ceil_div (fst ab) sub, ceil_div (snd ab) sub).

(** That interval after dropping [k] decomposition levels. *)
Definition res_span (k : Z) (ab : Z * Z) : Z * Z :=
  (ceil_div (fst ab) (2 ^ k), ceil_div (snd ab) (2 ^ k)).

(** Legal SIZ parameters along one axis (T.800 B.2/B.3), with sizes of at most
    2^31 so that rounding up fits in 32 bits. *)
Record axis_legal (size origin tsize torigin : Z) : Prop := {
  al_origin : 0 <= torigin <= origin;
  al_size : origin < size <= 2 ^ 31;
  al_tile : 1 <= tsize <= 2 ^ 31;
  al_first : origin < torigin + tsize }.

Definition comp_legal (c : comp) : Prop :=
  1 <= fst (c_sub c) <= 255 /\ 1 <= snd (c_sub c) <= 255 /\
  0 <= c_NL c <= 31 /\
  zlen (c_pp c) = c_NL c + 1 /\
  Forall (fun p => 0 <= fst p <= 15 /\ 0 <= snd p <= 15) (c_pp c).

(** Number of tiles along an axis. *)
Definition tiles (size torigin tsize : Z) : Z := ceil_div (size - torigin) tsize.
Definition tiles_x (h : header) : Z :=
  tiles (fst (h_size h)) (fst (h_torigin h)) (fst (h_tsize h)).
Definition tiles_y (h : header) : Z :=
  tiles (snd (h_size h)) (snd (h_torigin h)) (snd (h_tsize h)).

Record legal (h : header) : Prop := {
  lg_x : axis_legal (fst (h_size h)) (fst (h_origin h)) (fst (h_tsize h)) (fst (h_torigin h));
  lg_y : axis_legal (snd (h_size h)) (snd (h_origin h)) (snd (h_tsize h)) (snd (h_torigin h));
  lg_comps : Forall comp_legal (h_comps h);
  lg_ncomps : 1 <= zlen (h_comps h) <= 16384;
  lg_tiles : tiles_x h * tiles_y h <= 65535 }.

(** The interval of resolution [r] of component [c] in tile column [tx], and
    in tile row [ty]. *)
Definition x_span (h : header) (c : comp) (tx r : Z) : Z * Z :=
  res_span (c_NL c - r) (comp_span (fst (c_sub c))
    (tile_span (fst (h_size h)) (fst (h_origin h)) (fst (h_tsize h)) (fst (h_torigin h)) tx)).
Definition y_span (h : header) (c : comp) (ty r : Z) : Z * Z :=
  res_span (c_NL c - r) (comp_span (snd (c_sub c))
    (tile_span (snd (h_size h)) (snd (h_origin h)) (snd (h_tsize h)) (snd (h_torigin h)) ty)).

(** Log2 of the precinct size of component [c] at resolution [r]. *)
Definition ppx (c : comp) (r : Z) : Z := fst (nth (Z.to_nat r) (c_pp c) (0, 0)).
Definition ppy (c : comp) (r : Z) : Z := snd (nth (Z.to_nat r) (c_pp c) (0, 0)).

(** Precinct column [q] of the interval [ab] holds the position [n]: the
    partition cells have size 2^pp, are anchored at 0, and are numbered from
    the first that meets the interval. *)
Definition in_cell (ab : Z * Z) (pp q n : Z) : Prop :=
  fst ab <= n < snd ab /\ n / 2 ^ pp = fst ab / 2 ^ pp + q.

(** How many partition cells of size 2^pp meet the interval. *)
Definition cells (ab : Z * Z) (pp : Z) : Z :=
  if fst ab <? snd ab then ceil_div (snd ab) (2 ^ pp) - fst ab / 2 ^ pp else 0.

(** The precincts of resolution [r] of component number [c] in tile (tx,ty). *)
Definition n_precincts (h : header) (c : comp) (tx ty r : Z) : Z :=
  cells (x_span h c tx r) (ppx c r) * cells (y_span h c ty r) (ppy c r).

(** A key that names an existing precinct of the codestream. *)
Definition names_precinct (h : header) (k : key) : Prop :=
  exists tx ty c,
    0 <= tx < tiles_x h /\ 0 <= ty < tiles_y h /\
    k_t k = ty * tiles_x h + tx /\
    0 <= k_c k /\ nth_error (h_comps h) (Z.to_nat (k_c k)) = Some c /\
    0 <= k_r k <= c_NL c /\
    0 <= k_p k < n_precincts h c tx ty (k_r k).

Definition sumf {A} (f : A -> Z) (l : list A) : Z :=
  fold_right (fun a s => f a + s) 0 l.

(** Every tile-component has fewer than 2^32 precincts. *)
Definition countable (h : header) : Prop :=
  forall tx ty c, 0 <= tx < tiles_x h -> 0 <= ty < tiles_y h ->
    In c (h_comps h) ->
    sumf (n_precincts h c tx ty) (zseq (c_NL c + 1)) < 2 ^ 32.
