(** What an image is made of, as ITU-T T.800 B.2-B.5 define it, on unbounded
    integers. *)
From Verif Require Import Base PrecinctModel PrecinctSpec MarkerModel OutModel.

(** Subsampling factors XRsiz, YRsiz of a component. *)
Definition sub_x (s : siz) (c : Z) : Z := let '(_, xr, _) := znth (0, 0, 0) (Comps s) c in xr.
Definition sub_y (s : siz) (c : Z) : Z := let '(_, _, yr) := znth (0, 0, 0) (Comps s) c in yr.

(** Numbers of tiles, equation B-5. *)
Definition cols_of_tiles (s : siz) : Z := tiles (Xsiz s) (XTOsiz s) (XTsiz s).
Definition rows_of_tiles (s : siz) : Z := tiles (Ysiz s) (YTOsiz s) (YTsiz s).

(** A legal SIZ segment, with positions up to 2^31 (see [axis_legal]). *)
Record image_legal (s : siz) : Prop := {
  il_x : axis_legal (Xsiz s) (XOsiz s) (XTsiz s) (XTOsiz s);
  il_y : axis_legal (Ysiz s) (YOsiz s) (YTsiz s) (YTOsiz s);
  il_n : Csiz s = zlen (Comps s) /\ 1 <= Csiz s;
  il_sub : forall c, 0 <= c < Csiz s -> 1 <= sub_x s c <= 255 /\ 1 <= sub_y s c <= 255;
  il_tiles : cols_of_tiles s * rows_of_tiles s <= 65535 }.

(** Columns and rows of component [c] when the [r] finest levels are dropped:
    of the whole image, and of one tile (equations B-2, B-12, B-14). *)
Definition columns (s : siz) (r c : Z) : Z * Z := res_span r (comp_span (sub_x s c) (XOsiz s, Xsiz s)).
Definition lines (s : siz) (r c : Z) : Z * Z := res_span r (comp_span (sub_y s c) (YOsiz s, Ysiz s)).
Definition tile_columns (s : siz) (r c p : Z) : Z * Z :=
  res_span r (comp_span (sub_x s c) (tile_span (Xsiz s) (XOsiz s) (XTsiz s) (XTOsiz s) p)).
Definition tile_lines (s : siz) (r c q : Z) : Z * Z :=
  res_span r (comp_span (sub_y s c) (tile_span (Ysiz s) (YOsiz s) (YTsiz s) (YTOsiz s) q)).
Definition within (ab : Z * Z) (u : Z) : Prop := fst ab <= u < snd ab.

(** The value a sample of a component must have, given what each tile decodes
    to: taken from the tile it lies in, at its place in that tile, after the
    colour transform if that tile uses it. *)
Definition decoded (raw : Z -> Z -> Z -> Z -> Z) (fin : Z -> Z -> Z) (mix : Z -> Z -> Z -> Z -> Z)
    (s : siz) (r : Z) (tiles : Z -> tile_in) (c u v w : Z) : Prop :=
  exists p q, 0 <= p < cols_of_tiles s /\ 0 <= q < rows_of_tiles s /\
    within (tile_columns s r c p) u /\ within (tile_lines s r c q) v /\
    let t := p + q * cols_of_tiles s in
    let n := u - fst (tile_columns s r c p) in
    let k := v - fst (tile_lines s r c q) in
    w = if t_mct (tiles t) && (3 <=? Csiz s) && (c <? 3)
        then mix c (raw t 0 k n) (raw t 1 k n) (raw t 2 k n)
        else fin c (raw t c k n).

(** What tiles must satisfy: each component has at least [r] levels, and the
    colour transform joins components of the same sampling (T.800 G.1). *)
Definition tile_fits (s : siz) (r : Z) (t : tile_in) : Prop :=
  zlen (t_NL t) = Csiz s /\ Forall (fun n => r <= n <= 32) (t_NL t) /\
  (t_mct t = true -> 3 <= Csiz s -> forall c, 1 <= c <= 2 -> sub_x s c = sub_x s 0 /\ sub_y s c = sub_y s 0).

(** The number of levels of a component as the main header gives it (A.6.1,
    A.6.2): from its COC segment if there is one, else from COD. *)
Definition levels_for (nl : Z) (cocs : list coc) (c n : Z) : Prop :=
  (exists k b, In k cocs /\ Ccoc k = c /\ nth_error (SPcoc k) 0 = Some b /\ n = b &b 31) \/
  ((forall k, In k cocs -> Ccoc k <> c) /\ n = nl).
