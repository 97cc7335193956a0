(** Subbands, precincts and code-blocks of a tile-component as ITU-T T.800
    B.5-B.7 defines them, on unbounded integers. *)
From Verif Require Import Base PrecinctModel PrecinctSpec GeoModel.

(** One resolution of a tile-component along one axis: the interval of the
    tile-component, the number of levels, the resolution, whether the subband
    is the high one (1) or the low one (0) of this axis, and the base-2
    logarithms of precinct size and code-block size. *)
Record axis_geo := {
  a_span : Z * Z; a_NL : Z; a_r : Z; a_ob : Z; a_pp : Z; a_cb : Z }.

(** The interval of the subband, equation B-15; resolution 0 has the LL band
    of NL levels. *)
Definition band_span (a : axis_geo) : Z * Z :=
  if a_r a =? 0 then res_span (a_NL a) (a_span a)
  else
    let nb := a_NL a - a_r a + 1 in
    (ceil_div (fst (a_span a) - 2 ^ (nb - 1) * a_ob a) (2 ^ nb),
     ceil_div (snd (a_span a) - 2 ^ (nb - 1) * a_ob a) (2 ^ nb)).
Definition in_band (a : axis_geo) (u : Z) : Prop := fst (band_span a) <= u < snd (band_span a).

(** The interval of the resolution, equation B-14. *)
Definition level_span (a : axis_geo) : Z * Z := res_span (a_NL a - a_r a) (a_span a).

(** Base-2 logarithm of the precinct size in the subband (B.6: halved except
    at resolution 0), and of the code-block size (B.7, equations B-17, B-18). *)
Definition band_pp (a : axis_geo) : Z := if a_r a =? 0 then a_pp a else a_pp a - 1.
Definition block_log (a : axis_geo) : Z := Z.min (a_cb a) (band_pp a).

(** The number, along this axis, of the precinct the coefficient belongs to,
    counted from the first precinct of the resolution; and its code-block
    column. *)
Definition precinct_of (a : axis_geo) (u : Z) : Z := u / 2 ^ band_pp a - fst (level_span a) / 2 ^ a_pp a.
Definition block_of (a : axis_geo) (u : Z) : Z := u / 2 ^ block_log a.

(** What the headers promise (A.5, A.6): at most 31 levels, precinct sizes up
    to 2^15 and at least 2 above resolution 0; positions up to 2^31. *)
Record axis_ok (a : axis_geo) : Prop := {
  ok_span : 0 <= fst (a_span a) <= snd (a_span a) /\ snd (a_span a) <= 2 ^ 31;
  ok_r : 0 <= a_r a <= a_NL a /\ a_NL a <= 31;
  ok_ob : a_ob a = 0 \/ a_ob a = 1;
  ok_pp : 0 <= a_pp a <= 15 /\ (0 < a_r a -> 1 <= a_pp a);
  ok_cb : 0 <= a_cb a <= 15 }.

(** The number of precincts along the axis. *)
Definition precincts (a : axis_geo) : Z := cells (level_span a) (a_pp a).

(** A coefficient lies in a region. *)
Definition inside (g : region) (u v : Z) : Prop := x0 g <= u < x1 g /\ y0 g <= v < y1 g.

(** A list of code-blocks is in raster order. *)
Definition raster (l : list cblk) : Prop :=
  forall i j a b, (i < j)%nat -> nth_error l i = Some a -> nth_error l j = Some b ->
    y0 (cb_pos a) < y0 (cb_pos b) \/ y0 (cb_pos a) = y0 (cb_pos b) /\ x0 (cb_pos a) < x0 (cb_pos b).

(** The two axes of subband [b] of one resolution. *)
Definition x_axis (NL r b : Z) (g : region) (lx cx : Z) : axis_geo :=
  {| a_span := (x0 g, x1 g); a_NL := NL; a_r := r; a_ob := b mod 2; a_pp := lx; a_cb := cx |}.
Definition y_axis (NL r b : Z) (g : region) (ly cy : Z) : axis_geo :=
  {| a_span := (y0 g, y1 g); a_NL := NL; a_r := r; a_ob := b / 2; a_pp := ly; a_cb := cy |}.
(** LL exists at resolution 0, HL, LH and HH above. *)
Definition band_exists (r b : Z) : Prop := r = 0 /\ b = 0 \/ 0 < r /\ 1 <= b <= 3.
