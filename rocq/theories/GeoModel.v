(** Model of how a tile-component is cut into subbands, precincts and
    code-blocks: source/core/coding/coding_units.cpp, and of where the encoder
    takes the samples of a tile-component from.

    Simplifications.  The DFS marker of part 2 is absent ([dfs_info ==
    nullptr]).  Only positions and buffer offsets are kept: tag trees, layer
    tables and quantisation parameters of the same constructors are left out.
    Allocation failure is left out.  Coordinates are uint32_t and wrap. *)
From Verif Require Import Base PrecinctModel.

(** [j2k_region], coding_units.hpp:99-123. *)
Record region := Reg { x0 : Z; y0 : Z; x1 : Z; y1 : Z }.

(** uint32_t subtraction. *)
Definition sub32 (a b : Z) : Z := wrap32 (a - b).

(** [round_up(pos1.x - pos0.x, 32U)], utils.hpp:35 and coding_units.hpp:122. *)
Definition stride (g : region) : Z := wrap32 (sub32 (x1 g) (x0 g) + 31) / 32 * 32.

(** The horizontal and vertical part of an orientation: xob and yob,
    coding_units.cpp:2552-2553, 2399-2400.  0 is LL, 1 HL, 2 LH, 3 HH. *)
Definition xob (b : Z) : Z := b mod 2.
Definition yob (b : Z) : Z := b / 2.

(** Position of a resolution, coding_units.cpp:3741-3752. *)
Definition res_region (NL r : Z) (g : region) : ex region :=
  let? d := shl1 (NL - r) in
  let? a := cdiv (x0 g) d in
  let? b := cdiv (y0 g) d in
  let? c := cdiv (x1 g) d in
  let? e := cdiv (y1 g) d in
  ret (Reg a b c e).

(** One coordinate of a subband other than LL, coding_units.cpp:2606-2611. *)
Definition band_pos (p nb ob : Z) : ex Z :=
  let? h := shl1 (nb - 1) in
  let? d := shl1 nb in
  cdiv (sub32 p (wrap32 (h * ob))) d.

(** Position of subband [b] of resolution [r], coding_units.cpp:2573-2612.
    [nb] (2573-2580) is NL for resolution 0, otherwise NL - r + 1. *)
Definition band_region (NL r b : Z) (g res : region) : ex region :=
  if b =? 0 then ret res
  else
    let nb := if r =? 0 then NL else NL - r + 1 in
    let? a := band_pos (x0 g) nb (xob b) in
    let? c := band_pos (y0 g) nb (yob b) in
    let? e := band_pos (x1 g) nb (xob b) in
    let? f := band_pos (y1 g) nb (yob b) in
    ret (Reg a c e f).

(** Number of precincts, coding_units.cpp:3754-3757. *)
Definition precincts_along (p0 p1 PP : Z) : ex Z :=
  let? hi := cdiv p1 PP in
  let? lo := udiv p0 PP in
  ret (if p0 <? p1 then wrap32 (hi - lo) else 0).

(** Position of precinct [i], coding_units.cpp:2664-2688. *)
Definition precinct_region (res : region) (PPx PPy npw i : Z) : ex region :=
  let? offx := udiv (x0 res) PPx in
  let? offy := udiv (y0 res) PPy in
  if npw =? 0 then UB else
  let x := i mod npw in
  let y := i / npw in
  ret (Reg (Z.max (x0 res) (wrap32 (PPx * wrap32 (x + offx))))
           (Z.max (y0 res) (wrap32 (PPy * wrap32 (y + offy))))
           (Z.min (x1 res) (wrap32 (PPx * wrap32 (x + 1 + offx))))
           (Z.min (y1 res) (wrap32 (PPy * wrap32 (y + 1 + offy))))).

(** The part of subband [b] in a precinct, coding_units.cpp:2401-2411. *)
Definition pband_region (b : Z) (p : region) : ex region :=
  let sr := if b =? 0 then 1 else 2 in
  let? a := cdiv (sub32 (x0 p) (xob b)) sr in
  let? c := cdiv (sub32 (y0 p) (yob b)) sr in
  let? e := cdiv (sub32 (x1 p) (xob b)) sr in
  let? f := cdiv (sub32 (y1 p) (yob b)) sr in
  ret (Reg a c e f).

(** [j2k_codeblock]: its region and [band_buf] as an offset from the start of
    the subband's samples. *)
Record cblk := Cb { cb_pos : region; cb_off : Z }.

(** Number of code-blocks along an axis, coding_units.cpp:1604-1615. *)
Definition blocks_along (p0 p1 cb : Z) : ex Z :=
  if p0 <? p1 then
    let? hi := cdiv p1 cb in
    let? lo := udiv p0 cb in
    ret (wrap32 (hi - lo))
  else ret 0.

(** Code-block [k], coding_units.cpp:1632-1644; [band] gives bp0 and the
    stride. *)
Definition code_block (band pb : region) (cbx cby nx k : Z) : ex cblk :=
  if nx =? 0 then UB else
  let x := k mod nx in
  let y := k / nx in
  let? ox := udiv (x0 pb) cbx in
  let? oy := udiv (y0 pb) cby in
  let p := Reg (Z.max (x0 pb) (wrap32 (cbx * wrap32 (x + ox))))
               (Z.max (y0 pb) (wrap32 (cby * wrap32 (y + oy))))
               (Z.min (x1 pb) (wrap32 (cbx * wrap32 (x + 1 + ox))))
               (Z.min (y1 pb) (wrap32 (cby * wrap32 (y + 1 + oy)))) in
  ret (Cb p (wrap32 (sub32 (x0 p) (x0 band) + wrap32 (sub32 (y0 p) (y0 band) * stride band)))).

(** [j2k_precinct_subband], coding_units.cpp:1597-1653. *)
Definition code_blocks (band pb : region) (cbx cby : Z) : ex (list cblk) :=
  let? nx := blocks_along (x0 pb) (x1 pb) cbx in
  let? ny := blocks_along (y0 pb) (y1 pb) cby in
  mapM (code_block band pb cbx cby nx) (zseq (wrap32 (nx * ny))).

(** Subband [b] of resolution [r] with its code-blocks, precinct by precinct:
    create_resolutions, create_subbands, create_precincts and j2k_precinct
    (coding_units.cpp:3739-3790, 2542-2660, 2662-2694, 2381-2420) for one
    subband.  [lx], [ly] are the base-2 logarithms of the precinct size, [cbx]
    and [cby] the code-block size. *)
Definition create_band (NL r b : Z) (g : region) (lx ly cbx cby : Z) : ex (region * list (list cblk)) :=
  let? res := res_region NL r g in
  let? PPx := shl1 lx in
  let? PPy := shl1 ly in
  let? npw := precincts_along (x0 res) (x1 res) PPx in
  let? nph := precincts_along (y0 res) (y1 res) PPy in
  let? band := band_region NL r b g res in
  let n := wrap32 (npw * nph) in
  if n =? 0 then ret (band, []) else
  let? l := mapM (fun i =>
      let? p := precinct_region res PPx PPy npw i in
      let? pb := pband_region b p in
      code_blocks band pb cbx cby) (zseq n) in
  ret (band, l).

(** Number of floats allocated for a subband from its first sample on,
    coding_units.cpp:2459-2461 (one spare row and DWT_RIGHT_SLACK = 32;
    the same for LL, 2512-2514). *)
Definition band_samples (band : region) : Z := stride band * (y1 band - y0 band + 1) + 32.

(** [get_component_stride], j2kmarkers.cpp:191-197. *)
Definition component_stride (xsiz xosiz xr : Z) : ex Z :=
  let? q := udiv xsiz xr in ret (sub32 q xosiz).

(** The rows of a tile-component as the encoder copies them from the caller's
    array of component samples, coding_units.cpp:3591-3616: for row [i], the
    index of its first sample, and the number of samples.  Pointer arithmetic
    is on 64 bits, the sum of the uint32_t terms on 32. *)
Definition row_source (xsiz xosiz yosiz xr : Z) (g : region) (i : Z) : ex (Z * Z) :=
  let? s := component_stride xsiz xosiz xr in
  ret (wrap32 (sub32 (y0 g) yosiz * s) + x0 g - xosiz + i * s, sub32 (x1 g) (x0 g)).
