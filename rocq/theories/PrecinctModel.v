(** Model of the JPIP precinct index: source/core/jpip/precinct_index.cpp and
    the identifier inverse in source/core/jpip/codestream_assembler.cpp.

    Simplifications.  The main header is taken already parsed (record
    [header]); the marker readers are not part of this file.  C++ keeps the
    per-resolution numbers of a tile-component in parallel vectors of length
    NL+1; here they are one list of records.  Exceptions are [Ret None] (Base.v). *)
From Verif Require Import Base.

Fixpoint mapM {A B} (f : A -> ex B) (l : list A) : ex (list B) :=
  match l with
  | [] => ret []
  | a :: r => let? b := f a in let? bs := mapM f r in ret (b :: bs)
  end.

(** [1u << n] (undefined from 32 on). *)
Definition shl1 (n : Z) : ex Z :=
  if (0 <=? n) && (n <? 32) then ret (2 ^ n) else UB.

(** [ceil_int] source/core/common/utils.hpp:38 and [ceil_div_u]
    source/core/jpip/view_window.cpp:15, both on uint32_t: the sum wraps, a
    zero divisor is undefined. *)
Definition cdiv (a b : Z) : ex Z :=
  if b =? 0 then UB else ret (wrap32 (a + (b - 1)) / b).

(** Plain uint32_t division. *)
Definition udiv (a b : Z) : ex Z := if b =? 0 then UB else ret (a / b).

(** What the index reads from the parsed SIZ, COD and COC of one component:
    XRsiz/YRsiz, the number of decomposition levels, the (log2) precinct sizes
    of resolutions 0.. (precinct_index.cpp:38-47, 69-74). *)
Record comp := { c_sub : Z * Z; c_NL : Z; c_pp : list (Z * Z) }.

(** The parsed main header (precinct_index.cpp:120-147): Xsiz/Ysiz,
    XOsiz/YOsiz, XTsiz/YTsiz, XTOsiz/YTOsiz, the components, the COD
    transformation flag. *)
Record header := {
  h_size : Z * Z; h_origin : Z * Z; h_tsize : Z * Z; h_torigin : Z * Z;
  h_comps : list comp; h_irreversible : bool }.

(** One resolution of [TileComponentInfo], precinct_index.hpp:51-76. *)
Record resinfo := {
  npw : Z; nph : Z; s_offset : Z; log2PPx : Z; log2PPy : Z;
  respos0_x : Z; respos0_y : Z }.

(** [TileComponentInfo], precinct_index.hpp:51-76 ([tc_pos0]/[tc_pos1], which
    nothing modelled reads, left out). *)
Record tcinfo := { NL : Z; rows : list resinfo; total : Z }.

(** [CodestreamIndex], precinct_index.hpp:84-150 (private members). *)
Record index := {
  num_tiles_x : Z; num_tiles_y : Z; hdr : header; tcs : list tcinfo }.

(** precinct_index.hpp:101, a uint32_t product. *)
Definition num_tiles (x : index) : Z := wrap32 (num_tiles_x x * num_tiles_y x).
Definition num_components (x : index) : Z := zlen (h_comps (hdr x)).

(** [get_precinct_size], source/core/codestream/j2kmarkers.cpp:473-489: a
    resolution the marker carries no byte for throws. *)
Definition precinct_size (c : comp) (r : Z) : ex (Z * Z) :=
  match nth_error (c_pp c) (Z.to_nat r) with
  | Some p => ret p
  | None => throw
  end.

(** One axis of the loop body, precinct_index.cpp:62-79:
    (respos0, number of precincts). *)
Definition axis (tc0 tc1 scale log2PP : Z) : ex (Z * Z) :=
  let? p0 := cdiv tc0 scale in
  let? p1 := cdiv tc1 scale in
  let? PP := shl1 log2PP in
  let? hi := cdiv p1 PP in
  let? lo := udiv p0 PP in
  ret (p0, if p0 <? p1 then wrap32 (hi - lo) else 0).

(** The loop of [build_tile_component], precinct_index.cpp:60-89, over the
    resolutions [rs], with [cum] the running uint32_t sum. *)
Fixpoint resolutions (c : comp) (x0 y0 x1 y1 : Z) (rs : list Z) (cum : Z)
  : ex (list resinfo * Z) :=
  match rs with
  | [] => ret ([], cum)
  | r :: more =>
      let? scale := shl1 (c_NL c - r) in
      let? (lx, ly) := precinct_size c r in
      let? (px, nw) := axis x0 x1 scale lx in
      let? (py, nh) := axis y0 y1 scale ly in
      let? (l, t) := resolutions c x0 y0 x1 y1 more
                       (wrap32 (cum + wrap32 (nw * nh))) in
      ret ({| npw := nw; nph := nh; s_offset := cum; log2PPx := lx;
              log2PPy := ly; respos0_x := px; respos0_y := py |} :: l, t)
  end.

(** [build_tile_component], precinct_index.cpp:30-91. *)
Definition build_tile_component (c : comp) (x0 y0 x1 y1 : Z) : ex tcinfo :=
  let? tx0 := cdiv x0 (fst (c_sub c)) in
  let? ty0 := cdiv y0 (snd (c_sub c)) in
  let? tx1 := cdiv x1 (fst (c_sub c)) in
  let? ty1 := cdiv y1 (snd (c_sub c)) in
  let? (l, t) := resolutions c tx0 ty0 tx1 ty1 (zseq (c_NL c + 1)) 0 in
  ret {| NL := c_NL c; rows := l; total := t |}.

(** [get_number_of_tiles], source/core/codestream/j2kmarkers.cpp:1807-1815. *)
Definition tiles_along (size torigin tsize : Z) : ex Z :=
  cdiv (wrap32 (size - torigin)) tsize.

(** One side of a tile, precinct_index.cpp:156-159. *)
Definition tile_lo (torigin tsize origin i : Z) : Z :=
  Z.max (wrap32 (torigin + wrap32 (i * tsize))) origin.
Definition tile_hi (torigin tsize size i : Z) : Z :=
  Z.min (wrap32 (torigin + wrap32 ((i + 1) * tsize))) size.

(** [CodestreamIndex::build] after the header has been read,
    precinct_index.cpp:123-168.  The vector has num_tiles*num_components
    entries, filled in order; when the uint32_t product num_tiles wraps, the
    loops index past it (undefined). *)
Definition build (h : header) : ex index :=
  let? nx := tiles_along (fst (h_size h)) (fst (h_torigin h)) (fst (h_tsize h)) in
  let? ny := tiles_along (snd (h_size h)) (snd (h_torigin h)) (snd (h_tsize h)) in
  if two32 <=? nx * ny then UB else
  let? l := mapM (fun ty =>
    mapM (fun tx =>
      mapM (fun c =>
        build_tile_component c
          (tile_lo (fst (h_torigin h)) (fst (h_tsize h)) (fst (h_origin h)) tx)
          (tile_lo (snd (h_torigin h)) (snd (h_tsize h)) (snd (h_origin h)) ty)
          (tile_hi (fst (h_torigin h)) (fst (h_tsize h)) (fst (h_size h)) tx)
          (tile_hi (snd (h_torigin h)) (snd (h_tsize h)) (snd (h_size h)) ty))
        (h_comps h))
      (zseq nx))
    (zseq ny) in
  ret {| num_tiles_x := nx; num_tiles_y := ny; hdr := h;
         tcs := concat (concat l) |}.

(** [CodestreamIndex::tile_component], precinct_index.cpp:172-177. *)
Definition tile_component (x : index) (t c : Z) : ex tcinfo :=
  if (num_tiles x <=? t) || (num_components x <=? c) then throw else
  match nth_error (tcs x) (Z.to_nat (t * num_components x + c)) with
  | Some i => ret i
  | None => UB
  end.

(** Checked access to the parallel vectors at [r]. *)
Definition row (i : tcinfo) (r : Z) : ex resinfo :=
  match nth_error (rows i) (Z.to_nat r) with
  | Some v => ret v
  | None => UB
  end.

(** [PrecinctKey], precinct_index.hpp:40-45. *)
Record key := { k_t : Z; k_c : Z; k_r : Z; k_p : Z }.

(** [CodestreamIndex::s], precinct_index.cpp:179-185. *)
Definition seq_no (x : index) (k : key) : ex Z :=
  let? i := tile_component x (k_t k) (k_c k) in
  if NL i <? k_r k then throw else
  let? v := row i (k_r k) in
  if wrap32 (npw v * nph v) <=? k_p k then throw else
  ret (wrap32 (s_offset v + k_p k)).

(** [CodestreamIndex::I], precinct_index.cpp:187-191. *)
Definition id_of (x : index) (k : key) : ex Z :=
  let? s := seq_no x k in
  ret (wrap64 (k_t k + wrap64 ((k_c k + s * num_components x) * num_tiles x))).

(** The search loop of [decompose_precinct_I],
    codestream_assembler.cpp:191-198. *)
Fixpoint find_res (i : tcinfo) (t c s : Z) (rs : list Z) : ex (option key) :=
  match rs with
  | [] => ret None
  | r :: more =>
      let? v := row i r in
      let n := wrap32 (npw v * nph v) in
      if (s_offset v <=? s) && (s <? wrap32 (s_offset v + n))
      then ret (Some {| k_t := t; k_c := c; k_r := r;
                        k_p := wrap32 (s - s_offset v) |})
      else find_res i t c s more
  end.

(** [decompose_precinct_I], codestream_assembler.cpp:181-200, with its
    narrowing casts (uint16_t tile and component, uint32_t sequence number). *)
Definition decompose (x : index) (I : Z) : ex (option key) :=
  let nT := num_tiles x in
  let nC := num_components x in
  if (nT =? 0) || (nC =? 0) then ret None else
  let t := (I mod nT) mod 65536 in
  let tmp := I / nT in
  let c := (tmp mod nC) mod 65536 in
  let s := wrap32 (tmp / nC) in
  let? i := tile_component x t c in
  find_res i t c s (zseq (NL i + 1)).

(** [CodestreamIndex::max_NL], precinct_index.cpp:218-224. *)
Definition max_NL (x : index) : Z :=
  fold_left (fun m i => if m <? NL i then NL i else m) (tcs x) 0.

(** [CodestreamIndex::subsampling], precinct_index.cpp:226-231. *)
Definition subsampling (x : index) (c : Z) : ex (Z * Z) :=
  if num_components x <=? c then throw else
  match nth_error (h_comps (hdr x)) (Z.to_nat c) with
  | Some v => ret (c_sub v)
  | None => UB
  end.
