(** Model of decoding straight into planes owned by the caller:
    source/core/interface/decoder.cpp:1005-1201 (invoke_line_based_direct),
    source/core/coding/coding_units.cpp:6624-6805
    (decode_line_based_stream_planar),
    source/core/transform/finalize_narrow.hpp (the stores).

    Simplifications, besides those of StripModel.v.  Samples are the int32_t
    values the float samples convert to; a sample outside that range is left
    out.  The cached tile of earlier frames is left out (C73): the tile is
    taken as read.  Reading past the samples of a row, or writing outside the
    array of a plane, is undefined. *)
From Verif Require Import Base PrecinctModel GeoModel MarkerModel ColorModel OutModel StripModel.

(** PlanarOutputDesc, planar_output_desc.hpp:13-23; [base] is the array of the
    plane. *)
Record desc := Desc { d_stride : Z; d_width : Z; d_height : Z; d_yr : Z; d_dc : Z; d_max : Z; d_min : Z; d_shift : Z; d_16 : bool }.
Definition desc0 : desc := Desc 0 0 0 0 0 0 0 0 false.

(** Which loops are compiled in, finalize_narrow.hpp:101, 170. *)
Inductive build := Scalar | Avx2 | Neon.

(** ** Stores, finalize_narrow.hpp *)

(** Lanes of int32_t wrap around; a saturating conversion. *)
Definition s32 (v : Z) : Z := (v + 2147483648) mod 4294967296 - 2147483648.
Definition sat (lo hi v : Z) : Z := Z.max lo (Z.min hi v).
(** Shift and rounding in a lane, 111-115, 127-131, 143-146. *)
Definition lane_fin (ds rnd v : Z) : Z :=
  if 0 <? ds then Z.shiftr (s32 (v + rnd)) ds else if ds <? 0 then s32 (Z.shiftl v (- ds)) else v.
(** vqmovn_s32 then vqmovun_s16, 116-122; the shift is vshlq_s32 by
    [-depth_shift]. *)
Definition neon8 (d : desc) (ds rnd v : Z) : Z :=
  let a := Z.max (Z.min (s32 (lane_fin ds rnd v + d_dc d)) (d_max d)) (d_min d) in
  let a := if 0 <=? d_shift d then Z.shiftr a (d_shift d) else s32 (Z.shiftl a (- d_shift d)) in
  sat 0 255 (sat (-32768) 32767 a).
(** vqmovun_s32, 241-287. *)
Definition neon16 (d : desc) (ds rnd v : Z) : Z :=
  sat 0 65535 (Z.max (Z.min (s32 (lane_fin ds rnd v + d_dc d)) (d_max d)) (d_min d)).
(** _mm256_packus_epi32, then _mm_packus_epi16 on the same bits read as
    int16_t, 170-214. *)
Definition avx8 (d : desc) (ds rnd v : Z) : Z :=
  let a := Z.min (Z.max (s32 (lane_fin ds rnd v + d_dc d)) (d_min d)) (d_max d) in
  let a := if 0 <? d_shift d then Z.shiftr a (d_shift d) else a in
  let p := sat 0 65535 a in
  sat 0 255 (if p <? 32768 then p else p - 65536).
(** The casts to uint8_t and uint16_t of a finalised value, 229, 301;
    coding_units.cpp:6649 and 6658. *)
Definition narrow (d : desc) (v : Z) : Z :=
  if d_16 d then v mod 65536 else (if 0 <? d_shift d then Z.shiftr v (d_shift d) else v) mod 256.
(** The scalar loop, 219-230 and 291-302. *)
Definition scalar (d : desc) (ds rnd v : Z) : out Z :=
  let* w := finalize_sample (mkFP ds rnd (d_dc d) (d_max d) (d_min d)) v in Ret (narrow d w).
(** finalize_f32_to_u8, finalize_narrow.hpp:96-231, and finalize_f32_to_u16, finalize_narrow.hpp:233-300: what sample
    [x] of a row becomes. *)
Definition cell (b : build) (d : desc) (ds rnd x v : Z) : out Z :=
  let w := d_width d in
  match b with
  | Scalar => scalar d ds rnd v
  | Avx2 => if negb (d_16 d) && (0 <=? ds) && (x <? w / 16 * 16) then Ret (avx8 d ds rnd v) else scalar d ds rnd v
  | Neon => if d_16 d then (if x <? w / 16 * 16 then Ret (neon16 d ds rnd v) else scalar d ds rnd v)
            else (if x <? w / 8 * 8 then Ret (neon8 d ds rnd v) else scalar d ds rnd v)
  end.

(** downshift and rnd of CInfo, coding_units.cpp:6686-6688; FRACBITS is 13.  A
    component is whether its transform is the reversible one, and its depth. *)
Definition downshift (p : bool * Z) : Z := if fst p then 0 else 13 - snd p.
Definition rounding (ds : Z) : Z := if ds <=? 0 then 0 else Z.shiftr (Z.shiftl 1 ds) 1.

Section Direct.
  Variable raw : Z -> Z -> Z -> Z -> Z.
  Variable fin : Z -> Z -> Z.
  Variable mix : Z -> Z -> Z -> Z -> Z.
  Variable b : build.
  Variable prm : Z -> bool * Z.
  Variable size : Z -> Z.        (* samples in the array of a plane *)
  Variable descs : list desc.

  Definition desc_at (c : Z) : desc := znth desc0 descs c.

  (** One row of one plane. *)
  Definition write_row (c cy : Z) (f : Z -> out Z) (m : mem) : out mem :=
    let d := desc_at c in
    foldo (fun m x => let* v := f x in store size m c (cy * d_stride d + x) v) m (zseq (d_width d)).

  (** The synthesized callback, decoder.cpp:1018-1042, coding_units.cpp:6637-6664.  [wid] is the
      number of samples in the rows given. *)
  Definition clamped (d : desc) (v : Z) : Z :=
    let v := if v <? d_min d then d_min d else v in if d_max d <? v then d_max d else v.
  Definition give (wid : Z -> Z) (e : event) (m : mem) (c : Z) : out mem :=
    let d := desc_at c in
    let y := fst e in
    if d_yr d =? 0 then UB else
    if negb (y mod d_yr d =? 0) then Ret m else
    if d_height d <=? y / d_yr d then Ret m else
    write_row c (y / d_yr d)
      (fun x => if x <? wid c then Ret (narrow d (clamped d (znth blank (snd e) c x))) else UB) m.
  Definition deliver (wid : Z -> Z) (m : mem) (evs : list event) : out mem :=
    foldo (fun m e => foldo (give wid e) m (zseq (Z.min (zlen (snd e)) (zlen descs)))) m evs.

  Section Tile.
    Variable t : Z.
    Variable ci : list sinfo.

    (** Phase 2 for row [y], coding_units.cpp:6778-6800. *)
    Definition put (bufs : Z -> list (option Z)) (y0 y : Z) (m : mem) (c : Z) : out mem :=
      let I := info ci c in
      if s_yr I =? 0 then UB else
      if negb (y mod s_yr I =? 0) then Ret m else
      if s_h I <=? y / s_yr I then Ret m else
      let* k := scratch bufs c ((y - y0) / s_yr I) in
      let ds := downshift (prm c) in
      write_row c (y / s_yr I)
        (fun x => if x <? s_w I then cell b (desc_at c) ds (rounding ds) x (smp raw t c k x) else UB) m.

    (** The strip loop, coding_units.cpp:6726-6801. *)
    Fixpoint planar_strips (fuel : nat) (h H y0 : Z) (cur : Z -> Z) (m : mem) : ex mem :=
      if H <=? y0 then ret m else
      match fuel with
      | O => NoFuel
      | S fuel =>
          let y1 := Z.min (wrap32 (y0 + h)) H in
          let? (cur, bufs) := foldx (fetch false ci y0 y1) (cur, fun _ => []) (zseq (zlen ci)) in
          let* m := foldo (fun m y => foldo (put bufs y0 y) m (zseq (Z.min (zlen ci) (zlen descs)))) m
                      (map (fun i => y0 + i) (zseq (y1 - y0))) in
          planar_strips fuel h H (wrap32 (y0 + h)) cur m
      end.

    (** decode_line_based_stream_planar, coding_units.cpp:6624-6805.  The rows of the colour transform come
        through decode_line_based_stream with its default arguments,
        coding_units.hpp:856-859. *)
    Definition planar_tile (mct : bool) (cb_h : Z) (m : mem) : ex mem :=
      if (3 <=? zlen ci) && mct then
        let? evs := stream_tile raw fin mix t true ci cb_h 4294967295 0 in
        let* m := deliver (fun c => s_w (info ci c)) m evs in ret m
      else planar_strips (Z.to_nat (s_h (info ci 0)) + 1) (strip_height ci cb_h) (s_h (info ci 0)) 0 (fun _ => 0) m.
  End Tile.

  (** invoke_line_based_direct, decoder.cpp:1005-1201.  [reuse] is
      single_tile_reuse_enabled_; the rest as in
      [invoke_line_based_stream].  The rows of one column of tiles have the
      width of the tile (coding_units.cpp:6107-6112), those of several the
      width of the image. *)
  Definition invoke_line_based_direct (s : siz) (r : Z) (tiles : Z -> tile_in) (cb_h : Z -> Z)
      (reuse skip : bool) (row_limit row_lo maxr : Z) (m : mem) : ex (list (Z * Z) * mem) :=
    let fallback :=
      let? (l, evs) := invoke_line_based_stream raw fin mix s r tiles cb_h skip row_limit row_lo maxr in
      let? nx := tiles_along (Xsiz s) (XTOsiz s) (XTsiz s) in
      let? ci := tile_infos s r nx tiles 0 in
      let* m := deliver (fun c => if nx =? 1 then s_w (info ci c) else fst (znth (0, 0) l c)) m evs in ret (l, m) in
    if negb reuse then fallback else
    if maxr <? r then throw else
    let? nx := tiles_along (Xsiz s) (XTOsiz s) (XTsiz s) in
    let? ny := tiles_along (Ysiz s) (YTOsiz s) (YTsiz s) in
    if negb ((nx =? 1) && (ny =? 1)) then fallback else
    let? l := mapM (out_size s r) (zseq (Csiz s)) in
    let? ci := tile_infos s r 1 tiles 0 in
    let? m := planar_tile 0 ci (t_mct (tiles 0)) (cb_h 0) m in
    ret (l, m).
End Direct.
