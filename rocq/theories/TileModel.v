(** Model of how a decoder walks the tile-parts behind the main header and of
    how the encoder lays them out.  Line numbers alone refer to
    source/core/codestream/j2kmarkers.cpp; the readers and writers of single
    segments are those of MarkerModel. *)
From Verif Require Import Base SourceModel MarkerModel.

(** A tile-part as read: its SOT, the segments of its header in order, and the
    bytes after its SOD, by offset in the buffer and length
    (coding_units.hpp, j2k_tile_part). *)
Record tile_part := Tp { tp_sot : sot; tp_segs : list seg; tp_body : Z; tp_len : Z }.

(** Markers the switch of j2k_tilepart_header::read knows, 1846-1881; [C] is
    the component count. *)
Definition tile_parser (w C : Z) : option (Z -> Z -> list Z -> ex seg) :=
  if w =? M_COD then Some (fun lmar _ g => smap SCod (parse_cod lmar g)) else
  if w =? M_COC then Some (fun lmar _ g => smap SCoc (parse_coc lmar g C)) else
  if w =? M_PLT then Some (fun lmar base g => smap (fun x => SPlt (raw_at base x)) (parse_raw lmar g)) else
  if w =? M_QCD then Some (fun lmar _ g => smap SQcd (parse_qcd lmar g)) else
  if w =? M_QCC then Some (fun lmar _ g => smap SQcc (parse_qcc lmar g C)) else
  if w =? M_RGN then Some (fun lmar _ g => smap SRgn (parse_rgn lmar g C)) else
  if w =? M_POC then Some (fun lmar _ g => smap SPoc (parse_poc lmar g C)) else
  if w =? M_PPT then Some (fun lmar base g => smap (fun x => SPpt (raw_at base x)) (parse_raw lmar g)) else
  if w =? M_COM then Some (fun lmar _ g => smap SCom (parse_com lmar g)) else None.

(** The loop of j2k_tilepart_header::read, 1845-1897: the segments, and the
    number of bytes counted (uint32_t). *)
Fixpoint read_part_header (fuel : nat) (s : src) (C : Z) (segs : list seg) (count : Z) : ex (src * (list seg * Z)) :=
  match fuel with
  | O => NoFuel
  | S fuel =>
    let? (s, w) := lift (SourceModel.get_word s) in
    if w =? M_SOD then ret (s, (segs, count)) else
    match tile_parser w C with
    | Some parse =>
      let? (s, (lmar, base, g)) := open_segment s in
      let? x := parse lmar base g in
      read_part_header fuel s C (segs ++ [x]) (wrap32 (count + lmar + 2))
    | None => let? (s, L) := skip_unknown s w in read_part_header fuel s C segs (wrap32 (count + 2 + L))
    end
  end.

(** The search of coding_units.cpp:2760-2766: from [i] bytes behind [p]
    backwards to the last FF D9. *)
Fixpoint eoc_offset (d : list Z) (p : Z) (i : nat) (default : Z) : out Z :=
  match i with
  | O => Ret default
  | S j =>
    if Z.of_nat i <? 2 then Ret default else
    let* a := rd d (p + Z.of_nat i - 2) in
    let* b := rd d (p + Z.of_nat i - 1) in
    if (a =? 255) && (b =? 217) then Ret (Z.of_nat i - 2) else eoc_offset d p j default
  end.
(** j2k_tile_part::read, coding_units.cpp:2748-2786; 1844 starts the count *)
Definition read_part (s : src) (C : Z) (t : sot) : ex (src * tile_part) :=
  let? (s, (segs, count)) := read_part_header (S (length (mem s))) s C [] (2 + 10 + 2) in
  let remaining := get_remaining s in
  let* n := if Psot t =? 0
            then eoc_offset (mem s) (pos s) (Z.to_nat remaining) (if 2 <=? remaining then remaining - 2 else 0)
            else let n := wrap32 (Psot t - count) in Ret (if remaining <? n then remaining else n) in
  let body := pos s in
  let? (s, _) := lift (forward_Nbytes s n) in
  ret (s, Tp t segs body n).

(** SOT_marker(in), 1485-1498.  The test of Lmar is before the bytes are
    fetched; either way it throws. *)
Definition read_sot (s : src) : ex (src * sot) :=
  let? (s, (lmar, _, g)) := open_segment s in
  if negb (lmar =? 10) then throw else
  let? t := parse_sot lmar g in ret (s, t).

(** The loop interface/decoder.cpp:460-476 (and the same at 554, 958 and 1171).  What
    add_tile_part (coding_units.cpp:4001-4064) does with a tile-part beyond
    reading it, the tile's geometry and parameters, is not here. *)
Fixpoint read_parts (fuel : nat) (s : src) (C tiles : Z) (done : list tile_part) : ex (src * list tile_part) :=
  match fuel with
  | O => NoFuel
  | S fuel =>
    if get_remaining s <? 2 then ret (s, done) else
    let? (s, w) := lift (SourceModel.get_word s) in
    if w =? M_EOC then ret (s, done) else
    if negb (w =? M_SOT) then throw else
    let? (s, t) := read_sot s in
    if tiles <=? Isot t then throw else
    let? (s, p) := read_part s C t in
    read_parts fuel s C tiles (done ++ [p])
  end.
(** decoder.cpp:424-476: from the header to the tile-parts.  The sizes, default
    coding and default quantisation are dereferenced unchecked (427-453, 455
    with dec_init, coding_units.cpp:3988-3999).  The reduction check (416-422)
    and the output buffers (440-451) are not here. *)
Definition read_tiles (s : src) (h : hdr) : ex (src * list tile_part) :=
  match h_siz h, h_cod h, h_qcd h with
  | Some x, Some _, Some _ =>
    let* (nx, ny) := get_number_of_tiles x in
    if 65535 <? wrap32 (nx * ny) then throw else
    read_parts (S (length (mem s))) s (Csiz x) (nx * ny) []
  | _, _, _ => UB
  end.

(** ** The encoder *)

(** What an encoded tile holds: the bytes of the packet of each of its
    precincts, the order in which packets are written, and the settings that
    matter.  The packets are those of t1_encode_packet,
    coding_units.cpp:7128-7152, one for each precinct whatever the number of
    layers; the order is the walk of 5100-5390, which visits a precinct once
    for every layer (5127-5132 and the like). *)
Record coded_tile := Coded { precincts : list (list Z); walk : list Z; layers : Z; sop : bool }.
Definition sum_len (l : list (list Z)) : Z := fold_right (fun b n => zlen b + n) 0 l.
(** this->length, coding_units.cpp:7149-7157 *)
Definition tile_length (t : coded_tile) : Z := wrap32 (sum_len (precincts t)).
(** get_tile_part_size, coding_units.cpp:7796-7807; the same as
    set_tile_part_length of 5066-5067 with 1508-1512 *)
Definition tile_part_size (t : coded_tile) : Z :=
  wrap32 (tile_length t + wrap32 (6 * wrap32 (zlen (precincts t) * layers t) * (if sop t then 1 else 0)) + 14).
(** emit_sop, coding_units.cpp:5081-5089 *)
Definition sop_bytes (on : bool) (seq : Z) : list Z := if on then w16 65425 ++ w16 4 ++ w16 (seq mod 65536) else [].
(** emit_sop and write_precinct_data (5034-5046) along the walk *)
Fixpoint packets_from (t : coded_tile) (seq : Z) (order : list Z) : list Z :=
  match order with
  | [] => []
  | i :: order => sop_bytes (sop t) seq ++ znth [] (precincts t) i ++ packets_from t (seq + 1) order
  end.
Definition packets (t : coded_tile) : list Z := packets_from t 0 (walk t).
(** write_packets_direct_impl, coding_units.cpp:5049-5390 *)
Definition write_part (idx : Z) (t : coded_tile) : list Z :=
  w16 M_SOT ++ w16 10 ++ w16 idx ++ w32 (tile_part_size t) ++ w8 0 ++ w8 1 ++ w16 M_SOD ++ packets t.
Fixpoint write_parts (idx : Z) (l : list coded_tile) : list Z :=
  match l with [] => [] | t :: l => write_part idx t ++ write_parts (idx + 1) l end.
(** encoder.cpp:722-725 *)
Definition codestream_size (header : list Z) (l : list coded_tile) : Z :=
  zlen header + fold_right (fun t n => tile_part_size t + n) 0 l + 2.
(** encoder.cpp:749-755: the caller's vector is given [codestream_size] bytes
    and written through a bare pointer *)
Definition write_to_memory (header : list Z) (l : list coded_tile) : out (list Z) :=
  let written := header ++ write_parts 0 l ++ [255; 217] in
  let size := codestream_size header l in
  if size <? zlen written then UB else Ret (written ++ repeat 0 (Z.to_nat (size - zlen written))).
(** encoder.cpp:758-774, without the file format: to a file *)
Definition write_to_file (header : list Z) (l : list coded_tile) : list Z := header ++ write_parts 0 l ++ [255; 217].
