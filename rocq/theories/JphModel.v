(** Model of the JPH/JP2 file format code, source/core/jph/jph.cpp and jph.hpp.
    A pointer into the caller's buffer is its offset; comparing pointers is
    comparing offsets ([p + 8 <= end] is evaluated as an integer comparison,
    although C++ leaves pointers further than one past the end undefined). *)
From Verif Require Import Base Be.

(** jph.cpp:38-41 *)
Definition rd64 (buf : list Z) (i : Z) : out Z :=
  let* a := rd32 buf i in let* b := rd32 buf (i + 4) in Ret (Z.lor (Z.shiftl a 32) b).
(** jph.cpp:43-45 *)
Definition BOX_JP2H : Z := 0x6A703268.
Definition BOX_COLR : Z := 0x636F6C72.
Definition BOX_JP2C : Z := 0x6A703263.
(** jph.hpp:48-52; [cs_data = None] is the null pointer *)
Record jph_info := Info { cs_data : option Z; cs_size : Z; enum_cs : Z }.
Definition info0 : jph_info := Info None 0 0.

(** jph.cpp:55-75: the payload and end of the box at [p], or nothing when the
    scan stops *)
Definition box_extent (buf : list Z) (p e lbox : Z) : out (option (Z * Z)) :=
  if lbox =? 1 then
    if e <? p + 16 then Ret None else
    let* xlen := rd64 buf (p + 8) in
    if (xlen <? 16) || (e - p <? xlen) then Ret None else Ret (Some (p + 16, p + xlen))
  else if lbox =? 0 then Ret (Some (p + 8, e))
  else if lbox <? 8 then Ret None
  else Ret (Some (p + 8, if lbox <=? e - p then p + lbox else e)).

(** jph.cpp:78-82 *)
Definition colr (buf : list Z) (payload box_end : Z) (o : jph_info) : out jph_info :=
  if payload + 7 <=? box_end then
    let* meth := rd buf payload in
    if meth =? 1 then let* v := rd32 buf (payload + 3) in Ret (Info (cs_data o) (cs_size o) v) else Ret o
  else Ret o.

(** jph.cpp:50-88.  [depth] counts down from JPH_MAX_BOX_DEPTH + 1; [fuel] is
    for the loop, whose position advances by at least 8 each time. *)
Fixpoint scan_loop (scan : Z -> Z -> jph_info -> out jph_info) (fuel : nat) (buf : list Z) (p e : Z) (o : jph_info) : out jph_info :=
  if p + 8 <=? e then
    match fuel with
    | O => NoFuel
    | S fuel =>
      let* lbox := rd32 buf p in
      let* tbox := rd32 buf (p + 4) in
      let* x := box_extent buf p e lbox in
      match x with
      | None => Ret o
      | Some (payload, box_end) =>
        let* o :=
          if tbox =? BOX_JP2H then scan payload box_end o
          else if tbox =? BOX_COLR then colr buf payload box_end o
          else if tbox =? BOX_JP2C then Ret (Info (Some payload) (box_end - payload) (enum_cs o))
          else Ret o in
        scan_loop scan fuel buf box_end e o
      end
    end
  else Ret o.
Fixpoint jph_scan_boxes (depth : nat) (buf : list Z) (p e : Z) (o : jph_info) : out jph_info :=
  match depth with
  | O => Ret o
  | S depth => scan_loop (jph_scan_boxes depth buf) (length buf) buf p e o
  end.
Definition JPH_MAX_BOX_DEPTH : nat := 16.

(** jph.cpp:90-94 *)
Definition jph_is_signature (buf : list Z) (len : Z) : out bool :=
  if 12 <=? len then
    let* a := rd32 buf 0 in
    if a =? 12 then
      let* b := rd32 buf 4 in
      if b =? 0x6A502020 then let* c := rd32 buf 8 in Ret (c =? 0x0D0A870A) else Ret false
    else Ret false
  else Ret false.
(** jph.cpp:96-100; the caller passes the length of the buffer and a fresh
    jph_info (decoder.cpp:190-191, 218-219, 241-242, 269-270) *)
Definition jph_parse_buffer (buf : list Z) : out (bool * jph_info) :=
  let* s := jph_is_signature buf (zlen buf) in
  if s then
    let* o := jph_scan_boxes (S JPH_MAX_BOX_DEPTH) buf 0 (zlen buf) info0 in
    Ret (match cs_data o with Some _ => 0 <? cs_size o | None => false end, o)
  else Ret (false, info0).

(** The writers.  Each gives the bytes it puts into the destination (that the
    destination holds what was put into it is C44) and the LBox it returns. *)
(** j2kmarkers.cpp:172-219, the part of the main header the boxes depend on *)
Record siz := Siz { Xsiz : Z; Ysiz : Z; XOsiz : Z; YOsiz : Z; Ssiz : list Z }.
Definition get_bitdepth (s : siz) (c : Z) : Z := (Z.land (znth 0 (Ssiz s) c) 0x7F + 1) mod 256.
Definition is_signed (s : siz) (c : Z) : bool := negb (Z.land (znth 0 (Ssiz s) c) 0x80 =? 0).
Definition get_num_components (s : siz) : Z := zlen (Ssiz s).
(** codestream_destination.cpp:41-55 *)
Definition put_word (w : Z) : list Z := [Z.shiftr w 8 mod 256; Z.land w 255 mod 256].
Definition put_dword (w : Z) : list Z := put_word (Z.shiftr w 16 mod 65536) ++ put_word (Z.land w 65535 mod 65536).
(** jph.hpp:71-74 *)
Definition base_write (LBox TBox : Z) : list Z := put_dword LBox ++ put_dword TBox.
(** jph.cpp:103-109 *)
Definition signature_box : list Z * Z := (base_write 12 0x6A502020 ++ put_dword 0x0D0A870A, 12).
(** jph.cpp:111-137; [type] 0 is jp2, 1 is jph; anything else throws *)
Definition file_type_box (type : Z) : option (list Z * Z) :=
  let box BR := Some (base_write 20 0x66747970 ++ put_dword BR ++ put_dword 0 ++ put_dword BR, 20) in
  if type =? 0 then box 0x6A703220 else if type =? 1 then box 0x6A706820 else None.
(** jph.cpp:146-153 *)
Definition ihdr_BPC (s : siz) : Z :=
  let v := (get_bitdepth s 0 - 1) mod 256 in
  let v := if existsb (fun c => negb (v =? get_bitdepth s c - 1)) (map (fun c => c + 1) (zseq (get_num_components s - 1))) then 0xFF else v in
  Z.lor v (if is_signed s 0 then 0x80 else 0).
(** jph.cpp:155-161 *)
Definition needBPCC (s : siz) : bool := ihdr_BPC s =? 0xFF.
(** jph.cpp:139-145, 162-172 *)
Definition image_header_box (s : siz) : list Z * Z :=
  (base_write 22 0x69686472 ++ put_dword (wrap32 (Ysiz s - YOsiz s)) ++ put_dword (wrap32 (Xsiz s - XOsiz s)) ++
   put_word (get_num_components s) ++ [ihdr_BPC s] ++ [7] ++ [0] ++ [0], 22).
(** jph.cpp:174-188 *)
Definition bits_per_component_box (s : siz) : list Z * Z :=
  let BPC := map (fun c => Z.lor ((get_bitdepth s c - 1) mod 256) (if is_signed s c then 0x80 else 0)) (zseq (get_num_components s)) in
  let LBox := 8 + get_num_components s in
  (base_write LBox 0x62706363 ++ BPC, LBox).
(** jph.cpp:190-212; throws for other component counts *)
Definition colour_specification_box (s : siz) (isSRGB : bool) : option (list Z * Z) :=
  let box e := Some (base_write 15 0x636F6C72 ++ [1] ++ [0] ++ [0] ++ put_dword e, 15) in
  if get_num_components s =? 3 then box (if isSRGB then 16 else 18)
  else if get_num_components s =? 1 then box 17 else None.
(** jph.cpp:214-229 *)
Definition header_box (s : siz) (isSRGB : bool) : option (list Z * Z) :=
  match colour_specification_box s isSRGB with
  | None => None
  | Some (colr, lcolr) =>
    let (ihdr, lihdr) := image_header_box s in
    let (bpcc, lbpcc) := bits_per_component_box s in
    let LBox := 8 + lihdr + lcolr + (if needBPCC s then lbpcc else 0) in
    Some (base_write LBox 0x6A703268 ++ ihdr ++ (if needBPCC s then bpcc else []) ++ colr, LBox)
  end.
(** jph.cpp:231-238; [static_cast<uint32_t>(len) + 8] wraps *)
Definition contiguous_codestream_box (len : Z) : list Z * Z :=
  let LBox := wrap32 (wrap32 len + 8) in (base_write LBox 0x6A703263, LBox).
(** jph.cpp:240-250 *)
Definition jph_boxes (s : siz) (type : Z) (isSRGB : bool) (code_len : Z) : option (list Z * Z) :=
  match file_type_box type, header_box s isSRGB with
  | Some (ftyp, lftyp), Some (jp2h, ljp2h) =>
    let (sig, lsig) := signature_box in
    let (jp2c, ljp2c) := contiguous_codestream_box code_len in
    Some (sig ++ ftyp ++ jp2h ++ jp2c, lsig + lftyp + ljp2h + ljp2c)
  | _, _ => None
  end.
(** encoder.cpp:730-747 (762-773, 919-934, 949-960 alike): the boxes, then the
    codestream; the number of bytes reported to the caller *)
Definition write_file (s : siz) (isSRGB : bool) (codestream : list Z) : option (list Z * Z) :=
  match jph_boxes s 1 isSRGB (zlen codestream) with
  | Some (bytes, file_format_size) => Some (bytes ++ codestream, file_format_size)
  | None => None
  end.
