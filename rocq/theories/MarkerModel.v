(** Model of the marker segment readers and writers,
    source/core/codestream/j2kmarkers.cpp (line numbers alone refer to it), and
    of the main header as the encoder writes it,
    source/core/interface/encoder.cpp:591-717.

    The memory behind the source is one list: the codestream and what follows
    it in the buffer (16 bytes at least, codestream.hpp:60-68).  A segment's
    readers see the [lmar] bytes from where the segment's own bytes start:
    those are the segment's [lmar - 2] bytes and two more, because [lmar]
    counts its own two bytes and get_byte (50-64) compares with [lmar].
    Fields that share a record are written in the order of the segment.  The
    debug build's asserts are not there.  Two calls in one expression are
    evaluated left to right. *)
From Verif Require Import Base SourceModel.
Notation "a &b b" := (Z.land a b) (at level 40, left associativity).
Notation "a >>b b" := (Z.shiftr a b) (at level 45, left associativity).
Notation "a <<b b" := (Z.shiftl a b) (at level 45, left associativity).

(** marker_def.hpp:32-70 *)
Definition M_SOC := 65359. Definition M_SOT := 65424. Definition M_SOD := 65427. Definition M_EOC := 65497.
Definition M_SIZ := 65361. Definition M_PRF := 65366. Definition M_CAP := 65360. Definition M_COD := 65362.
Definition M_COC := 65363. Definition M_RGN := 65374. Definition M_QCD := 65372. Definition M_QCC := 65373.
Definition M_POC := 65375. Definition M_TLM := 65365. Definition M_PLM := 65367. Definition M_PLT := 65368.
Definition M_PPM := 65376. Definition M_PPT := 65377. Definition M_CRG := 65379. Definition M_COM := 65380.
Definition M_CPF := 65369. Definition M_DFS := 65394. Definition M_ATK := 65401.

(** A call on the source that throws loses the source's state: nobody catches
    the exception inside parse(). *)
Definition lift {A} (m : res A) : ex (src * A) :=
  match m with Ret (s, Some a) => ret (s, a) | Ret (_, None) => throw | UB => UB | NoFuel => NoFuel end.
Definition mem (s : src) : list Z := match data s with Some d => d | None => [] end.

(** ** Segments *)

(** The head of every segment's constructor, e.g. 83-85: Lmar = in.get_word();
    set_buf(in.get_buf_pos()); in.get_N_byte(get_buf(), Lmar - 2U).  The copy
    is onto itself.  Gives Lmar, the offset of buf and the bytes readable
    through it. *)
Definition open_segment (s : src) : ex (src * (Z * Z * list Z)) :=
  let? (s, lmar) := lift (SourceModel.get_word s) in
  let base := pos s in
  let? (s, _) := lift (get_N_byte s (wrap32 (lmar - 2))) in
  ret (s, (lmar, base, ztake lmar (zskip base (mem s)))).

Section Fields.
Context (lmar : Z) (g : list Z).
(** j2k_marker_io_base::get_byte, j2kmarkers.cpp:50-64 *)
Definition fbyte (p : Z) : ex (Z * Z) :=
  if lmar <=? p then throw else let* b := rd g p in ret (p + 1, b).
(** get_word, j2kmarkers.cpp:66-70 *)
Definition fword (p : Z) : ex (Z * Z) :=
  let? (p, a) := fbyte p in let? (p, b) := fbyte p in ret (p, ((a <<b 8) + b) mod 65536).
(** get_dword, j2kmarkers.cpp:72-76 *)
Definition fdword (p : Z) : ex (Z * Z) :=
  let? (p, a) := fword p in let? (p, b) := fword p in ret (p, wrap32 ((a <<b 16) + b)).
(** A loop [n] times over [item], every [item] reading a byte at least. *)
Fixpoint fmany {A} (fuel : nat) (n : Z) (item : Z -> ex (Z * A)) (p : Z) : ex (Z * list A) :=
  if n <=? 0 then ret (p, []) else
  match fuel with
  | O => NoFuel
  | S fuel => let? (p, a) := item p in let? (p, l) := fmany fuel (n - 1) item p in ret (p, a :: l)
  end.
Definition loop {A} (n : Z) (item : Z -> ex (Z * A)) (p : Z) : ex (Z * list A) := fmany (S (Z.to_nat lmar)) n item p.

(** SIZ_marker, j2kmarkers.hpp:71-86 *)
Record siz := Siz { Rsiz : Z; Xsiz : Z; Ysiz : Z; XOsiz : Z; YOsiz : Z; XTsiz : Z; YTsiz : Z; XTOsiz : Z; YTOsiz : Z;
                    Csiz : Z; Comps : list (Z * Z * Z) (* Ssiz, XRsiz, YRsiz *) }.
(** one component, 109-119 *)
Definition siz_comp (p : Z) : ex (Z * (Z * Z * Z)) :=
  let? (p, sg) := fbyte p in let? (p, xr) := fbyte p in let? (p, yr) := fbyte p in
  if (xr =? 0) || (yr =? 0) then throw else ret (p, (sg, xr, yr)).
(** SIZ_marker(in), 82-122 *)
Definition parse_siz : ex siz :=
  let? (p, R) := fword 0 in
  let? (p, X) := fdword p in let? (p, Y) := fdword p in let? (p, XO) := fdword p in let? (p, YO) := fdword p in
  let? (p, XT) := fdword p in let? (p, YT) := fdword p in let? (p, XTO) := fdword p in let? (p, YTO) := fdword p in
  let? (p, C) := fword p in
  if (C <? 1) || (16384 <? C) then throw else
  if lmar <? (38 + 3 * C) mod 65536 then throw else
  let? (p, l) := loop C siz_comp p in
  ret (Siz R X Y XO YO XT YT XTO YTO C l).

(** CAP_marker(in), 244-268: Pcap and the 32 Ccap.  [n] is unsigned long. *)
Record cap := Cap { Pcap : Z; Ccap : list Z }.
Fixpoint cap_loop (is : list Z) (P n p : Z) : ex (Z * list Z) :=
  match is with
  | [] => ret (n, [])
  | i :: is =>
    if Z.testbit P (31 - i)
    then let? (p, w) := fword p in let? (n, l) := cap_loop is P (wrap64 (n - 1)) p in ret (n, w :: l)
    else let? (n, l) := cap_loop is P n p in ret (n, 0 :: l)
  end.
Definition parse_cap : ex cap :=
  let n := wrap32 (lmar - 6) / 2 in
  let? (p, P) := fdword 0 in
  let? (n, l) := cap_loop (zseq 32) P n p in
  if n =? 0 then ret (Cap P l) else throw.

(** CPF_marker(in), 308-322 *)
Definition parse_cpf : ex (list Z) :=
  let? (_, l) := loop (wrap64 (lmar - 2) / 2) fword 0 in ret l.
(** PRF_marker(in), 329-345: Pprf and PRFnum *)
Definition prfnum (l : list Z) : Z :=
  fold_left (fun n (iw : Z * Z) => if 16 * fst iw <? 64 then wrap64 (n + wrap64 (snd iw <<b (16 * fst iw))) else n) (combine (zseq (zlen l)) l) 4095.
Definition parse_prf : ex (list Z * Z) :=
  let? (_, l) := loop (wrap32 (lmar - 2) / 2) fword 0 in ret (l, prfnum l).

(** COD_marker(in), 350-377.  SPcod has five entries at least. *)
Record cod := Cod { Scod : Z; SGcod : Z; SPcod : list Z }.
Definition at_least_5 (l : list Z) : list Z := l ++ repeat 0 (Z.to_nat (5 - zlen l)).
Definition parse_cod : ex cod :=
  let? (p, st) := fbyte 0 in
  let? (p, SG) := fdword p in
  (* resize() to a size_t made of a negative number throws *)
  if lmar - 7 <? 0 then throw else
  let? (_, l) := loop (lmar - 7) fbyte p in
  let SP := at_least_5 l in
  if 32 <? znth 0 SP 0 then throw else ret (Cod st SG SP).

(** The component index of COC, RGN, QCC: 509-516, 588-595, 1088-1095 *)
Definition comp_index (C : Z) (p : Z) : ex (Z * Z) := if C <? 257 then fbyte p else fword p.
Definition comp_len (C : Z) : Z := if C <? 257 then 3 else 4.
(** COC_marker(in, Csiz), 504-528: SPcoc starts empty *)
Record coc := Coc { Ccoc : Z; Scoc : Z; SPcoc : list Z }.
Definition parse_coc (C : Z) : ex coc :=
  let? (p, c) := comp_index C 0 in
  let? (p, st) := fbyte p in
  let? (_, l) := loop (wrap64 (lmar - (comp_len C + 1))) fbyte p in
  ret (Coc c st l).

(** RGN_marker(in, Csiz), 583-603 *)
Record rgn := Rgn { Crgn : Z; Srgn : Z; SPrgn : Z }.
Definition parse_rgn (C : Z) : ex rgn :=
  let? (p, c) := comp_index C 0 in
  let? (p, st) := fbyte p in
  let? (_, SP) := fbyte p in
  ret (Rgn c st SP).

(** DFS_marker(in), 612-655: Sdfs, Ids, Ddfs; the derived tables are not kept *)
Record dfs := Dfs { Sdfs : Z; Ids : Z; Ddfs : list Z }.
Definition quarters (b : Z) : list Z := [(b >>b 6) &b 3; (b >>b 4) &b 3; (b >>b 2) &b 3; b &b 3].
Definition parse_dfs : ex dfs :=
  let? (p, st) := fword 0 in
  let? (p, ids) := fbyte p in
  if 32 <? ids then throw else
  let? (_, l) := loop ((ids + 3) / 4) fbyte p in
  ret (Dfs st ids (ztake ids (flat_map quarters l))).

(** ATK_marker(in), 690-712: floats are kept as their bits *)
Record atk := Atk { Satk : Z; Katk : option Z; Natk : Z; Steps : list (Z * Z) }.
Definition atk_step (p : Z) : ex (Z * (Z * Z)) :=
  let? (p, m) := fbyte p in let? (p, a) := fdword p in ret (p, (m, a)).
Definition parse_atk : ex atk :=
  let? (p, st) := fword 0 in
  if Z.testbit st 12 then let? (_, n) := fbyte p in ret (Atk st None n [])
  else
    let? (p, K) := fdword p in
    let? (p, n) := fbyte p in
    let? (_, l) := loop n atk_step p in
    ret (Atk st (Some K) n l).

(** QCD_marker(in), 888-912 *)
Record qcd := Qcd { Sqcd : Z; SPqcd : list Z }.
Definition parse_qcd : ex qcd :=
  let? (p, st) := fbyte 0 in
  if st &b 31 =? 0 then
    if lmar - 3 <? 0 then throw else let? (_, l) := loop (lmar - 3) fbyte p in ret (Qcd st l)
  else
    if lmar - 3 <? 0 then throw else let? (_, l) := loop ((lmar - 3) / 2) fword p in ret (Qcd st l).

(** QCC_marker(in, Csiz), 1083-1119; the division of 1110 is of ints *)
Record qcc := Qcc { Cqcc : Z; Sqcc : Z; SPqcc : list Z }.
Definition parse_qcc (C : Z) : ex qcc :=
  let? (p, c) := comp_index C 0 in
  let? (p, st) := fbyte p in
  let len := comp_len C + 1 in
  if st &b 31 =? 0 then let? (_, l) := loop (wrap64 (lmar - len)) fbyte p in ret (Qcc c st l)
  else let? (_, l) := loop (wrap64 (Z.quot (lmar - len) 2)) fword p in ret (Qcc c st l).

(** POC_marker(in, Csiz), 1193-1253: RSpoc, CSpoc, LYEpoc, REpoc, CEpoc, Ppoc *)
Record poc := Poc { RSpoc : Z; CSpoc : Z; LYEpoc : Z; REpoc : Z; CEpoc : Z; Ppoc : Z }.
Definition poc_entry (C : Z) (p : Z) : ex (Z * poc) :=
  let? (p, rs) := fbyte p in let? (p, cs) := comp_index C p in let? (p, lye) := fword p in
  let? (p, re) := fbyte p in let? (p, ce) := comp_index C p in let? (p, po) := fbyte p in
  ret (p, Poc rs cs lye re ce po).
Definition parse_poc (C : Z) : ex (list poc) :=
  let? (_, l) := loop (if C <? 257 then (lmar - 2) / 7 else (lmar - 2) / 9) (poc_entry C) 0 in ret l.

(** TLM_marker(in), 1277-1337: Ztlm, Stlm and the entries; divisions of ints *)
Record tlm := Tlm { Ztlm : Z; Stlm : Z; Ttlm : list Z; Ptlm : list Z }.
Definition tlm_ST (st : Z) : Z := (st >>b 4) &b 3.
Definition tlm_SP (st : Z) : Z := ((st >>b 4) &b 12) >>b 2.
Definition tlm_entry (ST SP : Z) (p : Z) : ex (Z * (list Z * Z)) :=
  let? (p, t) := (if ST =? 1 then let? (p, b) := fbyte p in ret (p, [b])
                  else if ST =? 2 then let? (p, w) := fword p in ret (p, [w]) else ret (p, [])) in
  let? (p, v) := (if SP =? 0 then fword p else fdword p) in
  ret (p, (t, v)).
Definition parse_tlm : ex tlm :=
  let? (p, Zt) := fbyte 0 in
  let? (p, st) := fbyte p in
  let ST := tlm_ST st in let SP := tlm_SP st in
  let n := if ST =? 0 then (if SP =? 0 then Z.quot (lmar - 4) 2 else Z.quot (lmar - 4) 4)
           else if ST =? 1 then (if SP =? 0 then Z.quot (lmar - 4) 3 else Z.quot (lmar - 4) 5)
           else (if SP =? 0 then Z.quot (lmar - 4) 4 else Z.quot (lmar - 4) 6) in
  let? (_, l) := loop (wrap64 n) (tlm_entry ST SP) p in
  ret (Tlm Zt st (flat_map fst l) (map snd l)).

(** PLM 1372-1383, PPM 1390-1400, PLT 1539-1549, PPT 1556-1565: the index,
    where the bytes start (from buf) and how many there are said to be *)
Definition parse_raw : ex (Z * Z * Z) :=
  let? (p, z) := fbyte 0 in ret (z, p, (lmar - 3) mod 65536).

(** CRG_marker(in), 1410-1426 *)
Definition crg_entry (p : Z) : ex (Z * (Z * Z)) := let? (p, x) := fword p in let? (p, y) := fword p in ret (p, (x, y)).
Definition parse_crg : ex (list (Z * Z)) := let? (_, l) := loop ((lmar - 2) / 4) crg_entry 0 in ret l.

(** COM_marker(in), 1431-1447 *)
Record com := Com { Rcom : Z; Ccom : list Z }.
Definition parse_com : ex com :=
  let? (p, R) := fword 0 in
  let? (_, l) := loop (wrap64 (lmar - 4)) fbyte p in
  ret (Com R l).

(** SOT_marker(in), 1493-1496, after the test of Lmar *)
Record sot := Sot { Isot : Z; Psot : Z; TPsot : Z; TNsot : Z }.
Definition parse_sot : ex sot :=
  let? (p, i) := fword 0 in let? (p, l) := fdword p in let? (p, a) := fbyte p in let? (p, n) := fbyte p in
  ret (Sot i l a n).
End Fields.

(** ** The main header *)

(** What has been read, in order.  Offsets of packed packet headers and packet
    lengths are from the start of the buffer. *)
Inductive seg :=
| SSiz (x : siz) | SCap (x : cap) | SPrf (x : list Z * Z) | SCod (x : cod) | SCoc (x : coc) | STlm (x : tlm)
| SPlm (x : Z * Z * Z) | SCpf (x : list Z) | SQcd (x : qcd) | SQcc (x : qcc) | SRgn (x : rgn) | SPoc (x : list poc)
| SPpm (x : Z * Z * Z) | SCrg (x : list (Z * Z)) | SCom (x : com) | SDfs (x : dfs) | SAtk (x : atk)
| SPlt (x : Z * Z * Z) | SPpt (x : Z * Z * Z).

(** j2k_main_header: the pointers (SIZ, CAP, PRF, COD, CPF, QCD, POC, CRG) point
    to the last segment of their kind since the object was made, the vectors
    hold those of the last read() (1664-1682).  [ppm] is ppm_header: the pieces
    of the chain. *)
Record hdr := Hdr { before : list seg; now : list seg; ppm : option (list (list Z)) }.
Definition hdr0 : hdr := Hdr [] [] None.
Fixpoint last_of {A} (f : seg -> option A) (l : list seg) : option A :=
  match l with
  | [] => None
  | s :: l => match last_of f l with Some a => Some a | None => f s end
  end.
Fixpoint all_of {A} (f : seg -> option A) (l : list seg) : list A :=
  match l with
  | [] => []
  | s :: l => match f s with Some a => a :: all_of f l | None => all_of f l end
  end.
Definition h_ptr {A} (f : seg -> option A) (h : hdr) : option A := last_of f (before h ++ now h).
Definition is_siz s := match s with SSiz x => Some x | _ => None end.
Definition is_cap s := match s with SCap x => Some x | _ => None end.
Definition is_prf s := match s with SPrf x => Some x | _ => None end.
Definition is_cod s := match s with SCod x => Some x | _ => None end.
Definition is_coc s := match s with SCoc x => Some x | _ => None end.
Definition is_tlm s := match s with STlm x => Some x | _ => None end.
Definition is_cpf s := match s with SCpf x => Some x | _ => None end.
Definition is_qcd s := match s with SQcd x => Some x | _ => None end.
Definition is_qcc s := match s with SQcc x => Some x | _ => None end.
Definition is_rgn s := match s with SRgn x => Some x | _ => None end.
Definition is_poc s := match s with SPoc x => Some x | _ => None end.
Definition is_ppm s := match s with SPpm x => Some x | _ => None end.
Definition is_crg s := match s with SCrg x => Some x | _ => None end.
Definition is_com s := match s with SCom x => Some x | _ => None end.
Definition is_ppt s := match s with SPpt x => Some x | _ => None end.
Definition h_siz (h : hdr) := h_ptr is_siz h.
Definition h_cap (h : hdr) := h_ptr is_cap h.
Definition h_cod (h : hdr) := h_ptr is_cod h.
Definition h_qcd (h : hdr) := h_ptr is_qcd h.
Definition h_poc (h : hdr) := h_ptr is_poc h.
Definition h_coc (h : hdr) := all_of is_coc (now h).
Definition h_qcc (h : hdr) := all_of is_qcc (now h).
Definition h_rgn (h : hdr) := all_of is_rgn (now h).
Definition h_tlm (h : hdr) := all_of is_tlm (now h).
Definition h_com (h : hdr) := all_of is_com (now h).

(** Markers the main header's switch knows (1688-1755); [C] is the component
    count when SIZ has been set. *)
Definition with_C {A} (C : option Z) (f : Z -> ex A) : ex A := match C with Some c => f c | None => throw end.
Definition smap {A} (k : A -> seg) (m : ex A) : ex seg := let? a := m in ret (k a).
Definition raw_at (base : Z) (x : Z * Z * Z) : Z * Z * Z := let '(z, p, n) := x in (z, base + p, n).
Definition main_parser (w : Z) (C : option Z) : option (Z -> Z -> list Z -> ex seg) :=
  if w =? M_SIZ then Some (fun lmar _ g => smap SSiz (parse_siz lmar g)) else
  if w =? M_CAP then Some (fun lmar _ g => smap SCap (parse_cap lmar g)) else
  if w =? M_PRF then Some (fun lmar _ g => smap SPrf (parse_prf lmar g)) else
  if w =? M_COD then Some (fun lmar _ g => smap SCod (parse_cod lmar g)) else
  if w =? M_COC then Some (fun lmar _ g => with_C C (fun C => smap SCoc (parse_coc lmar g C))) else
  if w =? M_TLM then Some (fun lmar _ g => smap STlm (parse_tlm lmar g)) else
  if w =? M_PLM then Some (fun lmar base g => smap (fun x => SPlm (raw_at base x)) (parse_raw lmar g)) else
  if w =? M_CPF then Some (fun lmar _ g => smap SCpf (parse_cpf lmar g)) else
  if w =? M_QCD then Some (fun lmar _ g => smap SQcd (parse_qcd lmar g)) else
  if w =? M_QCC then Some (fun lmar _ g => with_C C (fun C => smap SQcc (parse_qcc lmar g C))) else
  if w =? M_RGN then Some (fun lmar _ g => with_C C (fun C => smap SRgn (parse_rgn lmar g C))) else
  if w =? M_POC then Some (fun lmar _ g => with_C C (fun C => smap SPoc (parse_poc lmar g C))) else
  if w =? M_PPM then Some (fun lmar base g => smap (fun x => SPpm (raw_at base x)) (parse_raw lmar g)) else
  if w =? M_CRG then Some (fun lmar _ g => smap SCrg (parse_crg lmar g)) else
  if w =? M_COM then Some (fun lmar _ g => smap SCom (parse_com lmar g)) else
  if w =? M_DFS then Some (fun lmar _ g => smap SDfs (parse_dfs lmar g)) else
  if w =? M_ATK then Some (fun lmar _ g => smap SAtk (parse_atk lmar g)) else None.

(** The default case, 1756-1766 and 1883-1895: the source, and how many bytes
    the caller counts for the segment *)
Definition skip_unknown (s : src) (w : Z) : ex (src * Z) :=
  if (w <? 65328) || (65343 <? w) then
    let? (s, L) := lift (SourceModel.get_word s) in
    if 2 <=? L then let? (s, _) := lift (forward_Nbytes s (L - 2)) in ret (s, L) else ret (s, L)
  else ret (s, 0).

(** The loop of read(), 1687-1768 *)
Fixpoint read_segments (fuel : nat) (s : src) (h : hdr) : ex (src * hdr) :=
  match fuel with
  | O => NoFuel
  | S fuel =>
    let? (s, w) := lift (SourceModel.get_word s) in
    if w =? M_SOT then ret (s, h) else
    match main_parser w (option_map Csiz (h_siz h)) with
    | Some parse =>
      let? (s, (lmar, base, g)) := open_segment s in
      let? x := parse lmar base g in
      read_segments fuel s (Hdr (before h) (now h ++ [x]) (ppm h))
    | None => let? (s, _) := skip_unknown s w in read_segments fuel s h
    end
  end.

(** The packed packet headers, 1769-1802: the bytes of all PPM segments in
    order (1770-1780), cut into pieces of announced length. *)
Fixpoint ppm_bytes (d : list Z) (l : list (Z * Z * Z)) : out (list Z) :=
  match l with
  | [] => Ret []
  | (_, p, n) :: l =>
    if p + n <=? zlen d then let* rest := ppm_bytes d l in Ret (ztake n (zskip p d) ++ rest) else UB
  end.
Fixpoint ppm_pieces (fuel : nat) (b : list Z) : ex (list (list Z)) :=
  match b with
  | b0 :: b1 :: b2 :: b3 :: r =>
    match fuel with
    | O => NoFuel
    | S fuel =>
      let n := wrap32 ((wrap32 ((wrap32 ((b0 <<b 8) + b1) <<b 8) + b2) <<b 8) + b3) in
      if zlen r <? n then throw else let? l := ppm_pieces fuel (zskip n r) in ret (ztake n r :: l)
    end
  | _ => ret []
  end.

(** j2k_main_header::read, j2kmarkers.cpp:1664-1805 *)
Definition read_header (s : src) (h : hdr) : ex (src * hdr) :=
  let? (s, _) := lift (SourceModel.get_word s) in
  let? (s, h) := read_segments (S (length (mem s))) s (Hdr (before h ++ now h) [] None) in
  match all_of is_ppm (now h) with
  | [] => ret (s, h)
  | l =>
    let* b := ppm_bytes (mem s) l in
    let? pcs := ppm_pieces (S (length b)) b in
    ret (s, Hdr (before h) (now h) (Some pcs))
  end.
(** openhtj2k_decoder_impl::parse, interface/decoder.cpp:282-294 *)
Definition parse_main (s : src) (h : hdr) : ex (src * hdr) :=
  let? (s, h) := read_header s h in
  let? (s, _) := lift (rewind_2bytes s) in
  ret (s, h).

(** ** What the readers are asked for *)

(** SIZ_marker::is_signed 172-179, get_bitdepth 181-184 *)
Definition is_signed (x : Z * Z * Z) : bool := let '(sg, _, _) := x in Z.testbit sg 7.
Definition get_bitdepth (x : Z * Z * Z) : Z := let '(sg, _, _) := x in (sg &b 127) + 1.
(** COD_marker, 445-493; COC_marker, 530-572 *)
Definition is_maximum_precincts (c : cod) : bool := Scod c &b 1 =? 0.
Definition is_use_SOP (c : cod) : bool := negb (Scod c &b 2 =? 0).
Definition is_use_EPH (c : cod) : bool := negb (Scod c &b 4 =? 0).
Definition get_progression_order (c : cod) : Z := (SGcod c >>b 24) mod 256.
Definition get_number_of_layers (c : cod) : Z := (SGcod c >>b 8) &b 65535.
Definition use_color_trafo (c : cod) : Z := SGcod c &b 255.
(** SPcod[i] *)
Definition sp (l : list Z) (i : Z) : out Z := rd l i.
Definition get_dwt_levels (c : cod) : out Z := sp (SPcod c) 0.
Definition codeblock_size (l : list Z) : ex (Z * Z) :=
  let* x := sp l 1 in
  let* y := sp l 2 in
  if (8 <? x) || (8 <? y) || (8 <? x + y) then throw else ret (1 <<b (x + 2), 1 <<b (y + 2)).
Definition get_codeblock_size (c : cod) : ex (Z * Z) := codeblock_size (SPcod c).
Definition precinct_size (max : bool) (l : list Z) (r : Z) : ex (Z * Z) :=
  if max then ret (15, 15) else
  if zlen l <=? 5 + r then throw else
  let* b := sp l (5 + r) in ret (b &b 15, (b &b 240) >>b 4).
Definition get_precinct_size (c : cod) (r : Z) : ex (Z * Z) := precinct_size (is_maximum_precincts c) (SPcod c) r.
Definition get_Cmodes (c : cod) : out Z := sp (SPcod c) 3.
Definition get_transformation (c : cod) : out Z := sp (SPcod c) 4.
(** QCD_marker, 978-1007; QCC_marker, 1143-1174 *)
Definition quant_style (st : Z) : Z := st &b 31.
Definition get_exponents (st : Z) (l : list Z) (nb : Z) : out Z :=
  if quant_style st =? 0 then let* v := rd l nb in Ret ((v >>b 3) mod 256)
  else if quant_style st =? 1 then let* v := rd l 0 in Ret ((v >>b 11) mod 256)
  else let* v := rd l nb in Ret ((v >>b 11) mod 256).
Definition get_mantissas (st : Z) (l : list Z) (nb : Z) : out Z :=
  if quant_style st =? 1 then let* v := rd l 0 in Ret (v &b 2047) else let* v := rd l nb in Ret (v &b 2047).
Definition get_number_of_guardbits (st : Z) : Z := st >>b 5.
(** get_MAGB, 1009-1020 *)
Definition get_MAGB (q : qcd) : Z :=
  let style := quant_style (Sqcd q) in
  fold_left (fun t v => if style =? 0 then (if t <? v >>b 3 then (v >>b 3) mod 256 else t) else (if v >>b 11 <? t then (v >>b 11) mod 256 else t))
    (SPqcd q) (if 0 <? style then 255 else 0).

(** ** Writing *)

(** j2c_dst_memory::put_byte, put_word, put_dword, codestream_destination.cpp:35-55 *)
Definition w8 (v : Z) : list Z := [v mod 256].
Definition w16 (v : Z) : list Z := [(v >>b 8) mod 256; v mod 256].
Definition w32 (v : Z) : list Z := [(v >>b 24) mod 256; (v >>b 16) mod 256; (v >>b 8) mod 256; v mod 256].

(** a component in SIZ_marker::write, j2kmarkers.cpp:164-168 *)
Definition comp_bytes (c : Z * Z * Z) : list Z := let '(sg, xr, yr) := c in w8 sg ++ w8 xr ++ w8 yr.
(** SIZ_marker::write, j2kmarkers.cpp:147-170, with Lmar of 138 *)
Definition write_siz (x : siz) : list Z :=
  w16 M_SIZ ++ w16 (38 + 3 * Csiz x) ++ w16 (Rsiz x) ++ w32 (Xsiz x) ++ w32 (Ysiz x) ++ w32 (XOsiz x) ++ w32 (YOsiz x)
  ++ w32 (XTsiz x) ++ w32 (YTsiz x) ++ w32 (XTOsiz x) ++ w32 (YTOsiz x) ++ w16 (Csiz x)
  ++ flat_map comp_bytes (Comps x).
(** CAP_marker::write, j2kmarkers.cpp:290-301; Lmar is 6 and 2 more for each set_Ccap (277-288),
    each for a different part *)
Definition write_cap_parts (on : list Z) (x : cap) : list Z :=
  w16 M_CAP ++ w16 (6 + 2 * zlen on) ++ w32 (Pcap x) ++ flat_map (fun i => w16 (znth 0 (Ccap x) i)) on.
Definition write_cap (x : cap) : list Z := write_cap_parts (filter (fun i => Z.testbit (Pcap x) (31 - i)) (zseq 32)) x.
(** COD_marker::write, j2kmarkers.cpp:433-443 *)
Definition write_cod (L : Z) (x : cod) : list Z :=
  w16 M_COD ++ w16 L ++ w8 (Scod x) ++ w32 (SGcod x) ++ flat_map w8 (SPcod x).
(** QCD_marker::write, j2kmarkers.cpp:960-976 *)
Definition write_qcd (reversible : bool) (L : Z) (x : qcd) : list Z :=
  w16 M_QCD ++ w16 L ++ w8 (Sqcd x) ++ flat_map (if reversible then w8 else w16) (SPqcd x).
(** QCC_marker::write, j2kmarkers.cpp:1121-1142 *)
Definition write_qcc (C : Z) (reversible : bool) (L : Z) (x : qcc) : list Z :=
  w16 M_QCC ++ w16 L ++ (if C <? 257 then w8 (Cqcc x) else w16 (Cqcc x)) ++ w8 (Sqcc x)
  ++ flat_map (if reversible then w8 else w16) (SPqcc x).
(** TLM_marker::write, j2kmarkers.cpp:1350-1365 *)
Definition write_tlm (x : tlm) : list Z :=
  let ST := tlm_ST (Stlm x) in let SP := tlm_SP (Stlm x) in
  let size := (if ST =? 0 then 0 else if ST =? 1 then 1 else 2) + (if SP =? 0 then 2 else 4) in
  w16 M_TLM ++ w16 (4 + zlen (Ptlm x) * size) ++ w8 (Ztlm x) ++ w8 (Stlm x)
  ++ flat_map (fun i => (if ST =? 1 then w8 (znth 0 (Ttlm x) i) else if ST =? 2 then w16 (znth 0 (Ttlm x) i) else [])
                        ++ (if SP =? 0 then w16 (znth 0 (Ptlm x) i) else w32 (znth 0 (Ptlm x) i))) (zseq (zlen (Ptlm x))).
(** COM_marker::write, j2kmarkers.cpp:1464-1473 *)
Definition write_com (x : com) : list Z :=
  w16 M_COM ++ w16 (4 + zlen (Ccom x)) ++ w16 (Rcom x) ++ flat_map w8 (Ccom x).
(** SOT_marker::write, j2kmarkers.cpp:1514-1524, with Lmar 10; ends with SOD *)
Definition write_sot (x : sot) : list Z :=
  w16 M_SOT ++ w16 10 ++ w16 (Isot x) ++ w32 (Psot x) ++ w8 (TPsot x) ++ w8 (TNsot x) ++ w16 M_SOD.

(** *** The encoder's main header *)

(** interface/encoder.hpp:126-145 *)
Record cod_params := CodP { blkwidth : Z; blkheight : Z; p_max : bool; p_SOP : bool; p_EPH : bool; p_order : Z; p_layers : Z;
                            p_color : Z; p_levels : Z; p_style : Z; p_transf : Z; PPx : list Z; PPy : list Z }.
Record qcd_params := QcdP { p_guard : Z; p_derived : bool }.

(** COD_marker(...), 379-431.  [precinct_tmp] is tmpPP (416-424). *)
Fixpoint precinct_tmp (n : nat) (xs ys : list Z) (lx ly : Z) : list Z :=
  match n with
  | O => []
  | S n =>
    let lx := match xs with x :: _ => x | [] => lx end in
    let ly := match ys with y :: _ => y | [] => ly end in
    ((lx + (ly <<b 4)) mod 256) :: precinct_tmp n (tl xs) (tl ys) lx ly
  end.
Definition make_cod (P : cod_params) : ex (Z * cod) :=
  let L := if p_max P then 12 else 13 + p_levels P in
  let st := Z.lor (Z.lor (if p_max P then 0 else 1) (if p_SOP P then 2 else 0)) (if p_EPH P then 4 else 0) in
  let SG := wrap32 ((p_order P <<b 24) + (p_layers P <<b 8) + p_color P) in
  if negb (zlen (PPx P) =? zlen (PPy P)) then throw else
  let SP := [p_levels P; blkwidth P mod 256; blkheight P mod 256; p_style P; p_transf P] in
  let pp := if p_max P then [] else rev (precinct_tmp (Z.to_nat (p_levels P + 1)) (PPx P) (PPy P) 0 0) in
  ret (L mod 65536, Cod st SG (SP ++ pp)).

(** QCD_marker(...), j2kmarkers.cpp:914-958, QCC_marker(...), 1025-1081.  The step words come
    from floating-point formulas (build_quant_steps, j2kmarkers.cpp:760-886) and are an
    argument here; [derived] is as after 918-921. *)
Definition quant_head (reversible derived : bool) (base levels : Z) : Z * Z :=
  if reversible then (base - 1 + 3 * levels, 0) else if derived then (base, 1) else (base + 6 * levels, 2).
Definition make_qcd (Q : qcd_params) (P : cod_params) (qf : bool) (steps : list Z) : Z * qcd :=
  let '(L, st) := quant_head (p_transf P =? 1) (p_derived Q && negb qf) 5 (p_levels P) in
  (L mod 65536, Qcd ((st + (p_guard Q <<b 5)) mod 256) steps).
Definition make_qcc (C c : Z) (guard : Z) (P : cod_params) (steps : list Z) : Z * qcc :=
  let '(L, st) := quant_head (p_transf P =? 1) false 6 (p_levels P) in
  ((if 257 <=? C then L + 1 else L) mod 65536, Qcc c ((st + (guard <<b 5)) mod 256) steps).

(** The capability segment, encoder.cpp:653-676 *)
Definition ccap15 (transf magb : Z) : Z :=
  (if transf =? 0 then 32 else 0) + (if magb <? 27 then (if 8 <? magb then magb - 8 else 0) else if magb <=? 71 then (magb - 27) / 4 + 19 else 31).
Definition make_cap (P : cod_params) (q : qcd) : cap :=
  let w := ccap15 (p_transf P) (get_MAGB q) in
  if p_order P =? 5
  then Cap (Z.lor (1 <<b 17) (1 <<b 30)) (repeat 0 1 ++ [1 <<b 14] ++ repeat 0 12 ++ [w] ++ repeat 0 17)
  else Cap (1 <<b 17) (repeat 0 14 ++ [w] ++ repeat 0 17).

(** ceil_int, common/utils.hpp:38, on uint32_t *)
Definition ceil_int (a b : Z) : out Z := if b =? 0 then UB else Ret (wrap32 (a + wrap32 (b - 1)) / b).
(** j2k_main_header::get_number_of_tiles, j2kmarkers.cpp:1807-1815 *)
Definition get_number_of_tiles (x : siz) : out (Z * Z) :=
  let* nx := ceil_int (wrap32 (Xsiz x - XTOsiz x)) (XTsiz x) in
  let* ny := ceil_int (wrap32 (Ysiz x - YTOsiz x)) (YTsiz x) in
  Ret (nx, ny).

(** The checks and changes of encoder.cpp:595-629 *)
Definition check_siz (x : siz) : ex siz :=
  if (Xsiz x <? XOsiz x) || (Ysiz x <? YOsiz x) then throw else
  if (XOsiz x <? XTOsiz x) || (YOsiz x <? YTOsiz x) then throw else
  let x := if wrap32 (XTsiz x * YTsiz x) =? 0
           then Siz (Rsiz x) (Xsiz x) (Ysiz x) (XOsiz x) (YOsiz x) (wrap32 (Xsiz x - XOsiz x)) (wrap32 (Ysiz x - YOsiz x)) (XTOsiz x) (YTOsiz x) (Csiz x) (Comps x)
           else x in
  if (wrap32 (XTOsiz x + XTsiz x) <=? XOsiz x) || (wrap32 (YTOsiz x + YTsiz x) <=? YOsiz x) then throw else ret x.
Definition same3 (f : Z * Z * Z -> Z) (l : list (Z * Z * Z)) : bool :=
  let a i := f (znth (0, 0, 0) l i) in (a 0 =? a 1) && (a 1 =? a 2).
Definition color_on (x : siz) (P : cod_params) : Z :=
  let c := p_color P in
  let c := if (Csiz x =? 3) && (c =? 1) && negb (same3 (fun t => snd (fst t)) (Comps x)) && negb (same3 snd (Comps x)) then 0 else c in
  if (Csiz x <? 3) && (c =? 1) then 0 else c.

Definition with_color (P : cod_params) (c : Z) : cod_params :=
  CodP (blkwidth P) (blkheight P) (p_max P) (p_SOP P) (p_EPH P) (p_order P) (p_layers P) c (p_levels P) (p_style P) (p_transf P) (PPx P) (PPy P).

(** The text "OpenHTJ2K version 0", encoder.cpp:680 *)
Definition com_text : list Z := [79; 112; 101; 110; 72; 84; 74; 50; 75; 32; 118; 101; 114; 115; 105; 111; 110; 32; 48].

(** SOC and the main header, encoder.cpp:591-717 with j2k_main_header's
    constructor (1582-1614) and flush (1618-1662): sizes, coding and
    quantisation parameters, the step words for QCD and, with a quality
    factor, for the QCC of each further component, and the tile-part lengths
    of a codestream with several tiles. *)
Definition encoder_header (x0 : siz) (P0 : cod_params) (Q : qcd_params) (qf : bool) (steps : list Z) (csteps : list (list Z))
    (lengths : list Z) : ex (list Z) :=
  let? x1 := check_siz x0 in
  let P := with_color P0 (color_on x1 P0) in
  let x := Siz (Z.lor (Rsiz x1) 16384) (Xsiz x1) (Ysiz x1) (XOsiz x1) (YOsiz x1) (XTsiz x1) (YTsiz x1) (XTOsiz x1) (YTOsiz x1) (Csiz x1) (Comps x1) in
  let? (Lc, c) := make_cod P in
  let '(Lq, q) := make_qcd Q P qf steps in
  let? qccs := (if qf then
                  if (Csiz x =? 3) || (Csiz x =? 1) then
                    ret (map (fun i => make_qcc (Csiz x) (i + 1) (get_number_of_guardbits (Sqcd q)) P (znth [] csteps i)) (zseq (Csiz x - 1)))
                  else throw
                else ret []) in
  let* (nx, ny) := get_number_of_tiles x in
  let n := wrap32 (nx * ny) in
  if 65535 <? n then throw else
  let rev := p_transf P =? 1 in
  ret (w16 M_SOC ++ write_siz x ++ write_cap (make_cap P q) ++ write_cod Lc c ++ write_qcd rev Lq q
       ++ flat_map (fun y : Z * qcc => write_qcc (Csiz x) rev (fst y) (snd y)) qccs
       ++ (if 1 <? n then write_tlm (Tlm 0 96 (map (fun i => i mod 65536) (zseq n)) lengths) else [])
       ++ write_com (Com 1 com_text)).
