(** What a sequence of tile-parts is, after Rec. ITU-T T.800, A.4.2 (SOT), A.4.3
    (SOD), A.6-A.9 (the segments a tile-part header may hold), and what reading
    one back means.  Only the types of read segments are the model's. *)
From Coq Require Import Permutation.
From Verif Require Import Base MarkerModel MarkerSpec TileModel.

Definition be16 (v : Z) : list Z := [v / 256; v mod 256].
Definition be32 (v : Z) : list Z := be16 (v / 65536) ++ be16 (v mod 65536).

(** A segment of a tile-part header.  [HOther] is one with a marker that such a
    header does not know; [HBare] is one of the markers without a segment. *)
Inductive hseg :=
| HCod (x : cod) | HCoc (x : coc) | HQcd (x : qcd) | HQcc (x : qcc) | HRgn (x : rgn) | HPoc (l : list poc)
| HPlt (z : Z) (b : list Z) | HPpt (z : Z) (b : list Z) | HCom (x : com) | HOther (code : Z) (b : list Z) | HBare (code : Z).

(** A component number takes one byte when there are fewer than 257. *)
Definition comp (C c : Z) : list Z := if C <? 257 then [c] else be16 c.
(** Step sizes: bytes without quantisation, words with. *)
Definition steps (st : Z) (l : list Z) : list Z := if st mod 32 =? 0 then l else flat_map be16 l.
Definition order_change (C : Z) (p : poc) : list Z :=
  [RSpoc p] ++ comp C (CSpoc p) ++ be16 (LYEpoc p) ++ [REpoc p] ++ comp C (CEpoc p) ++ [Ppoc p].
Definition hseg_code (h : hseg) : Z :=
  match h with
  | HCod _ => 65362 | HCoc _ => 65363 | HQcd _ => 65372 | HQcc _ => 65373 | HRgn _ => 65374 | HPoc _ => 65375
  | HPlt _ _ => 65368 | HPpt _ _ => 65377 | HCom _ => 65380 | HOther code _ => code | HBare code => code
  end.
Definition hseg_data (C : Z) (h : hseg) : list Z :=
  match h with
  | HCod x => [Scod x] ++ be32 (SGcod x) ++ SPcod x
  | HCoc x => comp C (Ccoc x) ++ [Scoc x] ++ SPcoc x
  | HQcd x => [Sqcd x] ++ steps (Sqcd x) (SPqcd x)
  | HQcc x => comp C (Cqcc x) ++ [Sqcc x] ++ steps (Sqcc x) (SPqcc x)
  | HRgn x => comp C (Crgn x) ++ [Srgn x; SPrgn x]
  | HPoc l => flat_map (order_change C) l
  | HPlt z b => z :: b
  | HPpt z b => z :: b
  | HCom x => be16 (Rcom x) ++ Ccom x
  | HOther _ b => b
  | HBare _ => []
  end.
(** Marker, length including its own two bytes, data. *)
Definition hseg_bytes (C : Z) (h : hseg) : list Z :=
  match h with
  | HBare code => be16 code
  | _ => be16 (hseg_code h) ++ be16 (2 + zlen (hseg_data C h)) ++ hseg_data C h
  end.

Definition in_comp (C c : Z) : Prop := if C <? 257 then in_byte c else in_word c.
Definition steps_fit (st : Z) (l : list Z) : Prop := in_byte st /\ Forall (if st mod 32 =? 0 then in_byte else in_word) l.
Definition poc_fits (C : Z) (p : poc) : Prop :=
  in_byte (RSpoc p) /\ in_comp C (CSpoc p) /\ in_word (LYEpoc p) /\ in_byte (REpoc p) /\ in_comp C (CEpoc p) /\ in_byte (Ppoc p).
(** Every field fits its place, and the segment its length field. *)
Definition hseg_fits (C : Z) (h : hseg) : Prop :=
  zlen (hseg_data C h) < 65534 /\
  match h with
  | HCod x => in_byte (Scod x) /\ in_dword (SGcod x) /\ Forall in_byte (SPcod x) /\ 5 <= zlen (SPcod x) /\ znth 0 (SPcod x) 0 <= 32
  | HCoc x => in_comp C (Ccoc x) /\ in_byte (Scoc x) /\ Forall in_byte (SPcoc x)
  | HQcd x => steps_fit (Sqcd x) (SPqcd x)
  | HQcc x => in_comp C (Cqcc x) /\ steps_fit (Sqcc x) (SPqcc x)
  | HRgn x => in_comp C (Crgn x) /\ in_byte (Srgn x) /\ in_byte (SPrgn x)
  | HPoc l => Forall (poc_fits C) l
  | HPlt z b => in_byte z
  | HPpt z b => in_byte z
  | HCom x => in_word (Rcom x) /\ Forall in_byte (Ccom x)
  | HOther code b => in_word code /\ ~ 65328 <= code <= 65343
      /\ ~ In code [65362; 65363; 65368; 65372; 65373; 65374; 65375; 65377; 65380; 65427]
  | HBare code => 65328 <= code <= 65343
  end.

(** A tile-part. *)
Record part := Part { p_tile : Z; p_index : Z; p_count : Z; p_header : list hseg; p_body : list Z }.
(** From SOT to SOD; the length field counts from SOT to the end of the body, or
    is 0 for a last tile-part that goes up to EOC. *)
Definition part_head (C : Z) (psot : Z) (p : part) : list Z :=
  [255; 144; 0; 10] ++ be16 (p_tile p) ++ be32 psot ++ [p_index p; p_count p] ++ flat_map (hseg_bytes C) (p_header p) ++ [255; 147].
Definition part_size (C : Z) (p : part) : Z := zlen (part_head C 0 p) + zlen (p_body p).
Definition part_bytes (C : Z) (p : part) : list Z := part_head C (part_size C p) p ++ p_body p.
Definition part_fits (C : Z) (p : part) : Prop :=
  in_word (p_tile p) /\ in_byte (p_index p) /\ in_byte (p_count p) /\ Forall (hseg_fits C) (p_header p).

(** The bytes [p, p + n) of the buffer are [b]. *)
Definition window (d : list Z) (p n : Z) (b : list Z) : Prop := n = zlen b /\ 0 <= p /\ p + n <= zlen d /\ ztake n (zskip p d) = b.
(** What is found in the buffer [d] is what was written. *)
Definition seg_found (d : list Z) (h : hseg) (x : seg) : Prop :=
  match h, x with
  | HCod c, SCod c' => c' = c | HCoc c, SCoc c' => c' = c | HQcd q, SQcd q' => q' = q | HQcc q, SQcc q' => q' = q
  | HRgn r, SRgn r' => r' = r | HPoc l, SPoc l' => l' = l | HCom c, SCom c' => c' = c
  | HPlt z b, SPlt (z', p, n) => z' = z /\ window d p n b
  | HPpt z b, SPpt (z', p, n) => z' = z /\ window d p n b
  | _, _ => False
  end.
(** Segments of unknown kind leave nothing. *)
Fixpoint header_found (d : list Z) (l : list hseg) (xs : list seg) : Prop :=
  match l with
  | [] => xs = []
  | HOther _ _ :: l => header_found d l xs
  | HBare _ :: l => header_found d l xs
  | h :: l => match xs with [] => False | x :: xs => seg_found d h x /\ header_found d l xs end
  end.
Definition part_found (d : list Z) (p : part) (t : tile_part) : Prop :=
  Isot (tp_sot t) = p_tile p /\ TPsot (tp_sot t) = p_index p /\ TNsot (tp_sot t) = p_count p
  /\ header_found d (p_header p) (tp_segs t) /\ window d (tp_body t) (tp_len t) (p_body p).

(** The tile grid a header announces: at least one tile, no wider than 32 bits
    allow, and no more tiles than can be numbered. *)
Definition cdiv (a b : Z) : Z := (a + b - 1) / b.
Definition grid (x : siz) : Z := cdiv (Xsiz x - XTOsiz x) (XTsiz x) * cdiv (Ysiz x - YTOsiz x) (YTsiz x).
Definition grid_ok (x : siz) : Prop :=
  0 <= XTOsiz x < Xsiz x /\ 0 <= YTOsiz x < Ysiz x /\ 1 <= XTsiz x /\ 1 <= YTsiz x
  /\ Xsiz x + XTsiz x < 4294967296 /\ Ysiz x + YTsiz x < 4294967296 /\ grid x <= 65535.
(** A header with what every codestream has. *)
Definition header_ok (h : hdr) (x : siz) : Prop := h_siz h = Some x /\ grid_ok x /\ h_cod h <> None /\ h_qcd h <> None.

(** Tile-parts that lie one behind the other in [from, upto). *)
Fixpoint laid_out (from : Z) (l : list tile_part) (upto : Z) : Prop :=
  match l with
  | [] => from <= upto
  | t :: l => from + 14 <= tp_body t /\ 0 <= tp_len t /\ laid_out (tp_body t + tp_len t) l upto
  end.
(** Packed packet headers that lie in the first [n] bytes. *)
Definition packed_in (n : Z) (t : tile_part) : Prop :=
  Forall (fun x => match x with SPpt (_, p, k) => 0 <= p /\ 0 <= k /\ p + k <= n | _ => True end) (tp_segs t).

(** The packets of an encoded tile, each perhaps behind an SOP marker segment
    (A.8.1) with the packet's number, in the order in which they are sent. *)
Fixpoint sent (with_sop : bool) (k : Z) (l : list (list Z)) : list Z :=
  match l with
  | [] => []
  | b :: l => (if with_sop then [255; 145; 0; 4] ++ be16 (k mod 65536) else []) ++ b ++ sent with_sop (k + 1) l
  end.
(** Every precinct is sent once. *)
Definition each_once (t : coded_tile) : Prop := Permutation (walk t) (zseq (zlen (precincts t))).
Definition sent_packets (t : coded_tile) : list Z := sent (sop t) 0 (map (znth [] (precincts t)) (walk t)).
(** A tile sent in one tile-part with an empty header. *)
Definition sent_part (i : Z) (t : coded_tile) : part := Part i 0 1 [] (sent_packets t).
Fixpoint sent_parts (i : Z) (l : list coded_tile) : list part :=
  match l with [] => [] | t :: l => sent_part i t :: sent_parts (i + 1) l end.
