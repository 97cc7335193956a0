(** What a codestream is, and where its parts are. *)
From Verif Require Import Base Be WalkerModel.

(** A marker segment: the marker code, its length field, its payload. *)
Record seg := Seg { sg_marker : Z; sg_payload : list Z }.
Definition seg_bytes (s : seg) : list Z := be16 (sg_marker s) ++ be16 (2 + zlen (sg_payload s)) ++ sg_payload s.
(** The markers that stand alone, without a length (Rec. ITU-T T.800, A.1):
    FF30 to FF3F, SOC, EPH, SOD, EOC. *)
Definition stands_alone (m : Z) : Prop :=
  65328 <= m <= 65343 \/ In m [65359; 65426; 65427; 65497].
Definition seg_ok (s : seg) : Prop :=
  65280 <= sg_marker s < 65536 /\ ~ stands_alone (sg_marker s) /\ 2 + zlen (sg_payload s) < 65536.

(** A tile-part: tile, index, count, the segments of its header, its data. *)
Record part := Part { pt_tile : Z; pt_idx : Z; pt_cnt : Z; pt_segs : list seg; pt_body : list Z }.
Definition segs_bytes (l : list seg) : list Z := concat (map seg_bytes l).
Definition part_len (p : part) : Z := 12 + zlen (segs_bytes (pt_segs p)) + 2 + zlen (pt_body p).
Definition part_bytes (p : part) : list Z :=
  be16 SOT ++ be16 10 ++ be16 (pt_tile p) ++ be32 (part_len p) ++ [pt_idx p; pt_cnt p]
  ++ segs_bytes (pt_segs p) ++ be16 SOD ++ pt_body p.
Definition part_ok (p : part) : Prop :=
  0 <= pt_tile p < 65536 /\ Forall seg_ok (pt_segs p) /\ part_len p < 2 ^ 32.

(** The codestream: SOC, main header segments, tile-parts, EOC, anything. *)
Definition codestream (main : list seg) (parts : list part) (rest : list Z) : list Z :=
  be16 SOC ++ segs_bytes main ++ concat (map part_bytes parts) ++ be16 EOC ++ rest.

(** Where the tile-parts are when the first starts at [at]. *)
Fixpoint locate (at_ : Z) (parts : list part) : list tpart :=
  match parts with
  | [] => []
  | p :: t =>
    let hdr := at_ + 12 + zlen (segs_bytes (pt_segs p)) in
    Tp at_ hdr (hdr + 2) (at_ + part_len p) (pt_tile p) (pt_idx p) (pt_cnt p) :: locate (at_ + part_len p) t
  end.

(** A reported tile-part lies inside a buffer of [len] bytes. *)
Definition part_inside (len : Z) (t : tpart) : Prop :=
  0 <= tp_sot t /\ tp_sot t + 12 <= tp_header_end t /\ tp_body_offset t = tp_header_end t + 2 /\
  tp_body_offset t <= len /\ tp_sot t < tp_body_end t <= len.
