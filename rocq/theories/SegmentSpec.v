(** Packet headers: how the passes of a contribution are grouped into codeword
    segments and how the segments' lengths are written (ISO/IEC 15444-1, B.10.6,
    B.10.7, D.4.2 and Table D.9; ISO/IEC 15444-15, 7.1 and B.3). *)
From Verif Require Import Base PacketModel.

(** How passes are grouped: all in one segment; every pass its own; the lazy
    mode, raw from the fifth bit-plane; HT blocks from their first cleanup pass. *)
Inductive grouping := Together | Apart | Lazy | Ht.
(** The code-block style of the COD or COC marker (Table A.19; bit 6 by 15444-15):
    HT blocks; termination on each pass; arithmetic coding bypass. *)
Definition grouping_of (style : Z) : grouping :=
  if Z.testbit style 6 then Ht else if Z.testbit style 2 then Apart else if Z.testbit style 0 then Lazy else Together.
(** Whether pass [i] of the block, counted from 0, is the last of its segment.
    Pass 0 is a cleanup pass; from then on passes come in threes, significance
    propagation, refinement, cleanup. In the lazy mode the cleanup pass of the
    fourth bit-plane (pass 9) is the first to end a segment, and later cleanup and
    refinement passes all do. In an HT block every cleanup pass is a segment, and
    the two passes that refine it are another. *)
Definition ends (g : grouping) (i : Z) : bool :=
  match g with
  | Together => false
  | Apart => true
  | Lazy => (9 <=? i) && negb (i mod 3 =? 1)
  | Ht => negb (i mod 3 =? 1)
  end.
(** The sizes, in passes, of the segments in [n] more passes from pass [i], when
    [k] passes of the current segment have gone by; a packet ends a segment. *)
Fixpoint runs (g : grouping) (n : nat) (i k : Z) : list Z :=
  match n with
  | O => if k =? 0 then [] else [k]
  | S n => if ends g i then (k + 1) :: runs g n (i + 1) 0 else runs g n (i + 1) (k + 1)
  end.

(** [v] in [n] bits, the most significant first *)
Fixpoint digits (n : nat) (v : Z) : list Z :=
  match n with O => [] | S n => (v / 2 ^ Z.of_nat n) mod 2 :: digits n v end.
(** Table B.4: the codeword for a number of passes *)
Definition pass_code (n : Z) : list Z :=
  if n =? 1 then [0]
  else if n =? 2 then [1; 0]
  else if n <=? 5 then [1; 1] ++ digits 2 (n - 3)
  else if n <=? 36 then [1; 1; 1; 1] ++ digits 5 (n - 6)
  else [1; 1; 1; 1; 1; 1; 1; 1; 1] ++ digits 7 (n - 37).
(** A segment is its number of passes and its number of bytes. Its length has
    [Lblock] bits and as many more as the logarithm of the number of passes. *)
Definition length_code (lb : Z) (segs : list (Z * Z)) : list Z :=
  flat_map (fun '(k, v) => digits (Z.to_nat (lb + Z.log2 k)) v) segs.
Definition fits (lb : Z) (segs : list (Z * Z)) : Prop :=
  Forall (fun '(k, v) => lb + Z.log2 k <= 32 /\ 0 <= v < 2 ^ (lb + Z.log2 k)) segs.
(** The contribution: passes, [d] increments of [Lblock], lengths *)
Definition contribution_code (new lb : Z) (d : nat) (segs : list (Z * Z)) : list Z :=
  pass_code new ++ repeat 1 d ++ [0] ++ length_code (lb + Z.of_nat d) segs.
(** What is to be recorded, pass by pass: the segment's bytes on its last pass *)
Definition pass_bytes (segs : list (Z * Z)) : list Z :=
  flat_map (fun '(k, v) => repeat 0 (Z.to_nat (k - 1)) ++ [v]) segs.

(** The block has passes with these bytes, in the decoder's arrays *)
Record holds (b : cb) (bytes : list Z) : Prop := {
  ho_passes : npasses b = zlen bytes;
  ho_count : plcount b = zlen bytes;
  ho_bytes : ztake (zlen bytes) (plen b) = bytes;
  ho_room : zlen (plen b) = 4 /\ zlen bytes <= 4 \/ zlen (plen b) = 128 /\ zlen bytes <= 128 }.
(** The rest of the block: the layer's passes and Lblock are set, nothing else *)
Definition updated (b b' : cb) (layer new lb : Z) : Prop :=
  lblock b' = lb /\ lpasses b' = ztake layer (lpasses b) ++ [new] ++ zskip (layer + 1) (lpasses b) /\
  lstart b' = lstart b /\ nzbp b' = nzbp b /\ included b' = included b.

(** HT lengths: no cleanup segment of one byte, and no refinement of an empty one.
    [i] is the index of the first pass; [empty]: the last cleanup segment was. *)
Fixpoint ht_legal (i : Z) (empty : bool) (segs : list (Z * Z)) : Prop :=
  match segs with
  | [] => True
  | (k, v) :: segs =>
      if i mod 3 =? 0 then v <> 1 /\ ht_legal (i + k) (v =? 0) segs
      else (empty = true -> v = 0) /\ ht_legal (i + k) empty segs
  end.
