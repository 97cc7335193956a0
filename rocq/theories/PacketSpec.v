(** Packet headers: what a packet says of its code-blocks. *)
From Verif Require Import Base BaseLemmas PacketModel.

(** What a packet says of a code-block: nothing, or its zero bit-planes, its
    number of passes, and the lengths of its cleanup and refinement segments. *)
Definition info : Type := option (Z * Z * Z * Z).
Definition total (l : list Z) : Z := fold_right Z.add 0 l.
Definition sent (b : eblk) : info :=
  let n := znth 0 (e_passes b) 0 in
  if n =? 0 then None else Some (e_zbp b, n, znth 0 (e_plen b) 0, total (ztake (n - 1) (zskip 1 (e_plen b)))).
Definition got (b : cb) : info :=
  if znth 0 (lpasses b) 0 =? 0 then None else Some (nzbp b, npasses b, znth 0 (plen b) 0, total (ztake (npasses b - 1) (zskip 1 (plen b)))).
(** A code-block as the block coder leaves it (ht_block_encoding.cpp:462-469,
    825-832, 976-989): no pass and no byte, or a cleanup pass of at least two
    bytes and at most two refinement passes. *)
Record coded (b : eblk) : Prop := {
  co_start : exists l, e_start b = 0 :: l;
  co_passes : exists l, e_passes b = znth 0 (e_passes b) 0 :: l;
  co_n : 0 <= znth 0 (e_passes b) 0 <= 3;
  co_empty : znth 0 (e_passes b) 0 = 0 <-> e_length b = 0;
  co_zbp : 0 <= e_zbp b < 256;
  co_plen : znth 0 (e_passes b) 0 <= zlen (e_plen b);
  co_first : 0 < znth 0 (e_passes b) 0 -> 2 <= znth 0 (e_plen b) 0;
  co_bytes : Forall (fun v => 0 <= v) (e_plen b) /\ total (ztake 3 (e_plen b)) < 2 ^ 29 }.
(** A band: a grid of code-blocks, possibly empty. *)
Definition grid (d : Z * Z * list eblk) : Prop :=
  let '(nx, ny, bs) := d in 0 <= nx /\ 0 <= ny /\ nx * ny <= 2 ^ 26 /\ zlen bs = nx * ny /\ Forall coded bs.
Fixpoint fresh_bands (ds : list (Z * Z * list eblk)) (style layers : Z) : out (list band) :=
  match ds with
  | [] => Ret []
  | (nx, ny, _) :: ds => let* d := fresh_band nx ny style layers in let* l := fresh_bands ds style layers in Ret (d :: l)
  end.

