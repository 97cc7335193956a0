(** Packet headers of several layers: the inclusion tag tree as in the standard
    (ISO/IEC 15444-1, B.10.2 and B.10.4). *)
From Verif Require Import Base ChainModel PacketModel PacketTree.

Section Standard.
Context {S : Type}.
Variable get : S -> ex (Z * S).

(** [k] bits at most; a one says that the value is the current one. *)
Fixpoint std_value (k : nat) (n : node) (s : S) : ex (node * S) :=
  match k with
  | O => ret (n, s)
  | Datatypes.S k =>
      let? (bit, s) := get s in
      if bit =? 1 then ret (set_state 1 (set_value (cur n) n), s)
      else std_value k (set_current (cur n + 1) n) s
  end.
(** A node's value is at least its parent's. *)
Definition std_raise (t : tree) (n : node) : node :=
  if par n <? 0 then n else set_current (Z.max (cur n) (cur (nd t (par n)))) n.
(** Bits are read until the value is known or is known to be above [layer]. *)
Definition std_node (layer i : Z) (t : tree) (s : S) : ex (tree * S) :=
  if st (nd t i) =? 0 then
    let n := std_raise t (nd t i) in
    let? (n, s) := std_value (Z.to_nat (layer + 1 - cur n)) n s in ret (nput t i n, s)
  else ret (t, s).
Fixpoint std_path (layer : Z) (root_first : list Z) (t : tree) (s : S) : ex (tree * S) :=
  match root_first with
  | [] => ret (t, s)
  | i :: l => let? (t, s) := std_node layer i t s in std_path layer l t s
  end.

(** The parser of the code with the standard's inclusion; [included] is whether
    the leaf's value is known. *)
Definition std_first_inclusion (fuel : nat) (layer ccap i : Z) (b : cb) (inc zbp : tree) (s : S) : ex (tree * tree * bool * cb * S) :=
  let b :=
    if HT <=? cmodes b then
      let m := Z.lor (cmodes b) HT_PHLD in
      with_modes b (if has ccap 49152 then Z.lor m HT_MIXED else m)
    else b in
  let? p := lift (tree_path inc i) in
  let? (inc, s) := std_path layer (rev p) inc s in
  if negb (st (nd inc i) =? 0) then
    let? (zbp, s) := get_zbp get fuel (rev p) zbp s in
    let? n := lift (nget zbp (hd 0 p)) in
    ret (inc, zbp, true, with_zbp b (val n mod 256), s)
  else ret (inc, zbp, false, b, s).
Definition std_block (fuel : nat) (layer ccap i : Z) (b : cb) (inc zbp : tree) (s : S) : ex (tree * tree * cb * S) :=
  let? b := lift (start_layer b layer) in
  let? (inc, zbp, is, b, s) :=
    if included b then let? (bit, s) := get s in ret (inc, zbp, negb (bit =? 0), b, s)
    else std_first_inclusion fuel layer ccap i b inc zbp s in
  if is then let? (b, s) := contribution get fuel layer b s in ret (inc, zbp, b, s)
  else let? b := lift (set_layer_passes b layer 0) in ret (inc, zbp, b, s).
Fixpoint std_blocks (fuel : nat) (layer ccap i : Z) (bs : list cb) (inc zbp : tree) (s : S) : ex (tree * tree * list cb * S) :=
  match bs with
  | [] => ret (inc, zbp, [], s)
  | b :: bs =>
      let? (inc, zbp, b, s) := std_block fuel layer ccap i b inc zbp s in
      let? (inc, zbp, bs, s) := std_blocks fuel layer ccap (i + 1) bs inc zbp s in
      ret (inc, zbp, b :: bs, s)
  end.
Definition std_header (fuel : nat) (layer ccap : Z) (d : band) (s : S) : ex (band * S) :=
  if bnx d * bny d =? 0 then ret (d, s)
  else
    let? (inc, zbp, bs, s) := std_blocks fuel layer ccap 0 (bblocks d) (binc d) (bzbp d) s in
    ret (Band (bnx d) (bny d) inc zbp bs, s).
Fixpoint std_bands (fuel : nat) (layer ccap : Z) (ds : list band) (s : S) : ex (list band * S) :=
  match ds with
  | [] => ret ([], s)
  | d :: ds =>
      let? (d, s) := std_header fuel layer ccap d s in
      let? (ds, s) := std_bands fuel layer ccap ds s in
      ret (d :: ds, s)
  end.
End Standard.

(** The layers of a precinct in turn; [parse] reads one header, [next] is
    whatever lies between two headers. *)
Fixpoint all_layers {S} (parse : Z -> list band -> S -> ex (list band * S)) (next : Z -> S -> ex S) (n : nat) (ds : list band) (s : S) : ex (list band * S) :=
  match n with
  | O => ret (ds, s)
  | Datatypes.S n =>
      let? (ds, s) := all_layers parse next n ds s in
      let? s := next (Z.of_nat n) s in
      parse (Z.of_nat n) ds s
  end.
