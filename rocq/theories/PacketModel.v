(** Tag trees and packet headers.
    Models source/core/codestream/codestream.hpp (tagtree_node, tagtree) and
    source/core/coding/coding_units.cpp (parse_packet_header,
    generate_packet_header, reset_for_next_frame, the header part of
    read_packet). *)
From Verif Require Import Base ChainModel.

(** codestream.hpp:439-460; [kids] holds the first [num_children] entries of
    [child_index] *)
Record node := Node { lev : Z; idx : Z; par : Z; kids : list Z; st : Z; cur : Z; val : Z; isset : bool }.
(** codestream.hpp:452-461 *)
Definition node0 : node := Node 0 (-1) 0 [] 0 0 0 false.
(** codestream.hpp:462-470; the level is at most 255, being one less than the
    8-bit [level] of the tree, so the throw cannot happen *)
Definition set_node (l i pi : Z) (n : node) : out node := Ret (Node l i pi (kids n) (st n) (cur n) (val n) (isset n)).
(** codestream.hpp:471: [child_index] has four entries *)
Definition add_child (c : Z) (n : node) : out node :=
  if zlen (kids n) <? 4 then Ret (Node (lev n) (idx n) (par n) (kids n ++ [c]) (st n) (cur n) (val n) (isset n)) else UB.
(** codestream.hpp:478 *)
Definition set_state (s : Z) (n : node) : node := Node (lev n) (idx n) (par n) (kids n) s (cur n) (val n) (isset n).
(** codestream.hpp:480 *)
Definition set_current (v : Z) (n : node) : node := Node (lev n) (idx n) (par n) (kids n) (st n) v (val n) (isset n).
(** codestream.hpp:482-485 *)
Definition set_value (v : Z) (n : node) : node := Node (lev n) (idx n) (par n) (kids n) (st n) (cur n) v true.
(** codestream.hpp:493-498 *)
Definition reset_node (n : node) : node := Node (lev n) (idx n) (par n) (kids n) 0 0 0 false.

(** Access to the node array, [&node[i]]; outside it is undefined behaviour *)
Definition tree : Type := list node.
Definition nget (t : tree) (i : Z) : out node := if (0 <=? i) && (i <? zlen t) then Ret (znth node0 t i) else UB.
Definition nput (t : tree) (i : Z) (n : node) : tree := ztake i t ++ [n] ++ zskip (i + 1) t.
Definition nupd (t : tree) (i : Z) (f : node -> out node) : out tree :=
  let* n := nget t i in let* n := f n in Ret (nput t i n).

(** utils.hpp:38 *)
Definition ceil_int (a b : Z) : Z := (a + (b - 1)) / b.
(** codestream.hpp:520-531; [level] starts at 1; a product over 2^31 - 1 overflows int32_t *)
Fixpoint count_nodes (fuel : nat) (w h num level : Z) : out (Z * Z) :=
  match fuel with
  | O => NoFuel
  | S fuel =>
      let n := w * h in
      if 2 ^ 31 <=? n then UB
      else if n <=? 1 then Ret (wrap32 (num + n), level)
      else count_nodes fuel (ceil_int w 2) (ceil_int h 2) (wrap32 (num + n)) (level + 1)
  end.
(** codestream.hpp:551-561: one row of a level, from column [j] *)
Fixpoint cols (n : nat) (j w depth ni pi : Z) (t : tree) : out (tree * Z) :=
  match n with
  | O => Ret (t, ni)
  | S n =>
      let* t := nupd t ni (set_node depth ni pi) in
      let* t := nupd t pi (add_child ni) in
      cols n (j + 1) w depth (ni + 1) (if (j mod 2 =? 1) && negb (j =? w - 1) then pi + 1 else pi) t
  end.
(** codestream.hpp:549-565: one level, from row [i] *)
Fixpoint rows (n : nat) (i w depth ni row_pi : Z) (t : tree) : out (tree * Z) :=
  match n with
  | O => Ret (t, ni)
  | S n =>
      let* (t, ni) := cols (Z.to_nat w) 0 w depth ni row_pi t in
      rows n (i + 1) w depth ni (if i mod 2 =? 1 then row_pi + ceil_int w 2 else row_pi) t
  end.
(** codestream.hpp:542-569 *)
Fixpoint levels (fuel : nat) (w h depth ni parent_num : Z) (t : tree) : out (tree * Z * Z) :=
  match fuel with
  | O => NoFuel
  | S fuel =>
      if w * h <=? 1 then Ret (t, ni, depth)
      else
        let parent_num := parent_num + w * h in
        let* (t, ni) := rows (Z.to_nat h) 0 w depth ni parent_num t in
        levels fuel (ceil_int w 2) (ceil_int h 2) (depth - 1) ni parent_num t
  end.
(** codestream.hpp:515-574; the loops run at most 33 times as the 32-bit sizes halve *)
Definition tagtree (nx ny : Z) : out tree :=
  let* (num, level) := count_nodes 33 nx ny 0 1 in
  let* (t, ni, depth) := levels 33 nx ny (level - 1) 0 0 (repeat node0 (Z.to_nat num)) in
  nupd t (num - 1) (set_node depth ni (-1)).

(** codestream.hpp:581-587: the least value of the children; [children[0]] is
    not initialised when there is none *)
Fixpoint least (t : tree) (v : Z) (l : list Z) : out Z :=
  match l with
  | [] => Ret v
  | c :: l => let* n := nget t c in least t (if val n <? v then val n else v) l
  end.
(** codestream.hpp:576-590 *)
Definition build_node (t : tree) (i : Z) : out tree :=
  let* n := nget t i in
  let n := set_state 0 (set_current 0 n) in
  let t := nput t i n in
  if isset n then Ret t
  else
    match kids n with
    | [] => UB
    | c :: l => let* n0 := nget t c in let* v := least t (val n0) l in Ret (nput t i (set_value v n))
    end.
Fixpoint build_loop (n : nat) (i : Z) (t : tree) : out tree :=
  match n with O => Ret t | S n => let* t := build_node t i in build_loop n (i + 1) t end.
Definition build (t : tree) : out tree := build_loop (length t) 0 t.

(** coding_units.cpp:1714-1726, 2197-2209: leaf first; as [tree_path] holds what
    [get_index] returns *)
Fixpoint path_up (fuel : nat) (t : tree) (n : node) : out (list Z) :=
  match fuel with
  | O => NoFuel
  | S fuel =>
      if par n <? 0 then Ret [idx n]
      else let* p := nget t (par n) in let* l := path_up fuel t p in Ret (idx n :: l)
  end.
Definition tree_path (t : tree) (i : Z) : out (list Z) := let* n := nget t i in path_up (S (length t)) t n.

(** ** Encoder *)
(** coding_units.hpp:128-237: what the header generator uses of a code-block *)
Record eblk := EB { e_length : Z; e_zbp : Z; e_start : list Z; e_passes : list Z; e_plen : list Z; e_lblock : Z }.

(** coding_units.cpp:2172-2184 *)
Fixpoint set_leaves (bs : list eblk) (i : Z) (inc zbp : tree) : out (tree * tree) :=
  match bs with
  | [] => Ret (inc, zbp)
  | b :: bs =>
      let* s := rd (e_start b) 0 in
      let* inc := nupd inc i (fun n => Ret (set_value (if e_length b =? 0 then 1 else s) n)) in
      let* zbp := nupd zbp i (fun n => Ret (set_value (e_zbp b) n)) in
      set_leaves bs (i + 1) inc zbp
  end.
(** coding_units.cpp:2217-2226, also 1737-1747, 1770-1779: the value already
    known of the parent *)
Definition raise_to_parent (t : tree) (n : node) : out node :=
  if par n <? 0 then Ret n
  else
    let* p := nget t (par n) in
    if (0 <? lev n) && (cur n <? cur p) then Ret (set_current (cur p) n) else Ret n.
(** coding_units.cpp:2212-2237; the path is leaf first *)
Definition put_inclusion_node (thr i : Z) (t : tree) (w : writer) : out (tree * writer) :=
  let* n := nget t i in
  if st n =? 0 then
    let* n := raise_to_parent t n in
    if cur n <=? thr then
      if val n <=? thr then Ret (nput t i (set_state 1 n), put_bit w 1)
      else Ret (nput t i (set_current ((cur n + 1) mod 256) n), put_bit w 0)
    else Ret (nput t i n, w)
  else Ret (t, w).
Fixpoint put_inclusion (thr : Z) (root_first : list Z) (t : tree) (w : writer) : out (tree * writer) :=
  match root_first with
  | [] => Ret (t, w)
  | i :: l => let* (t, w) := put_inclusion_node thr i t w in put_inclusion thr l t w
  end.
(** coding_units.cpp:2253-2256 *)
Fixpoint put_zeros (n : nat) (w : writer) : writer := match n with O => w | S n => put_zeros n (put_bit w 0) end.
(** coding_units.cpp:2244-2260 *)
Definition put_zbp_node (i : Z) (t : tree) (w : writer) : out (tree * writer) :=
  let* n := nget t i in
  let* thr := if par n <? 0 then Ret 0 else let* p := nget t (par n) in Ret (val p) in
  if st n =? 0 then Ret (nput t i (set_state 1 n), put_bit (put_zeros (Z.to_nat (val n - thr)) w) 1) else Ret (t, w).
Fixpoint put_zbp (root_first : list Z) (t : tree) (w : writer) : out (tree * writer) :=
  match root_first with
  | [] => Ret (t, w)
  | i :: l => let* (t, w) := put_zbp_node i t w in put_zbp l t w
  end.
(** coding_units.cpp:2270-2286 *)
Definition put_passes (n : Z) (w : writer) : writer :=
  if n =? 1 then put_bit w 0
  else if n =? 2 then put_Nbits w 2 2
  else if n <? 6 then put_Nbits (put_Nbits w 3 2) (n - 3) 2
  else if n <? 37 then put_Nbits (put_Nbits w 15 4) (n - 6) 5
  else put_Nbits (put_Nbits w 511 9) (n - 37) 7.
(** coding_units.cpp:2317-2321, 2353-2357 *)
Fixpoint log2_loop (fuel : nat) (bits n : Z) : Z :=
  match fuel with O => bits | S fuel => if Z.shiftl 2 bits <=? n then log2_loop fuel (bits + 1) n else bits end.
(** coding_units.cpp:2324-2329, 2360-2365: the sum of [n] lengths from [i] *)
Fixpoint sum_lengths (n : nat) (l : list Z) (i : Z) : out Z :=
  match n with
  | O => Ret 0
  | S n => let* v := rd l (i + Z.of_nat n) in let* s := sum_lengths n l i in Ret (wrap32 (v + s))
  end.
(** coding_units.cpp:2331-2335; [1 << length_bits] must not reach the sign bit
    (shifting by 31 or more overflows int) *)
Fixpoint put_lblock (fuel : nat) (bytes bits lb : Z) (w : writer) : out (Z * writer) :=
  match fuel with
  | O => NoFuel
  | S fuel =>
      if 31 <=? bits then UB
      else if Z.shiftl 1 bits <=? bytes then put_lblock fuel bytes (bits + 1) (lb + 1) (put_bit w 1)
      else Ret (lb, w)
  end.
(** coding_units.cpp:2313-2340 *)
Fixpoint put_lblocks (fuel : nat) (plen : list Z) (new pass lb : Z) (w : writer) : out (Z * writer) :=
  match fuel with
  | O => NoFuel
  | S fuel =>
      if new <=? 0 then Ret (lb, w)
      else
        let sp := if pass =? 0 then 1 else new in
        let* bytes := sum_lengths (Z.to_nat sp) plen pass in
        let* (lb, w) := put_lblock 32 bytes (log2_loop 8 0 sp + lb) lb w in
        put_lblocks fuel plen (new - sp) (pass + sp) lb w
  end.
(** coding_units.cpp:2349-2373 *)
Fixpoint put_lengths (fuel : nat) (plen : list Z) (new pass lb : Z) (w : writer) : out writer :=
  match fuel with
  | O => NoFuel
  | S fuel =>
      if new <=? 0 then Ret w
      else
        let sp := if pass =? 0 then 1 else new in
        let* bytes := sum_lengths (Z.to_nat sp) plen pass in
        let bits := log2_loop 8 0 sp + lb in
        put_lengths fuel plen (new - sp) (pass + sp) lb (put_Nbits w bytes bits)
  end.
(** coding_units.cpp:2189-2193 *)
Definition preceding (layer : Z) (b : eblk) : Z := fold_left (fun s v => (s + v) mod 256) (ztake layer (e_passes b)) 0.
(** coding_units.cpp:2195-2265 *)
Definition put_first (layer i : Z) (b : eblk) (inc zbp : tree) (w : writer) : out (tree * tree * writer * eblk) :=
  let* lp := rd (e_passes b) layer in
  if preceding layer b =? 0 then
    let* p := tree_path inc i in
    let* (inc, w) := put_inclusion layer (rev p) inc w in
    if 0 <? lp then
      let* (zbp, w) := put_zbp (rev p) zbp w in
      Ret (inc, zbp, w, EB (e_length b) (e_zbp b) (e_start b) (e_passes b) (e_plen b) 3)
    else Ret (inc, zbp, w, b)
  else Ret (inc, zbp, put_bit w (Z.min 1 lp), b).
(** coding_units.cpp:2267-2374 *)
Definition put_contribution (layer : Z) (b : eblk) (w : writer) : out (writer * eblk) :=
  let* lp := rd (e_passes b) layer in
  if lp =? 0 then Ret (w, b)
  else
    let w := put_passes lp w in
    let* l0 := rd (e_start b) layer in
    let* (lb, w) := put_lblocks 256 (e_plen b) lp l0 (e_lblock b) w in
    let w := put_bit w 0 in
    let* w := put_lengths 256 (e_plen b) lp l0 lb w in
    Ret (w, EB (e_length b) (e_zbp b) (e_start b) (e_passes b) (e_plen b) lb).
(** coding_units.cpp:2188-2375; the blocks' new [Lblock]s are dropped, as each
    block is written once per call *)
Fixpoint put_blocks (layer i : Z) (bs : list eblk) (inc zbp : tree) (w : writer) : out writer :=
  match bs with
  | [] => Ret w
  | b :: bs =>
      let* (inc, zbp, w, b) := put_first layer i b inc zbp w in
      let* (w, _) := put_contribution layer b w in
      put_blocks layer (i + 1) bs inc zbp w
  end.
(** coding_units.cpp:2162-2376 on trees just made by 1617-1620 *)
Definition generate_packet_header (nx ny : Z) (bs : list eblk) (layer : Z) (w : writer) : out writer :=
  if nx * ny =? 0 then Ret w
  else
    let* t := tagtree nx ny in
    let* (inc, zbp) := set_leaves bs 0 t t in
    let* inc := build inc in
    let* zbp := build zbp in
    put_blocks layer 0 bs inc zbp w.

(** ** Decoder *)
(** open_htj2k_typedef.hpp:60-69 *)
Definition BYPASS : Z := 1.
Definition RESTART : Z := 4.
Definition HT : Z := 64.
Definition HT_MIXED : Z := 128.
Definition HT_PHLD : Z := 256.
(** A flag test and the clearing of flags in a 16-bit word *)
Definition has (m f : Z) : bool := negb (Z.land m f =? 0).
Definition clear_flags (m f : Z) : Z := Z.land m (65535 - f).

(** coding_units.hpp:128-237: what the parser uses of a code-block; [plen] is
    the whole array, 4 or 128 entries *)
Record cb := CB { cmodes : Z; npasses : Z; nzbp : Z; fskip : Z; lblock : Z; plen : list Z; plcount : Z; lstart : list Z; lpasses : list Z; included : bool }.
(** coding_units.cpp:1386-1410, 1622-1650 *)
Definition fresh_cb (style num_layers : Z) : cb :=
  CB style 0 0 0 0 (repeat 0 4) 0 (repeat 0 (Z.to_nat num_layers)) (repeat 0 (Z.to_nat num_layers)) false.
(** coding_units.cpp:1560-1592 *)
Definition reset_cb (b : cb) : cb :=
  CB (clear_flags (cmodes b) (HT_PHLD + HT_MIXED)) 0 0 0 0 (repeat 0 (length (plen b))) 0
     (repeat 0 (length (lstart b))) (repeat 0 (length (lpasses b))) false.

Record band := Band { bnx : Z; bny : Z; binc : tree; bzbp : tree; bblocks : list cb }.
(** coding_units.cpp:1617-1650 *)
Definition fresh_band (nx ny style num_layers : Z) : out band :=
  if nx * ny =? 0 then Ret (Band nx ny [] [] [])
  else let* t := tagtree nx ny in Ret (Band nx ny t t (repeat (fresh_cb style num_layers) (Z.to_nat (nx * ny)))).
(** coding_units.cpp:1659-1676 *)
Definition reset_band (b : band) : band :=
  Band (bnx b) (bny b) (map reset_node (binc b)) (map reset_node (bzbp b)) (map reset_cb (bblocks b)).

(** Checked write [l[i] = v] *)
Definition wr (l : list Z) (i v : Z) : out (list Z) :=
  if (0 <=? i) && (i <? zlen l) then Ret (ztake i l ++ [v] ++ zskip (i + 1) l) else UB.
(** coding_units.cpp:2029-2031, 2110-2112, 2148-2150 *)
Fixpoint zero_fill (fuel : nat) (n : Z) (l : list Z) (count : Z) : out (list Z * Z) :=
  match fuel with
  | O => NoFuel
  | S fuel => if count <? n then let* l := wr l count 0 in zero_fill fuel n l (count + 1) else Ret (l, count)
  end.
(** coding_units.hpp:193-198 *)
Definition ensure_pass_capacity (l : list Z) (n : Z) : list Z :=
  if (n <=? 4) || negb (zlen l =? 4) then l else l ++ repeat 0 124.
(** coding_units.cpp:2017-2032, 2098-2113, 2136-2151 *)
Definition add_segment (b : cb) (passes bytes : Z) : ex cb :=
  if 128 <? passes then throw
  else
    let next := (npasses b + passes mod 65536) mod 65536 in
    if 128 <? next then throw
    else
      let* (l, c) := zero_fill 256 next (ensure_pass_capacity (plen b) next) (plcount b) in
      let* l := wr l (next - 1) bytes in
      ret (CB (cmodes b) next (nzbp b) (fskip b) (lblock b) l c (lstart b) (lpasses b) (included b)).
Definition with_modes (b : cb) (m : Z) : cb := CB m (npasses b) (nzbp b) (fskip b) (lblock b) (plen b) (plcount b) (lstart b) (lpasses b) (included b).
Definition with_fskip (b : cb) (f : Z) : cb := CB (cmodes b) (npasses b) (nzbp b) f (lblock b) (plen b) (plcount b) (lstart b) (lpasses b) (included b).
Definition with_lblock (b : cb) (v : Z) : cb := CB (cmodes b) (npasses b) (nzbp b) (fskip b) v (plen b) (plcount b) (lstart b) (lpasses b) (included b).
Definition with_zbp (b : cb) (v : Z) : cb := CB (cmodes b) (npasses b) v (fskip b) 3 (plen b) (plcount b) (lstart b) (lpasses b) true.
(** coding_units.cpp:1691-1696 *)
Definition start_layer (b : cb) (layer : Z) : out cb :=
  let* l := wr (lstart b) layer (fold_left (fun s v => (s + v) mod 256) (lpasses b) 0) in
  Ret (CB (cmodes b) (npasses b) (nzbp b) (fskip b) (lblock b) (plen b) (plcount b) l (lpasses b) (included b)).
Definition set_layer_passes (b : cb) (layer v : Z) : out cb :=
  let* l := wr (lpasses b) layer v in
  Ret (CB (cmodes b) (npasses b) (nzbp b) (fskip b) (lblock b) (plen b) (plcount b) (lstart b) l (included b)).

Definition lift {A} (m : out A) : ex A := let* a := m in ret a.

(** The parser draws its bits from [get]; [buf_chain::get_bit] below, or a list
    of bits in statements about how far it reads. *)
Section Parser.
Context {S : Type}.
Variable get : S -> ex (Z * S).

(** codestream.hpp:364-373 *)
Fixpoint get_bits (n : nat) (cwd : Z) (s : S) : ex (Z * S) :=
  match n with
  | O => ret (cwd, s)
  | Datatypes.S n => let? (bit, s) := get s in get_bits n (wrap32 (wrap32 (Z.shiftl cwd 1) + bit)) s
  end.
Definition get_N (N : Z) (s : S) : ex (Z * S) := get_bits (Z.to_nat N) 0 s.

(** coding_units.cpp:1734-1761, 1767-1792 *)
Definition get_inclusion_node (thr i : Z) (t : tree) (inc : bool) (s : S) : ex (tree * bool * S) :=
  let? n := lift (nget t i) in
  if st n =? 0 then
    let? n := lift (raise_to_parent t n) in
    if cur n <=? thr then
      let? (bit, s) := get s in
      if bit =? 1 then ret (nput t i (set_state 1 (set_value (cur n) n)), true, s)
      else ret (nput t i (set_current ((cur n + 1) mod 65536) n), false, s)
    else ret (nput t i n, inc, s)
  else ret (t, inc, s).
Fixpoint get_inclusion (thr : Z) (root_first : list Z) (t : tree) (inc : bool) (s : S) : ex (tree * bool * S) :=
  match root_first with
  | [] => ret (t, inc, s)
  | i :: l => let? (t, inc, s) := get_inclusion_node thr i t inc s in get_inclusion thr l t inc s
  end.
(** coding_units.cpp:1810-1819: counts zero bits up to the next one *)
Fixpoint zbp_loop (fuel : nat) (v : Z) (s : S) : ex (Z * S) :=
  match fuel with
  | O => NoFuel
  | Datatypes.S fuel =>
      let? (bit, s) := get s in
      if bit =? 0 then zbp_loop fuel ((v + 1) mod 65536) s else ret (v, s)
  end.
(** coding_units.cpp:1797-1822; a level above 0 with no parent would be a null
    dereference *)
Definition get_zbp_node (fuel : nat) (i : Z) (t : tree) (s : S) : ex (tree * S) :=
  let? n := lift (nget t i) in
  if st n =? 0 then
    let? n :=
      if 0 <? lev n then
        if par n <? 0 then UB
        else let? p := lift (nget t (par n)) in ret (if cur n <? cur p then set_current (cur p) n else n)
      else ret n in
    let? (v, s) := zbp_loop fuel (cur n) s in
    ret (nput t i (set_state 1 (set_value v (set_current v n))), s)
  else ret (t, s).
Fixpoint get_zbp (fuel : nat) (root_first : list Z) (t : tree) (s : S) : ex (tree * S) :=
  match root_first with
  | [] => ret (t, s)
  | i :: l => let? (t, s) := get_zbp_node fuel i t s in get_zbp fuel l t s
  end.
(** coding_units.cpp:1700-1824: a block not included before *)
Definition first_inclusion (fuel : nat) (layer ccap i : Z) (b : cb) (inc zbp : tree) (s : S) : ex (tree * tree * bool * cb * S) :=
  let b :=
    if HT <=? cmodes b then
      let m := Z.lor (cmodes b) HT_PHLD in
      with_modes b (if has ccap 49152 then Z.lor m HT_MIXED else m)
    else b in
  let? p := lift (tree_path inc i) in
  let? (inc, is, s) := if 0 <? layer then get_inclusion 0 (rev p) inc false s else ret (inc, false, s) in
  let? (inc, is, s) := get_inclusion layer (rev p) inc is s in
  if is then
    let? (zbp, s) := get_zbp fuel (rev p) zbp s in
    let? n := lift (nget zbp (hd 0 p)) in
    ret (inc, zbp, true, with_zbp b (val n mod 256), s)
  else ret (inc, zbp, false, b, s).
(** coding_units.cpp:1837-1852 *)
Definition get_passes (s : S) : ex (Z * S) :=
  let? (b, s) := get s in
  let n := 1 + b in
  if 2 <=? n then
    let? (b, s) := get s in
    let n := n + b in
    if 3 <=? n then
      let? (v, s) := get_N 2 s in
      let n := n + v mod 256 in
      if 6 <=? n then
        let? (v, s) := get_N 5 s in
        let n := n + v mod 256 in
        if 37 <=? n then let? (v, s) := get_N 7 s in ret (n + v mod 256, s) else ret (n, s)
      else ret (n, s)
    else ret (n, s)
  else ret (n, s).
(** coding_units.cpp:1855-1857; [Lblock] has 8 bits *)
Fixpoint get_lblock (fuel : nat) (lb : Z) (s : S) : ex (Z * S) :=
  match fuel with
  | O => NoFuel
  | Datatypes.S fuel =>
      let? (bit, s) := get s in
      if bit =? 1 then get_lblock fuel ((lb + 1) mod 256) s else ret (lb, s)
  end.
(** coding_units.cpp:1874-1877, 1888-1891: [bits_to_read] and [pass_bound] *)
Fixpoint grow (fuel : nat) (bits bound passes : Z) : Z * Z :=
  match fuel with
  | O => (bits, bound)
  | Datatypes.S fuel => if bound <=? passes then grow fuel ((bits + 1) mod 256) (bound + bound) passes else (bits, bound)
  end.
(** coding_units.cpp:1912-1917, 1926-1935: further length bits; a segment length
    wraps at 32 bits *)
Fixpoint grow_read (fuel : nat) (bound passes bytes : Z) (s : S) : ex (Z * S) :=
  match fuel with
  | O => ret (bytes, s)
  | Datatypes.S fuel =>
      if bound <=? passes then
        let? (bit, s) := get s in grow_read fuel (bound + bound) passes (wrap32 (wrap32 (Z.shiftl bytes 1) + bit)) s
      else ret (bytes, s)
  end.
(** The first segment: passes, bytes, [next_segment_passes], [bypass_term_threshold], flags *)
Record seg := Seg { g_passes : Z; g_bytes : Z; g_next : Z; g_term : Z; g_modes : Z }.
(** coding_units.cpp:1865-1946; the loops double [pass_bound] at most 8 times as
    there are at most 164 passes *)
Definition phld_segment (b : cb) (new : Z) (s : S) : ex (seg * S) :=
  let m := cmodes b in
  let href := (npasses b + new - 1) mod 3 in
  let sp := new - href in
  if sp <? 1 then
    let (bits, _) := grow 9 (lblock b) 2 new in
    let? (bytes, s) := get_N bits s in
    if bytes =? 0 then ret (Seg new bytes 0 0 m, s)
    else if has m HT_MIXED then ret (Seg new bytes 0 0 (clear_flags m (HT_PHLD + HT)), s)
    else throw
  else
    let (bits, bound) := grow 9 (lblock b) 2 sp in
    let? (bytes, s) := get_N bits s in
    if bytes =? 0 then
      let? (bytes, s) := grow_read 9 bound new bytes s in
      if bytes =? 0 then ret (Seg new bytes 0 0 m, s)
      else if has m HT_MIXED then ret (Seg new bytes 0 0 (clear_flags m (HT_PHLD + HT)), s)
      else throw
    else if negb (has m HT_MIXED) then
      if bytes <? 2 then throw else ret (Seg sp bytes 2 0 (clear_flags m HT_PHLD), s)
    else
      let? first :=
        if (3 <? lblock b) && (1 <? bytes) then
          if (0 <=? bits - 1) && (bits - 1 <? 32) then ret (Z.shiftr bytes (bits - 1) =? 0) else UB
        else ret false in
      if first then ret (Seg sp bytes 2 0 (clear_flags m HT_PHLD), s)
      else let? (bytes, s) := grow_read 9 bound new bytes s in ret (Seg new bytes 0 0 (clear_flags m (HT_PHLD + HT)), s).
(** coding_units.cpp:1947-1971 *)
Definition ht_segment (b : cb) (new : Z) (s : S) : ex (seg * S) :=
  let r := npasses b mod 3 in
  if r =? 0 then
    let? (bytes, s) := get_N (lblock b) s in ret (Seg 1 bytes 2 0 (cmodes b), s)
  else
    let sp := if 1 <? new then 3 - r else 1 in
    let? (bytes, s) := get_N ((sp - 1 + lblock b) mod 256) s in ret (Seg sp bytes 1 0 (cmodes b), s).
(** coding_units.cpp:1983-2015 *)
Definition bypass_segment (b : cb) (new : Z) (s : S) : ex (seg * S) :=
  let n := npasses b in
  let '(sp, bits, next) :=
    if n <? 10 then
      let sp := if new <? 10 - n then new else 10 - n in (sp, log2_loop 8 0 sp, 2)
    else if (n - 10) mod 3 <? 2 then
      let sp := if 1 <? new then 2 - (n - 10) mod 3 else 1 in (sp, sp - 1, 1)
    else (1, 0, 2) in
  let? (bytes, s) := get_N ((bits + lblock b) mod 256) s in ret (Seg sp bytes next 10 (cmodes b), s).
(** coding_units.cpp:1858-2015; utils.hpp:172-183 for the logarithm *)
Definition first_segment (b : cb) (new : Z) (s : S) : ex (seg * S) :=
  let m := cmodes b in
  if has m HT_PHLD then phld_segment b new s
  else if has m HT then ht_segment b new s
  else if negb (has m (RESTART + BYPASS)) then
    let? (bytes, s) := get_N ((lblock b + Z.log2 (new mod 256)) mod 256) s in ret (Seg new bytes 0 0 m, s)
  else if has m RESTART then let? (bytes, s) := get_N (lblock b) s in ret (Seg 1 bytes 1 0 m, s)
  else bypass_segment b new s.
(** coding_units.cpp:2050-2115: the variables that only feed themselves
    (primary and secondary passes and bytes, fast_skip_bytes) are left out *)
Fixpoint ht_segments (fuel : nat) (b : cb) (new next : Z) (empty : bool) (s : S) : ex (cb * S) :=
  match fuel with
  | O => NoFuel
  | Datatypes.S fuel =>
      if new <=? 0 then ret (b, s)
      else
        let sp := if 1 <? new then next else 1 in
        let next := (3 - next) mod 256 in
        let? (bytes, s) := get_N ((lblock b + sp - 1) mod 256) s in
        let new := new - sp mod 256 in
        let? (b, empty) :=
          if next =? 2 then
            if bytes =? 0 then ret (with_fskip b ((fskip b + 1) mod 256), true)
            else if bytes <? 2 then throw
            else ret (with_fskip b 0, false)
          else if empty then
            if bytes =? 0 then ret (with_fskip b ((fskip b + sp) mod 256), empty) else throw
          else ret (b, empty) in
        let? b := add_segment b sp bytes in
        ht_segments fuel b new next empty s
  end.
(** coding_units.cpp:2117-2152; with no RESTART flag the assert at 2129 is compiled out *)
Fixpoint plain_segments (fuel : nat) (b : cb) (new next term : Z) (s : S) : ex (cb * S) :=
  match fuel with
  | O => NoFuel
  | Datatypes.S fuel =>
      if new <=? 0 then ret (b, s)
      else
        let '(sp, next, bits) :=
          if negb (term =? 0) then
            let sp := if 1 <? new then next else 1 in (sp, (3 - next) mod 256, (lblock b + sp - 1) mod 256)
          else (1, next, lblock b) in
        let? (bytes, s) := get_N bits s in
        let? b := add_segment b sp bytes in
        plain_segments fuel b (new - sp mod 256) next term s
  end.
(** coding_units.cpp:1836-2153 *)
Definition contribution (fuel : nat) (layer : Z) (b : cb) (s : S) : ex (cb * S) :=
  let? (new, s) := get_passes s in
  let? b := lift (set_layer_passes b layer (new mod 256)) in
  let? (lb, s) := get_lblock fuel (lblock b) s in
  let b := with_lblock b lb in
  let? (g, s) := first_segment b new s in
  let? b := add_segment (with_modes b (g_modes g)) (g_passes g) (g_bytes g) in
  let left := new - g_passes g mod 256 in
  if Z.land (cmodes b) (HT + HT_PHLD) =? HT then
    ht_segments 256 (with_fskip b 0) left (g_next g) ((g_next g =? 2) && (g_bytes g =? 0)) s
  else plain_segments 256 b left (g_next g) (g_term g) s.
(** coding_units.cpp:1689-2159 *)
Definition parse_block (fuel : nat) (layer ccap i : Z) (b : cb) (inc zbp : tree) (s : S) : ex (tree * tree * cb * S) :=
  let? b := lift (start_layer b layer) in
  let? (inc, zbp, is, b, s) :=
    if included b then let? (bit, s) := get s in ret (inc, zbp, negb (bit =? 0), b, s)
    else first_inclusion fuel layer ccap i b inc zbp s in
  if is then let? (b, s) := contribution fuel layer b s in ret (inc, zbp, b, s)
  else let? b := lift (set_layer_passes b layer 0) in ret (inc, zbp, b, s).
Fixpoint parse_blocks (fuel : nat) (layer ccap i : Z) (bs : list cb) (inc zbp : tree) (s : S) : ex (tree * tree * list cb * S) :=
  match bs with
  | [] => ret (inc, zbp, [], s)
  | b :: bs =>
      let? (inc, zbp, b, s) := parse_block fuel layer ccap i b inc zbp s in
      let? (inc, zbp, bs, s) := parse_blocks fuel layer ccap (i + 1) bs inc zbp s in
      ret (inc, zbp, b :: bs, s)
  end.
(** coding_units.cpp:1678-2160 *)
Definition parse_packet_header (fuel : nat) (layer ccap : Z) (d : band) (s : S) : ex (band * S) :=
  if bnx d * bny d =? 0 then ret (d, s)
  else
    let? (inc, zbp, bs, s) := parse_blocks fuel layer ccap 0 (bblocks d) (binc d) (bzbp d) s in
    ret (Band (bnx d) (bny d) inc zbp bs, s).
(** coding_units.cpp:5440-5443 *)
Fixpoint parse_bands (fuel : nat) (layer ccap : Z) (ds : list band) (s : S) : ex (list band * S) :=
  match ds with
  | [] => ret ([], s)
  | d :: ds =>
      let? (d, s) := parse_packet_header fuel layer ccap d s in
      let? (ds, s) := parse_bands fuel layer ccap ds s in
      ret (d :: ds, s)
  end.
End Parser.

(** codestream.hpp:350-363 as a source of bits *)
Definition chain_bit (c : chain) : ex (Z * chain) := lift (get_bit c).
(** codestream.hpp:342-350 *)
Definition get_word (c : chain) : ex (Z * chain) :=
  let? (a, c) := lift (get_byte c) in let? (b, c) := lift (get_byte c) in ret ((a * 256 + b) mod 65536, c).
(** coding_units.cpp:5448-5454 and 5429-5435; [_EPH] is 0xFF92 *)
Definition check_EPH (use_EPH : bool) (c : chain) : ex chain :=
  if use_EPH then let? (w, c) := get_word c in if w =? 65426 then ret c else throw else ret c.
(** coding_units.cpp:5426-5454: the header of a packet, no SOP marker *)
Definition read_packet_header (fuel : nat) (use_EPH : bool) (layer ccap : Z) (ds : list band) (c : chain) : ex (list band * chain) :=
  let? (bit, c) := chain_bit c in
  if bit =? 0 then let? c := check_EPH use_EPH (flush_bits c) in ret (ds, c)
  else
    let? (ds, c) := parse_bands chain_bit fuel layer ccap ds c in
    let? c := lift (check_last_FF c) in
    let? c := check_EPH use_EPH (flush_bits c) in
    ret (ds, c).
(** coding_units.cpp:7126-7144: one writer for the bands of a precinct *)
Fixpoint generate_bands (layer : Z) (ds : list (Z * Z * list eblk)) (w : writer) : out writer :=
  match ds with
  | [] => Ret w
  | (nx, ny, bs) :: ds => let* w := generate_packet_header nx ny bs layer w in generate_bands layer ds w
  end.
Definition write_packet_header (layer : Z) (ds : list (Z * Z * list eblk)) (use_EPH : bool) : out (list Z) :=
  let* w := generate_bands layer ds new_writer in Ret (flush w use_EPH).
