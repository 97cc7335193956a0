(** Model of the chain of tile-part bodies and its bit reader,
    source/core/codestream/codestream.hpp:140-374, of the packet-header bit
    writer, codestream.hpp:376-437, and of how a tile's chain is assembled,
    source/core/coding/coding_units.cpp:4083-4099. *)
From Verif Require Import Base.

(** codestream.hpp:140-156.  A node is a pointer and a length; it is modelled by
    the bytes it covers, the null pointer with length 0 by the empty list, and
    a read outside it is undefined.  [total_length] is only reported. *)
Record chain := Chain {
  node_pos : Z; pos : Z; nodes : list (list Z); current : list Z;
  tmp_byte : Z; last_byte : Z; bits : Z }.

(** codestream.hpp:229-235, 252-256 *)
Definition activate (nodes : list (list Z)) : out chain :=
  match nodes with
  | [] => UB
  | n :: _ => Ret (Chain 0 0 nodes n 0 0 0)
  end.
(** codestream.hpp:257 *)
Definition flush_bits (c : chain) : chain :=
  Chain (node_pos c) (pos c) (nodes c) (current c) (tmp_byte c) (last_byte c) 0.
(** codestream.hpp:269-273; as the sum of a list *)
Definition get_total_position (c : chain) : Z :=
  wrap64 (pos c + fold_right Z.add 0 (map zlen (ztake (node_pos c) (nodes c)))).
(** codestream.hpp:283-285 *)
Definition get_current_node_remaining_bytes (c : chain) : Z :=
  if pos c <? zlen (current c) then zlen (current c) - pos c else 0.

(** codestream.hpp:298: [*(current_buf + pos++)] *)
Definition read_current (c : chain) : out (Z * chain) :=
  let* b := rd (current c) (pos c) in
  Ret (b, Chain (node_pos c) (pos c + 1) (nodes c) (current c) (tmp_byte c) (last_byte c) (bits c)).
(** codestream.hpp:287-299; [current_length - 1] is computed in uint32_t *)
Definition get_byte (c : chain) : out (Z * chain) :=
  if wrap32 (zlen (current c) - 1) <? pos c then
    if zlen (nodes c) <=? node_pos c + 1 then Ret (0, c)
    else
      let p := node_pos c + 1 in
      read_current (Chain p 0 (nodes c) (znth [] (nodes c) p) (tmp_byte c) (last_byte c) (bits c))
  else read_current c.

(** codestream.hpp:331-336, and 316-324 which copies the same span; the assert
    is compiled out *)
Definition borrow_N_bytes (c : chain) (N : Z) : out (list Z * chain) :=
  if pos c + N <=? zlen (current c) then
    Ret (ztake N (zskip (pos c) (current c)),
         Chain (node_pos c) (pos c + N) (nodes c) (current c) (tmp_byte c) (last_byte c) (bits c))
  else UB.

(** codestream.hpp:338-345 *)
Definition get_word (c : chain) : out (Z * chain) :=
  let* (w, c) := get_byte c in
  let word := Z.shiftl w 8 mod 65536 in
  let* (b, c) := get_byte c in
  Ret ((word + b) mod 65536, c).
(** codestream.hpp:346-358 *)
Definition get_bit (c : chain) : out (Z * chain) :=
  let* c :=
    if bits c =? 0 then
      let* (b, c) := get_byte c in
      Ret (Chain (node_pos c) (pos c) (nodes c) (current c) b b (if last_byte c =? 255 then 7 else 8))
    else Ret c in
  let c := Chain (node_pos c) (pos c) (nodes c) (current c) (tmp_byte c) (last_byte c) (bits c - 1) in
  Ret (Z.land (Z.shiftr (tmp_byte c) (bits c)) 1, c).
(** codestream.hpp:359-368 *)
Fixpoint get_bits_loop (n : nat) (cwd : Z) (c : chain) : out (Z * chain) :=
  match n with
  | O => Ret (cwd, c)
  | S n => let* (bit, c) := get_bit c in get_bits_loop n (wrap32 (wrap32 (Z.shiftl cwd 1) + bit)) c
  end.
Definition get_N_bits (c : chain) (N : Z) : out (Z * chain) := get_bits_loop (Z.to_nat N) 0 c.
(** codestream.hpp:258-262 *)
Definition check_last_FF (c : chain) : out chain :=
  if tmp_byte c =? 255 then let* (_, c) := get_bit c in Ret c else Ret c.

(** coding_units.cpp:4085-4099: empty tile-parts take no node, so as many
    null nodes are left at the end *)
Definition create_tile_buf (bodies : list (list Z)) : out chain :=
  let full := filter (fun b => negb (zlen b =? 0)) bodies in
  activate (full ++ repeat [] (length bodies - length full)).

(** codestream.hpp:376-383; [pos] is the length of [buf] throughout *)
Record writer := Writer { wbuf : list Z; wtmp : Z; wlast : Z; wbits : Z }.
(** codestream.hpp:400-411 *)
Definition put_bit (w : writer) (b : Z) : writer :=
  let w := if wbits w =? 0 then Writer (wbuf w ++ [wtmp w]) 0 (wtmp w) (if wtmp w =? 255 then 7 else 8) else w in
  let bits := wbits w - 1 in
  Writer (wbuf w) ((wtmp w + Z.shiftl b bits) mod 256) (wlast w) bits.
(** codestream.hpp:385-389 *)
Definition new_writer : writer := put_bit (Writer [] 0 0 8) 1.
(** codestream.hpp:413-417; n <= 32 *)
Definition put_Nbits (w : writer) (cwd n : Z) : writer :=
  fold_left (fun w i => put_bit w (Z.land (Z.shiftr cwd (n - 1 - i)) 1)) (zseq n) w.
(** codestream.hpp:420-422: the loop's bound shrinks as it runs *)
Fixpoint pad (fuel : nat) (i : Z) (w : writer) : writer :=
  match fuel with
  | O => w
  | S fuel => if i <? wbits w then pad fuel (i + 1) (put_bit w 0) else w
  end.
(** codestream.hpp:419-436; eight rounds are enough as the bound is at most 8 *)
Definition flush (w : writer) (use_EPH : bool) : list Z :=
  let w := pad 9 0 w in
  wbuf w ++ [wtmp w] ++ (if wtmp w =? 255 then [0] else []) ++ (if use_EPH then [255; 146] else []).
