(** Model of the MQ (arithmetic) decoder of Part 1 code-blocks,
    source/core/coding/mq_decoder.cpp:34-137, 195-233, 284-302 (the build
    without MQNAIVE and CDP, which are both commented out in mq_decoder.hpp). *)
From Verif Require Import Base.

(** mq_decoder.cpp:36-40 *)
Definition Areg_min : Z := 2 ^ 23.
(** mq_decoder.cpp:42-50 *)
Definition static_table : list Z :=
  [0x81015601; 0x02063401; 0x03091801; 0x040c0ac1; 0x051d0521; 0x26210221; 0x87065601; 0x080e5401;
   0x090e4801; 0x0a0e3801; 0x0b113001; 0x0c122401; 0x0d141c01; 0x1d151601; 0x8f0e5601; 0x100e5401;
   0x110f5101; 0x12104801; 0x13113801; 0x14123401; 0x15133001; 0x16132801; 0x17142401; 0x18152201;
   0x19161c01; 0x1a171801; 0x1b181601; 0x1c191401; 0x1d1a1201; 0x1e1b1101; 0x1f1c0ac1; 0x201d09c1;
   0x211e08a1; 0x221f0521; 0x23200441; 0x242102a1; 0x25220221; 0x26230141; 0x27240111; 0x28250085;
   0x29260049; 0x2a270025; 0x2b280015; 0x2c290009; 0x2d2a0005; 0x2d2b0001; 0x2e2e5601].

(** mq_decoder.hpp:39-61.  [ovf] is not in the code: it records that an
    operation on the int32_t register C overflowed or shifted a negative value,
    which is undefined in C++17; the model then goes on with the wrapped value,
    as the compilers do.  [Sigma] and [sk] are the two rows of dynamic_table. *)
Record mq := Mq { A : Z; t : Z; C : Z; T : Z; L : Z; L_start : Z; Lmax : Z; Sigma : list Z; sk : list Z; ovf : bool }.

(** mq_decoder.cpp:52-53 *)
Definition mq0 : mq := Mq 0 0 0 0 0 0 0 (repeat 0 19) (repeat 0 19) false.

Definition i32 (v : Z) : Z := (v + 2 ^ 31) mod 2 ^ 32 - 2 ^ 31.
Definition fits (v : Z) : bool := (- 2 ^ 31 <=? v) && (v <? 2 ^ 31).
(** [C = v] where [v] is the exact result *)
Definition set_C (m : mq) (v : Z) : mq :=
  Mq (A m) (t m) (i32 v) (T m) (L m) (L_start m) (Lmax m) (Sigma m) (sk m) (ovf m || negb (fits v)).
(** [A <<= n; C <<= n; t -= n] *)
Definition shift (m : mq) (n : Z) : mq :=
  let m' := set_C m (C m * 2 ^ n) in
  Mq (A m * 2 ^ n) (t m - n) (C m') (T m) (L m) (L_start m) (Lmax m) (Sigma m) (sk m) (ovf m' || (C m <? 0)).

(** [byte_buffer[L]], undefined outside the segment (a fortiori outside the
    buffer) *)
Definition seg_byte (buf : list Z) (m : mq) : out Z :=
  if (L_start m <=? L m) && (L m <? Lmax m) then rd buf (L m) else UB.
(** mq_decoder.cpp:124-137 *)
Definition fill_LSBs (buf : list Z) (m : mq) : out mq :=
  let exhausted :=
    if L m =? Lmax m then Ret true
    else if T m =? 255 then let* b := seg_byte buf m in Ret (143 <? b) else Ret false in
  let* e := exhausted in
  let m8 := Mq (A m) 8 (C m) (T m) (L m) (L_start m) (Lmax m) (Sigma m) (sk m) (ovf m) in
  if e then Ret (set_C m8 (C m + 255))
  else
    let t' := if T m =? 255 then 7 else 8 in
    let* b := seg_byte buf m in
    Ret (set_C (Mq (A m) t' (C m) b (wrap32 (L m + 1)) (L_start m) (Lmax m) (Sigma m) (sk m) (ovf m)) (C m + b * 2 ^ (8 - t'))).

(** mq_decoder.cpp:55-78 *)
Definition init (buf : list Z) (m : mq) (buf_pos segment_length : Z) (is_bypass : bool) : out mq :=
  let m := Mq (A m) (t m) (C m) 0 buf_pos buf_pos (wrap32 (buf_pos + segment_length)) (Sigma m) (sk m) (ovf m) in
  if is_bypass then Ret (Mq (A m) 0 (C m) (T m) (L m) (L_start m) (Lmax m) (Sigma m) (sk m) (ovf m))
  else
    let m := Mq Areg_min (t m) 0 (T m) (L m) (L_start m) (Lmax m) (Sigma m) (sk m) (ovf m) in
    let* m := fill_LSBs buf m in
    let m := set_C m (C m * 2 ^ t m) in
    let* m := fill_LSBs buf m in
    let m := set_C m (C m * 2 ^ 7) in
    Ret (Mq (A m) (t m - 7) (C m) (T m) (L m) (L_start m) (Lmax m) (Sigma m) (sk m) (ovf m)).

(** mq_decoder.cpp:80-88 *)
Definition init_states_for_all_contexts (m : mq) : mq :=
  Mq (A m) (t m) (C m) (T m) (L m) (L_start m) (Lmax m)
     ([4] ++ repeat 0 16 ++ [3; 46]) (repeat 0 19) (ovf m).

(** utils.hpp:184-207 *)
Definition count_leading_zeros (x : Z) : Z := 31 - Z.log2 x.

(** mq_decoder.cpp:114-121; at most [n] rounds as each shifts by at least 1 *)
Fixpoint renorm_loop (fuel : nat) (buf : list Z) (m : mq) (n : Z) : out mq :=
  match fuel with
  | O => NoFuel
  | S fuel =>
    let* m := fill_LSBs buf m in
    let s := if n <=? t m then n else t m in
    let m := shift m s in
    if 0 <? n - s then renorm_loop fuel buf m (n - s) else Ret m
  end.
(** mq_decoder.cpp:99-122 *)
Definition renormalize (buf : list Z) (m : mq) : out mq :=
  let n := count_leading_zeros (A m) - 8 in
  let* m := if t m =? 0 then fill_LSBs buf m else Ret m in
  if n <=? t m then Ret (shift m n)
  else
    let n' := n - t m in
    let m := shift m (t m) in
    renorm_loop 32 buf m n'.

(** replacing entry [i] of a row of dynamic_table *)
Definition wr (l : list Z) (i v : Z) : list Z := ztake i l ++ [v] ++ zskip (i + 1) l.
Definition set_A (m : mq) (a : Z) : mq := Mq a (t m) (C m) (T m) (L m) (L_start m) (Lmax m) (Sigma m) (sk m) (ovf m).

(** mq_decoder.cpp:200-233 *)
Definition decode (buf : list Z) (m : mq) (label : Z) : out (Z * mq) :=
  let* Sigma_k := rd (Sigma m) label in
  let* val := rd static_table Sigma_k in
  let Sigma_mps := Z.land (Z.shiftr val 24) 63 in
  let Sigma_lps := Z.land (Z.shiftr val 16) 63 in
  let Xs := Z.shiftr val 31 in
  let p := Z.shiftl (Z.land val 65535) 8 in
  let* s := rd (sk m) label in
  let m := set_A m (A m - p) in
  let* (x, s, Sigma_k, m) :=
    if p <=? C m then
      let m := set_C m (C m - p) in
      if A m <? Areg_min then
        let is_lps := if A m <? p then 1 else 0 in
        let* m := renormalize buf m in
        Ret (Z.lxor s is_lps, Z.lxor s (Z.land Xs (- is_lps)), if is_lps =? 1 then Sigma_lps else Sigma_mps, m)
      else Ret (s, s, Sigma_k, m)
    else
      let is_lps := if p <=? A m then 1 else 0 in
      let* m := renormalize buf (set_A m p) in
      Ret (Z.lxor s is_lps, Z.lxor s (Z.land Xs (- is_lps)), if is_lps =? 1 then Sigma_lps else Sigma_mps, m) in
  Ret (x mod 256, Mq (A m) (t m) (C m) (T m) (L m) (L_start m) (Lmax m) (wr (Sigma m) label Sigma_k) (wr (sk m) label s) (ovf m)).

(** mq_decoder.cpp:284-299 *)
Definition get_raw_symbol (buf : list Z) (m : mq) : out (Z * mq) :=
  let* m :=
    if t m =? 0 then
      if L m =? Lmax m then Ret (Mq (A m) 8 (C m) 255 (L m) (L_start m) (Lmax m) (Sigma m) (sk m) (ovf m))
      else
        let t' := if T m =? 255 then 7 else 8 in
        let* b := seg_byte buf m in
        Ret (Mq (A m) t' (C m) b (wrap32 (L m + 1)) (L_start m) (Lmax m) (Sigma m) (sk m) (ovf m))
    else Ret m in
  let m := Mq (A m) (t m - 1) (C m) (T m) (L m) (L_start m) (Lmax m) (Sigma m) (sk m) (ovf m) in
  Ret (Z.land (Z.shiftr (T m) (t m)) 1, m).

(** What the block decoder does with it (block_decoding.cpp:551-596): start a
    segment, reset the contexts, decode a symbol with a context label, or take
    a raw symbol. *)
Inductive mqop := Segment (buf_pos segment_length : Z) (is_bypass : bool) | ResetStates | Decode (label : Z) | Raw.
Fixpoint mq_run (buf : list Z) (m : mq) (ops : list mqop) : out (list Z * mq) :=
  match ops with
  | [] => Ret ([], m)
  | Segment p n b :: ops => let* m := init buf m p n b in mq_run buf m ops
  | ResetStates :: ops => mq_run buf (init_states_for_all_contexts m) ops
  | Decode l :: ops => let* (x, m) := decode buf m l in let* (xs, m) := mq_run buf m ops in Ret (x :: xs, m)
  | Raw :: ops => let* (x, m) := get_raw_symbol buf m in let* (xs, m) := mq_run buf m ops in Ret (x :: xs, m)
  end.
