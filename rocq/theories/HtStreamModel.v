(** The three bit streams of an HT cleanup pass: the MagSgn, MEL and VLC
    encoders of source/core/coding/ht_block_encoding.cpp and the readers of
    source/core/coding/ht_block_decoding.hpp (portable scalar build: no NEON,
    AVX2 or WASM). *)
From Verif Require Import Base.

(** Buffer capacities, source/core/coding/ht_block_encoding.hpp:33-35. *)
Definition MAX_Lcup : Z := 16834.
Definition MAX_Scup : Z := 4079.

(** ** MagSgn encoder *)

(** state_MS_enc, source/core/coding/ht_block_encoding.hpp:41-77.  [ms_buf]
    holds the bytes written so far, newest first; [pos] is its length. *)
Record ms_enc := MsE { ms_buf : list Z; ms_creg : Z; ms_ctreg : Z; ms_last : Z }.

(** Constructor, ht_block_encoding.hpp:57-70. *)
Definition ms_init : ms_enc := MsE [] 0 0 0.

(** One byte of the stuffing loop, ht_block_encoding.cpp:155-166. *)
Definition ms_take (s : ms_enc) : ms_enc :=
  if ms_last s =? 255 then
    let b := Z.land (ms_creg s) 127 in
    MsE (b :: ms_buf s) (Z.shiftr (ms_creg s) 7) (ms_ctreg s - 7) b
  else
    let b := Z.land (ms_creg s) 255 in
    MsE (b :: ms_buf s) (Z.shiftr (ms_creg s) 8) (ms_ctreg s - 8) b.

(** One byte of the fast path, ht_block_encoding.cpp:147-151. *)
Definition ms_fast (s : ms_enc) : ms_enc :=
  let b := Z.land (ms_creg s) 255 in
  MsE (b :: ms_buf s) (Z.shiftr (ms_creg s) 8) (ms_ctreg s - 8) b.

(** state_MS_enc::emit_dword, ht_block_encoding.cpp:144-167. *)
Definition ms_dword (s : ms_enc) : ms_enc :=
  let c := ms_creg s in
  if (ms_last s <? 255) && (Z.land c 255 <? 255) && (Z.land (Z.shiftr c 8) 255 <? 255)
     && (Z.land (Z.shiftr c 16) 255 <? 255)
  then ms_fast (ms_fast (ms_fast (ms_fast s)))
  else ms_take (ms_take (ms_take (ms_take s))).

(** [while (ctreg >= 32) emit_dword()], ht_block_encoding.cpp:140-142.  Every
    round removes at least 28 bits, so [ctreg] rounds are always enough. *)
Fixpoint ms_drain (fuel : nat) (s : ms_enc) : ms_enc :=
  match fuel with
  | O => s
  | S f => if 32 <=? ms_ctreg s then ms_drain f (ms_dword s) else s
  end.

(** state_MS_enc::emitMagSgnBits, ht_block_encoding.cpp:132-143. *)
Definition ms_emit (s : ms_enc) (cwd len emb1 : Z) : ms_enc :=
  let c := wrap32 (cwd - Z.shiftl emb1 len) in
  let ct := ms_ctreg s + len in
  ms_drain (Z.to_nat ct)
    (MsE (ms_buf s) (wrap64 (Z.lor (ms_creg s) (Z.shiftl c (ms_ctreg s)))) ct (ms_last s)).

(** The drain loop of termMS, ht_block_encoding.cpp:186-199. *)
Fixpoint ms_flush (fuel : nat) (s : ms_enc) : ms_enc :=
  match fuel with
  | O => s
  | S f =>
    if ms_last s =? 255
    then if ms_ctreg s <? 7 then s else ms_flush f (ms_take s)
    else if ms_ctreg s <? 8 then s else ms_flush f (ms_take s)
  end.

(** state_MS_enc::termMS, ht_block_encoding.cpp:170-216: the bytes of the
    segment, newest first. *)
Definition ms_term (s0 : ms_enc) : list Z :=
  let s := ms_flush (S (Z.to_nat (ms_ctreg s0))) s0 in
  let last_was_FF := ms_last s =? 255 in
  if 0 <? ms_ctreg s then
    let m := Z.land (Z.shiftl 255 (ms_ctreg s)) 255 in
    let fill_mask := if last_was_FF then Z.land m 127 else m in
    let cwd := Z.land (Z.lor (ms_creg s) fill_mask) 255 in
    if cwd =? 255 then ms_buf s else cwd :: ms_buf s
  else if last_was_FF then tl (ms_buf s) else ms_buf s.

(** ** MEL encoder *)

(** MEL_E, ht_block_encoding.hpp:121 and ht_block_decoding.hpp:237. *)
Definition MEL_E (k : Z) : Z := znth 0 [0; 0; 0; 1; 1; 1; 2; 2; 2; 3; 3; 4; 5] k.

(** state_MEL_enc, ht_block_encoding.hpp:103-129.  [me_buf] newest first. *)
Record mel_enc := MeE { me_k : Z; me_run : Z; me_t : Z; me_rem : Z; me_tmp : Z; me_buf : list Z }.

(** Constructor, ht_block_encoding.hpp:118-126. *)
Definition mel_init : mel_enc := MeE 0 0 1 8 0 [].

(** state_MEL_enc::emitMELbit, ht_block_encoding.cpp:221-230. *)
Definition mel_bit (s : mel_enc) (bit : Z) : mel_enc :=
  let tmp := Z.land (Z.shiftl (me_tmp s) 1 + bit) 255 in
  let rem := me_rem s - 1 in
  if rem =? 0
  then MeE (me_k s) (me_run s) (me_t s) (if tmp =? 255 then 7 else 8) 0 (tmp :: me_buf s)
  else MeE (me_k s) (me_run s) (me_t s) rem tmp (me_buf s).

(** The loop emitting [eval] bits of the run, most significant first,
    ht_block_encoding.cpp:247-251. *)
Fixpoint mel_run_bits (s : mel_enc) (eval : nat) : mel_enc :=
  match eval with
  | O => s
  | S e => mel_run_bits (mel_bit s (Z.land (Z.shiftr (me_run s) (Z.of_nat e)) 1)) e
  end.

(** state_MEL_enc::encodeMEL, ht_block_encoding.cpp:232-260. *)
Definition mel_encode (s : mel_enc) (smel : bool) : mel_enc :=
  if smel then
    let s1 := mel_run_bits (mel_bit s 0) (Z.to_nat (MEL_E (me_k s))) in
    let k := Z.max 0 (me_k s - 1) in
    MeE k 0 (Z.shiftl 1 (MEL_E k)) (me_rem s1) (me_tmp s1) (me_buf s1)
  else
    let run := me_run s + 1 in
    if me_t s <=? run then
      let s1 := mel_bit s 1 in
      let k := Z.min 12 (me_k s + 1) in
      MeE k 0 (Z.shiftl 1 (MEL_E k)) (me_rem s1) (me_tmp s1) (me_buf s1)
    else MeE (me_k s) run (me_t s) (me_rem s) (me_tmp s) (me_buf s).

(** state_MEL_enc::termMEL, ht_block_encoding.cpp:262-266. *)
Definition mel_term (s : mel_enc) : mel_enc :=
  if 0 <? me_run s then mel_bit s 1 else s.

(** ** VLC encoder *)

(** state_VLC_enc, ht_block_encoding.hpp:83-98.  The buffer grows towards
    lower addresses: [ve_buf] lists the written bytes by increasing address,
    that is newest first, without the 0xFF of the constructor. *)
Record vlc_enc := VlE { ve_tmp : Z; ve_last : Z; ve_bits : Z; ve_buf : list Z }.

(** Constructor, ht_block_encoding.hpp:94-96. *)
Definition vlc_init : vlc_enc := VlE 15 255 4 [].

(** state_VLC_enc::emitVLCBits, ht_block_encoding.cpp:271-292.  Every round
    consumes at least one of the [len] bits. *)
Fixpoint vlc_emit_loop (fuel : nat) (s : vlc_enc) (cwd len : Z) : vlc_enc :=
  match fuel with
  | O => s
  | S f =>
    if len <=? 0 then s
    else
      let avail := 8 - (if 143 <? ve_last s then 1 else 0) - ve_bits s in
      let t := Z.min avail len in
      let tmp := Z.lor (ve_tmp s)
                   (Z.land (Z.shiftl (Z.land cwd (Z.shiftl 1 t - 1)) (ve_bits s)) 255) in
      let bits := ve_bits s + t in
      let cwd' := Z.shiftr cwd t in
      if avail - t =? 0 then
        if (143 <? ve_last s) && negb (tmp =? 127)
        then vlc_emit_loop f (VlE tmp 0 bits (ve_buf s)) cwd' (len - t)
        else vlc_emit_loop f (VlE 0 tmp 0 (tmp :: ve_buf s)) cwd' (len - t)
      else vlc_emit_loop f (VlE tmp (ve_last s) bits (ve_buf s)) cwd' (len - t)
  end.
Definition vlc_emit (s : vlc_enc) (cwd len : Z) : vlc_enc := vlc_emit_loop (Z.to_nat len) s cwd len.

(** termMELandVLC, ht_block_encoding.cpp:389-409: the contents of the shared
    buffer after both parts have been joined; its length is Scup. *)
Definition term_mel_vlc (v : vlc_enc) (m : mel_enc) : list Z :=
  let mtmp := Z.land (Z.shiftl (me_tmp m) (me_rem m)) 255 in
  let mel_mask := Z.land (Z.shiftl 255 (me_rem m)) 255 in
  let vlc_mask := Z.shiftr 255 (8 - ve_bits v) in
  if Z.lor mel_mask vlc_mask =? 0
  then rev (me_buf m) ++ ve_buf v ++ [255]
  else
    let fuse := Z.lor mtmp (ve_tmp v) in
    if (Z.lor (Z.land (Z.lxor fuse mtmp) mel_mask)
              (Z.land (Z.lxor fuse (ve_tmp v)) vlc_mask) =? 0) && negb (fuse =? 255)
    then rev (me_buf m) ++ fuse :: ve_buf v ++ [255]
    else rev (me_buf m) ++ mtmp :: ve_tmp v :: ve_buf v ++ [255].

(** ** Reading four bytes at a time *)

(** A little-endian 32-bit load. *)
Definition le32 (b0 b1 b2 b3 : Z) : Z :=
  b0 + Z.shiftl b1 8 + Z.shiftl b2 16 + Z.shiftl b3 24.

(** Byte [i] (0..3) of a 32-bit word: [(val >> 8*i) & 0xFF]. *)
Definition byte_of (val i : Z) : Z := Z.land (Z.shiftr val (8 * i)) 255.

(** The loop placing fewer than four bytes into [val],
    ht_block_decoding.hpp:183-189 (MEL) and 1833-1840 (MagSgn). *)
Fixpoint put_bytes (val i : Z) (l : list Z) : Z :=
  match l with
  | [] => val
  | v :: t =>
    let m := wrap32 (Z.lnot (Z.shiftl 255 i)) in
    put_bytes (Z.lor (Z.land val m) (Z.shiftl v i)) (i + 8) t
  end.

(** ** MagSgn reader *)

(** fwd_buf<0xFF>, ht_block_decoding.hpp:1794-1803.  [f_rest] stands for the
    pair (buf, length): the bytes of the segment not read yet. *)
Record fwd := Fwd { f_rest : list Z; f_creg : Z; f_bits : Z; f_unstuff : bool }.

(** One byte of the constructor loop, ht_block_decoding.hpp:1811-1821. *)
Definition fwd_byte (s : fwd) : fwd :=
  let (d, rest) := match f_rest s with [] => (255, []) | d :: t => (d, t) end in
  Fwd rest (wrap64 (Z.lor (f_creg s) (Z.shiftl d (f_bits s))))
      (f_bits s + (8 - Z.b2z (f_unstuff s))) (d =? 255).

(** The 32 bits fwd_buf::read works on and the bytes left,
    ht_block_decoding.hpp:1831-1849. *)
Definition fwd_load4 (rest : list Z) : Z * list Z :=
  match rest with
  | b0 :: b1 :: b2 :: b3 :: t => (le32 b0 b1 b2 b3, t)
  | [] => (4294967295, [])
  | _ => (put_bytes 4294967295 0 rest, [])
  end.

(** fwd_buf::read, ht_block_decoding.hpp:1825-1867.  [None] is the exception
    of line 1828. *)
Definition fwd_read (s : fwd) : option fwd :=
  if 32 <? f_bits s then None
  else
    let (val, rest) := fwd_load4 (f_rest s) in
    let b0 := Z.land val 255 in
    let bl0 := 8 - Z.b2z (f_unstuff s) in
    let b1 := byte_of val 1 in
    let t1 := wrap32 (Z.lor b0 (Z.shiftl b1 bl0)) in
    let bl1 := bl0 + (8 - Z.b2z (b0 =? 255)) in
    let b2 := byte_of val 2 in
    let t2 := wrap32 (Z.lor t1 (Z.shiftl b2 bl1)) in
    let bl2 := bl1 + (8 - Z.b2z (b1 =? 255)) in
    let b3 := byte_of val 3 in
    let t3 := wrap32 (Z.lor t2 (Z.shiftl b3 bl2)) in
    let bl3 := bl2 + (8 - Z.b2z (b2 =? 255)) in
    Some (Fwd rest (wrap64 (Z.lor (f_creg s) (Z.shiftl t3 (f_bits s))))
              (f_bits s + bl3) (b3 =? 255)).

(** fwd_buf::fwd_buf, ht_block_decoding.hpp:1806-1823, for a buffer whose
    address is [al] modulo 4. *)
Definition fwd_init (al : nat) (seg : list Z) : option fwd :=
  fwd_read (Nat.iter (4 - al) fwd_byte (Fwd seg 0 0 false)).

(** fwd_buf::fetch, ht_block_decoding.hpp:1883-1890. *)
Definition fwd_fetch (s : fwd) : option (Z * fwd) :=
  match (if f_bits s <? 32 then
           match fwd_read s with
           | Some s1 => if f_bits s1 <? 32 then fwd_read s1 else Some s1
           | None => None
           end
         else Some s) with
  | Some s' => Some (wrap32 (f_creg s'), s')
  | None => None
  end.

(** fwd_buf::advance, ht_block_decoding.hpp:1869-1881.  [None] is the
    exception of line 1876 (a build without clang would carry on with a
    wrapped bit count). *)
Definition fwd_advance (s : fwd) (n : Z) : option fwd :=
  if f_bits s <? n then None
  else Some (Fwd (f_rest s) (Z.shiftr (f_creg s) n) (f_bits s - n) (f_unstuff s)).

(** ** VLC reader *)

(** rev_buf, ht_block_decoding.hpp:286-293.  [r_rest] stands for the pair
    (buf, length): the bytes still to be read, in reading order (decreasing
    address). *)
Record rbuf := Rev { r_rest : list Z; r_creg : Z; r_bits : Z; r_unstuff : bool }.

(** Bits held by a byte after a byte greater than 0x8F or not. *)
Definition rev_width (u : bool) (d : Z) : Z := 8 - Z.b2z (u && (Z.land d 127 =? 127)).

(** One byte of the init loop, ht_block_decoding.hpp:313-320. *)
Definition rev_byte (s : rbuf) : rbuf :=
  match r_rest s with
  | [] => s
  | d :: t =>
    Rev t (wrap64 (Z.lor (r_creg s) (Z.shiftl d (r_bits s))))
        (r_bits s + rev_width (r_unstuff s) d) (143 <? d)
  end.

(** The loop placing fewer than four bytes, ht_block_decoding.hpp:337-344. *)
Fixpoint put_high (val i : Z) (l : list Z) : Z :=
  match l with
  | [] => val
  | v :: t => put_high (Z.lor val (Z.shiftl v i)) (i - 8) t
  end.

(** The 32 bits rev_buf::read works on and the bytes left,
    ht_block_decoding.hpp:331-347. *)
Definition rev_load4 (rest : list Z) : Z * list Z :=
  match rest with
  | d0 :: d1 :: d2 :: d3 :: t => (le32 d3 d2 d1 d0, t)
  | _ => (put_high 0 24 rest, [])
  end.

(** rev_buf::read, ht_block_decoding.hpp:325-373. *)
Definition rev_read (s : rbuf) : rbuf :=
  if 32 <? r_bits s then s
  else
    let (val, rest) := rev_load4 (r_rest s) in
    let d0 := Z.shiftr val 24 in
    let bl0 := rev_width (r_unstuff s) d0 in
    let d1 := byte_of val 2 in
    let t1 := wrap32 (Z.lor d0 (Z.shiftl d1 bl0)) in
    let bl1 := bl0 + rev_width (143 <? d0) d1 in
    let d2 := byte_of val 1 in
    let t2 := wrap32 (Z.lor t1 (Z.shiftl d2 bl1)) in
    let bl2 := bl1 + rev_width (143 <? d1) d2 in
    let d3 := Z.land val 255 in
    let t3 := wrap32 (Z.lor t2 (Z.shiftl d3 bl2)) in
    let bl3 := bl2 + rev_width (143 <? d2) d3 in
    Rev rest (wrap64 (Z.lor (r_creg s) (Z.shiftl t3 (r_bits s)))) (r_bits s + bl3) (143 <? d3).

(** rev_buf::init, ht_block_decoding.hpp:301-323: [seg] is the MEL+VLC suffix
    of Scup bytes, [al] the value [buf & 3] after the first byte was read. *)
Definition rev_init (al : nat) (seg : list Z) : option rbuf :=
  match rev seg with
  | _ :: d :: rest =>
    let creg := Z.shiftr d 4 in
    let bits := 4 - Z.b2z (Z.land creg 7 =? 7) in
    Some (rev_read (Nat.iter (1 + al) rev_byte (Rev rest creg bits (143 <? Z.lor d 15))))
  | _ => None (* Scup < 2: refused before *)
  end.

(** rev_buf::fetch, ht_block_decoding.hpp:375-383. *)
Definition rev_fetch (s : rbuf) : Z * rbuf :=
  let s' := if r_bits s <? 32 then
              let s1 := rev_read s in if r_bits s1 <? 32 then rev_read s1 else s1
            else s in
  (wrap32 (r_creg s'), s').

(** rev_buf::advance, ht_block_decoding.hpp:385-393; [None] is the exception. *)
Definition rev_advance (s : rbuf) (n : Z) : option (Z * rbuf) :=
  if r_bits s <? n then None
  else
    let c := Z.shiftr (r_creg s) n in
    Some (wrap32 c, Rev (r_rest s) c (r_bits s - n) (r_unstuff s)).

(** ** MEL reader *)

(** MEL_dec, ht_block_decoding.hpp:134-144; [l_rest] stands for (buf, length):
    the bytes not read yet, without the last byte of the segment. *)
Record meldec := Mel { l_rest : list Z; l_tmp : Z; l_bits : Z; l_unstuff : bool;
                       l_k : Z; l_num : Z; l_runs : Z }.

(** One byte of the init loop, ht_block_decoding.hpp:163-173; [tmp] is still
    right-aligned here. *)
Definition mel_init_byte (s : meldec) : meldec :=
  let (d, rest) := match l_rest s with
                   | [] => (255, [])
                   | [d] => (Z.lor d 15, [])
                   | d :: t => (d, t)
                   end in
  let d_bits := 8 - Z.b2z (l_unstuff s) in
  Mel rest (wrap64 (Z.lor (Z.shiftl (l_tmp s) d_bits) d)) (l_bits s + d_bits) (d =? 255)
      (l_k s) (l_num s) (l_runs s).

(** MEL_dec::init, ht_block_decoding.hpp:153-175, for a buffer whose address is
    [al] modulo 4. *)
Definition mel_dec_init (al : nat) (seg : list Z) : meldec :=
  let s := Nat.iter (4 - al) mel_init_byte (Mel (removelast seg) 0 0 false 0 0 0) in
  Mel (l_rest s) (wrap64 (Z.shiftl (l_tmp s) (64 - l_bits s))) (l_bits s) (l_unstuff s) 0 0 0.

(** The 32 bits MEL_dec::read works on and the bytes left,
    ht_block_decoding.hpp:182-205. *)
Definition mel_load4 (rest : list Z) : Z * list Z :=
  match rest with
  | b0 :: b1 :: b2 :: b3 :: b4 :: t => (le32 b0 b1 b2 b3, b4 :: t)
  | [] => (4294967295, [])
  | _ => (put_bytes 4294967295 0 (removelast rest ++ [Z.lor (last rest 0) 15]), [])
  end.

(** MEL_dec::read, ht_block_decoding.hpp:177-234. *)
Definition mel_read (s : meldec) : meldec :=
  if 32 <? l_bits s then s
  else
    let (val, rest) := mel_load4 (l_rest s) in
    let bl0 := 32 - Z.b2z (l_unstuff s) in
    let b0 := Z.land val 255 in
    let f0 := Z.b2z (b0 =? 255) in
    let b1 := byte_of val 1 in
    let f1 := Z.b2z (b1 =? 255) in
    let b2 := byte_of val 2 in
    let f2 := Z.b2z (b2 =? 255) in
    let b3 := byte_of val 3 in
    let t1 := Z.lor (wrap32 (Z.shiftl b0 (8 - f0))) b1 in
    let t2 := Z.lor (wrap32 (Z.shiftl t1 (8 - f1))) b2 in
    let t3 := Z.lor (wrap32 (Z.shiftl t2 (8 - f2))) b3 in
    let bl := bl0 - f0 - f1 - f2 in
    Mel rest (wrap64 (Z.lor (l_tmp s) (Z.shiftl t3 (64 - bl - l_bits s)))) (l_bits s + bl)
        (b3 =? 255) (l_k s) (l_num s) (l_runs s).

(** One round of the loop of MEL_dec::decode, ht_block_decoding.hpp:244-268. *)
Definition mel_decode1 (s : meldec) : meldec :=
  let eval := MEL_E (l_k s) in
  let '(run, k, tmp, bits) :=
    if Z.testbit (l_tmp s) 63 then
      (Z.shiftl (Z.shiftl 1 eval - 1) 1,
       (if l_k s + 1 <? 12 then l_k s + 1 else 12),
       wrap64 (Z.shiftl (l_tmp s) 1), l_bits s - 1)
    else
      (Z.shiftl (Z.land (Z.shiftr (l_tmp s) (63 - eval)) (Z.shiftl 1 eval - 1)) 1 + 1,
       (if 0 <? l_k s - 1 then l_k s - 1 else 0),
       wrap64 (Z.shiftl (l_tmp s) (eval + 1)), l_bits s - (eval + 1)) in
  let sh := l_num s * 7 in
  let cleared := Z.land (l_runs s) (wrap64 (Z.lnot (Z.shiftl 63 sh))) in
  Mel (l_rest s) tmp bits (l_unstuff s) k (l_num s + 1)
      (wrap64 (Z.lor cleared (Z.shiftl run sh))).

(** The loop itself, ht_block_decoding.hpp:243; [num_runs < 8] bounds it. *)
Fixpoint mel_decode_loop (fuel : nat) (s : meldec) : meldec :=
  match fuel with
  | O => s
  | S f => if (6 <=? l_bits s) && (l_num s <? 8) then mel_decode_loop f (mel_decode1 s) else s
  end.

(** MEL_dec::decode, ht_block_decoding.hpp:236-269. *)
Definition mel_decode (s : meldec) : meldec :=
  mel_decode_loop 8 (if l_bits s <? 6 then mel_read s else s).

(** MEL_dec::get_run, ht_block_decoding.hpp:271-279. *)
Definition mel_get_run (s : meldec) : Z * meldec :=
  let s1 := if l_num s =? 0 then mel_decode s else s in
  (Z.land (l_runs s1) 127,
   Mel (l_rest s1) (l_tmp s1) (l_bits s1) (l_unstuff s1) (l_k s1) (l_num s1 - 1)
       (Z.shiftr (l_runs s1) 7)).

(** Consuming one MEL event in the block decoder,
    ht_block_decoding.hpp:453-459, 506-510: [mel_run -= 2; event = (mel_run ==
    -1); if (mel_run < 0) mel_run = get_run()]. *)
Definition mel_event (run : Z) (s : meldec) : bool * (Z * meldec) :=
  let r := run - 2 in
  (r =? -1, if r <? 0 then mel_get_run s else (r, s)).
