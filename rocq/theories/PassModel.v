(** Model of the coding passes of Part 1 code-blocks,
    source/core/coding/block_decoding.cpp:36-591, coding_local.hpp:31-36.

    Simplifications.  The entropy decoder is a parameter: a state, and what
    starting a segment, resetting the contexts, decoding with a context label
    and taking a raw bit do to it; MqModel.v is the one the code uses.  The
    arrays of the block are functions with a checked size; an int32_t sample is
    its 32-bit pattern.  finish() does nothing (mq_decoder.cpp:301-303).
    j2k_dequant is in DequantModel.v. *)
From Verif Require Import Base OutModel.

(** EBCOTtables.hpp:31-72. *)
Definition sig_LUT : list (list Z) :=
  [[
     0; 1; 1; 2; 1; 2; 2; 2; 1; 2; 2; 2; 2; 2; 2; 2; 3; 3; 3; 3; 3; 3; 3; 3; 3; 3; 3; 3; 3; 3; 3; 3;
     3; 3; 3; 3; 3; 3; 3; 3; 3; 3; 3; 3; 3; 3; 3; 3; 4; 4; 4; 4; 4; 4; 4; 4; 4; 4; 4; 4; 4; 4; 4; 4;
     5; 6; 6; 6; 6; 6; 6; 6; 6; 6; 6; 6; 6; 6; 6; 6; 7; 7; 7; 7; 7; 7; 7; 7; 7; 7; 7; 7; 7; 7; 7; 7;
     7; 7; 7; 7; 7; 7; 7; 7; 7; 7; 7; 7; 7; 7; 7; 7; 7; 7; 7; 7; 7; 7; 7; 7; 7; 7; 7; 7; 7; 7; 7; 7;
     5; 6; 6; 6; 6; 6; 6; 6; 6; 6; 6; 6; 6; 6; 6; 6; 7; 7; 7; 7; 7; 7; 7; 7; 7; 7; 7; 7; 7; 7; 7; 7;
     7; 7; 7; 7; 7; 7; 7; 7; 7; 7; 7; 7; 7; 7; 7; 7; 7; 7; 7; 7; 7; 7; 7; 7; 7; 7; 7; 7; 7; 7; 7; 7;
     8; 8; 8; 8; 8; 8; 8; 8; 8; 8; 8; 8; 8; 8; 8; 8; 8; 8; 8; 8; 8; 8; 8; 8; 8; 8; 8; 8; 8; 8; 8; 8;
     8; 8; 8; 8; 8; 8; 8; 8; 8; 8; 8; 8; 8; 8; 8; 8; 8; 8; 8; 8; 8; 8; 8; 8; 8; 8; 8; 8; 8; 8; 8; 8];
   [
     0; 1; 1; 2; 1; 2; 2; 2; 1; 2; 2; 2; 2; 2; 2; 2; 5; 6; 6; 6; 6; 6; 6; 6; 6; 6; 6; 6; 6; 6; 6; 6;
     5; 6; 6; 6; 6; 6; 6; 6; 6; 6; 6; 6; 6; 6; 6; 6; 8; 8; 8; 8; 8; 8; 8; 8; 8; 8; 8; 8; 8; 8; 8; 8;
     3; 3; 3; 3; 3; 3; 3; 3; 3; 3; 3; 3; 3; 3; 3; 3; 7; 7; 7; 7; 7; 7; 7; 7; 7; 7; 7; 7; 7; 7; 7; 7;
     7; 7; 7; 7; 7; 7; 7; 7; 7; 7; 7; 7; 7; 7; 7; 7; 8; 8; 8; 8; 8; 8; 8; 8; 8; 8; 8; 8; 8; 8; 8; 8;
     3; 3; 3; 3; 3; 3; 3; 3; 3; 3; 3; 3; 3; 3; 3; 3; 7; 7; 7; 7; 7; 7; 7; 7; 7; 7; 7; 7; 7; 7; 7; 7;
     7; 7; 7; 7; 7; 7; 7; 7; 7; 7; 7; 7; 7; 7; 7; 7; 8; 8; 8; 8; 8; 8; 8; 8; 8; 8; 8; 8; 8; 8; 8; 8;
     4; 4; 4; 4; 4; 4; 4; 4; 4; 4; 4; 4; 4; 4; 4; 4; 7; 7; 7; 7; 7; 7; 7; 7; 7; 7; 7; 7; 7; 7; 7; 7;
     7; 7; 7; 7; 7; 7; 7; 7; 7; 7; 7; 7; 7; 7; 7; 7; 8; 8; 8; 8; 8; 8; 8; 8; 8; 8; 8; 8; 8; 8; 8; 8];
   [
     0; 1; 1; 2; 1; 2; 2; 2; 1; 2; 2; 2; 2; 2; 2; 2; 3; 3; 3; 3; 3; 3; 3; 3; 3; 3; 3; 3; 3; 3; 3; 3;
     3; 3; 3; 3; 3; 3; 3; 3; 3; 3; 3; 3; 3; 3; 3; 3; 4; 4; 4; 4; 4; 4; 4; 4; 4; 4; 4; 4; 4; 4; 4; 4;
     5; 6; 6; 6; 6; 6; 6; 6; 6; 6; 6; 6; 6; 6; 6; 6; 7; 7; 7; 7; 7; 7; 7; 7; 7; 7; 7; 7; 7; 7; 7; 7;
     7; 7; 7; 7; 7; 7; 7; 7; 7; 7; 7; 7; 7; 7; 7; 7; 7; 7; 7; 7; 7; 7; 7; 7; 7; 7; 7; 7; 7; 7; 7; 7;
     5; 6; 6; 6; 6; 6; 6; 6; 6; 6; 6; 6; 6; 6; 6; 6; 7; 7; 7; 7; 7; 7; 7; 7; 7; 7; 7; 7; 7; 7; 7; 7;
     7; 7; 7; 7; 7; 7; 7; 7; 7; 7; 7; 7; 7; 7; 7; 7; 7; 7; 7; 7; 7; 7; 7; 7; 7; 7; 7; 7; 7; 7; 7; 7;
     8; 8; 8; 8; 8; 8; 8; 8; 8; 8; 8; 8; 8; 8; 8; 8; 8; 8; 8; 8; 8; 8; 8; 8; 8; 8; 8; 8; 8; 8; 8; 8;
     8; 8; 8; 8; 8; 8; 8; 8; 8; 8; 8; 8; 8; 8; 8; 8; 8; 8; 8; 8; 8; 8; 8; 8; 8; 8; 8; 8; 8; 8; 8; 8];
   [
     0; 3; 3; 6; 3; 6; 6; 8; 3; 6; 6; 8; 6; 8; 8; 8; 1; 4; 4; 7; 4; 7; 7; 8; 4; 7; 7; 8; 7; 8; 8; 8;
     1; 4; 4; 7; 4; 7; 7; 8; 4; 7; 7; 8; 7; 8; 8; 8; 2; 5; 5; 7; 5; 7; 7; 8; 5; 7; 7; 8; 7; 8; 8; 8;
     1; 4; 4; 7; 4; 7; 7; 8; 4; 7; 7; 8; 7; 8; 8; 8; 2; 5; 5; 7; 5; 7; 7; 8; 5; 7; 7; 8; 7; 8; 8; 8;
     2; 5; 5; 7; 5; 7; 7; 8; 5; 7; 7; 8; 7; 8; 8; 8; 2; 5; 5; 7; 5; 7; 7; 8; 5; 7; 7; 8; 7; 8; 8; 8;
     1; 4; 4; 7; 4; 7; 7; 8; 4; 7; 7; 8; 7; 8; 8; 8; 2; 5; 5; 7; 5; 7; 7; 8; 5; 7; 7; 8; 7; 8; 8; 8;
     2; 5; 5; 7; 5; 7; 7; 8; 5; 7; 7; 8; 7; 8; 8; 8; 2; 5; 5; 7; 5; 7; 7; 8; 5; 7; 7; 8; 7; 8; 8; 8;
     2; 5; 5; 7; 5; 7; 7; 8; 5; 7; 7; 8; 7; 8; 8; 8; 2; 5; 5; 7; 5; 7; 7; 8; 5; 7; 7; 8; 7; 8; 8; 8;
     2; 5; 5; 7; 5; 7; 7; 8; 5; 7; 7; 8; 7; 8; 8; 8; 2; 5; 5; 7; 5; 7; 7; 8; 5; 7; 7; 8; 7; 8; 8; 8]].
(** EBCOTtables.hpp:74-93: context and sign flip. *)
Definition sign_LUT : list (list Z) :=
  [[
     9; 10; 10; 10; 12; 13; 13; 13; 12; 13; 13; 13; 12; 13; 13; 13; 0; 10; 0; 9; 0; 11; 0; 12; 0; 11; 0; 12; 0; 11; 0; 12;
     0; 0; 10; 9; 0; 0; 11; 12; 0; 0; 11; 12; 0; 0; 11; 12; 0; 0; 0; 10; 0; 0; 0; 11; 0; 0; 0; 11; 0; 0; 0; 11;
     0; 0; 0; 0; 12; 11; 11; 11; 0; 0; 0; 0; 9; 10; 10; 10; 0; 0; 0; 0; 0; 13; 0; 12; 0; 0; 0; 0; 0; 10; 0; 9;
     0; 0; 0; 0; 0; 0; 13; 12; 0; 0; 0; 0; 0; 0; 10; 9; 0; 0; 0; 0; 0; 0; 0; 13; 0; 0; 0; 0; 0; 0; 0; 10;
     0; 0; 0; 0; 0; 0; 0; 0; 12; 11; 11; 11; 9; 10; 10; 10; 0; 0; 0; 0; 0; 0; 0; 0; 0; 13; 0; 12; 0; 10; 0; 9;
     0; 0; 0; 0; 0; 0; 0; 0; 0; 0; 13; 12; 0; 0; 10; 9; 0; 0; 0; 0; 0; 0; 0; 0; 0; 0; 0; 13; 0; 0; 0; 10;
     0; 0; 0; 0; 0; 0; 0; 0; 0; 0; 0; 0; 12; 11; 11; 11; 0; 0; 0; 0; 0; 0; 0; 0; 0; 0; 0; 0; 0; 13; 0; 12;
     0; 0; 0; 0; 0; 0; 0; 0; 0; 0; 0; 0; 0; 0; 13; 12; 0; 0; 0; 0; 0; 0; 0; 0; 0; 0; 0; 0; 0; 0; 0; 13];
   [
     0; 0; 0; 0; 0; 0; 0; 0; 0; 0; 0; 0; 0; 0; 0; 0; 0; 1; 0; 0; 0; 0; 0; 0; 0; 0; 0; 0; 0; 0; 0; 0;
     0; 0; 1; 0; 0; 0; 0; 0; 0; 0; 0; 0; 0; 0; 0; 0; 0; 0; 0; 1; 0; 0; 0; 0; 0; 0; 0; 0; 0; 0; 0; 0;
     0; 0; 0; 0; 1; 1; 1; 1; 0; 0; 0; 0; 0; 0; 0; 0; 0; 0; 0; 0; 0; 1; 0; 1; 0; 0; 0; 0; 0; 1; 0; 0;
     0; 0; 0; 0; 0; 0; 1; 1; 0; 0; 0; 0; 0; 0; 1; 0; 0; 0; 0; 0; 0; 0; 0; 1; 0; 0; 0; 0; 0; 0; 0; 1;
     0; 0; 0; 0; 0; 0; 0; 0; 1; 1; 1; 1; 0; 0; 0; 0; 0; 0; 0; 0; 0; 0; 0; 0; 0; 1; 0; 1; 0; 1; 0; 0;
     0; 0; 0; 0; 0; 0; 0; 0; 0; 0; 1; 1; 0; 0; 1; 0; 0; 0; 0; 0; 0; 0; 0; 0; 0; 0; 0; 1; 0; 0; 0; 1;
     0; 0; 0; 0; 0; 0; 0; 0; 0; 0; 0; 0; 1; 1; 1; 1; 0; 0; 0; 0; 0; 0; 0; 0; 0; 0; 0; 0; 0; 1; 0; 1;
     0; 0; 0; 0; 0; 0; 0; 0; 0; 0; 0; 0; 0; 0; 1; 1; 0; 0; 0; 0; 0; 0; 0; 0; 0; 0; 0; 0; 0; 0; 0; 1]].

(** coding_units.cpp:1401-1405 and subband_row_buf.cpp:475-479. *)
Definition up8 (v : Z) : Z := (v + 7) / 8 * 8.

(** The 9-bit index of the window around a sample as an index of [sig_LUT],
    block_decoding.cpp:47-56. *)
Definition idx8 (i : Z) : Z :=
  let b n := Z.land (Z.shiftr i n) 1 in
  Z.lor (b 0) (Z.lor (Z.shiftl (b 2) 1) (Z.lor (Z.shiftl (b 6) 2) (Z.lor (Z.shiftl (b 8) 3)
    (Z.lor (Z.shiftl (b 1) 4) (Z.lor (Z.shiftl (b 7) 5) (Z.lor (Z.shiftl (b 3) 6) (Z.shiftl (b 5) 7))))))).
(** sig_LUT9_table, 41-61. *)
Definition sig_LUT9 (orient i : Z) : out Z :=
  if (0 <=? orient) && (orient <? 4) && (0 <=? i) && (i <? 512) then rd (znth [] sig_LUT orient) (idx8 i) else UB.
(** mmm, 350. *)
Definition mmm : list Z := [14; 15; 16; 16].

Section Block.
  Variable src : Type.
  Variable dec : src -> Z -> out (Z * src).
  Variable raw : src -> out (Z * src).
  Variables w h orient : Z.
  Variable causal : bool.

  Definition tstr : Z := up8 w + 2.   (* blkstate_stride, block_contexts_stride *)
  Definition sstr : Z := up8 w.       (* blksampl_stride *)
  Definition n_sm : Z := up8 w * up8 h.
  Definition n_st : Z := (up8 w + 2) * (up8 h + 2).
  Definition n_cx : Z := (up8 h / 4 + 2) * (up8 w + 2).

  (** sample_buf, block_states, block_contexts and the decoder. *)
  Record blk := Blk { sm : Z -> Z; st : Z -> Z; cx : Z -> Z; so : src }.

  Definition rd_sm (b : blk) (i : Z) : out Z := if (0 <=? i) && (i <? n_sm) then Ret (sm b i) else UB.
  Definition rd_st (b : blk) (i : Z) : out Z := if (0 <=? i) && (i <? n_st) then Ret (st b i) else UB.
  Definition rd_cx (b : blk) (i : Z) : out Z := if (0 <=? i) && (i <? n_cx) then Ret (cx b i) else UB.
  Definition wr_st (b : blk) (i v : Z) : out blk :=
    if (0 <=? i) && (i <? n_st) then Ret (Blk (sm b) (upd (st b) i v) (cx b) (so b)) else UB.
  (** [a[i] |= 1 << n] for samples and context words. *)
  Definition or_sm (b : blk) (i n : Z) : out blk :=
    if (0 <=? i) && (i <? n_sm) && (0 <=? n) && (n <? 32) then Ret (Blk (upd (sm b) i (Z.lor (sm b i) (2 ^ n))) (st b) (cx b) (so b)) else UB.
  Definition or_cx (b : blk) (i n : Z) : out blk :=
    if (0 <=? i) && (i <? n_cx) && (0 <=? n) && (n <? 32) then Ret (Blk (sm b) (st b) (upd (cx b) i (Z.lor (cx b i) (2 ^ n))) (so b)) else UB.
  Definition with_so (b : blk) (s : src) : blk := Blk (sm b) (st b) (cx b) s.
  Definition ask (b : blk) (label : Z) : out (Z * blk) := let* (x, s) := dec (so b) label in Ret (x, with_so b s).
  Definition ask_raw (b : blk) : out (Z * blk) := let* (x, s) := raw (so b) in Ret (x, with_so b s).

  (** broadcast_sigma_context, 66-90. *)
  Definition broadcast (b : blk) (j1 j2 : Z) : out blk :=
    let sr := j1 mod 4 in
    let xb := j2 + 1 in
    let row := (j1 / 4 + 1) * tstr in
    let bp := 3 * (sr + 1) in
    let* b := or_cx b (row + (xb - 1)) (bp + 2) in
    let* b := or_cx b (row + xb) (bp + 1) in
    let* b := or_cx b (row + (xb + 1)) (bp + 0) in
    if sr =? 0 then
      let prev := row - tstr in
      let* b := or_cx b (prev + (xb - 1)) 17 in
      let* b := or_cx b (prev + xb) 16 in
      or_cx b (prev + (xb + 1)) 15
    else if sr =? 3 then
      let next := row + tstr in
      let* b := or_cx b (next + (xb - 1)) 2 in
      let* b := or_cx b (next + xb) 1 in
      or_cx b (next + (xb + 1)) 0
    else Ret b.

  (** get_context_label_sig, 105-119. *)
  Definition label_sig (b : blk) (j1 j2 : Z) : out Z :=
    let* word := rd_cx b ((j1 / 4 + 1) * tstr + (j2 + 1)) in
    let sr := j1 mod 4 in
    let i := Z.land (Z.shiftr word (3 * sr)) 511 in
    let i := if causal && (sr =? 3) then Z.land i 63 else i in
    sig_LUT9 orient i.

  (** get_signLUT_index, 120-149. *)
  Definition sign_index (b : blk) (j1 j2 : Z) : out Z :=
    let p0 := j1 * tstr + j2 in
    let p1 := (j1 + 1) * tstr + j2 in
    let p2 := (j1 + 2) * tstr + j2 in
    let sp := j1 * sstr + j2 in
    let sgn (c : bool) i := if c then let* v := rd_sm b i in Ret (Z.land (Z.shiftr v 31) 1) else Ret 0 in
    let* t := rd_st b (p0 + 1) in
    let* l := rd_st b (p1 + 0) in
    let* r := rd_st b (p1 + 2) in
    let* d := rd_st b (p2 + 1) in
    let* ts := sgn (0 <? j1) (sp - sstr) in
    let* ls := sgn (0 <? j2) (sp - 1) in
    let* rs := sgn (j2 <? w - 1) (sp + 1) in
    let* ds := sgn (j1 <? h - 1) (sp + sstr) in
    Ret (Z.land t 1 + Z.shiftl (Z.land l 1) 2 + Z.shiftl (Z.land r 1) 3 + Z.shiftl (Z.land d 1) 1 +
         Z.shiftl ts 4 + Z.shiftl ls 6 + Z.shiftl rs 7 + Z.shiftl ds 5).

  (** decode_j2k_sign_raw and decode_j2k_sign, 151-167. *)
  Definition sign_raw (b : blk) (j1 j2 : Z) : out blk :=
    let* (x, b) := ask_raw b in
    if x =? 0 then Ret b else or_sm b (j1 * sstr + j2) 31.
  Definition sign_mq (b : blk) (j1 j2 : Z) : out blk :=
    let* i := sign_index b j1 j2 in
    let i := if causal && (j1 mod 4 =? 3) then Z.land i 0xDD else i in
    let* label := rd (znth [] sign_LUT 0) i in
    let* (x, b) := ask b label in
    let* flip := rd (znth [] sign_LUT 1) i in
    if Z.land (Z.lxor x flip) 1 =? 0 then Ret b else or_sm b (j1 * sstr + j2) 31.

  (** [state_p[0] &= 0x7; state_p[0] |= p << SHIFT_P]. *)
  Definition plane (b : blk) (i p : Z) : out blk :=
    let* v := rd_st b i in wr_st b i (Z.lor (Z.land v 7) ((p * 8) mod 256)).
  Definition or_st (b : blk) (i v : Z) : out blk := let* o := rd_st b i in wr_st b i (Z.lor o v).

  (** One sample in decode_sigprop_pass_raw and decode_sigprop_pass,
      176-199 and 252-270. *)
  Definition sigprop_at (by_raw : bool) (p : Z) (b : blk) (jj : Z * Z) : out blk :=
    let '(j1, j2) := jj in
    let sp := (j1 + 1) * tstr + (j2 + 1) in
    let* v := rd_st b sp in
    let* label := if Z.land v 1 =? 0 then label_sig b j1 j2 else Ret 0 in
    if (Z.land v 1 =? 0) && (0 <? label) then
      let* b := plane b sp p in
      let* (x, b) := if by_raw then ask_raw b else ask b label in
      let* b := if x =? 0 then Ret b else
                  let* b := or_sm b (j1 * sstr + j2) p in
                  let* b := or_st b sp x in
                  let* b := broadcast b j1 j2 in
                  if by_raw then sign_raw b j1 j2 else sign_mq b j1 j2 in
      or_st b sp 4
    else wr_st b sp (Z.land v 251).

  (** One sample in decode_magref_pass_raw and decode_magref_pass, 304-317 and
      360-371. *)
  Definition magref_at (by_raw : bool) (p : Z) (b : blk) (jj : Z * Z) : out blk :=
    let '(j1, j2) := jj in
    let sp := (j1 + 1) * tstr + (j2 + 1) in
    let* v := rd_st b sp in
    if (Z.land v 1 =? 1) && (Z.land v 4 =? 0) then
      let* b := plane b sp p in
      let* (x, b) := if by_raw then ask_raw b else
                       let* label := label_sig b j1 j2 in
                       let* v := rd_st b sp in
                       let* label := rd mmm (Z.lor (Z.land v 2) (if 0 <? label then 1 else 0)) in
                       ask b label in
      let* b := if x =? 0 then Ret b else or_sm b (j1 * sstr + j2) p in
      or_st b sp 2
    else Ret b.

  (** The loops of the two passes: full stripes, then the remaining rows,
      172-175 and 205-208, 245-255 and 276-278, and likewise 301-303, 355-359. *)
  Definition each (f : blk -> Z * Z -> out blk) (b : blk) : out blk :=
    let* b := foldo (fun b n => foldo (fun b j2 => foldo (fun b r => f b (4 * n + r, j2)) b (zseq 4)) b (zseq w)) b (zseq (h / 4)) in
    if h mod 4 =? 0 then Ret b else
    foldo (fun b j2 => foldo (fun b r => f b (4 * (h / 4) + r, j2)) b (zseq (h mod 4))) b (zseq w).
  Definition sigprop (by_raw : bool) (p : Z) : blk -> out blk := each (sigprop_at by_raw p).
  Definition magref (by_raw : bool) (p : Z) : blk -> out blk := each (magref_at by_raw p).

  (** The state and sign update of a sample found significant in the cleanup
      pass, 454-458 and 476-480. *)
  Definition found (b : blk) (j1 j2 : Z) : out blk :=
    let* b := or_st b ((j1 + 1) * tstr + (j2 + 1)) 1 in
    let* b := broadcast b j1 j2 in
    sign_mq b j1 j2.

  (** decode_cleanup_pass, a column of a full stripe: 410-461.  [k] counts
      down from 4. *)
  Fixpoint cleanup_col (fuel : nat) (p j1s j2 k : Z) (b : blk) : out blk :=
    if k <=? 0 then Ret b else
    match fuel with
    | O => NoFuel
    | S fuel =>
        let j1 := j1s + 4 - k in
        let* (r, k, j1, b) :=
          if (j1 mod 4 =? 0) && (j1 <=? h - 4) then
            let* word := rd_cx b ((j1s / 4 + 1) * tstr + (j2 + 1)) in
            if Z.land word (if causal then 0x07FFF else 0x3FFFF) =? 0 then
              let* (x, b) := ask b 17 in
              let* (r, b) := if x =? 0 then Ret (4, b) else
                               let* (u, b) := ask b 18 in
                               let* (v, b) := ask b 18 in
                               let r := 2 * u + v in
                               let* b := or_sm b ((j1 + r) * sstr + j2) p in
                               Ret (r, b) in
              let k := k - r in
              Ret (r, k, if k =? 0 then j1 else j1s + 4 - k, b)
            else Ret (-1, k, j1, b)
          else Ret (-1, k, j1, b) in
        let sp := (j1 + 1) * tstr + (j2 + 1) in
        let* v := rd_st b sp in
        let* b :=
          if (Z.land v 1 =? 0) && (Z.land v 4 =? 0) then
            let* b := plane b sp p in
            let* b := if 0 <=? r then Ret b else
                        let* label := label_sig b j1 j2 in
                        let* (x, b) := ask b label in
                        if x =? 0 then Ret b else or_sm b (j1 * sstr + j2) p in
            let* s := rd_sm b (j2 + j1 * sstr) in
            if s =? 2 ^ p then found b j1 j2 else Ret b
          else Ret b in
        cleanup_col fuel p j1s j2 (k - 1) b
    end.
  (** A sample of the remaining rows, 467-482. *)
  Definition cleanup_at (p : Z) (b : blk) (j1 j2 : Z) : out blk :=
    let sp := (j1 + 1) * tstr + (j2 + 1) in
    let* v := rd_st b sp in
    if (Z.land v 1 =? 0) && (Z.land v 4 =? 0) then
      let* b := plane b sp p in
      let* label := label_sig b j1 j2 in
      let* (x, b) := ask b label in
      if x =? 0 then Ret b else
      let* b := or_sm b (j1 * sstr + j2) p in
      found b j1 j2
    else Ret b.
  Definition cleanup (p : Z) (b : blk) : out blk :=
    let* b := foldo (fun b n => foldo (fun b j2 => cleanup_col 4 p (4 * n) j2 4 b) b (zseq w)) b (zseq (h / 4)) in
    if h mod 4 =? 0 then Ret b else
    foldo (fun b j2 => foldo (fun b r => cleanup_at p b (4 * (h / 4) + r) j2) b (zseq (h mod 4))) b (zseq w).

  (** ** j2k_decode, 486-602 *)
  Variable seg : src -> Z -> Z -> bool -> out src.   (* mq_dec.init *)
  Variable reset : src -> src.                       (* init_states_for_all_contexts *)
  Variables bypass reset_cx restart segmark : bool.  (* Cmodes *)
  Variable plen : list Z.                            (* pass_length *)
  Variable length : Z.
  Variable num_pass : Z.                             (* num_decode_pass, a uint8_t *)
  Variables Mb ROIshift num_ZBP : Z.

  Definition max_passes : Z := 3 * (Mb + ROIshift - num_ZBP) - 2.

  (** Start of a codeword segment, 519-558: passes in it, the raw flag, and
      the position of the next segment. *)
  Definition start (z k : Z) (is_raw : bool) (pos : Z) (b : blk) : ex (Z * bool * Z * blk) :=
    let thr := if bypass then 10 else 0 in
    let '(n, is_raw) :=
      if 0 <? thr then
        if z <? thr then ((thr - z) mod 256, is_raw)
        else if k =? 2 then (1, false) else (2, true)
      else (max_passes mod 256, is_raw) in
    let n := if restart then 1 else n in
    let n := if num_pass <? z + n then (num_pass - z) mod 256 else n in
    let* bytes := foldo (fun a i => let* v := rd plen (z + i) in Ret (wrap32 (a + v))) 0 (zseq n) in
    if length <? pos + bytes then throw else
    let* s := seg (so b) pos bytes is_raw in
    ret (n, is_raw, wrap32 (pos + bytes), with_so b s).

  (** One pass, 562-590.  A bit-plane number above 31 is taken to be undefined
      at once; in the code it is when the pass shifts by it. *)
  Definition one_pass (z k p : Z) (is_raw : bool) (b : blk) : ex blk :=
    if 31 <? p then UB else
    let b := if (z =? 0) || reset_cx then with_so b (reset (so b)) else b in
    if k =? 0 then let* b := sigprop is_raw p b in ret b
    else if k =? 1 then let* b := magref is_raw p b in ret b
    else
      let* b := cleanup p b in
      if segmark then
        let* (r, b) := foldo (fun st _ => let* (x, b) := ask (snd st) 18 in Ret (2 * fst st + x, b)) (0, b) (zseq 4) in
        if r =? 10 then ret b else throw
      else ret b.

  (** The pass loop, 515-591: [n] passes are left in the segment. *)
  Fixpoint passes (fuel : nat) (z k p n : Z) (is_raw : bool) (pos : Z) (b : blk) : ex blk :=
    if num_pass <=? z then ret b else
    match fuel with
    | O => NoFuel
    | S fuel =>
        let '(k, p) := if k =? 3 then (0, (p - 1) mod 256) else (k, p) in
        let? (n, is_raw, pos, b) := if n =? 0 then start z k is_raw pos b else ret (n, is_raw, pos, b) in
        let? b := one_pass z k p is_raw b in
        passes fuel ((z + 1) mod 256) ((k + 1) mod 256) p ((n - 1) mod 256) is_raw pos b
    end.
  (** The arrays are zeroed by the caller, subband_row_buf.cpp:505-508. *)
  Definition j2k_decode (s : src) : ex blk :=
    passes 256 0 2 ((30 - num_ZBP) mod 256) 0 false 0 (Blk (fun _ => 0) (fun _ => 0) (fun _ => 0) s).
End Block.
Arguments Blk {src} sm st cx so.
Arguments sm {src} b. Arguments st {src} b. Arguments cx {src} b. Arguments so {src} b.
