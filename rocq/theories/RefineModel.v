(** Model of the refinement passes of high-throughput code-blocks: SigProp and
    MagRef, source/core/coding/ht_block_decoding.cpp:41-54 and 694-823, the bit
    readers ht_block_decoding.hpp:2016-2057 and 2343-2387.

    Simplifications.  The arrays of the block are functions with a checked
    size, an int32_t sample is its 32-bit pattern, a state is a byte.  The
    segment is a list (a null pointer with length 0 is the empty list); its
    length is below 2^31, so pos of MR_dec is not wrapped.  Stripe counters are
    16 bits wide in the code (a block has at most 1024 rows and columns).
    Shifts are by at most 29 (1035 rejects larger S_blk), so they are defined. *)
From Verif Require Import Base OutModel PassModel.

(** SP_dec: bits, tmp, last, pos; importSigPropBit, 2343-2364. *)
Record spdec := SP { sp_bits : Z; sp_tmp : Z; sp_last : Z; sp_pos : Z }.
Definition sp_init : spdec := SP 0 0 0 0.
Definition sp_fill (D : list Z) (s : spdec) : out spdec :=
  if sp_bits s =? 0 then
    let bits := if sp_last s =? 255 then 7 else 8 in
    if sp_pos s <? zlen D then let* t := rd D (sp_pos s) in Ret (SP bits t t (sp_pos s + 1))
    else Ret (SP bits 0 0 (sp_pos s))
  else Ret s.
Definition import_sp (D : list Z) (s : spdec) : out (Z * spdec) :=
  let* s := sp_fill D s in
  Ret (Z.land (sp_tmp s) 1, SP (sp_bits s - 1) (Z.shiftr (sp_tmp s) 1) (sp_last s) (sp_pos s)).
(** MR_dec and importMagRefBit, 2369-2387. *)
Record mrdec := MR { mr_bits : Z; mr_last : Z; mr_tmp : Z; mr_pos : Z }.
Definition mr_init (D : list Z) : mrdec := MR 0 255 0 (if zlen D =? 0 then -1 else zlen D - 1).
Definition mr_fill (D : list Z) (s : mrdec) : out mrdec :=
  if mr_bits s =? 0 then
    let* (t, pos) := if 0 <=? mr_pos s then let* t := rd D (mr_pos s) in Ret (t, mr_pos s - 1) else Ret (0, mr_pos s) in
    let bits := if (143 <? mr_last s) && (Z.land t 127 =? 127) then 7 else 8 in
    Ret (MR bits t t pos)
  else Ret s.
Definition import_mr (D : list Z) (s : mrdec) : out (Z * mrdec) :=
  let* s := mr_fill D s in
  Ret (Z.land (mr_tmp s) 1, MR (mr_bits s - 1) (mr_last s) (Z.shiftr (mr_tmp s) 1) (mr_pos s)).

Section Refine.
  Variables w h : Z.
  Variable causal : bool.
  Variable D : list Z.
  Variable p : Z.   (* pLSB *)

  (** block_states, sample_buf and the bit reader. *)
  Record ref (A : Type) := Ref { r_st : Z -> Z; r_sm : Z -> Z; r_src : A }.
  Arguments Ref {A} r_st r_sm r_src. Arguments r_st {A} r. Arguments r_sm {A} r. Arguments r_src {A} r.
  Definition ld_st {A} (b : ref A) (i : Z) : out Z := if (0 <=? i) && (i <? n_st w h) then Ret (r_st b i) else UB.
  Definition ld_sm {A} (b : ref A) (i : Z) : out Z := if (0 <=? i) && (i <? n_sm w h) then Ret (r_sm b i) else UB.
  Definition or_state {A} (b : ref A) (i v : Z) : out (ref A) :=
    let* o := ld_st b i in Ret (Ref (fun j => if j =? i then Z.lor o v else r_st b j) (r_sm b) (r_src b)).
  Definition set_sample {A} (b : ref A) (i v : Z) : out (ref A) :=
    let* _ := ld_sm b i in Ret (Ref (r_st b) (fun j => if j =? i then v else r_sm b j) (r_src b)).

  (** calc_mbr, ht_block_decoding.cpp:41-54. *)
  Definition calc_mbr {A} (b : ref A) (i j : Z) (cc : Z) : out Z :=
    let p0 := i * tstr w + j in
    let p1 := (i + 1) * tstr w + j in
    let p2 := (i + 2) * tstr w + j in
    let* a0 := ld_st b p0 in let* a1 := ld_st b (p0 + 1) in let* a2 := ld_st b (p0 + 2) in
    let* b0 := ld_st b p1 in let* b2 := ld_st b (p1 + 2) in
    let* c0 := ld_st b p2 in let* c1 := ld_st b (p2 + 1) in let* c2 := ld_st b (p2 + 2) in
    let mbr0 := Z.lor (Z.lor a0 a1) a2 in
    let mbr1 := Z.lor b0 b2 in
    let mbr2 := Z.lor (Z.lor c0 c1) c2 in
    let mbr := Z.lor (Z.lor mbr0 mbr1) (Z.land mbr2 cc) in
    let mbr := Z.lor mbr (Z.land (Z.shiftr mbr0 3) (Z.shiftr mbr0 4)) in
    let mbr := Z.lor mbr (Z.land (Z.shiftr mbr1 3) (Z.shiftr mbr1 4)) in
    let mbr := Z.lor mbr (Z.land (Z.land (Z.shiftr mbr2 3) (Z.shiftr mbr2 4)) cc) in
    Ret (Z.land mbr 1).

  (** process_stripes_block_dec, ht_block_decoding.cpp:694-738: magnitudes, then signs. *)
  Definition sp_mag_at (bot : Z) (b : ref spdec) (j i : Z) : out (ref spdec) :=
    let cc := if negb causal || negb (i =? bot - 1) then 1 else 0 in
    let si := (i + 1) * tstr w + (j + 1) in
    let* v := ld_st b si in
    let* m := if Z.land (Z.shiftr v 0) 1 =? 0 then calc_mbr b i j cc else Ret 0 in
    let* b := if m =? 0 then Ret b else
                let* b := or_state b si 4 in
                let* (x, s) := import_sp D (r_src b) in
                let* b := or_state (Ref (r_st b) (r_sm b) s) si (x * 8) in
                let* u := ld_sm b (j + i * sstr w) in
                set_sample b (j + i * sstr w) (Z.lor (Z.lor u (x * 2 ^ p)) (x * 2 ^ (p - 1))) in
    or_state b si 16.
  Definition sp_sign_at (b : ref spdec) (j i : Z) : out (ref spdec) :=
    let* v := ld_st b ((i + 1) * tstr w + (j + 1)) in
    if Z.land (Z.shiftr v 3) 1 =? 0 then Ret b else
    let* (x, s) := import_sp D (r_src b) in
    let b := Ref (r_st b) (r_sm b) s in
    let* u := ld_sm b (j + i * sstr w) in
    set_sample b (j + i * sstr w) (Z.lor u (x * 2 ^ 31)).
  Definition process (b : ref spdec) (i0 j0 width height : Z) : out (ref spdec) :=
    let* b := foldo (fun b j => foldo (fun b i => sp_mag_at (i0 + height) b (j0 + j) (i0 + i)) b (zseq height)) b (zseq width) in
    foldo (fun b j => foldo (fun b i => sp_sign_at b (j0 + j) (i0 + i)) b (zseq height)) b (zseq width).
  (** ht_sigprop_decode, ht_block_decoding.cpp:740-775. *)
  Definition sp_row (b : ref spdec) (i0 height : Z) : out (ref spdec) :=
    let* b := foldo (fun b n => process b i0 (4 * n) 4 height) b (zseq (w / 4)) in
    if w mod 4 =? 0 then Ret b else process b i0 (4 * (w / 4)) (w mod 4) height.
  Definition ht_sigprop (st sm : Z -> Z) : out ((Z -> Z) * (Z -> Z)) :=
    if p =? 0 then Ret (st, sm) else
    let* b := foldo (fun b n => sp_row b (4 * n) 4) (Ref st sm sp_init) (zseq (h / 4)) in
    let* b := sp_row b (4 * (h / 4)) (h mod 4) in
    Ret (r_st b, r_sm b).

  (** ht_magref_decode, ht_block_decoding.cpp:777-823. *)
  Definition mr_at (b : ref mrdec) (j i : Z) : out (ref mrdec) :=
    let si := (i + 1) * tstr w + (j + 1) in
    let* v := ld_st b si in
    if Z.land (Z.shiftr v 0) 1 =? 0 then Ret b else
    let* b := or_state b si 4 in
    let* (x, s) := import_mr D (r_src b) in
    let b := Ref (r_st b) (r_sm b) s in
    let tmp := wrap32 (Z.lor 4294967294 x * 2 ^ p) in
    let* u := ld_sm b (j + i * sstr w) in
    set_sample b (j + i * sstr w) (Z.lor (Z.land u tmp) (2 ^ (p - 1))).
  Definition mr_rows (b : ref mrdec) (i0 height : Z) : out (ref mrdec) :=
    foldo (fun b j => foldo (fun b i => mr_at b j (i0 + i)) b (zseq height)) b (zseq w).
  Definition ht_magref (st sm : Z -> Z) : out ((Z -> Z) * (Z -> Z)) :=
    if p =? 0 then Ret (st, sm) else
    let* b := foldo (fun b n => mr_rows b (4 * n) 4) (Ref st sm (mr_init D)) (zseq (h / 4)) in
    let* b := mr_rows b (4 * (h / 4)) (h mod 4) in
    Ret (r_st b, r_sm b).

  (** htj2k_dec_finish, ht_block_decoding.cpp:1085-1090: the refinement passes after a cleanup. *)
  Definition ht_refine (num_ht_passes : Z) (st sm : Z -> Z) : out ((Z -> Z) * (Z -> Z)) :=
    let* (st, sm) := if 1 <? num_ht_passes then ht_sigprop st sm else Ret (st, sm) in
    if 2 <? num_ht_passes then ht_magref st sm else Ret (st, sm).
End Refine.
Arguments Ref {A} r_st r_sm r_src. Arguments r_st {A} r. Arguments r_sm {A} r. Arguments r_src {A} r.
