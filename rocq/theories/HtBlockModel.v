(** The HT cleanup pass of a code-block: the encoder of
    source/core/coding/ht_block_encoding.cpp and the decoder of
    source/core/coding/ht_block_decoding.{hpp,cpp} (portable scalar build,
    lossless coefficients, one coding pass; SigProp and MagRef passes are in
    RefineModel.v). *)
From Verif Require Import Base HtTables HtStreamModel.

(** ** Arrays *)

(** A fully initialised array of [n] entries: reads and writes outside are
    undefined. *)
Definition arr := Z -> Z.
Definition ld (n : Z) (a : arr) (i : Z) : out Z :=
  if (0 <=? i) && (i <? n) then Ret (a i) else UB.
Definition upd (a : arr) (i v : Z) : arr := fun j => if j =? i then v else a j.
Definition st (n : Z) (a : arr) (i v : Z) : out arr :=
  if (0 <=? i) && (i <? n) then Ret (upd a i v) else UB.

(** An array whose entries start out uninitialised: reading one before it is
    written is undefined. *)
Definition uarr := Z -> option Z.
Definition uld (n : Z) (a : uarr) (i : Z) : out Z :=
  if (0 <=? i) && (i <? n) then match a i with Some v => Ret v | None => UB end else UB.
Definition ust (n : Z) (a : uarr) (i v : Z) : out uarr :=
  if (0 <=? i) && (i <? n) then Ret (fun j => if j =? i then Some v else a j) else UB.

(** [count_leading_zeros] source/core/common/utils.hpp:184 (32 for 0). *)
Definition clz32 (x : Z) : Z := if x =? 0 then 32 else 31 - Z.log2 x.

(** [(x + 7) & ~7]. *)
Definition round8 (x : Z) : Z := Z.shiftl (Z.shiftr (x + 7) 3) 3.

(** [ceil_int(x, 2)], utils.hpp:38. *)
Definition half_up (x : Z) : Z := (x + 1) / 2.

(** ** Encoder *)

(** One sample of j2k_codeblock::quantize on the lossless path,
    ht_block_encoding.cpp:73-87, read as uint32_t.  [-INT32_MIN] and the
    signed left shift of a value from 2^30 on are undefined. *)
Definition magsgn (q : Z) : out Z :=
  if (- (2 ^ 31) <? q) && (q <? 2 ^ 31) then
    let sign := if q <? 0 then 1 else 0 in
    let t := Z.abs q in
    if t =? 0 then Ret 0
    else if 2 ^ 30 <? t then UB
    else Ret (Z.lor (2 * (t - 1) + sign) (2 ^ 31))
  else UB.

(** A code-block handed to the encoder: its size and coefficients (row,
    column), and M_b. *)
Record block := Block { b_w : Z; b_h : Z; b_q : Z -> Z -> Z; b_Mb : Z }.

(** Reading [sample_buf] after quantize: [round8 h] rows of [round8 w]
    entries, zero outside the block, ht_block_encoding.cpp:63-91
    (blksampl_stride is [round8 w], coding_units.cpp:468,1402).  Reading past
    the end of a row counts as out of bounds. *)
Definition sample (b : block) (y x : Z) : out Z :=
  if (0 <=? y) && (y <? round8 (b_h b)) && (0 <=? x) && (x <? round8 (b_w b))
  then if (y <? b_h b) && (x <? b_w b) then magsgn (b_q b y x) else Ret 0
  else UB.

(** The four samples of a quad in coding order: (2y,2x), (2y+1,2x), (2y,2x+1),
    (2y+1,2x+1); make_storage ht_block_encoding.cpp:316-360 and
    make_storage_one 362-387. *)
Definition quad : Type := (Z * Z * Z * Z)%type.
Definition load_quad (b : block) (qy qx : Z) : out quad :=
  let* s0 := sample b (2 * qy) (2 * qx) in
  let* s1 := sample b (2 * qy + 1) (2 * qx) in
  let* s2 := sample b (2 * qy) (2 * qx + 1) in
  let* s3 := sample b (2 * qy + 1) (2 * qx + 1) in
  Ret (s0, s1, s2, s3).

(** sigma_n, v_n, E_n and rho_q, ht_block_encoding.cpp:332-359. *)
Definition sgm (s : Z) : Z := Z.shiftr s 31.
Definition vmag (s : Z) : Z := Z.land s 2147483647.
Definition expo (s : Z) : Z := (32 - clz32 (vmag s)) * sgm s.
Definition q_rho (q : quad) : Z :=
  let '(s0, s1, s2, s3) := q in
  sgm s0 + Z.shiftl (sgm s1) 1 + Z.shiftl (sgm s2) 2 + Z.shiftl (sgm s3) 3.

(** [find_max], ht_block_encoding.cpp:515 etc. *)
Definition max4 (a b c d : Z) : Z := Z.max (Z.max a b) (Z.max c d).
Definition q_emax (q : quad) : Z :=
  let '(s0, s1, s2, s3) := q in max4 (expo s0) (expo s1) (expo s2) (expo s3).

(** E_n[1] and E_n[3] of a quad, pushed to the E line. *)
Definition q_E1 (q : quad) : Z := let '(_, s1, _, _) := q in expo s1.
Definition q_E3 (q : quad) : Z := let '(_, _, _, s3) := q in expo s3.

(** emb_pattern, ht_block_encoding.cpp:523-526 and its copies. *)
Definition emb_pattern (q : quad) (uoff : Z) : Z :=
  let '(s0, s1, s2, s3) := q in
  let em := q_emax q in
  (if expo s0 =? em then uoff else 0) + (if expo s1 =? em then Z.shiftl uoff 1 else 0)
  + (if expo s2 =? em then Z.shiftl uoff 2 else 0) + (if expo s3 =? em then Z.shiftl uoff 3 else 0).

(** What the encoder derives for one quad: U_q, u_q, embk, emb1 and the
    CxtVLC codeword, ht_block_encoding.cpp:515-533; [ctx] is the context
    already shifted into table position. *)
Record qcode := QC { k_U : Z; k_u : Z; k_embk : Z; k_emb1 : Z; k_cwd : Z; k_lw : Z }.
Definition code_quad (tbl : list Z) (ctx kappa : Z) (q : quad) : out qcode :=
  let U := Z.max (q_emax q) kappa in
  let u := U - kappa in
  let emb := emb_pattern q (if u =? 0 then 0 else 1) in
  let* cx := rd tbl (emb + Z.shiftl (q_rho q) 4 + ctx) in
  let embk := Z.land cx 15 in
  Ret (QC U u embk (Z.land emb embk) (Z.shiftr cx 7) (Z.land (Z.shiftr cx 4) 7)).

(** The UVLC codeword (cwd, lw), ht_block_encoding.cpp:563-566. *)
Definition uvlc_word (tbl : list Z) (idx : Z) : out (Z * Z) :=
  let* t := rd tbl idx in Ret (Z.shiftr t 8, Z.land t 255).

(** The four emitMagSgnBits calls of a quad, ht_block_encoding.cpp:588-595. *)
Definition ms_call (c : qcode) (s i : Z) : Z * Z * Z :=
  (vmag s,
   Z.land (sgm s * k_U c - Z.land (Z.shiftr (k_embk c) i) 1) 255,
   Z.land (Z.shiftr (k_emb1 c) i) 1).
Definition ms_calls (c : qcode) (q : quad) : list (Z * Z * Z) :=
  let '(s0, s1, s2, s3) := q in [ms_call c s0 0; ms_call c s1 1; ms_call c s2 2; ms_call c s3 3].

(** The calls made on the three bit-stream encoders, each in order: MEL events,
    VLC (cwd, len), MagSgn (cwd, len, emb1).  The C++ makes the calls at once;
    the three encoders are separate objects, so only the order within each
    stream matters (they share one buffer, see [finish]). *)
Record elog := Log { g_mel : list bool; g_vlc : list (Z * Z); g_ms : list (Z * Z * Z) }.
Definition log_app (a b : elog) : elog :=
  Log (g_mel a ++ g_mel b) (g_vlc a ++ g_vlc b) (g_ms a ++ g_ms b).
Definition no_log : elog := Log [] [] [].

(** Event emitted when the context is zero, ht_block_encoding.cpp:511-513. *)
Definition mel_if (c : Z) (r : Z) : list bool := if c =? 0 then [negb (r =? 0)] else [].

(** Context of the next quad in the first line-pair, ht_block_encoding.cpp:536. *)
Definition ctx_row0 (rho : Z) : Z := Z.lor (Z.shiftr rho 1) (Z.land rho 1).

(** Two quads of the first line-pair, ht_block_encoding.cpp:511-605. *)
Definition enc_pair0 (ctx : Z) (a b : quad) : out (elog * Z) :=
  let* ca := code_quad enc_CxtVLC_table0 (Z.shiftl ctx 8) 1 a in
  let ctx1 := ctx_row0 (q_rho a) in
  let* cb := code_quad enc_CxtVLC_table0 (Z.shiftl ctx1 8) 1 b in
  let u_min := if k_u ca <? k_u cb then k_u ca else k_u cb in
  let* uv := uvlc_word enc_UVLC_table0 (k_u ca + Z.shiftl (k_u cb) 5) in
  let second :=
    if ctx1 =? 0 then (if negb (q_rho b =? 0) then [true] else [2 <? u_min])
    else if negb (k_u ca =? 0) && negb (k_u cb =? 0) then [2 <? u_min] else [] in
  Ret (Log (mel_if ctx (q_rho a) ++ second) [(k_cwd ca, k_lw ca); (k_cwd cb, k_lw cb); uv]
           (ms_calls ca a ++ ms_calls cb b),
       ctx_row0 (q_rho b)).

(** The last quad of the first line-pair when QW is odd,
    ht_block_encoding.cpp:614-647. *)
Definition enc_last0 (ctx : Z) (a : quad) : out elog :=
  let* ca := code_quad enc_CxtVLC_table0 (Z.shiftl ctx 8) 1 a in
  let* uv := uvlc_word enc_UVLC_table0 (k_u ca) in
  Ret (Log (mel_if ctx (q_rho a)) [(k_cwd ca, k_lw ca); uv] (ms_calls ca a)).

(** Eline has [2*QW+6] zeroed entries and E_p starts at 1; rholine has [QW+3]
    and rho_p starts at 1, ht_block_encoding.cpp:482-488. *)
Definition nE (QW : Z) : Z := 2 * QW + 6.
Definition nR (QW : Z) : Z := QW + 3.
Record lines := Lines { li_E : arr; li_rho : arr }.

(** The pushes to Eline and rholine for quad [qx]. *)
Definition push_E (QW : Z) (E : arr) (qx : Z) (q : quad) : out arr :=
  let* E1 := st (nE QW) E (1 + 2 * qx) (q_E1 q) in st (nE QW) E1 (2 + 2 * qx) (q_E3 q).
Definition push_rho (QW : Z) (R : arr) (qx : Z) (q : quad) : out arr :=
  st (nR QW) R (1 + qx) (q_rho q).

(** First line-pair, ht_block_encoding.cpp:500-651; [n] pairs are left. *)
Fixpoint enc_row0 (b : block) (QW : Z) (n : nat) (qx ctx : Z) (l : lines) (g : elog)
  : out (lines * elog) :=
  match n with
  | S n' =>
    let* qa := load_quad b 0 qx in
    let* qb := load_quad b 0 (qx + 1) in
    let* E1 := push_E QW (li_E l) qx qa in
    let* E2 := push_E QW E1 (qx + 1) qb in
    let* (g1, ctx') := enc_pair0 ctx qa qb in
    let* R1 := push_rho QW (li_rho l) qx qa in
    let* R2 := push_rho QW R1 (qx + 1) qb in
    enc_row0 b QW n' (qx + 2) ctx' (Lines E2 R2) (log_app g g1)
  | O =>
    if QW mod 2 =? 1 then
      let* qa := load_quad b 0 (QW - 1) in
      let* E1 := push_E QW (li_E l) qx qa in
      let* g1 := enc_last0 ctx qa in
      let* R1 := push_rho QW (li_rho l) qx qa in
      Ret (Lines E1 R1, log_app g g1)
    else Ret (l, g)
  end.

(** Context of a quad in a later line-pair from the quad to the left and the
    three above, ht_block_encoding.cpp:667-670, 697-699, 753-755. *)
Definition ctx_rowN (w nw n ne : Z) : Z :=
  Z.lor (Z.lor (Z.lor (Z.shiftl (Z.land w 4) 7) (Z.shiftl (Z.land w 8) 6))
               (Z.lor (Z.shiftl (Z.land nw 8) 5) (Z.shiftl (Z.land n 2) 7)))
        (Z.lor (Z.shiftl (Z.land n 8) 7) (Z.shiftl (Z.land ne 2) 9)).

(** popcount32 of a 4-bit pattern exceeds one, ht_block_encoding.cpp:677. *)
Definition many (rho : Z) : bool :=
  1 <? Z.b2z (Z.testbit rho 0) + Z.b2z (Z.testbit rho 1)
       + Z.b2z (Z.testbit rho 2) + Z.b2z (Z.testbit rho 3).
Definition kappa_of (emax rho : Z) : Z := Z.max ((emax - 1) * (if many rho then 1 else 0)) 1.

(** Two quads of a later line-pair, ht_block_encoding.cpp:672-742; [ctx1] is
    the context of the second quad. *)
Definition enc_pairN (ctx ctx1 Emax0 Emax1 : Z) (a b : quad) : out elog :=
  let* ca := code_quad enc_CxtVLC_table1 ctx (kappa_of Emax0 (q_rho a)) a in
  let* cb := code_quad enc_CxtVLC_table1 ctx1 (kappa_of Emax1 (q_rho b)) b in
  let* uv := uvlc_word enc_UVLC_table1 (k_u ca + Z.shiftl (k_u cb) 5) in
  Ret (Log (mel_if ctx (q_rho a) ++ mel_if ctx1 (q_rho b))
           [(k_cwd ca, k_lw ca); (k_cwd cb, k_lw cb); uv]
           (ms_calls ca a ++ ms_calls cb b)).

(** The last quad of a later line-pair when QW is odd,
    ht_block_encoding.cpp:766-805. *)
Definition enc_lastN (ctx Emax0 : Z) (a : quad) : out elog :=
  let* ca := code_quad enc_CxtVLC_table1 ctx (kappa_of Emax0 (q_rho a)) a in
  let* uv := uvlc_word enc_UVLC_table1 (k_u ca) in
  Ret (Log (mel_if ctx (q_rho a)) [(k_cwd ca, k_lw ca); uv] (ms_calls ca a)).

(** [find_max(E_p[i], .., E_p[i+3])] with E_p at quad [qx]. *)
Definition max_E (QW : Z) (E : arr) (i : Z) : out Z :=
  let* e0 := ld (nE QW) E i in
  let* e1 := ld (nE QW) E (i + 1) in
  let* e2 := ld (nE QW) E (i + 2) in
  let* e3 := ld (nE QW) E (i + 3) in
  Ret (max4 e0 e1 e2 e3).

(** The loop over a later line-pair, ht_block_encoding.cpp:671-808; [n] pairs
    are left, E_p is [1 + 2*qx], rho_p is [1 + qx]. *)
Fixpoint enc_rowN (b : block) (QW qy : Z) (n : nat) (qx ctx Emax0 Emax1 : Z) (l : lines) (g : elog)
  : out (lines * elog) :=
  match n with
  | S n' =>
    let* qa := load_quad b qy qx in
    let* qb := load_quad b qy (qx + 1) in
    let* r0 := ld (nR QW) (li_rho l) (1 + qx) in
    let* r1 := ld (nR QW) (li_rho l) (2 + qx) in
    let* r2 := ld (nR QW) (li_rho l) (3 + qx) in
    let* g1 := enc_pairN ctx (ctx_rowN (q_rho qa) r0 r1 r2) Emax0 Emax1 qa qb in
    let* Em0 := max_E QW (li_E l) (4 + 2 * qx) in
    let* Em1 := max_E QW (li_E l) (6 + 2 * qx) in
    let* E1 := push_E QW (li_E l) qx qa in
    let* E2 := push_E QW E1 (qx + 1) qb in
    let* r3 := ld (nR QW) (li_rho l) (4 + qx) in
    let* R1 := push_rho QW (li_rho l) qx qa in
    let* R2 := push_rho QW R1 (qx + 1) qb in
    enc_rowN b QW qy n' (qx + 2) (ctx_rowN (q_rho qb) r1 r2 r3) Em0 Em1 (Lines E2 R2) (log_app g g1)
  | O =>
    if QW mod 2 =? 1 then
      let* qa := load_quad b qy (QW - 1) in
      let* E1 := push_E QW (li_E l) qx qa in
      let* g1 := enc_lastN ctx Emax0 qa in
      let* R1 := push_rho QW (li_rho l) qx qa in
      Ret (Lines E1 R1, log_app g g1)
    else Ret (l, g)
  end.

(** The later line-pairs, ht_block_encoding.cpp:657-809; [n] are left. *)
Fixpoint enc_rows (b : block) (QW : Z) (n : nat) (qy : Z) (l : lines) (g : elog) : out elog :=
  match n with
  | O => Ret g
  | S n' =>
    let* Emax0 := max_E QW (li_E l) 0 in
    let* Emax1 := max_E QW (li_E l) 2 in
    let* rm := ld (nR QW) (li_rho l) 0 in
    let* r0 := ld (nR QW) (li_rho l) 1 in
    let* r1 := ld (nR QW) (li_rho l) 2 in
    let* (l', g') := enc_rowN b QW qy (Z.to_nat (QW / 2)) 0 (ctx_rowN 0 rm r0 r1) Emax0 Emax1 l g in
    enc_rows b QW n' (qy + 1) l' g'
  end.

(** Running the three encoders over the calls, terminating and joining them,
    ht_block_encoding.cpp:811-820.  MEL and VLC share a buffer of MAX_Scup
    bytes and everything is gathered in one of MAX_Lcup bytes; nothing in the
    C++ checks that the data fit, so data that do not fit are undefined. *)
Definition ms_run (l : list (Z * Z * Z)) : ms_enc :=
  fold_left (fun s c => let '(v, m, e) := c in ms_emit s v m e) l ms_init.
Definition mel_run (l : list bool) : mel_enc := fold_left mel_encode l mel_init.
Definition vlc_run (l : list (Z * Z)) : vlc_enc :=
  fold_left (fun s c => vlc_emit s (fst c) (snd c)) l vlc_init.
Definition finish (g : elog) : out (list Z) :=
  let ms := rev (ms_term (ms_run (g_ms g))) in
  let suffix := term_mel_vlc (vlc_run (g_vlc g)) (mel_term (mel_run (g_mel g))) in
  let Scup := zlen suffix in
  let Lcup := zlen ms + Scup in
  if (Scup <=? MAX_Scup) && (Lcup <=? MAX_Lcup) then
    let d := znth 0 suffix (Scup - 2) in
    Ret (ms ++ ztake (Scup - 2) suffix
         ++ [Z.lor (Z.land d 240) (Z.land Scup 15); Z.shiftr Scup 4])
  else UB.

(** or_val of quantize, ht_block_encoding.cpp:80: is any coefficient non-zero? *)
Definition any_sig (b : block) : bool :=
  existsb (fun y => existsb (fun x => negb (b_q b y x =? 0)) (zseq (b_w b))) (zseq (b_h b)).

(** What the encoder leaves in the block: compressed_data (its first [length]
    bytes), pass_length, num_passes, num_ZBP. *)
Record coded := Coded { c_data : list Z; c_length : Z; c_plen : list Z; c_passes : Z; c_zbp : Z }.

(** htj2k_cleanup_encode, ht_block_encoding.cpp:438-834.  QW and QH are
    computed in 16 bits, which is exact for blocks up to 1024 by 1024. *)
Definition ht_encode (b : block) : out coded :=
  let QW := half_up (b_w b) in
  let QH := half_up (b_h b) in
  let zbp := Z.land (b_Mb b - 1) 255 in
  if any_sig b then
    let z := Lines (fun _ => 0) (fun _ => 0) in
    let* (l, g) := enc_row0 b QW (Z.to_nat (QW / 2)) 0 0 z no_log in
    let* g' := enc_rows b QW (Z.to_nat (QH - 1)) 1 l g in
    let* data := finish g' in
    Ret (Coded data (zlen data) [zlen data] 1 zbp)
  else Ret (Coded [] 0 [0] 0 zbp).

(** ** Decoder, step 1 *)

(** A MEL decision taken when [cm] holds, ht_block_decoding.hpp:452-456 (and the
    branching copies at 562-569): is the event 1 (or no event due), the run
    that is left and the reader. *)
Definition mel_cond (cm : bool) (run : Z) (s : meldec) : bool * (Z * meldec) :=
  let r := if cm then run - 2 else run in
  ((r =? -1) || negb cm, if r <? 0 then mel_get_run s else (r, s)).

(** The u-values: prefix and suffix, ht_block_decoding.hpp:516-534 and 619-637;
    [base] is 1 in the first line-pair and 0 later.  [None]: rev_buf::advance
    threw. *)
Definition uvlc_read (tbl : list Z) (idx base vlcval : Z) (r : rbuf) : ex (Z * Z * rbuf) :=
  match rd tbl idx with
  | Ret res =>
    match rev_advance r (Z.land res 7) with
    | None => throw
    | Some (vlcval, r1) =>
      let res := Z.shiftr res 3 in
      let len := Z.land res 15 in
      let tmp := Z.land vlcval (Z.shiftl 1 len - 1) in
      match rev_advance r1 len with
      | None => throw
      | Some (_, r2) =>
        let res := Z.shiftr res 4 in
        let len := Z.land res 7 in
        let res := Z.shiftr res 3 in
        ret (Z.land (base + Z.land res 7 + Z.land tmp (wrap32 (Z.lnot (Z.shiftl 255 len)))) 65535,
             Z.land (base + Z.shiftr res 3 + Z.shiftr tmp len) 65535, r2)
      end
    end
  | _ => UB
  end.

(** [uint16_t scratch[8 * 513]], ht_block_decoding.cpp:1111. *)
Definition nS : Z := 4104.

(** The step-1 state of one lane: readers, pending run and scratch. *)
Record lane := Lane { ln_mel : meldec; ln_run : Z; ln_vlc : rbuf; ln_s : uarr }.

(** One table lookup: the entry, masked when a MEL event says so, and the
    reader advanced past the codeword, ht_block_decoding.hpp:449-465 and
    copies.  [on] is [qx > 1] for the second quad and true for the first. *)
Definition cxt_read (tbl : list Z) (on : bool) (vlcval ctx : Z) (r : rbuf) (run : Z) (m : meldec)
  : ex (Z * Z * rbuf * (Z * meldec)) :=
  match rd tbl (Z.land vlcval 127 + ctx) with
  | Ret t =>
    let '(hit, rm) := mel_cond ((ctx =? 0) && on) run m in
    let t := if hit then t else 0 in
    let t := if on then t else 0 in
    match rev_advance r (Z.shiftr (Z.land t 15) 1) with
    | None => throw
    | Some (vlcval, r') => ret (t, vlcval, r', rm)
    end
  | _ => UB
  end.

(** Context from an entry in the first line-pair, ht_block_decoding.hpp:463. *)
Definition dctx_row0 (t : Z) : Z :=
  Z.lor (Z.shiftl (Z.land t 224) 2) (Z.shiftl (Z.land t 16) 3).

Definition lift {A} (m : out A) : ex A := bind m (fun a => ret a).

(** Two quads of the first line-pair, ht_block_decoding.hpp:446-540; [sp] is
    the index in scratch, [on] is [qx > 1]. *)
Definition dec_pair0 (on : bool) (sp ctx : Z) (l : lane) : ex (Z * lane) :=
  let (vlcval, r) := rev_fetch (ln_vlc l) in
  let? (t0, vlcval, r, (run, m)) :=
    cxt_read dec_CxtVLC_table0_fast_16 true vlcval ctx r (ln_run l) (ln_mel l) in
  let? s1 := lift (ust nS (ln_s l) sp t0) in
  let? (t1, vlcval, r, (run, m)) :=
    cxt_read dec_CxtVLC_table0_fast_16 on vlcval (dctx_row0 t0) r run m in
  let? s2 := lift (ust nS s1 (sp + 2) t1) in
  let u_off0 := Z.land t0 1 in
  let u_off1 := Z.land t1 1 in
  let both := Z.land u_off0 u_off1 =? 1 in
  let '(hit, (run, m)) := mel_cond both run m in
  let mel_offset := if hit && both then 64 else 0 in
  let idx := Z.land vlcval 63 + Z.shiftl u_off0 6 + Z.shiftl u_off1 7 + mel_offset in
  let? (u0, u1, r) := uvlc_read uvlc_dec_0 idx 1 vlcval r in
  let? s3 := lift (ust nS s2 (sp + 1) u0) in
  let? s4 := lift (ust nS s3 (sp + 3) u1) in
  ret (dctx_row0 t1, Lane m run r s4).

(** The four zero entries written after each row, ht_block_decoding.hpp:545
    and 642. *)
Definition guard (s : uarr) (sp : Z) : out uarr :=
  let* s := ust nS s sp 0 in
  let* s := ust nS s (sp + 1) 0 in
  let* s := ust nS s (sp + 2) 0 in
  ust nS s (sp + 3) 0.

(** First line-pair: [qx] counts down from QW by two, ht_block_decoding.hpp:445-546. *)
Fixpoint dec_row0 (n : nat) (qx sp ctx : Z) (l : lane) : ex lane :=
  match n with
  | O => let? s := lift (guard (ln_s l) sp) in ret (Lane (ln_mel l) (ln_run l) (ln_vlc l) s)
  | S n' =>
    let? (ctx', l') := dec_pair0 (1 <? qx) sp ctx l in
    dec_row0 n' (qx - 2) (sp + 4) ctx' l'
  end.

(** Context in a later line-pair from the entry to the left and the three
    above, ht_block_decoding.hpp:571-574 and 591-594. *)
Definition dctx_rowN (t p0 p2 p4 : Z) : Z :=
  Z.lor (Z.lor (Z.lor (Z.shiftl (Z.land t 64) 2) (Z.shiftl (Z.land t 128) 1))
               (Z.lor (Z.land p0 128) (Z.shiftl (Z.land p2 160) 2)))
        (Z.shiftl (Z.land p4 32) 4).

(** Two quads of a later line-pair, ht_block_decoding.hpp:558-641. *)
Definition dec_pairN (on : bool) (sstr sp ctx : Z) (l : lane) : ex (Z * lane) :=
  let (vlcval, r) := rev_fetch (ln_vlc l) in
  let? (t0, vlcval, r, (run, m)) :=
    cxt_read dec_CxtVLC_table1_fast_16 true vlcval ctx r (ln_run l) (ln_mel l) in
  let? p0 := lift (uld nS (ln_s l) (sp - sstr)) in
  let? p2 := lift (uld nS (ln_s l) (sp + 2 - sstr)) in
  let? p4 := lift (uld nS (ln_s l) (sp + 4 - sstr)) in
  let? s1 := lift (ust nS (ln_s l) sp t0) in
  let? (t1, vlcval, r, (run, m)) :=
    cxt_read dec_CxtVLC_table1_fast_16 on vlcval (dctx_rowN t0 p0 p2 p4) r run m in
  let? p2 := lift (uld nS s1 (sp + 2 - sstr)) in
  let? p4 := lift (uld nS s1 (sp + 4 - sstr)) in
  let? p6 := lift (uld nS s1 (sp + 6 - sstr)) in
  let? s2 := lift (ust nS s1 (sp + 2) t1) in
  let u_off0 := Z.land t0 1 in
  let u_off1 := Z.land t1 1 in
  let idx := Z.land vlcval 63 + Z.shiftl u_off0 6 + Z.shiftl u_off1 7 in
  let? (u0, u1, r) := uvlc_read uvlc_dec_1 idx 0 vlcval r in
  let? s3 := lift (ust nS s2 (sp + 1) u0) in
  let? s4 := lift (ust nS s3 (sp + 3) u1) in
  ret (dctx_rowN t1 p2 p4 p6, Lane m run r s4).

(** One later line-pair, ht_block_decoding.hpp:558-643. *)
Fixpoint dec_rowN (n : nat) (sstr qx sp ctx : Z) (l : lane) : ex lane :=
  match n with
  | O => let? s := lift (guard (ln_s l) sp) in ret (Lane (ln_mel l) (ln_run l) (ln_vlc l) s)
  | S n' =>
    let? (ctx', l') := dec_pairN (1 <? qx) sstr sp ctx l in
    dec_rowN n' sstr (qx - 2) (sp + 4) ctx' l'
  end.

(** The later line-pairs, ht_block_decoding.hpp:549-644; [n] are left. *)
Fixpoint dec_rows (n : nat) (QW sstr row : Z) (l : lane) : ex lane :=
  match n with
  | O => ret l
  | S n' =>
    let sp := row * sstr in
    let? p0 := lift (uld nS (ln_s l) (sp - sstr)) in
    let? p2 := lift (uld nS (ln_s l) (sp + 2 - sstr)) in
    let ctx := Z.lor (Z.shiftl (Z.land p0 160) 2) (Z.shiftl (Z.land p2 32) 4) in
    let? l' := dec_rowN (Z.to_nat (half_up QW)) sstr QW sp ctx l in
    dec_rows n' QW sstr (row + 1) l'
  end.

(** ht_cleanup_step1_nway for one lane, ht_block_decoding.hpp:420-645, on the
    last Scup bytes of the cleanup segment [seg]; [am] is the address of their
    first byte and [av] the address of the byte before the last two, both
    modulo 4. *)
Definition ht_step1 (am av : nat) (seg : list Z) (QW QH sstr : Z) : ex uarr :=
  match rev_init av seg with
  | None => UB
  | Some r =>
    let (run, m) := mel_get_run (mel_dec_init am seg) in
    let? l1 := dec_row0 (Z.to_nat (half_up QW)) QW 0 0 (Lane m run r (fun _ => None)) in
    let? l2 := dec_rows (Z.to_nat (QH - 1)) QW sstr 1 l1 in
    ret (ln_s l2)
  end.

(** ** Decoder, step 2 *)

(** One sample of ht_cleanup_step2, ht_block_decoding.cpp:139-155 and copies:
    the sign-magnitude word, v_n and the reader.  A shift of a 32-bit word by
    32 or more is undefined; both exceptions of fwd_buf are [None]. *)
Definition dec_sample (pLSB inf U bit : Z) (f : fwd) : ex (Z * Z * fwd) :=
  if Z.testbit inf (4 + bit) then
    match fwd_fetch f with
    | None => throw
    | Some (ms_val, f1) =>
      let m_n := wrap32 (U - Z.land (Z.shiftr inf (12 + bit)) 1) in
      match fwd_advance f1 m_n with
      | None => throw
      | Some f2 =>
        if m_n <? 32 then
          let v := Z.lor (Z.lor (Z.land ms_val (Z.shiftl 1 m_n - 1))
                                (Z.shiftl (Z.land (Z.shiftr inf (8 + bit)) 1) m_n)) 1 in
          let val := Z.lor (wrap32 (Z.shiftl ms_val 31))
                           (wrap32 (Z.shiftl (wrap32 (v + 2)) (pLSB - 1))) in
          ret (val, v, f2)
        else UB
      end
    end
  else ret (0, 0, f).

(** [uint32_t v_n_scratch[516]], ht_block_decoding.cpp:118-119. *)
Definition nV : Z := 516.

(** The output buffer: [o_rows] rows of [o_cols] entries; [o_put] is the value
    stored for a decoded word (store_sample, ht_block_decoding.cpp:124-130). *)
Record obuf := Obuf { o_rows : Z; o_cols : Z; o_put : Z -> Z }.
Definition grid := Z -> Z -> Z.
Definition put (o : obuf) (g : grid) (y x v : Z) : out grid :=
  if (0 <=? y) && (y <? o_rows o) && (0 <=? x) && (x <? o_cols o)
  then Ret (fun y' x' => if (y' =? y) && (x' =? x) then o_put o v else g y' x')
  else UB.

(** State of step 2: reader, v_n_scratch, output. *)
Record st2 := St2 { s2_f : fwd; s2_v : arr; s2_o : grid }.

(** Exponent bound of a quad in a later line-pair, ht_block_decoding.cpp:223-229. *)
Definition kappa_dec (inf e : Z) : Z :=
  let gamma := Z.land inf 240 in
  let gamma := Z.land gamma (wrap32 (gamma - 16)) in
  let emax := 31 - clz32 (Z.lor e 2) in
  if gamma =? 0 then 1 else emax.

(** A row of quads, ht_block_decoding.cpp:134-213 ([first]) and 215-334: [n]
    quads are left, [x] is the column, [sp] and [vi] index scratch and
    v_n_scratch.  The loop runs while [x < w] and advances [x] by two, hence
    ceil(w/2) rounds. *)
Fixpoint step2_row (n : nat) (first : bool) (pLSB w y : Z) (o : obuf) (sc : uarr)
    (x sp vi prev : Z) (s : st2) : ex st2 :=
  match n with
  | O => let? v := lift (st nV (s2_v s) vi prev) in ret (St2 (s2_f s) v (s2_o s))
  | S n' =>
    let? inf := lift (uld nS sc sp) in
    let? u := lift (uld nS sc (sp + 1)) in
    let? U := (if first then ret u
               else let? e0 := lift (ld nV (s2_v s) vi) in
                    let? e1 := lift (ld nV (s2_v s) (vi + 1)) in
                    ret (wrap32 (u + kappa_dec inf (Z.lor e0 e1)))) in
    let? (a0, _, f) := dec_sample pLSB inf U 0 (s2_f s) in
    let? g := lift (put o (s2_o s) y x a0) in
    let? (a1, v1, f) := dec_sample pLSB inf U 1 f in
    let? g := lift (put o g (y + 1) x a1) in
    let? v := lift (st nV (s2_v s) vi (Z.lor prev v1)) in
    if w <=? x + 1 then
      let? v := lift (st nV v (vi + 1) 0) in ret (St2 f v g)
    else
      let? (a2, _, f) := dec_sample pLSB inf U 2 f in
      let? g := lift (put o g y (x + 1) a2) in
      let? (a3, v3, f) := dec_sample pLSB inf U 3 f in
      let? g := lift (put o g (y + 1) (x + 1) a3) in
      step2_row n' first pLSB w y o sc (x + 2) (sp + 2) (vi + 1) v3 (St2 f v g)
  end.

(** The rows from [y] on, ht_block_decoding.cpp:210-336. *)
Fixpoint step2_rows (n : nat) (pLSB w y sstr : Z) (o : obuf) (sc : uarr) (s : st2) : ex st2 :=
  match n with
  | O => ret s
  | S n' =>
    let? s' := step2_row (Z.to_nat (half_up w)) false pLSB w y o sc 0 (y / 2 * sstr) 0 0 s in
    step2_rows n' pLSB w (y + 2) sstr o sc s'
  end.

(** ht_cleanup_step2, ht_block_decoding.cpp:82-338, on the MagSgn segment [seg]
    at address [af] modulo 4. *)
Definition ht_step2 (af : nat) (seg : list Z) (pLSB w h sstr : Z) (o : obuf) (sc : uarr) (g : grid)
  : ex grid :=
  match fwd_init af seg with
  | None => throw
  | Some f =>
    let? s1 := step2_row (Z.to_nat (half_up w)) true pLSB w 0 o sc 0 0 0 0 (St2 f (fun _ => 0) g) in
    let? s2 := step2_rows (Z.to_nat (half_up h - 1)) pLSB w 2 sstr o sc s1 in
    ret (s2_o s2)
  end.

(** ** Decoder, setup and dequantisation *)

(** The block as the packet parser hands it to the decoder: compressed_data,
    [length], pass_length[0..pass_length_count), num_passes, num_ZBP. *)
Record setup := Setup { su_Lcup : Z; su_Pcup : Z; su_Scup : Z; su_Lref : Z; su_S : Z;
                        su_passes : Z; su_data : list Z }.
Inductive verdict := Refused | Empty | Go (s : setup).

(** Leading zero entries of pass_length, counted in a uint8_t,
    ht_block_decoding.cpp:957-963. *)
Fixpoint zero_lead (l : list Z) (n : Z) : Z :=
  match l with
  | p :: t => if p =? 0 then zero_lead t (Z.land (n + 1) 255) else n
  | [] => n
  end.

(** A uint32_t read as int32_t. *)
Definition as_i32 (x : Z) : Z := if x <? 2 ^ 31 then x else x - 2 ^ 32.

(** htj2k_dec_setup, ht_block_decoding.cpp:941-1051. *)
Definition ht_setup (c : coded) : out verdict :=
  let P0 := if 3 <? c_passes c then zero_lead (c_plen c) 0 / 3
            else if (c_length c =? 0) && negb (c_passes c =? 0) then 1 else 0 in
  let empty_passes := Z.land (P0 * 3) 255 in
  if c_passes c <? empty_passes then Ret Refused
  else
    let ht := Z.land (c_passes c - empty_passes) 255 in
    if ht =? 0 then Ret Empty
    else
      let segs := filter (fun p => negb (p =? 0)) (c_plen c) in
      if 4 <? zlen segs then Ret Refused
      else
        match segs with
        | [] => Ret Refused
        | p0 :: more =>
          let Lcup := as_i32 p0 in
          if Lcup <? 2 then Ret Refused
          else if c_length c <? Lcup then Ret Refused
          else
            let Lref := fold_left (fun a p => wrap32 (a + p)) more 0 in
            if c_length c - Lcup <? Lref then Ret Refused
            else
              let S_blk := Z.land (P0 + c_zbp c) 255 in
              if 30 <=? S_blk then Ret Refused
              else
                let* hi := rd (c_data c) (Lcup - 1) in
                let* lo := rd (c_data c) (Lcup - 2) in
                let Scup := Z.shiftl hi 4 + Z.land lo 15 in
                if (Scup <? 2) || (Lcup <? Scup) || (4079 <? Scup) then Ret Refused
                else
                  Ret (Go (Setup Lcup (Lcup - Scup) Scup Lref S_blk ht
                             (ztake (Lcup - 2) (c_data c) ++ [Z.lor lo 15; 255]
                              ++ zskip Lcup (c_data c))))
        end.

(** The reversible branch of dequant_store_scalar, ht_block_decoding.cpp:60-67,
    and of j2k_codeblock::dequantize without ROI, 847-866: both compute the
    same value from the stored word (read as int32_t). *)
Definition dequant (Mb val : Z) : Z :=
  let a := Z.shiftr (Z.land val 2147483647) (31 - Mb) in
  if Z.testbit val 31 then - Z.land a 2147483647 else a.

(** htj2k_dec_finish for one coding pass without ROI,
    ht_block_decoding.cpp:1055-1098: fused for an even height (straight into
    band_buf, the [h] by [w] region of the block), otherwise through sample_buf
    ([round8 h] rows of [round8 w]) and dequantize. *)
Definition dec_finish (af : nat) (su : setup) (w h Mb sstr : Z) (sc : uarr) : ex grid :=
  let pLSB := Z.land (30 - su_S su) 255 in
  let seg := ztake (su_Pcup su) (su_data su) in
  if h mod 2 =? 0 then
    ht_step2 af seg pLSB w h sstr (Obuf h w (dequant Mb)) sc (fun _ _ => 0)
  else
    let? g := ht_step2 af seg pLSB w h sstr (Obuf (round8 h) (round8 w) (fun v => v)) sc (fun _ _ => 0) in
    ret (fun y x => if (y <? h) && (x <? w) then dequant Mb (g y x) else 0).

(** htj2k_decode, ht_block_decoding.cpp:1103-1130, for a block of [w] by [h]
    whose compressed data sit at an address that is [a] modulo 4: [None] is a
    refusal or an exception, otherwise the coefficients.  An empty block leaves
    the band buffer as it was (zero).  More than one coding pass is not
    modelled and reported as [NoFuel]. *)
Definition ht_decode (a : Z) (c : coded) (w h Mb : Z) : ex grid :=
  let* v := ht_setup c in
  match v with
  | Refused => throw
  | Empty => ret (fun _ _ => 0)
  | Go su =>
    if su_passes su =? 1 then
      let QW := half_up w in
      let QH := half_up h in
      let sstr := round8 (w + 2) in
      let seg := ztake (su_Scup su) (zskip (su_Pcup su) (su_data su)) in
      let am := Z.to_nat ((a + su_Pcup su) mod 4) in
      let av := Z.to_nat ((a + su_Lcup su - 3) mod 4) in
      let? sc := ht_step1 am av seg QW QH sstr in
      dec_finish (Z.to_nat (a mod 4)) su w h Mb sstr sc
    else NoFuel
  end.

(** Test: a 5 by 3 block goes through. *)
Definition demo : block :=
  Block 5 3 (fun y x => if (y <? 3) && (x <? 5) then (7 * y * y + 3 * x - 9) * (1 - 2 * (x mod 2)) else 0) 6.
Definition roundtrip (b : block) : bool :=
  match ht_encode b with
  | Ret c => match ht_decode 1 c (b_w b) (b_h b) (b_Mb b) with
             | Ret (Some g) =>
               forallb (fun y => forallb (fun x => g y x =? b_q b y x) (zseq (b_w b))) (zseq (b_h b))
             | _ => false
             end
  | _ => false
  end.
Example demo_ok : roundtrip demo = true.
Proof. vm_compute. reflexivity. Qed.
