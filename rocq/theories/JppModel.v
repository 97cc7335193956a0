(** Model of the JPP-stream wire format: VBAS integers, message headers,
    the client-side data-bin store, the one-shot and the streaming parser,
    and the server-side message emitter.
    Sources: /repo/source/core/jpip/{vbas,jpp_message,jpp_parser,
    data_bin_emitter}.{cpp,hpp}.

    Conventions: a pointer/length pair (src, src_len) is the list of the
    readable bytes; reads go through [rd], which is [UB] outside the list;
    pointer advance is [adv], which is [UB] when it would leave the buffer
    (in the code the matching [src_len - pos] would wrap). *)
From Verif Require Import Base.

(** vbas.hpp: kVbasMaxBytes *)
Definition kVbasMaxBytes : Z := 10.

(** vbas.cpp:16  for (v = value; v != 0; v >>= 7) ++n;
    Fuel: the caller passes more than log2(value) steps; the value returned
    on exhaustion (-1) is shown unreachable. *)
Fixpoint vbas_count (fuel : nat) (v n : Z) : Z :=
  if v =? 0 then n
  else match fuel with
       | O => -1
       | S f => vbas_count f (Z.shiftr v 7) (n + 1)
       end.

Definition log_fuel (v : Z) : nat := S (Z.to_nat (Z.log2 v)).

(** vbas.cpp:9-26 vbas_encode: the bytes written to dst (its length is the
    return value). *)
Definition vbas_encode (value : Z) : list Z :=
  if value =? 0 then [0]
  else
    let n := vbas_count (log_fuel value) value 0 in
    map (fun i =>
           let shift := (n - 1 - i) * 7 in
           let group := Z.land (Z.shiftr value shift) 127 in
           Z.lor group (if i + 1 <? n then 128 else 0))
        (zseq n).

(** vbas.cpp:32-48 the decode loop.  [Ret None] is "return false",
    [Ret (Some (v, i))] is success with *out = v, *advance = i. *)
Fixpoint vbas_decode_loop (fuel : nat) (src : list Z) (v i : Z) : out (option (Z * Z)) :=
  match fuel with
  | O => NoFuel
  | S f =>
      if zlen src <=? i then Ret None
      else if kVbasMaxBytes <=? i then Ret None
      else if (0 <? i) && negb (Z.shiftr v 57 =? 0) then Ret None
      else
        let* byte := rd src i in
        let i := i + 1 in
        let v := Z.lor (wrap64 (Z.shiftl v 7)) (Z.land byte 127) in
        if Z.land byte 128 =? 0 then Ret (Some (v, i))
        else vbas_decode_loop f src v i
  end.

(** vbas.cpp:28-49 vbas_decode (at most kVbasMaxBytes + 1 loop heads). *)
Definition vbas_decode (src : list Z) : out (option (Z * Z)) :=
  vbas_decode_loop 11 src 0 0.

(** jpp_message.hpp:71-79 MessageHeader *)
Record hdr : Type := mkHdr {
  h_class : Z; h_csn : Z; h_id : Z; h_off : Z; h_len : Z; h_aux : Z; h_last : bool }.

(** jpp_message.hpp:85-89 MessageHeaderContext, default 0/0 *)
Record ctx : Type := mkCtx { c_class : Z; c_csn : Z }.
Definition ctx0 : ctx := mkCtx 0 0.

(** jpp_message.hpp:67-69 msg_class_has_aux *)
Definition has_aux (class_id : Z) : bool := negb (Z.land class_id 1 =? 0).

(** jpp_message.hpp:94 *)
Definition kMessageHeaderMaxBytes : Z := kVbasMaxBytes * 6.

(** jpp_message.cpp:19  for (x = v; x != 0; x >>= 1) ++bits; *)
Fixpoint bit_count (fuel : nat) (v n : Z) : Z :=
  if v =? 0 then n
  else match fuel with
       | O => -1
       | S f => bit_count f (Z.shiftr v 1) (n + 1)
       end.

(** jpp_message.cpp:16-22 bin_id_bytes *)
Definition bin_id_bytes (v : Z) : Z :=
  if v <? 16 then 1 else (bit_count (log_fuel v) v 0 + 3 + 6) / 7.

(** jpp_message.cpp:27-43 encode_bin_id *)
Definition encode_bin_id (id bb : Z) (is_last : bool) : list Z :=
  let k := bin_id_bytes id in
  let top4 := Z.land (Z.shiftr id (7 * (k - 1))) 15 in
  let cont0 := if 1 <? k then 128 else 0 in
  let bb_fld := Z.shiftl (Z.land bb 3) 5 in
  let c_fld := if is_last then 16 else 0 in
  Z.lor (Z.lor (Z.lor cont0 bb_fld) c_fld) top4 ::
  map (fun j =>
         let i := j + 1 in
         let shift := 7 * (k - 1 - i) in
         let payload := Z.land (Z.shiftr id shift) 127 in
         let cont := if i + 1 <? k then 128 else 0 in
         Z.lor payload cont)
      (zseq (k - 1)).

(** jpp_message.cpp:58-66 the continuation loop of decode_bin_id *)
Fixpoint bin_id_loop (fuel : nat) (src : list Z) (v i : Z) : out (option (Z * Z)) :=
  match fuel with
  | O => NoFuel
  | S f =>
      if zlen src <=? i then Ret None
      else if kVbasMaxBytes <=? i then Ret None
      else if negb (Z.shiftr v 57 =? 0) then Ret None
      else
        let* b := rd src i in
        let i := i + 1 in
        let v := Z.lor (wrap64 (Z.shiftl v 7)) (Z.land b 127) in
        if Z.land b 128 =? 0 then Ret (Some (v, i))
        else bin_id_loop f src v i
  end.

(** jpp_message.cpp:47-71 decode_bin_id: (id, bb, is_last, advance) *)
Definition decode_bin_id (src : list Z) : out (option (Z * Z * bool * Z)) :=
  if zlen src <? 1 then Ret None
  else
    let* b0 := rd src 0 in
    let bb := Z.land (Z.shiftr b0 5) 3 in
    if bb =? 0 then Ret None
    else
      let is_last := negb (Z.land b0 16 =? 0) in
      let v := Z.land b0 15 in
      if negb (Z.land b0 128 =? 0) then
        let* r := bin_id_loop 10 src v 1 in
        match r with
        | None => Ret None
        | Some (v, i) => Ret (Some (v, bb, is_last, i))
        end
      else Ret (Some (v, bb, is_last, 1)).

(** jpp_message.cpp:73-92 encode_with_indicator *)
Definition encode_with_indicator (h : hdr) (emit_class emit_csn : bool) : list Z :=
  let bb := if negb emit_class && negb emit_csn then 1
            else if emit_class && negb emit_csn then 2 else 3 in
  encode_bin_id (h_id h) bb (h_last h)
  ++ (if emit_class then vbas_encode (h_class h) else [])
  ++ (if emit_csn then vbas_encode (h_csn h) else [])
  ++ vbas_encode (h_off h)
  ++ vbas_encode (h_len h)
  ++ (if has_aux (h_class h) then vbas_encode (h_aux h) else []).

(** jpp_message.cpp:96-107 encode_header: bytes and updated context *)
Definition encode_header (h : hdr) (c : ctx) : list Z * ctx :=
  let class_changed := negb (h_class h =? c_class c) in
  let csn_changed := negb (h_csn h =? c_csn c) in
  let emit_class := class_changed || csn_changed in
  let emit_csn := csn_changed in
  (encode_with_indicator h emit_class emit_csn, mkCtx (h_class h) (h_csn h)).

(** jpp_message.cpp:109-111 encode_header_independent *)
Definition encode_header_independent (h : hdr) : list Z :=
  encode_with_indicator h true true.

(** src + pos with src_len - pos; leaving the buffer is UB. *)
Definition adv (src : list Z) (pos : Z) : out (list Z) :=
  if (0 <=? pos) && (pos <=? zlen src) then Ret (zskip pos src) else UB.

(** One "if (!vbas_decode(src + pos, src_len - pos, &v, &step)) return false;
    pos += step;" step of decode_header. *)
Definition vbas_field (src : list Z) (pos : Z) : out (option (Z * Z)) :=
  let* s := adv src pos in
  let* r := vbas_decode s in
  match r with
  | None => Ret None
  | Some (v, step) => Ret (Some (v, pos + step))
  end.

(** jpp_message.cpp:113-173 decode_header: on success the header, the
    number of bytes consumed and the updated context; [None] leaves the
    context untouched (the code assigns it only at lines 168-169). *)
Definition decode_header (src : list Z) (c : ctx) : out (option (hdr * Z * ctx)) :=
  let* s0 := adv src 0 in
  let* r := decode_bin_id s0 in
  match r with
  | None => Ret None
  | Some (id, bb, is_last, pos) =>
    let* r := (if (bb =? 2) || (bb =? 3) then
                 let* r := vbas_field src pos in
                 match r with
                 | None => Ret None
                 | Some (v, pos) => if 255 <? v then Ret None else Ret (Some (v, pos))
                 end
               else Ret (Some (c_class c, pos))) in
    match r with
    | None => Ret None
    | Some (class_id, pos) =>
      let* r := (if bb =? 3 then
                   let* r := vbas_field src pos in
                   match r with
                   | None => Ret None
                   | Some (v, pos) => if 65535 <? v then Ret None else Ret (Some (v, pos))
                   end
                 else Ret (Some (c_csn c, pos))) in
      match r with
      | None => Ret None
      | Some (csn, pos) =>
        let* r := vbas_field src pos in
        match r with
        | None => Ret None
        | Some (msg_offset, pos) =>
          let* r := vbas_field src pos in
          match r with
          | None => Ret None
          | Some (msg_length, pos) =>
            let* r := (if has_aux class_id then vbas_field src pos
                       else Ret (Some (0, pos))) in
            match r with
            | None => Ret None
            | Some (aux, pos) =>
              Ret (Some (mkHdr class_id csn id msg_offset msg_length aux is_last,
                         pos, mkCtx class_id csn))
            end
          end
        end
      end
    end
  end.

(** jpp_parser.hpp: DataBinSet = std::map<Key, Entry> plus the EOR flag and
    reason.  The map is an association list; [lookup] finds the first entry,
    [update] replaces it or adds one, so there is never a duplicate. *)
Definition key : Type := (Z * Z)%type.
Definition key_eqb (a b : key) : bool := (fst a =? fst b) && (snd a =? snd b).
Record entry : Type := mkEntry { e_bytes : list Z; e_last : bool }.
Definition entry0 : entry := mkEntry [] false.

Definition bins : Type := list (key * entry).
Fixpoint lookup (m : bins) (k : key) : option entry :=
  match m with
  | [] => None
  | (k', e) :: m' => if key_eqb k k' then Some e else lookup m' k
  end.
Fixpoint update (m : bins) (k : key) (e : entry) : bins :=
  match m with
  | [] => [(k, e)]
  | (k', e') :: m' => if key_eqb k k' then (k', e) :: m' else (k', e') :: update m' k e
  end.
Fixpoint remove (m : bins) (k : key) : bins :=
  match m with
  | [] => []
  | (k', e') :: m' => if key_eqb k k' then remove m' k else (k', e') :: remove m' k
  end.

Record dbset : Type := mkSet { ds_bins : bins; ds_eor : option Z }.
Definition dbset0 : dbset := mkSet [] None.

(** jpp_parser.cpp:21-23 *)
Definition ds_contains (s : dbset) (class_id id : Z) : bool :=
  match lookup (ds_bins s) (class_id, id) with Some _ => true | None => false end.
(** jpp_parser.cpp:25-28 *)
Definition ds_is_complete (s : dbset) (class_id id : Z) : bool :=
  match lookup (ds_bins s) (class_id, id) with Some e => e_last e | None => false end.
(** jpp_parser.cpp:30-34 *)
Definition ds_get (s : dbset) (class_id id : Z) : list Z :=
  match lookup (ds_bins s) (class_id, id) with Some e => e_bytes e | None => [] end.
(** jpp_parser.cpp:36-41 *)
Definition ds_keys (s : dbset) : list key := map fst (ds_bins s).
(** jpp_parser.hpp set_eor / has_eor *)
Definition ds_set_eor (s : dbset) (reason : Z) : dbset := mkSet (ds_bins s) (Some reason).
Definition ds_has_eor (s : dbset) : bool := match ds_eor s with Some _ => true | None => false end.
(** jpp_parser.cpp:56-58 *)
Definition ds_erase (s : dbset) (class_id id : Z) : dbset * bool :=
  (mkSet (remove (ds_bins s) (class_id, id)) (ds_eor s), ds_contains s class_id id).

(** jpp_parser.cpp:44-53 one iteration of the merge loop *)
Definition merge_one (m : bins) (kv : key * entry) : bins :=
  let '(k, o) := kv in
  match lookup m k with
  | None => update m k o
  | Some e =>
      if zlen (e_bytes e) <? zlen (e_bytes o) then update m k o
      else if e_last o && negb (e_last e) then update m k (mkEntry (e_bytes e) true)
      else m
  end.
(** jpp_parser.cpp:43-54 merge_from (bins only; the EOR state is untouched) *)
Definition ds_merge_from (s other : dbset) : dbset :=
  mkSet (fold_left merge_one (ds_bins other) (ds_bins s)) (ds_eor s).

(** jpp_parser.cpp:60-77 append.  [bins_[key]] default-inserts the entry even
    when the message is refused afterwards.  The payload pointer is non-null
    at every call site, so "payload != nullptr" is true. *)
Definition ds_append (s : dbset) (class_id id msg_offset : Z) (payload : list Z)
  (is_last : bool) : dbset * bool :=
  let k := (class_id, id) in
  let e := match lookup (ds_bins s) k with Some e => e | None => entry0 end in
  let put e := mkSet (update (ds_bins s) k e) (ds_eor s) in
  if e_last e && (0 <? zlen payload) then (put e, false)
  else if negb (msg_offset =? zlen (e_bytes e)) then (put e, false)
  else
    let bytes := if 0 <? zlen payload then e_bytes e ++ payload else e_bytes e in
    (put (mkEntry bytes (if is_last then true else e_last e)), true).

(** jpp_parser.cpp:86 *)
Inductive decoded : Type := DOk (consumed : Z) | DNeedMore | DMalformed.

(** jpp_parser.cpp:88-140 try_decode_one_message *)
Definition try_decode_one_message (src : list Z) (c : ctx) (s : dbset)
  : out (decoded * ctx * dbset) :=
  if zlen src =? 0 then Ret (DNeedMore, c, s)
  else
    let* b0 := rd src 0 in
    if b0 =? 0 then
      if zlen src <? 2 then Ret (DNeedMore, c, s)
      else
        let* reason := rd src 1 in
        let* s2 := adv src 2 in
        let* r := vbas_decode s2 in
        match r with
        | None =>
            Ret ((if zlen src - 2 <? kVbasMaxBytes then DNeedMore else DMalformed), c, s)
        | Some (body_len, vbas_adv) =>
            if zlen src - 2 - vbas_adv <? body_len then Ret (DNeedMore, c, s)
            else Ret (DOk (2 + vbas_adv + body_len), c, ds_set_eor s reason)
        end
    else
      let* r := decode_header src c in
      match r with
      | None =>
          Ret ((if zlen src <? kMessageHeaderMaxBytes then DNeedMore else DMalformed), c, s)
      | Some (h, hdr_bytes, c') =>
          if zlen src - hdr_bytes <? h_len h then Ret (DNeedMore, c, s)
          else
            let* body := adv src hdr_bytes in
            let payload := ztake (h_len h) body in
            let '(s', ok) := ds_append s (h_class h) (h_id h) (h_off h) payload (h_last h) in
            if ok then Ret (DOk (hdr_bytes + h_len h), c', s')
            else Ret (DMalformed, c, s')
      end.

(** jpp_parser.cpp:147-153 the parse loop; [rest] = bytes + pos.  Fuel: one
    more than the number of bytes (every Ok consumes at least one byte). *)
Fixpoint parse_loop (fuel : nat) (rest : list Z) (c : ctx) (s : dbset) : out (bool * dbset) :=
  if zlen rest =? 0 then Ret (true, s)
  else match fuel with
  | O => NoFuel
  | S f =>
      let* r := try_decode_one_message rest c s in
      match r with
      | (DOk consumed, c, s) =>
          let* rest := adv rest consumed in
          if ds_has_eor s then Ret (true, s) else parse_loop f rest c s
      | (_, _, s) => Ret (false, s)
      end
  end.

(** jpp_parser.cpp:143-155 parse_jpp_stream (out non-null) *)
Definition parse_jpp_stream (bytes : list Z) (s : dbset) : out (bool * dbset) :=
  parse_loop (S (length bytes)) bytes ctx0 s.

(** jpp_parser.hpp: StreamingJppParser state *)
Record sparser : Type := mkSP { sp_pending : list Z; sp_ctx : ctx }.
Definition sparser0 : sparser := mkSP [] ctx0.

(** jpp_parser.cpp:179-193: the loop of feed over the joined buffer, then
    pending_.assign of the remainder.  A malformed message returns false with
    pending_ already cleared. *)
Fixpoint feed_loop (fuel : nat) (rest : list Z) (c : ctx) (s : dbset)
  : out (bool * sparser * dbset) :=
  if zlen rest =? 0 then Ret (true, mkSP [] c, s)
  else match fuel with
  | O => NoFuel
  | S f =>
      let* r := try_decode_one_message rest c s in
      match r with
      | (DMalformed, c, s) => Ret (false, mkSP [] c, s)
      | (DNeedMore, c, s) => Ret (true, mkSP rest c, s)
      | (DOk consumed, c, s) =>
          let* rest := adv rest consumed in
          if ds_has_eor s then Ret (true, mkSP rest c, s) else feed_loop f rest c s
      end
  end.

(** jpp_parser.cpp:159-194 feed (out non-null).  The two buffers (no copy /
    joined copy) hold pending_ ++ bytes in either case. *)
Definition sp_feed (p : sparser) (bytes : list Z) (s : dbset) : out (bool * sparser * dbset) :=
  if zlen bytes =? 0 then Ret (true, p, s)
  else
    let joined := sp_pending p ++ bytes in
    feed_loop (S (length joined)) joined (sp_ctx p) s.

(** jpp_parser.hpp finish: no partial message left *)
Definition sp_finish (p : sparser) : bool := zlen (sp_pending p) =? 0.

(** A sequence of feeds, as a client loop makes them: stops at the first
    refusal (jpip_client.cpp fetch_streaming does the same). *)
Fixpoint sp_feed_all (p : sparser) (chunks : list (list Z)) (s : dbset)
  : out (bool * sparser * dbset) :=
  match chunks with
  | [] => Ret (true, p, s)
  | ch :: chs =>
      let* r := sp_feed p ch s in
      match r with
      | (true, p, s) => sp_feed_all p chs s
      | (false, p, s) => Ret (false, p, s)
      end
  end.

(** data_bin_emitter.cpp:21 *)
Definition kMaxMessagePayload : Z := 987.

(** data_bin_emitter.hpp:51-57 BinWindow *)
Record binwin : Type := mkWin {
  w_skip : Z; w_budget : Z; w_sent : Z; w_complete : bool; w_blocked : bool }.

(** Result of the append_message loop: appended bytes, context, final
    offset, complete flag, budget_blocked flag. *)
Record am_res : Type := mkAM {
  am_out : list Z; am_ctx : ctx; am_offset : Z; am_complete : bool; am_blocked : bool }.

(** data_bin_emitter.cpp:50-79 loop of append_message.  [written] equals the
    number of bytes appended so far.  Fuel: one more than the payload length. *)
Fixpoint append_loop (fuel : nat) (h : hdr) (payload : list Z) (budget : Z)
  (c : ctx) (acc : list Z) (offset : Z) : out am_res :=
  match fuel with
  | O => NoFuel
  | S f =>
      let written := zlen acc in
      let remaining := zlen payload - offset in
      let avail := if written <? budget then budget - written else 0 in
      if avail <=? kMessageHeaderMaxBytes then Ret (mkAM acc c offset false true)
      else
        let this_len := Z.min (Z.min remaining kMaxMessagePayload)
                              (avail - kMessageHeaderMaxBytes) in
        if (0 <? remaining) && (this_len =? 0) then Ret (mkAM acc c offset false true)
        else
          let is_last := offset + this_len =? zlen payload in
          let h := mkHdr (h_class h) (h_csn h) (h_id h) offset this_len (h_aux h) is_last in
          let '(hb, c) := encode_header h c in
          let acc := acc ++ hb ++ (if 0 <? this_len then ztake this_len (zskip offset payload)
                                   else []) in
          let offset := offset + this_len in
          if is_last then Ret (mkAM acc c offset true false)
          else append_loop f h payload budget c acc offset
  end.

Definition SIZE_MAX : Z := two64 - 1.

(** data_bin_emitter.cpp:37-86 append_message with win == nullptr: appended
    bytes and context. *)
Definition append_message (h : hdr) (payload : list Z) (c : ctx) : out (list Z * ctx) :=
  let* r := append_loop (S (length payload)) h payload SIZE_MAX c [] 0 in
  Ret (am_out r, am_ctx r).

(** data_bin_emitter.cpp:37-86 append_message with a window: appended bytes,
    context, and the updated window (lines 54, 60, 81-84; budget_blocked is
    only ever set, never cleared). *)
Definition append_message_win (h : hdr) (payload : list Z) (c : ctx) (w : binwin)
  : out (list Z * ctx * binwin) :=
  let first := Z.min (w_skip w) (zlen payload) in
  let* r := append_loop (S (length payload)) h payload (w_budget w) c [] first in
  Ret (am_out r, am_ctx r,
       mkWin (w_skip w) (w_budget w) (am_offset r - first) (am_complete r)
             (am_blocked r || w_blocked w)).

(** data_bin_emitter.cpp:181-194 emit_eor *)
Definition emit_eor (reason : Z) : list Z := [0; reason; 0].
