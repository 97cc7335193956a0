(** Independent vocabulary for the JPP wire-format properties. *)
From Verif Require Import Base.

(** Big-endian base-128 value of a byte string (the top bit of each byte is
    not part of the value), continuing from [acc]. *)
Definition be128 (acc : Z) (bs : list Z) : Z :=
  fold_left (fun a b => a * 128 + b mod 128) bs acc.

(** A VBAS byte string: all bytes but the last have the top bit set. *)
Definition vbas_form (bs : list Z) : Prop :=
  exists init last, bs = init ++ [last] /\ Forall (fun b => 128 <= b) init /\ last < 128.

Definition u64 (v : Z) : Prop := 0 <= v < 2 ^ 64.

From Verif Require Import JppModel.

(** Headers whose fields fit the C++ field types (uint8_t, uint16_t, uint64_t). *)
Definition hdr_ok (h : hdr) : Prop :=
  0 <= h_class h <= 255 /\ 0 <= h_csn h <= 65535 /\
  u64 (h_id h) /\ u64 (h_off h) /\ u64 (h_len h) /\ u64 (h_aux h).

Definition ctx_ok (c : ctx) : Prop := 0 <= c_class c <= 255 /\ 0 <= c_csn c <= 65535.

(** What a receiver is told: the auxiliary field travels only with odd classes. *)
Definition as_received (h : hdr) : hdr :=
  mkHdr (h_class h) (h_csn h) (h_id h) (h_off h) (h_len h)
        (if Z.odd (h_class h) then h_aux h else 0) (h_last h).

(** ** Harnesses: sequences of API calls *)

(** A server emitting several headers one after another (one stream). *)
Fixpoint encode_all (hs : list hdr) (c : ctx) : list Z * ctx :=
  match hs with
  | [] => ([], c)
  | h :: hs =>
      let '(b, c) := encode_header h c in
      let '(bs, c) := encode_all hs c in
      (b ++ bs, c)
  end.

(** A client decoding [n] headers one after another: the headers, the bytes
    left over, the final context; [Ret None] as soon as one is refused. *)
Fixpoint decode_all (n : nat) (src : list Z) (c : ctx) : out (option (list hdr * list Z * ctx)) :=
  match n with
  | O => Ret (Some ([], src, c))
  | S n =>
      let* r := decode_header src c in
      match r with
      | None => Ret None
      | Some (h, k, c) =>
          let* rest := adv src k in
          let* r := decode_all n rest c in
          match r with
          | None => Ret None
          | Some (hs, rest, c) => Ret (Some (h :: hs, rest, c))
          end
      end
  end.

(** A data-bin to send: class, in-class id, contents. *)
Record bin : Type := mkBin { b_class : Z; b_id : Z; b_data : list Z }.
Definition bin_key (b : bin) : key := (b_class b, b_id b).
Definition bin_ok (b : bin) : Prop :=
  0 <= b_class b <= 255 /\ u64 (b_id b) /\ bytes_ok (b_data b) /\ zlen (b_data b) < 2 ^ 57.
(** MessageHeader hdr{} with class and id filled in, as every emit_* does. *)
Definition bin_hdr (b : bin) : hdr := mkHdr (b_class b) 0 (b_id b) 0 0 0 false.

(** A response carrying whole bins, sharing one header context. *)
Fixpoint emit_bins (bs : list bin) (c : ctx) : out (list Z * ctx) :=
  match bs with
  | [] => Ret ([], c)
  | b :: bs =>
      let* (x, c) := append_message (bin_hdr b) (b_data b) c in
      let* (y, c) := emit_bins bs c in
      Ret (x ++ y, c)
  end.

(** Repeated requests for one bin: each response is its own stream, limited
    by a byte budget, skipping what earlier responses delivered; the client
    parses each into the same set.  Result: per response its bytes and
    window, then the total delivered and the client's set.  [Ret None] if
    the client refuses a response. *)
Fixpoint session (b : bin) (budgets : list Z) (skip : Z) (s : dbset)
  : out (option (list (list Z * binwin) * Z * dbset)) :=
  match budgets with
  | [] => Ret (Some ([], skip, s))
  | g :: gs =>
      let* (bytes, _, w) :=
         append_message_win (bin_hdr b) (b_data b) ctx0 (mkWin skip g 0 false false) in
      let* (ok, s) := parse_jpp_stream bytes s in
      if ok : bool then
        let* r := session b gs (skip + w_sent w) s in
        match r with
        | None => Ret None
        | Some (rs, sk, s) => Ret (Some ((bytes, w) :: rs, sk, s))
        end
      else Ret None
  end.

(** A history of messages offered to a data-bin set. *)
Record msg : Type := mkMsg { m_class : Z; m_id : Z; m_off : Z; m_body : list Z; m_last : bool }.
Definition msg_key (m : msg) : key := (m_class m, m_id m).
Fixpoint offer_all (s : dbset) (ms : list msg) : dbset * list bool :=
  match ms with
  | [] => (s, [])
  | m :: ms =>
      let '(s, ok) := ds_append s (m_class m) (m_id m) (m_off m) (m_body m) (m_last m) in
      let '(s, oks) := offer_all s ms in
      (s, ok :: oks)
  end.
(** Bodies of the accepted messages for bin [k], in order. *)
Fixpoint accepted_bodies (k : key) (ms : list msg) (oks : list bool) : list Z :=
  match ms, oks with
  | m :: ms, ok :: oks =>
      (if ok && key_eqb (msg_key m) k then m_body m else []) ++ accepted_bodies k ms oks
  | _, _ => []
  end.
