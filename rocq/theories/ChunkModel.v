(** Model of HTTP/1.1 chunked transfer coding: the server's formatting and the
    batch decoder (source/core/jpip/jpip_response.cpp) and the client's
    streaming decoder (source/core/jpip/jpip_client.cpp). *)
From Verif Require Import Base Text.

(** "%zx" *)
Definition hex_char (d : Z) : Z := if d <? 10 then 48 + d else 87 + d.
Fixpoint hex_digits (fuel : nat) (n : Z) (acc : list Z) : list Z :=
  match fuel with
  | O => acc
  | S f => if n <? 16 then hex_char n :: acc else hex_digits f (n / 16) (hex_char (n mod 16) :: acc)
  end.
Definition hex (n : Z) : list Z := hex_digits (S (Z.to_nat (Z.log2 n))) n [].

Definition CR : Z := 13.
Definition LF : Z := 10.

(** format_chunk_header, jpip_response.cpp:85-90.  The 24-byte buffer holds 16
    digits, CR, LF and the terminator. *)
Definition format_chunk_header (n : Z) : list Z := hex n ++ [CR; LF].
(** format_last_chunk, jpip_response.cpp:92-95 *)
Definition format_last_chunk : list Z := [48; CR; LF; CR; LF].

(** The value of a hexadecimal digit, jpip_response.cpp:205-210 and
    jpip_client.cpp:145-149. *)
Definition hex_val (c : Z) : option Z :=
  if (48 <=? c) && (c <=? 57) then Some (c - 48)
  else if (97 <=? c) && (c <=? 102) then Some (10 + (c - 97))
  else if (65 <=? c) && (c <=? 70) then Some (10 + (c - 65))
  else None.

(** ** The batch decoder, decode_chunked_body, jpip_response.cpp:183-246 *)

(** Advance to a CR LF pair, lines 191-194 and 225. *)
Fixpoint find_crlf (fuel : nat) (data : list Z) (j : Z) : out Z :=
  match fuel with
  | O => NoFuel
  | S fuel =>
    if j + 1 <? zlen data then
      let* a := rd data j in
      if a =? CR then
        let* b := rd data (j + 1) in
        if b =? LF then Ret j else find_crlf fuel data (j + 1)
      else find_crlf fuel data (j + 1)
    else Ret j
  end.

(** The end of the size digits, lines 196-197. *)
Fixpoint find_semi (fuel : nat) (data : list Z) (j line_end : Z) : out Z :=
  match fuel with
  | O => NoFuel
  | S fuel =>
    if j <? line_end then
      let* a := rd data j in
      if negb (a =? 59) then find_semi fuel data (j + 1) line_end else Ret j
    else Ret j
  end.

(** The digits, lines 200-216, from [j] to [size_end]; [None] is a refusal. *)
Fixpoint read_size (fuel : nat) (data : list Z) (j size_end size : Z) : ex Z :=
  match fuel with
  | O => NoFuel
  | S fuel =>
    if j <? size_end then
      let* c := rd data j in
      match hex_val c with
      | None => throw
      | Some v =>
        if (two64 - 1) / 16 <? size then throw
        else read_size fuel data (j + 1) size_end (wrap64 (Z.lor (Z.shiftl size 4) v))
      end
    else ret size
  end.

(** Trailers after the zero-sized chunk, lines 220-229. *)
Fixpoint skip_trailers (fuel : nat) (data : list Z) (i : Z) : out bool :=
  match fuel with
  | O => NoFuel
  | S fuel =>
    if i + 1 <? zlen data then
      let* a := rd data i in
      let* b := rd data (i + 1) in
      if (a =? CR) && (b =? LF) then Ret true
      else
        let* te := find_crlf (S (length data)) data i in
        if zlen data <=? te + 1 then Ret false else skip_trailers fuel data (te + 2)
    else Ret false
  end.

(** The main loop, lines 188-245; [None] is the result false. *)
Fixpoint chunk_loop (fuel : nat) (data : list Z) (i : Z) (acc : list Z) : ex (list Z) :=
  match fuel with
  | O => NoFuel
  | S fuel =>
    let len := zlen data in
    if i <? len then
      let* line_end := find_crlf (S (length data)) data i in
      if len <=? line_end + 1 then throw
      else
        let* size_end := find_semi (S (length data)) data i line_end in
        let? size := read_size (S (length data)) data i size_end 0 in
        if size_end <=? i then throw   (* no digit *)
        else
          let i := line_end + 2 in
          if size =? 0 then
            let* ok := skip_trailers (S (length data)) data i in
            if ok then ret acc else throw
          else if (len - i <? size) || (len - i - size <? 2) then throw
          else
            let acc := acc ++ ztake size (zskip i data) in
            let i := i + size in
            let* a := rd data i in
            let* b := rd data (i + 1) in
            if negb (a =? CR) || negb (b =? LF) then throw
            else chunk_loop fuel data (i + 2) acc
    else throw
  end.
Definition decode_chunked_body (data : list Z) : ex (list Z) := chunk_loop (S (length data)) data 0 [].

(** ** The streaming decoder, ChunkedStreamDecoder, jpip_client.cpp:67-167 *)

(** [cd_rest] is [buf] from [consumed] on (the bytes before it are never looked
    at again). *)
Record cdec := Cd { cd_rest : list Z; cd_done : bool; cd_left : Z; cd_in : bool; cd_crlf : bool; cd_final : bool }.
Definition cd_init : cdec := Cd [] false 0 false false false.
Definition set_rest (s : cdec) (r : list Z) : cdec := Cd r (cd_done s) (cd_left s) (cd_in s) (cd_crlf s) (cd_final s).

(** One turn of the loop either returns (true or false) or goes round; with the
    bytes passed to the sink.  The sink is assumed to accept them. *)
Inductive turn := Stop (ok : bool) (s : cdec) (o : list Z) | Next (s : cdec) (o : list Z).

(** The digits of the size line, lines 141-152: unlike the batch decoder there
    is no check that the size fits. *)
Fixpoint stream_size (ds : list Z) (size : Z) : option Z :=
  match ds with
  | [] => Some size
  | c :: t =>
    match hex_val c with
    | None => None
    | Some v => stream_size t (wrap64 (Z.lor (Z.shiftl size 4) v))
    end
  end.

(** Lines 126-164. *)
Definition turn_size (s : cdec) (o : list Z) : turn :=
  let line := take_while (fun c => negb (c =? LF)) (cd_rest s) in   (* up to eol *)
  let n := zlen line in
  if zlen (cd_rest s) <=? n then Stop true s o                      (* no eol *)
  else if (n =? 0) || negb (znth 0 line (n - 1) =? CR) then Stop false s o
  else
    let ds := take_while (fun c => negb (c =? 59)) (ztake (n - 1) line) in
    match stream_size ds 0 with
    | None => Stop false s o
    | Some size =>
      match ds with
      | [] => Stop false s o
      | _ =>
        let rest := zskip (n + 1) (cd_rest s) in
        if size =? 0 then Next (Cd rest (cd_done s) (cd_left s) (cd_in s) (cd_crlf s) true) o
        else Next (Cd rest (cd_done s) size true (cd_crlf s) (cd_final s)) o
      end
    end.

(** Lines 113-125. *)
Definition turn_final (s : cdec) (o : list Z) : turn :=
  if cd_final s then
    if zlen (cd_rest s) <? 2 then Stop true s o
    else if negb (znth 0 (cd_rest s) 0 =? CR) || negb (znth 0 (cd_rest s) 1 =? LF) then Stop false s o
    else Stop true (Cd (zskip 2 (cd_rest s)) true (cd_left s) (cd_in s) (cd_crlf s) false) o
  else turn_size s o.

(** Lines 104-112. *)
Definition turn_crlf (s : cdec) (o : list Z) : turn :=
  if cd_crlf s then
    if zlen (cd_rest s) <? 2 then Stop true s o
    else if negb (znth 0 (cd_rest s) 0 =? CR) || negb (znth 0 (cd_rest s) 1 =? LF) then Stop false s o
    else turn_final (Cd (zskip 2 (cd_rest s)) (cd_done s) (cd_left s) (cd_in s) false (cd_final s)) o
  else turn_final s o.

(** Lines 83-103. *)
Definition turn_chunk (s : cdec) : turn :=
  if cd_in s then
    let available := zlen (cd_rest s) in
    if available =? 0 then Stop true s []
    else
      let take := Z.min (cd_left s) available in
      let o := ztake take (cd_rest s) in
      let rest := zskip take (cd_rest s) in
      let left := cd_left s - take in
      if left =? 0 then turn_crlf (Cd rest (cd_done s) left false true (cd_final s)) o
      else Stop true (Cd rest (cd_done s) left (cd_in s) (cd_crlf s) (cd_final s)) o
  else turn_crlf s [].

Fixpoint feed_loop (fuel : nat) (s : cdec) (acc : list Z) : out (bool * cdec * list Z) :=
  match fuel with
  | O => NoFuel
  | S fuel =>
    match turn_chunk s with
    | Stop ok s o => Ret (ok, s, acc ++ o)
    | Next s o => feed_loop fuel s (acc ++ o)
    end
  end.
(** feed: the result, the new state and the bytes handed to the sink. *)
Definition cd_feed (s : cdec) (data : list Z) : out (bool * cdec * list Z) :=
  let s := set_rest s (cd_rest s ++ data) in
  feed_loop (S (length (cd_rest s))) s [].

(** The receiving loop, jpip_client.cpp:249-257: feed each read until the
    decoder is done or fails.  Result: did it fail, is it done, the bytes
    handed on, and the bytes not consumed (or not read any more). *)
Record received := Rcv { rc_ok : bool; rc_done : bool; rc_body : list Z; rc_unread : list Z }.
Fixpoint receive (s : cdec) (reads : list (list Z)) (acc : list Z) : out received :=
  match reads with
  | [] => Ret (Rcv true (cd_done s) acc (cd_rest s))
  | p :: t =>
    let* (r, o) := cd_feed s p in
    let (ok, s') := r : bool * cdec in
    if negb ok || cd_done s' then Ret (Rcv ok (cd_done s') (acc ++ o) (cd_rest s' ++ concat t))
    else receive s' t (acc ++ o)
  end.
