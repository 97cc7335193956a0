(** Model of the client's receiving loop, source/core/jpip/jpip_client.cpp
    (fetch_streaming) and source/core/jpip/tcp_socket.cpp
    (recv_until_header_end).  The network is the list of what successive recv
    calls return; the end of the list is the peer closing the connection. *)
From Coq Require Import List.
From Verif Require Import Base JppModel ChunkModel HttpModel.

(** recv_until_header_end(buf, 65536), tcp_socket.cpp:166-188.  The source
    looks for the blank line only where the new bytes can complete one; here
    the whole buffer is searched.  Also returns what is still unread. *)
Fixpoint recv_until_header_end (reads : list (list Z)) (buf : list Z) : list Z * list (list Z) :=
  match reads with
  | [] => (buf, [])
  | r :: t =>
    if zlen buf <? 65536 then
      match blank_line (buf ++ r) with
      | Some _ => (buf ++ r, t)
      | None => recv_until_header_end t (buf ++ r)
      end
    else (buf, reads)
  end.

(** feed_jpp, jpip_client.cpp:216-229, without the progress callback. *)
Definition feed_jpp (p : sparser) (bytes : list Z) (s : dbset) : out (bool * sparser * dbset) := sp_feed p bytes s.

(** push_wire_bytes for a chunked body, jpip_client.cpp:239-241.  The decoder
    hands on the payload of one call piece by piece, here it is handed on in
    one piece; that makes no difference by C06_chunking_invariance. *)
Definition push_chunked (d : cdec) (p : sparser) (s : dbset) (r : list Z) : out (bool * cdec * sparser * dbset) :=
  let* (fed, o) := cd_feed d r in
  let '(ok, d) := fed in
  let* (x, s) := feed_jpp p o s in
  let '(okj, p) := x in
  Ret (ok && okj, d, p, s).
(** The loop, jpip_client.cpp:251-259, for a chunked body. *)
Fixpoint chunked_loop (reads : list (list Z)) (d : cdec) (p : sparser) (s : dbset) : out (bool * sparser * dbset) :=
  if cd_done d then Ret (true, p, s)
  else
    match reads with
    | [] => Ret (true, p, s)
    | r :: t =>
      let* (x, s) := push_chunked d p s r in
      let '(ok, d, p) := x in
      if ok then chunked_loop t d p s else Ret (false, p, s)
    end.

(** push_wire_bytes for a body of known length, jpip_client.cpp:242-245;
    [togo] is content_length - cl_received. *)
Definition push_length (togo : Z) (p : sparser) (s : dbset) (r : list Z) : out (bool * Z * sparser * dbset) :=
  let want := Z.min (zlen r) togo in
  let* (x, s) := feed_jpp p (ztake want r) s in
  let '(ok, p) := x in
  Ret (ok, togo - want, p, s).
Fixpoint length_loop (reads : list (list Z)) (togo : Z) (p : sparser) (s : dbset) : out (bool * sparser * dbset) :=
  if togo <=? 0 then Ret (true, p, s)
  else
    match reads with
    | [] => Ret (true, p, s)
    | r :: t =>
      let* (x, s) := push_length togo p s r in
      let '(ok, togo, p) := x in
      if ok then length_loop t togo p s else Ret (false, p, s)
    end.

(** fetch_streaming after the request has been sent, jpip_client.cpp:190-266:
    the result and the caller's set. *)
Definition fetch_response (reads : list (list Z)) : out (bool * dbset) :=
  let '(raw, rest) := recv_until_header_end reads [] in
  if zlen raw =? 0 then Ret (false, dbset0)
  else
    let* (is_chunked, h1) := parse_http_chunked raw in
    let start := match h1 with Some e => e | None => 0 end in
    let finish x := let* (y, s) := x in let '(ok, p) := y in Ret (ok && sp_finish p, s) in
    if is_chunked then
      let first := zskip start raw in
      let* (x, s) := (match first with [] => Ret (true, cd_init, sparser0, dbset0) | _ => push_chunked cd_init sparser0 dbset0 first end) in
      let '(ok, d, p) := x in
      if ok then finish (chunked_loop rest d p s) else Ret (false, s)
    else
      let* (n, h2) := parse_http_content_length raw in
      let start := match h2 with Some e => e | None => start end in
      if n =? SIZE_MAX then Ret (false, dbset0)
      else
        let first := zskip start raw in
        let* (x, s) := (match first with [] => Ret (true, n, sparser0, dbset0) | _ => push_length n sparser0 dbset0 first end) in
        let '(ok, togo, p) := x in
        if ok then finish (length_loop rest togo p s) else Ret (false, s).
