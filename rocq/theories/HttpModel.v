(** Model of the HTTP response headers, source/core/jpip/jpip_response.cpp. *)
From Coq Require Import String Ascii List.
From Verif Require Import Base Text ChunkModel QueryModel.

Definition CRLF : list Z := [CR; LF].

(** ** Formatting *)

(** What "%s" prints of a std::string passed through c_str(). *)
Definition c_str (s : list Z) : list Z := take_while (fun c => negb (c =? 0)) s.
(** [n = snprintf(buf, size, text)] and then bytes [buf .. buf+n): snprintf
    stores at most [size - 1] characters and a terminator but returns the full
    length.  A longer text makes the copy run past the buffer. *)
Definition printed (size : Z) (text : list Z) : out (list Z) :=
  if zlen text <? size then Ret text
  else if zlen text =? size then Ret (ztake (size - 1) text ++ [0])
  else UB.

(** The optional headers, jpip_response.cpp:27-40 and 67-78 *)
Definition opt_headers (tid cnew extra : list Z) : out (list Z) :=
  let* a := match tid with [] => Ret [] | _ => printed 256 (txt "JPIP-tid: " ++ c_str tid ++ CRLF) end in
  let* b := match cnew with [] => Ret [] | _ => printed 512 (txt "JPIP-cnew: " ++ c_str cnew ++ CRLF) end in
  Ret (a ++ b ++ extra ++ CRLF).
(** format_jpp_response, jpip_response.cpp:12-48.  ([body] null is the empty
    list.) *)
Definition format_jpp_response (body tid cnew extra : list Z) : out (list Z) :=
  let* h := printed 512 (txt "HTTP/1.1 200 OK" ++ CRLF ++ txt "Content-Type: image/jpp-stream" ++ CRLF ++
                         txt "Content-Length: " ++ dec (zlen body) ++ CRLF ++
                         txt "Access-Control-Allow-Origin: *" ++ CRLF ++ txt "Connection: close" ++ CRLF) in
  let* o := opt_headers tid cnew extra in
  Ret (h ++ o ++ body).
(** format_jpp_response_headers_chunked, jpip_response.cpp:50-83 *)
Definition format_jpp_response_headers_chunked (tid cnew extra : list Z) : out (list Z) :=
  let* h := printed 512 (txt "HTTP/1.1 200 OK" ++ CRLF ++ txt "Content-Type: image/jpp-stream" ++ CRLF ++
                         txt "Transfer-Encoding: chunked" ++ CRLF ++
                         txt "Access-Control-Allow-Origin: *" ++ CRLF ++ txt "Connection: close" ++ CRLF) in
  let* o := opt_headers tid cnew extra in
  Ret (h ++ o).
(** format_error_response, jpip_response.cpp:97-108, for a non-negative status *)
Definition format_error_response (status : Z) (reason : list Z) : out (list Z) :=
  printed 512 (txt "HTTP/1.1 " ++ dec status ++ [32] ++ c_str reason ++ CRLF ++ txt "Content-Length: 0" ++ CRLF ++
               txt "Access-Control-Allow-Origin: *" ++ CRLF ++ txt "Connection: close" ++ CRLF ++ CRLF).

(** ** Parsing *)

(** The blank line, jpip_response.cpp:116-121 and 150-155: the first position
    with CR LF CR LF.  (All four reads are behind p + 4 <= end.) *)
Fixpoint blank_line (s : list Z) : option Z :=
  if seq_eqb (ztake 4 s) [CR; LF; CR; LF] then Some 0
  else match s with [] => None | _ :: s' => option_map (fun i => 1 + i) (blank_line s') end.

(** strtoull on memory that is not terminated: [s] is everything up to the end
    of the buffer, and looking for the end of the number there is outside. *)
Definition strtoull_in (s : list Z) : out Z :=
  let s1 := zskip (zlen (take_while is_space s)) s in
  let s2 := match s1 with c :: t => if (c =? 45) || (c =? 43) then t else s1 | [] => [] end in
  match zskip (zlen (take_while is_digit s2)) s2 with
  | [] => UB
  | _ => Ret (fst (strtoull s))
  end.

Definition SIZE_MAX : Z := two64 - 1.
(** The line that starts at [pos], up to LF or the blank line. *)
Definition line_at (data : list Z) (boundary pos : Z) : list Z :=
  take_while (fun c => negb (c =? LF)) (ztake (boundary - pos) (zskip pos data)).

(** The scan for Content-Length, jpip_response.cpp:126-141.  [strncmp] stays
    inside the line, which is longer than what is compared. *)
Fixpoint length_scan (fuel : nat) (data : list Z) (boundary pos : Z) : out Z :=
  match fuel with
  | O => NoFuel
  | S fuel =>
    if pos <? boundary then
      let line := line_at data boundary pos in
      if (16 <? zlen line) &&
         (seq_eqb (ztake 15 line) (txt "Content-Length:") || seq_eqb (ztake 15 line) (txt "content-length:"))
      then strtoull_in (zskip (pos + 15 + zlen (take_while is_blank (zskip 15 line))) data)
      else length_scan fuel data boundary (pos + zlen line + 1)
    else Ret SIZE_MAX
  end.
(** parse_http_content_length, jpip_response.cpp:110-143: the length and
    [header_end] ([None] when it is left alone). *)
Definition parse_http_content_length (data : list Z) : out (Z * option Z) :=
  match blank_line data with
  | None => Ret (SIZE_MAX, None)
  | Some b =>
    let* n := length_scan (S (length data)) data b 0 in Ret (n, Some (b + 4))
  end.

Definition lower (c : Z) : Z := if (65 <=? c) && (c <=? 90) then c + 32 else c.
(** The search for "chunked" in the value, jpip_response.cpp:170-176 *)
Fixpoint has_chunked (s : list Z) : bool :=
  seq_eqb (map lower (ztake 7 s)) (txt "chunked") || match s with [] => false | _ :: t => has_chunked t end.
(** The scan for Transfer-Encoding, jpip_response.cpp:159-179 *)
Fixpoint chunked_scan (fuel : nat) (data : list Z) (boundary pos : Z) : out bool :=
  match fuel with
  | O => NoFuel
  | S fuel =>
    if pos <? boundary then
      let line := line_at data boundary pos in
      let next := chunked_scan fuel data boundary (pos + zlen line + 1) in
      if (18 <? zlen line) &&
         (seq_eqb (ztake 18 line) (txt "Transfer-Encoding:") || seq_eqb (ztake 18 line) (txt "transfer-encoding:"))
      then let v := zskip 18 line in
           if has_chunked (zskip (zlen (take_while is_blank v)) v) then Ret true else next
      else next
    else Ret false
  end.
(** parse_http_chunked, jpip_response.cpp:145-181 *)
Definition parse_http_chunked (data : list Z) : out (bool * option Z) :=
  match blank_line data with
  | None => Ret (false, None)
  | Some b =>
    let* c := chunked_scan (S (length data)) data b 0 in Ret (c, Some (b + 4))
  end.
