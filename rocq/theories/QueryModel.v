(** Model of the JPIP request text: what the client sends
    (source/core/jpip/jpip_client.cpp) and how the server reads it
    (source/core/jpip/jpip_request.cpp).  Characters are codes. *)
From Coq Require Import String Ascii.
From Verif Require Import Base Text ViewModel.
From Coq Require Import List.

(** A string literal of the source. *)
Definition txt (s : String.string) : list Z := map (fun a => Z.of_nat (nat_of_ascii a)) (String.list_ascii_of_string s).
Arguments txt s%string.

(** ** The client *)

(** The list of components, jpip_client.cpp:40-45. *)
Definition format_comps (cs : list Z) : list Z :=
  match cs with
  | [] => []
  | c :: t => txt "&comps=" ++ dec c ++ concat (map (fun c => 44 :: dec c) t)
  end.
(** format_view_window_query, jpip_client.cpp:17-49 *)
Definition format_view_window_query (w : window) : list Z :=
  txt "fsiz=" ++ dec (fx w) ++ [44] ++ dec (fy w) ++
  match rounding w with Up => txt ",round-up" | Closest => txt ",closest" | Down => [] end ++
  (if negb (ox w =? 0) || negb (oy w =? 0) then txt "&roff=" ++ dec (ox w) ++ [44] ++ dec (oy w) else []) ++
  (if negb (sx w =? 0) || negb (sy w =? 0) then txt "&rsiz=" ++ dec (sx w) ++ [44] ++ dec (sy w) else []) ++
  format_comps (comps w) ++ txt "&type=jpp-stream".
(** The request line of fetch_streaming, jpip_client.cpp:178-183, up to its
    CR LF.  [model] is the text of the cache model, [None] when there is none. *)
Definition request_line (w : window) (model : option (list Z)) : list Z :=
  txt "GET /jpip?" ++
  (format_view_window_query w ++ match model with Some m => txt "&model=" ++ m | None => [] end) ++
  txt " HTTP/1.1".

(** ** The server *)

(** JpipRequest, jpip_request.hpp:29-82.  A value and its [has_] flag are one
    option. *)
Record request := Rq {
  q_target : list Z; q_win : window;
  q_has_fsiz : bool; q_has_roff : bool; q_has_rsiz : bool; q_has_comps : bool;
  q_type : list Z; q_model : list Z; q_len : option Z; q_quality : option Z;
  q_cnew : option (list Z); q_cid : option (list Z); q_cclose : option (list Z); q_qid : option Z }.
Definition no_window : window := {| fx := 0; fy := 0; ox := 0; oy := 0; sx := 0; sy := 0; comps := []; rounding := Down |}.
Definition no_request : request := Rq [] no_window false false false false [] [] None None None None None None.

(** RequestParseStatus, jpip_request.hpp:84-90 (the other value is [Ok]); the
    partly filled request of a failure is not modelled. *)
Inductive failure := EmptyQuery | UnsupportedType | MalformedField.
Inductive parsed (A : Type) := POk (a : A) | PErr (f : failure).
Arguments POk {A}. Arguments PErr {A}.

(** std::string::find(c, pos): the position, [None] for npos. *)
Fixpoint index_of (c : Z) (s : list Z) : option Z :=
  match s with
  | [] => None
  | x :: s' => if x =? c then Some 0 else option_map (fun i => 1 + i) (index_of c s')
  end.
Definition find (c : Z) (s : list Z) (pos : Z) : option Z := option_map (fun i => pos + i) (index_of c (zskip pos s)).
Definition seq_eqb (a b : list Z) : bool := if list_eq_dec Z.eq_dec a b then true else false.
(** The character [*(s.c_str() + i)]: the terminator at the end. *)
Definition c_at (s : list Z) (i : Z) : Z := znth 0 s i.

(** The pieces between the occurrences of a separator: what the loops of
    for_each_param (jpip_request.cpp:22-37), of [comps] (:113-147) and of [type]
    (:178-183) go through.  The source walks over positions, here the string is
    taken apart from the left. *)
Fixpoint split (c : Z) (s : list Z) : list (list Z) :=
  match s with
  | [] => [[]]
  | x :: s' =>
    if x =? c then [] :: split c s'
    else match split c s' with p :: t => (x :: p) :: t | [] => [[x]] end
  end.

(** parse_pair, jpip_request.cpp:40-49 *)
Definition parse_pair (v : list Z) : option (Z * Z) :=
  match find 44 v 0 with
  | None => None
  | Some comma =>
    let '(a, e) := strtoull v in
    if negb (e =? comma) then None
    else
      let '(b, e) := strtoull (zskip (comma + 1) v) in
      if negb (c_at v (comma + 1 + e) =? 0) then None else Some (wrap32 a, wrap32 b)
  end.

(** The [fsiz] field, jpip_request.cpp:79-101 *)
Definition parse_fsiz (v : list Z) : option (Z * Z * option round) :=
  match find 44 v 0 with
  | None => None
  | Some c1 =>
    let c2 := find 44 v (c1 + 1) in
    let '(a, e) := strtoull v in
    if negb (e =? c1) then None
    else
      let '(b, e) := strtoull (zskip (c1 + 1) v) in
      match c2 with
      | None => if negb (c_at v (c1 + 1 + e) =? 0) then None else Some (wrap32 a, wrap32 b, None)
      | Some c2 =>
        if negb (c1 + 1 + e =? c2) then None
        else
          let rd := zskip (c2 + 1) v in
          if seq_eqb rd (txt "round-up") then Some (wrap32 a, wrap32 b, Some Up)
          else if seq_eqb rd (txt "round-down") then Some (wrap32 a, wrap32 b, Some Down)
          else if seq_eqb rd (txt "closest") then Some (wrap32 a, wrap32 b, Some Closest)
          else None
      end
  end.

(** The loop over a range of components, jpip_request.cpp:134-143: the counter
    is 64 bits, what is stored 16 bits. *)
Definition kJpipMaxComponents : Z := 16384.
Fixpoint expand (fuel : nat) (v hi : Z) (acc : list Z) : out (option (list Z)) :=
  match fuel with
  | O => NoFuel
  | S fuel =>
    if v <=? hi then
      if kJpipMaxComponents <=? zlen acc then Ret None
      else expand fuel (wrap64 (v + 1)) hi (acc ++ [v mod 65536])
    else Ret (Some acc)
  end.
Definition expand_fuel : nat := Z.to_nat 16386.

(** One item of [comps], jpip_request.cpp:116-145 *)
Definition parse_comp (item : list Z) (acc : list Z) : out (option (list Z)) :=
  match item with
  | [] => Ret (Some acc)
  | _ =>
    let '(lo, e) := strtoull item in
    if e =? 0 then Ret None
    else if c_at item e =? 45 then
      let '(hi, e2) := strtoull (zskip (e + 1) item) in
      if (e2 =? 0) || negb (c_at item (e + 1 + e2) =? 0) || (hi <? lo) then Ret None
      else expand expand_fuel lo hi acc
    else if negb (c_at item e =? 0) then Ret None
    else expand expand_fuel lo lo acc
  end.
Fixpoint parse_comps (items : list (list Z)) (acc : list Z) : out (option (list Z)) :=
  match items with
  | [] => Ret (Some acc)
  | i :: t =>
    let* r := parse_comp i acc in
    match r with None => Ret None | Some acc => parse_comps t acc end
  end.

(** A plain number, jpip_request.cpp:153-158, 164-169, 212-217 *)
Definition parse_number (v : list Z) : option Z :=
  let '(n, e) := strtoull v in
  if (e =? 0) || negb (c_at v e =? 0) then None else Some n.

(** is_acceptable_return_type, jpip_request.cpp:54-63 *)
Definition is_blank (c : Z) : bool := (c =? 32) || (c =? 9).
Definition trim_left (s : list Z) : list Z := zskip (zlen (take_while is_blank s)) s.
Definition is_acceptable_return_type (item : list Z) : bool :=
  let s := trim_left item in
  let s := rev (trim_left (rev s)) in
  let s := take_while (fun c => negb (c =? 59)) s in
  seq_eqb s (txt "jpp-stream") || seq_eqb s (txt "image/jpp-stream").

(** One field, jpip_request.cpp:73-219 *)
Definition field (r : request) (key v : list Z) : out (parsed request) :=
  let w := q_win r in
  if seq_eqb key (txt "target") then
    Ret (POk (Rq v w (q_has_fsiz r) (q_has_roff r) (q_has_rsiz r) (q_has_comps r) (q_type r) (q_model r)
                 (q_len r) (q_quality r) (q_cnew r) (q_cid r) (q_cclose r) (q_qid r)))
  else if seq_eqb key (txt "fsiz") then
    match parse_fsiz v with
    | None => Ret (PErr MalformedField)
    | Some (a, b, rd) =>
      let w := {| fx := a; fy := b; ox := ox w; oy := oy w; sx := sx w; sy := sy w; comps := comps w;
                  rounding := match rd with Some rd => rd | None => rounding w end |} in
      Ret (POk (Rq (q_target r) w true (q_has_roff r) (q_has_rsiz r) (q_has_comps r) (q_type r) (q_model r)
                   (q_len r) (q_quality r) (q_cnew r) (q_cid r) (q_cclose r) (q_qid r)))
    end
  else if seq_eqb key (txt "roff") then
    match parse_pair v with
    | None => Ret (PErr MalformedField)
    | Some (a, b) =>
      let w := {| fx := fx w; fy := fy w; ox := a; oy := b; sx := sx w; sy := sy w; comps := comps w; rounding := rounding w |} in
      Ret (POk (Rq (q_target r) w (q_has_fsiz r) true (q_has_rsiz r) (q_has_comps r) (q_type r) (q_model r)
                   (q_len r) (q_quality r) (q_cnew r) (q_cid r) (q_cclose r) (q_qid r)))
    end
  else if seq_eqb key (txt "rsiz") then
    match parse_pair v with
    | None => Ret (PErr MalformedField)
    | Some (a, b) =>
      let w := {| fx := fx w; fy := fy w; ox := ox w; oy := oy w; sx := a; sy := b; comps := comps w; rounding := rounding w |} in
      Ret (POk (Rq (q_target r) w (q_has_fsiz r) (q_has_roff r) true (q_has_comps r) (q_type r) (q_model r)
                   (q_len r) (q_quality r) (q_cnew r) (q_cid r) (q_cclose r) (q_qid r)))
    end
  else if seq_eqb key (txt "comps") then
    let* cs := parse_comps (split 44 v) [] in
    match cs with
    | None => Ret (PErr MalformedField)
    | Some cs =>
      let w := {| fx := fx w; fy := fy w; ox := ox w; oy := oy w; sx := sx w; sy := sy w; comps := cs; rounding := rounding w |} in
      Ret (POk (Rq (q_target r) w (q_has_fsiz r) (q_has_roff r) (q_has_rsiz r) true (q_type r) (q_model r)
                   (q_len r) (q_quality r) (q_cnew r) (q_cid r) (q_cclose r) (q_qid r)))
    end
  else if seq_eqb key (txt "model") then
    Ret (POk (Rq (q_target r) w (q_has_fsiz r) (q_has_roff r) (q_has_rsiz r) (q_has_comps r) (q_type r) v
                 (q_len r) (q_quality r) (q_cnew r) (q_cid r) (q_cclose r) (q_qid r)))
  else if seq_eqb key (txt "len") then
    match parse_number v with
    | None => Ret (PErr MalformedField)
    | Some n => Ret (POk (Rq (q_target r) w (q_has_fsiz r) (q_has_roff r) (q_has_rsiz r) (q_has_comps r) (q_type r) (q_model r)
                             (Some n) (q_quality r) (q_cnew r) (q_cid r) (q_cclose r) (q_qid r)))
    end
  else if seq_eqb key (txt "quality") then
    match parse_number v with
    | None => Ret (PErr MalformedField)
    | Some n => Ret (POk (Rq (q_target r) w (q_has_fsiz r) (q_has_roff r) (q_has_rsiz r) (q_has_comps r) (q_type r) (q_model r)
                             (q_len r) (Some (wrap32 n)) (q_cnew r) (q_cid r) (q_cclose r) (q_qid r)))
    end
  else if seq_eqb key (txt "type") then
    if existsb is_acceptable_return_type (split 44 v) then
      Ret (POk (Rq (q_target r) w (q_has_fsiz r) (q_has_roff r) (q_has_rsiz r) (q_has_comps r) (txt "jpp-stream") (q_model r)
                   (q_len r) (q_quality r) (q_cnew r) (q_cid r) (q_cclose r) (q_qid r)))
    else Ret (PErr UnsupportedType)
  else if seq_eqb key (txt "cnew") then
    Ret (POk (Rq (q_target r) w (q_has_fsiz r) (q_has_roff r) (q_has_rsiz r) (q_has_comps r) (q_type r) (q_model r)
                 (q_len r) (q_quality r) (Some v) (q_cid r) (q_cclose r) (q_qid r)))
  else if seq_eqb key (txt "cid") then
    Ret (POk (Rq (q_target r) w (q_has_fsiz r) (q_has_roff r) (q_has_rsiz r) (q_has_comps r) (q_type r) (q_model r)
                 (q_len r) (q_quality r) (q_cnew r) (Some v) (q_cclose r) (q_qid r)))
  else if seq_eqb key (txt "cclose") then
    Ret (POk (Rq (q_target r) w (q_has_fsiz r) (q_has_roff r) (q_has_rsiz r) (q_has_comps r) (q_type r) (q_model r)
                 (q_len r) (q_quality r) (q_cnew r) (q_cid r) (Some v) (q_qid r)))
  else if seq_eqb key (txt "qid") then
    match parse_number v with
    | None => Ret (PErr MalformedField)
    | Some n => Ret (POk (Rq (q_target r) w (q_has_fsiz r) (q_has_roff r) (q_has_rsiz r) (q_has_comps r) (q_type r) (q_model r)
                             (q_len r) (q_quality r) (q_cnew r) (q_cid r) (q_cclose r) (Some n)))
    end
  else Ret (POk r).

(** One parameter, the body of for_each_param, jpip_request.cpp:29-35 *)
Definition param (r : request) (p : list Z) : out (parsed request) :=
  match p with
  | [] => Ret (POk r)
  | _ =>
    match find 61 p 0 with
    | None => field r p []
    | Some eq => field r (ztake eq p) (zskip (eq + 1) p)
    end
  end.
(** After a failure the remaining parameters are skipped, line 74. *)
Fixpoint params (ps : list (list Z)) (r : request) : out (parsed request) :=
  match ps with
  | [] => Ret (POk r)
  | p :: t =>
    let* x := param r p in
    match x with PErr f => Ret (PErr f) | POk r => params t r end
  end.
(** parse_jpip_query, jpip_request.cpp:67-217 *)
Definition parse_jpip_query (q : list Z) : out (parsed request) :=
  let q := match q with c :: t => if c =? 63 then t else q | [] => [] end in
  match q with [] => Ret (PErr EmptyQuery) | _ => params (split 38 q) no_request end.

(** split_http_get_line, jpip_request.cpp:219-238: path and query *)
Definition split_http_get_line (line : list Z) : option (list Z * list Z) :=
  if zlen line <? 14 then None
  else if negb (seq_eqb (ztake 4 line) (txt "GET ")) then None
  else
    match find 32 line 4 with
    | None => None
    | Some sp =>
      let uri := ztake (sp - 4) (zskip 4 line) in
      match find 63 uri 0 with
      | None => Some (uri, [])
      | Some qm => Some (ztake qm uri, zskip (qm + 1) uri)
      end
    end.
