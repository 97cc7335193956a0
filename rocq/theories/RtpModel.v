(** Model of the RTP receiver: header parsers
    (source/apps/rtp_recv/rfc9828_parser.cpp), frame reassembly
    (source/apps/rtp_recv/frame_handler.cpp) and the dispatch of one datagram
    (source/apps/rtp_recv/pipeline_multi_threaded.cpp). *)
From Verif Require Import Base Be.

(** ** Headers *)

(** rd_u16_be and rd_u32_be, rfc9828_parser.cpp:11-17, at offset [i] *)
Definition rd_u16_be (d : list Z) (i : Z) : out Z := rd16 d i.
Definition rd_u32_be (d : list Z) (i : Z) : out Z := rd32 d i.

(** [b & mask != 0] *)
Definition flag (b mask : Z) : bool := negb (Z.land b mask =? 0).

(** struct RtpHeader, rfc9828_parser.hpp:26-39, without the version, which is
    2 in every header that is accepted *)
Record rtp_header := Rtp {
  h_padding : bool; h_extension : bool; h_csrc_count : Z; h_marker : bool; h_payload_type : Z;
  h_sequence : Z; h_timestamp : Z; h_ssrc : Z; h_payload_offset : Z }.

(** parse_rtp_header, rfc9828_parser.cpp:20-68.  None is a refusal; the text
    of the error is left out. *)
Definition parse_rtp_header (data : list Z) : out (option rtp_header) :=
  let len := zlen data in
  if len <? 12 then Ret None
  else
    let* d0 := rd data 0 in
    let version := Z.shiftr d0 6 in
    let extension := flag d0 16 in
    let csrc_count := Z.land d0 15 in
    let* d1 := rd data 1 in
    let* sequence := rd_u16_be data 2 in
    let* timestamp := rd_u32_be data 4 in
    let* ssrc := rd_u32_be data 8 in
    if negb (version =? 2) then Ret None
    else
      let offset := 12 + csrc_count * 4 in
      if len <? offset then Ret None
      else
        let mk off := Rtp (flag d0 32) extension csrc_count (flag d1 128) (Z.land d1 127) sequence timestamp ssrc off in
        if extension then
          if len <? offset + 4 then Ret None
          else
            let* ext_words := rd_u16_be data (offset + 2) in
            let ext_bytes := 4 + ext_words * 4 in
            if len <? offset + ext_bytes then Ret None
            else Ret (Some (mk (offset + ext_bytes)))
        else Ret (Some (mk offset)).

(** struct MainPacketHeader, rfc9828_parser.hpp:47-66; XTRAC is 0 in every
    header that is accepted and the codestream starts at byte 8 *)
Record main_header := Main {
  m_mh : Z; m_tp : Z; m_ordh : Z; m_p : bool; m_ptstamp : Z; m_eseq : Z;
  m_r : bool; m_s : bool; m_c : bool; m_range : bool; m_prims : Z; m_trans : Z; m_mat : Z }.

(** parse_main_packet_header, rfc9828_parser.cpp:70-143 *)
Definition parse_main_packet_header (payload : list Z) : out (option main_header) :=
  if zlen payload <? 8 then Ret None
  else
    let* b0 := rd payload 0 in
    let mh := Z.land (Z.shiftr b0 6) 3 in
    if mh =? 0 then Ret None
    else
      let* b1 := rd payload 1 in
      let xtrac := Z.land (Z.shiftr b1 4) 7 in
      let* b2 := rd payload 2 in
      let ptstamp := Z.lor (Z.shiftl (Z.land b1 15) 8) b2 in
      let* b3 := rd payload 3 in
      if negb (xtrac =? 0) then Ret None
      else
        let* b4 := rd payload 4 in
        let r := flag b4 128 in
        let s := flag b4 64 in
        let c := flag b4 32 in
        let rsvd := Z.land (Z.shiftr b4 1) 15 in
        let range := flag b4 1 in
        if negb (rsvd =? 0) then Ret None
        else
          let* prims := rd payload 5 in
          let* trans := rd payload 6 in
          let* mat := rd payload 7 in
          if negb s && (negb (prims =? 0) || negb (trans =? 0) || negb (mat =? 0) || range) then Ret None
          else if c && negb r then Ret None
          else Ret (Some (Main mh (Z.land (Z.shiftr b0 3) 7) (Z.land b0 7) (flag b1 128) ptstamp b3 r s c range prims trans mat)).

(** struct BodyPacketHeader, rfc9828_parser.hpp:74-86; MH is 0 in every header
    that is accepted and the codestream starts at byte 8 *)
Record body_header := Body {
  b_tp : Z; b_res : Z; b_ordb : bool; b_qual : Z; b_ptstamp : Z; b_eseq : Z; b_pos : Z; b_pid : Z }.

(** parse_body_packet_header, rfc9828_parser.cpp:145-193 *)
Definition parse_body_packet_header (payload : list Z) : out (option body_header) :=
  if zlen payload <? 8 then Ret None
  else
    let* b0 := rd payload 0 in
    let mh := Z.land (Z.shiftr b0 6) 3 in
    if negb (mh =? 0) then Ret None
    else
      let* b1 := rd payload 1 in
      let* b2 := rd payload 2 in
      let ptstamp := Z.lor (Z.shiftl (Z.land b1 15) 8) b2 in
      let* b3 := rd payload 3 in
      let* b4 := rd payload 4 in
      let* b5 := rd payload 5 in
      let* b6 := rd payload 6 in
      let* b7 := rd payload 7 in
      let pos := Z.lor (Z.shiftl b4 4) (Z.shiftr b5 4) in
      let pid := Z.lor (Z.lor (Z.shiftl (Z.land b5 15) 16) (Z.shiftl b6 8)) b7 in
      let ordb := flag b1 128 in
      if negb ordb && (negb (pos =? 0) || negb (pid =? 0)) then Ret None
      else Ret (Some (Body (Z.land (Z.shiftr b0 3) 7) (Z.land b0 7) ordb (Z.land (Z.shiftr b1 4) 7) ptstamp b3 pos pid)).

(** ** Frame reassembly *)

(** struct AssembledFrame, frame_handler.hpp:82-100; the colour metadata as
    the main header it is copied from *)
Record frame := Frame {
  f_bytes : list Z; f_timestamp : Z; f_eseq_first : Z; f_eseq_last : Z; f_packet_count : Z;
  f_has_meta : bool; f_meta : option main_header }.

(** class FrameHandler, frame_handler.hpp:111-207, without the buffer pool
    (which only recycles memory).  The ten metadata members are one optional
    main header: None before any main packet, when they are all zero. *)
Record handler := Hd {
  accum : list Z; cached_main : list Z; have_cached_main : bool;
  have_frame : bool; current_ts : Z; eseq_first : Z; eseq_last : Z; packet_count : Z;
  intact : bool; last_marker : bool; has_meta : bool; meta : option main_header;
  first_ever : bool; last_ext_seq : Z;
  frames_emitted : Z; frames_dropped : Z; packets_received : Z; bytes_received : Z; seq_gaps : Z; tail_loss_drops : Z }.

(** The initial state, frame_handler.hpp:166-206, also left by reset(),
    frame_handler.cpp:23-47 *)
Definition handler0 : handler := Hd [] [] false false 0 0 0 0 true false false None true 0 0 0 0 0 0 0.
Definition reset (h : handler) : handler := handler0.

(** track_sequence, frame_handler.cpp:49-61 *)
Definition track_sequence (h : handler) (ext_seq : Z) : handler :=
  let '(Hd a cm hc hf ts ef el pc ok lm hm mt fe les fem fdr prc brc gaps tl) := h in
  if fe then Hd a cm hc hf ts ef el pc ok lm hm mt false ext_seq fem fdr prc brc gaps tl
  else
    let expected := Z.land (les + 1) 0xFFFFFF in
    if ext_seq =? expected then Hd a cm hc hf ts ef el pc ok lm hm mt fe ext_seq fem fdr prc brc gaps tl
    else Hd a cm hc hf ts ef el pc false lm hm mt fe ext_seq fem fdr prc brc (gaps + 1) tl.

(** start_frame_empty, frame_handler.cpp:63-70 *)
Definition start_frame_empty (h : handler) : handler :=
  let '(Hd a cm hc hf ts ef el pc ok lm hm mt fe les fem fdr prc brc gaps tl) := h in
  Hd [] cm hc true ts ef el 0 true false false mt fe les fem fdr prc brc gaps tl.
(** start_frame_with_main_prepend, frame_handler.cpp:72-86 *)
Definition start_frame_with_main_prepend (h : handler) : handler :=
  let '(Hd a cm hc hf ts ef el pc ok lm hm mt fe les fem fdr prc brc gaps tl) := h in
  Hd (if hc then cm else []) cm hc true ts ef el 0 hc false false mt fe les fem fdr prc brc gaps tl.

(** finalize_frame, frame_handler.cpp:88-136; the second component is the
    value stored into the out parameter, None if it is left alone *)
Definition finalize_frame (h : handler) : handler * option frame :=
  let '(Hd a cm hc hf ts ef el pc ok lm hm mt fe les fem fdr prc brc gaps tl) := h in
  if negb hf then (h, None)
  else
    let tail := ok && negb lm in
    let ok := ok && negb tail in
    let tl := if tail then tl + 1 else tl in
    if ok && negb (match a with [] => true | _ => false end) then
      (Hd [] cm hc false ts ef el 0 true lm false mt fe les (fem + 1) fdr prc brc gaps tl,
       Some (Frame a ts ef el pc hm mt))
    else
      (Hd [] cm hc false ts ef el 0 true lm false mt fe les fem (fdr + 1) prc brc gaps tl, None).

(** make_ext_seq, frame_handler.hpp:149-151 *)
Definition make_ext_seq (eseq rtp_seq : Z) : Z := Z.lor (Z.shiftl eseq 16) rtp_seq.

(** A packet as the frame handler sees it. *)
Inductive kind := KMain (m : main_header) | KBody (b : body_header).
Record packet := Pk { p_rtp : rtp_header; p_kind : kind; p_bytes : list Z }.
Definition p_eseq (p : packet) : Z := match p_kind p with KMain m => m_eseq m | KBody b => b_eseq b end.

(** A second assignment to the out parameter replaces the first. *)
Definition out_frame (a b : option frame) : option frame := match b with Some f => Some f | None => a end.

(** push_main_packet, frame_handler.cpp:138-197, and push_body_packet,
    frame_handler.cpp:199-235.  The two are the same but for the start of a
    frame, the metadata and the cached main header. *)
Definition push_packet (h : handler) (p : packet) : handler * option frame :=
  let '(Hd a cm hc hf ts ef el pc ok lm hm mt fe les fem fdr prc brc gaps tl) := h in
  let h := Hd a cm hc hf ts ef el pc ok lm hm mt fe les fem fdr (prc + 1) (brc + zlen (p_bytes p)) gaps tl in
  let ext_seq := make_ext_seq (p_eseq p) (h_sequence (p_rtp p)) in
  let stamp := h_timestamp (p_rtp p) in
  let '(h, out1) := if hf && negb (stamp =? ts) then finalize_frame h else (h, None) in
  let h :=
    if negb (have_frame h) then
      let '(Hd a cm hc hf ts ef el pc ok lm hm mt fe les fem fdr prc brc gaps tl) := h in
      let h := Hd a cm hc hf stamp ext_seq el pc ok lm hm mt fe les fem fdr prc brc gaps tl in
      match p_kind p with KMain _ => start_frame_empty h | KBody _ => start_frame_with_main_prepend h end
    else h in
  let '(Hd a cm hc hf ts ef el pc ok lm hm mt fe les fem fdr prc brc gaps tl) := track_sequence h ext_seq in
  let a := a ++ p_bytes p in
  let lm := h_marker (p_rtp p) in
  let '(hm, mt) := match p_kind p with KMain m => (true, Some m) | KBody _ => (hm, mt) end in
  let '(cm, hc) :=
    match p_kind p with
    | KMain m => if m_r m && (0 <? zlen (p_bytes p)) then (p_bytes p, true) else (cm, hc)
    | KBody _ => (cm, hc)
    end in
  let h := Hd a cm hc hf ts ef ext_seq (pc + 1) ok lm hm mt fe les fem fdr prc brc gaps tl in
  let '(h, out2) := if h_marker (p_rtp p) then finalize_frame h else (h, None) in
  (h, out_frame out1 out2).

(** ** One datagram *)

(** The body of the receive loop, pipeline_multi_threaded.cpp:73-101 (the same
    as pipeline_single_threaded.cpp:118-148): None if the datagram is skipped *)
Definition parse_datagram (pkt : list Z) : out (option packet) :=
  if zlen pkt <? 12 then Ret None
  else
    let* rtp := parse_rtp_header pkt in
    match rtp with
    | None => Ret None
    | Some rtp =>
      if zlen pkt <=? h_payload_offset rtp then Ret None
      else
        let payload := zskip (h_payload_offset rtp) pkt in
        if zlen payload <? 8 then Ret None
        else
          let* b0 := rd payload 0 in
          if Z.shiftr b0 6 =? 0 then
            let* b := parse_body_packet_header payload in
            Ret (match b with Some b => Some (Pk rtp (KBody b) (zskip 8 payload)) | None => None end)
          else
            let* m := parse_main_packet_header payload in
            Ret (match m with Some m => Some (Pk rtp (KMain m) (zskip 8 payload)) | None => None end)
    end.
Definition on_datagram (h : handler) (pkt : list Z) : out (handler * option frame) :=
  let* p := parse_datagram pkt in
  Ret (match p with Some p => push_packet h p | None => (h, None) end).
