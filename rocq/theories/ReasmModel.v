(** Model of codestream re-assembly and of the data-bins it consumes:
    source/core/jpip/codestream_assembler.cpp, the payload building of
    source/core/jpip/data_bin_emitter.cpp and the packet locator of
    source/core/jpip/packet_locator.cpp.

    Simplifications.  The decoder run that drives the locator is a list of the
    observer's calls.  The bucket array [per_tile] of the client is the list of
    its entries, each with its key.  A vector that is only appended to is a
    list. *)
From Verif Require Import Base Be WalkerModel PrecinctModel.
From Verif Require JppModel JppSpec.

Notation dbset := JppModel.dbset.
Notation ds_contains := JppModel.ds_contains.
Notation ds_get := JppModel.ds_get.

(** Message classes, jpp_message.hpp:45-51: precinct, tile header, main header. *)
Definition kPrecinct : Z := 0.
Definition kTileHeader : Z := 2.
Definition kMainHeader : Z := 6.

(** ReassembleStatus, codestream_assembler.hpp:45-51. *)
Inductive status := Ok | MissingMainHeader | UnsupportedProgression | UnsupportedFeature | LayoutMismatch.

(** append_u16_be, append_u32_be, codestream_assembler.cpp:20-30. *)
Definition u16_be (v : Z) : list Z := [(v / 256) mod 256; v mod 256].
Definition u32_be (v : Z) : list Z :=
  [(v / 2 ^ 24) mod 256; (v / 2 ^ 16) mod 256; (v / 2 ^ 8) mod 256; v mod 256].

(** [vector::insert(end, n, 0x00)] *)
Definition zeros (n : Z) : list Z := repeat 0 (Z.to_nat n).

(** ** The packet locator *)

(** One call of the packet observer, packet_locator.cpp:73-96 (the layer is
    not used there): tile, component, resolution, precinct; offset inside the
    tile's data; length. *)
Record event := Event { ev_key : key; ev_off : Z; ev_len : Z }.

(** to_absolute, packet_locator.cpp:34-47.  [None] is UINT64_MAX. *)
Fixpoint to_absolute (tps : list tpart) (tile off acc : Z) : option Z :=
  match tps with
  | [] => None
  | tp :: more =>
    if negb (tp_tile tp =? tile) then to_absolute more tile off acc
    else
      let body_len := if tp_body_offset tp <? tp_body_end tp then tp_body_end tp - tp_body_offset tp else 0 in
      if off <? acc + body_len then Some (tp_body_offset tp + (off - acc))
      else to_absolute more tile off (acc + body_len)
  end.

Definition pkey_eqb (a b : key) : bool :=
  (k_t a =? k_t b) && (k_c a =? k_c b) && (k_r a =? k_r b) && (k_p a =? k_p b).

(** The two maps of PacketLocator, packet_locator.hpp:77-84: the byte ranges
    of each precinct, and the precincts in order of first appearance (one list
    for all tiles; [precincts_of_tile] selects). *)
Record locator := Locator { lc_packets : list (key * (Z * Z)); lc_order : list key }.

(** packets_of, packet_locator.cpp:124-130: [packets_] maps a key to the ranges
    pushed for it, in order; here the pushes are one list. *)
Definition packets_of (l : locator) (k : key) : list (Z * Z) :=
  map snd (filter (fun e => pkey_eqb (fst e) k) (lc_packets l)).
(** precincts_of_tile, packet_locator.cpp:132-136. *)
Definition precincts_of_tile (l : locator) (t : Z) : list key :=
  filter (fun k => k_t k =? t) (lc_order l).

(** PacketLocator::build, packet_locator.cpp:51-122, from the observer's calls.
    [None]: it returns nullptr. *)
Fixpoint locate_all (lay : layout) (evs : list event) (l : locator) : option locator :=
  match evs with
  | [] => Some l
  | e :: more =>
    match to_absolute (l_parts lay) (k_t (ev_key e)) (ev_off e) 0 with
    | None => None
    | Some a =>
      let order := match packets_of l (ev_key e) with [] => lc_order l ++ [ev_key e] | _ => lc_order l end in
      locate_all lay more (Locator (lc_packets l ++ [(ev_key e, (a, ev_len e))]) order)
    end
  end.
Definition build_locator (lay : layout) (evs : list event) : option locator :=
  locate_all lay evs (Locator [] []).

(** ** What the server puts into data-bins *)

(** A checked copy of bytes [from, to). *)
Definition slice (b : list Z) (from to : Z) : out (list Z) :=
  if (0 <=? from) && (from <=? to) && (to <=? zlen b) then Ret (ztake (to - from) (zskip from b)) else UB.

Notation bin := JppSpec.bin.
Notation mkBin := JppSpec.mkBin.

(** emit_main_header_databin, data_bin_emitter.cpp:90-103, up to the call of
    append_message (soc_offset is 0).  [Ret None]: nothing is emitted. *)
Definition main_header_bin (b : list Z) (lay : layout) : out (option bin) :=
  if l_header_end lay =? 0 then Ret None
  else if zlen b <? l_header_end lay then Ret None
  else let* p := slice b 0 (l_header_end lay) in Ret (Some (mkBin kMainHeader 0 p)).

(** emit_tile_header_databin, data_bin_emitter.cpp:105-138. *)
Fixpoint tile_header_payload (b : list Z) (tps : list tpart) (t : Z) : out (bool * list Z) :=
  match tps with
  | [] => Ret (false, [])
  | tp :: more =>
    if negb (tp_tile tp =? t) then tile_header_payload b more t
    else
      let* p := if (zlen b <? tp_sot tp + 12) || (zlen b <? tp_header_end tp) || (tp_header_end tp <? tp_sot tp + 12)
                then Ret [] else slice b (tp_sot tp + 12) (tp_header_end tp) in
      let* (_, q) := tile_header_payload b more t in
      Ret (true, p ++ q)
  end.
Definition tile_header_bin (b : list Z) (lay : layout) (t : Z) : out (option bin) :=
  let* (found, p) := tile_header_payload b (l_parts lay) t in
  Ret (if found : bool then Some (mkBin kTileHeader t p) else None).

(** emit_precinct_databin, data_bin_emitter.cpp:150-179. *)
Fixpoint gather (b : list Z) (rs : list (Z * Z)) : out (option (list Z)) :=
  match rs with
  | [] => Ret (Some [])
  | (off, len) :: more =>
    if zlen b <? off + len then Ret None
    else let* p := slice b off (off + len) in
         let* q := gather b more in
         Ret (match q with Some q => Some (p ++ q) | None => None end)
  end.
Definition precinct_bin (b : list Z) (x : index) (l : locator) (k : key) : ex (option bin) :=
  match packets_of l k with
  | [] => ret None
  | rs =>
    let* p := gather b rs in
    match p with
    | None => ret None
    | Some p => let? i := id_of x k in ret (Some (mkBin kPrecinct i p))
    end
  end.

(** ** Re-assembly with the index and locator of the source *)

(** The part of the tile-part that is written for each tile, the same in both
    functions: codestream_assembler.cpp:109-132 and 282-293. *)
Definition put_tile (t psot : Z) (hdr body : list Z) : list Z :=
  u16_be SOT ++ u16_be 10 ++ u16_be (t mod 65536) ++ u32_be (psot mod two32) ++ [0; 1]
  ++ hdr ++ u16_be SOD ++ body.

(** The body of tile [t], codestream_assembler.cpp:83-101. *)
Fixpoint tile_body (s : dbset) (x : index) (layers : Z) (order : list key) : ex (list Z) :=
  match order with
  | [] => ret []
  | k :: more =>
    let? i := id_of x k in
    let? rest := tile_body s x layers more in
    ret ((if ds_contains s kPrecinct i then ds_get s kPrecinct i else zeros layers) ++ rest)
  end.

(** The loop over tiles, codestream_assembler.cpp:78-133; the result is what
    was appended to [out] so far and the status. *)
Fixpoint tiles_loop (s : dbset) (x : index) (layers : Z) (l : locator) (ts : list Z) (acc : list Z)
  : ex (status * list Z) :=
  match ts with
  | [] => ret (Ok, acc)
  | t :: more =>
    let? body := tile_body s x layers (precincts_of_tile l (t mod 65536)) in
    if negb (ds_contains s kTileHeader t) then ret (LayoutMismatch, acc)
    else
      let hdr := ds_get s kTileHeader t in
      let psot := 12 + zlen hdr + 2 + zlen body in
      if 4294967295 <? psot then ret (UnsupportedFeature, acc)
      else tiles_loop s x layers l more (acc ++ put_tile t psot hdr body)
  end.

(** reassemble_codestream, codestream_assembler.cpp:44-140, into an empty
    [out].  Progression order, layers and the SOP/EPH flags are getters of the
    index that read the parsed COD marker. *)
Definition reassemble (s : dbset) (x : index) (po layers : Z) (sop eph : bool) (l : locator) : ex (status * list Z) :=
  if (po =? 0) || (po =? 1) then ret (UnsupportedProgression, [])
  else if negb (po =? 3) && negb (po =? 2) && negb (po =? 4) && negb (po =? 5) then ret (UnsupportedProgression, [])
  else if sop || eph then ret (UnsupportedFeature, [])
  else if negb (ds_contains s kMainHeader 0) then ret (MissingMainHeader, [])
  else
    let? (st, o) := tiles_loop s x layers l (zseq (num_tiles x)) (ds_get s kMainHeader 0) in
    ret (st, match st with Ok => o ++ u16_be EOC | _ => o end).

(** ** Re-assembly on the client *)

(** patch_cod_to_lrcp, codestream_assembler.cpp:150-169.  [Ret []]: not found. *)
Fixpoint patch_loop (fuel : nat) (b : list Z) (i : Z) : out (list Z) :=
  match fuel with
  | O => NoFuel
  | S fuel =>
    if i + 6 <? zlen b then
      let* f := rd b i in
      if negb (f =? 255) then patch_loop fuel b (i + 1)
      else
        let* m := rd b (i + 1) in
        if m =? 79 then patch_loop fuel b (i + 2)
        else if zlen b <? i + 4 then Ret []
        else
          let* Lmar := rd16 b (i + 2) in
          if m =? 82 then
            let* _ := rd b (i + 5) in
            Ret (ztake (i + 5) b ++ [0] ++ zskip (i + 6) b)
          else if (Lmar <? 2) || (zlen b <? i + 2 + Lmar) then Ret []
          else patch_loop fuel b (i + (2 + Lmar))
    else Ret []
  end.
Definition patch_cod_to_lrcp (b : list Z) : out (list Z) := patch_loop (S (length b)) b 0.

(** The bucketing loop, codestream_assembler.cpp:230-236. *)
Fixpoint deliveries (s : dbset) (x : index) (ks : list JppModel.key) : ex (list (key * list Z)) :=
  match ks with
  | [] => ret []
  | (cl, i) :: more =>
    if negb (cl =? kPrecinct) then deliveries s x more
    else
      let? d := decompose x i in
      match d with
      | None => deliveries s x more
      | Some k => let? l := deliveries s x more in ret ((k, ds_get s kPrecinct i) :: l)
      end
  end.

(** std::sort by precinct number, codestream_assembler.cpp:237-242.  The order
    of entries with equal numbers is unspecified in C++; here they stay. *)
Fixpoint insert (e : Z * list Z) (l : list (Z * list Z)) : list (Z * list Z) :=
  match l with
  | [] => [e]
  | a :: t => if fst e <=? fst a then e :: l else a :: insert e t
  end.
Definition sort (l : list (Z * list Z)) : list (Z * list Z) := fold_right insert [] l.

(** The slot of (tile, component, resolution). *)
Definition slot (dl : list (key * list Z)) (t c r : Z) : list (Z * list Z) :=
  sort (map (fun e => (k_p (fst e), snd e))
            (filter (fun e => (k_t (fst e) =? t) && (k_c (fst e) =? c) && (k_r (fst e) =? r)) dl)).

(** One (resolution, component) group, codestream_assembler.cpp:258-273. *)
Fixpoint fill (cursor np : Z) (l : list (Z * list Z)) : list Z :=
  match l with
  | [] => if cursor <? np then zeros (np - cursor) else []
  | (p, b) :: more => (if cursor <? p then zeros (p - cursor) else []) ++ b ++ fill (wrap32 (p + 1)) np more
  end.
Definition group (l : list (Z * list Z)) (np : Z) : list Z :=
  match l with [] => zeros np | _ => fill 0 np l end.

(** One layer of a tile's body, codestream_assembler.cpp:251-276. *)
Definition layer_body (x : index) (dl : list (key * list Z)) (t : Z) : ex (list Z) :=
  let? l := mapM (fun r =>
    mapM (fun c =>
      let? i := tile_component x (t mod 65536) c in
      if NL i <? r then ret []
      else
        let? v := row i r in
        ret (group (slot dl t c r) (wrap32 (npw v * nph v))))
      (zseq (num_components x)))
    (zseq (max_NL x + 1)) in
  ret (concat (concat l)).

(** The loop over tiles, codestream_assembler.cpp:244-294. *)
Fixpoint client_loop (s : dbset) (x : index) (layers : Z) (dl : list (key * list Z)) (ts : list Z) (acc : list Z)
  : ex (status * list Z) :=
  match ts with
  | [] => ret (Ok, acc)
  | t :: more =>
    let? bodies := mapM (fun _ => layer_body x dl t) (zseq layers) in
    let body := concat bodies in
    let hdr := ds_get s kTileHeader t in
    let psot := 12 + zlen hdr + 2 + zlen body in
    if 4294967295 <? psot then ret (UnsupportedFeature, acc)
    else client_loop s x layers dl more (acc ++ put_tile t psot hdr body)
  end.

(** reassemble_codestream_client, codestream_assembler.cpp:199-298, into an
    empty [out]. *)
Definition reassemble_client (s : dbset) (x : index) (layers : Z) : ex (status * list Z) :=
  if negb (ds_contains s kMainHeader 0) then ret (MissingMainHeader, [])
  else
    let* main := patch_cod_to_lrcp (ds_get s kMainHeader 0) in
    if zlen main =? 0 then ret (UnsupportedFeature, [])
    else
      let? dl := deliveries s x (JppModel.ds_keys s) in
      let? (st, o) := client_loop s x layers dl (zseq (num_tiles x)) main in
      ret (st, match st with Ok => o ++ u16_be EOC | _ => o end).
