(** What a re-assembled codestream should be, independent of the code. *)
From Verif Require Import Base Be WalkerModel WalkerSpec PrecinctModel PrecinctSpec.
From Verif Require JppModel.

(** ** Client side: one quality layer, packets in layer-resolution-component-
    position order. *)

(** A precinct contributes its data-bin; one that was not received contributes
    an empty packet (one zero byte) for each layer. *)
Definition precinct_bytes (layers : Z) (b : option (list Z)) : list Z :=
  match b with Some d => d | None => repeat 0 (Z.to_nat layers) end.

(** What the client holds of a precinct: looked up under its identifier. *)
Definition held (s : JppModel.dbset) (x : index) (k : key) : option (list Z) :=
  match id_of x k with
  | Ret (Some i) => if JppModel.ds_contains s 0 i then Some (JppModel.ds_get s 0 i) else None
  | _ => None
  end.

(** The packets of tile [t]: all resolutions (at most 32), all components that
    have that resolution, all precincts. *)
Definition lrcp_body (h : header) (bin : key -> option (list Z)) (t : Z) : list Z :=
  let tx := t mod tiles_x h in
  let ty := t / tiles_x h in
  flat_map (fun r =>
    flat_map (fun ci =>
      match nth_error (h_comps h) (Z.to_nat ci) with
      | Some c =>
        if r <=? c_NL c then
          flat_map (fun p => precinct_bytes 1 (bin {| k_t := t; k_c := ci; k_r := r; k_p := p |}))
                   (zseq (n_precincts h c tx ty r))
        else []
      | None => []
      end) (zseq (zlen (h_comps h)))) (zseq 32).

(** The COD marker; segments of a main header other than COD. *)
Definition COD : Z := 65362.
Definition plain_seg (s : seg) : Prop := seg_ok s /\ 65280 <= sg_marker s /\ sg_marker s <> COD.

(** ** Server side: tile-parts made of packets *)

Record tilepart := TP { q_tile : Z; q_idx : Z; q_cnt : Z; q_segs : list seg; q_packets : list (key * list Z) }.
Definition to_part (q : tilepart) : part :=
  Part (q_tile q) (q_idx q) (q_cnt q) (q_segs q) (concat (map snd (q_packets q))).
Definition parts_of_tile (qs : list tilepart) (t : Z) : list tilepart := filter (fun q => q_tile q =? t) qs.
Definition packets_of_tile (qs : list tilepart) (t : Z) : list (key * list Z) :=
  concat (map q_packets (parts_of_tile qs t)).
Definition segs_of_tile (qs : list tilepart) (t : Z) : list seg := concat (map q_segs (parts_of_tile qs t)).

(** A run: a precinct and its packets, layer by layer. *)
Notation run := (key * list (list Z))%type.
Definition run_packets (rs : list run) : list (key * list Z) := flat_map (fun r => map (pair (fst r)) (snd r)) rs.

(** The packet observer's calls while the decoder walks a tile: precinct,
    position in the tile's data, length. *)
Fixpoint walk_packets (off : Z) (l : list (key * list Z)) : list (key * Z * Z) :=
  match l with
  | [] => []
  | (k, b) :: l => (k, off, zlen b) :: walk_packets (off + zlen b) l
  end.

(** A source codestream the JPIP server can serve: the tile-parts hold whole
    packets of existing precincts; in each tile the packets of one precinct
    follow each other ([runs t] lists the precincts and their packets). *)
Record source_ok (h : header) (main : list seg) (qs : list tilepart) (runs : Z -> list run) : Prop := {
  so_main : Forall seg_ok main /\ Forall (fun s => sg_marker s <> SOT) main;
  so_parts : Forall (fun q => part_ok (to_part q) /\ 0 <= q_tile q < tiles_x h * tiles_y h /\
    Forall (fun kb => names_precinct h (fst kb) /\ k_t (fst kb) = q_tile q /\ snd kb <> []) (q_packets q)) qs;
  so_bytes : bytes_ok (codestream main (map to_part qs) []);
  so_size : zlen (codestream main (map to_part qs) []) < 2 ^ 57;
  so_tiles : forall t, 0 <= t < tiles_x h * tiles_y h -> parts_of_tile qs t <> [];
  so_runs : forall t, 0 <= t < tiles_x h * tiles_y h ->
    packets_of_tile qs t = run_packets (runs t) /\ NoDup (map fst (runs t)) /\ Forall (fun r => snd r <> []) (runs t) }.

(** The re-assembled tile: one tile-part, the tile's header segments, the
    precincts in the source's order; those not in [sel] as empty packets. *)
Definition key_eqb (a b : key) : bool :=
  (k_t a =? k_t b) && (k_c a =? k_c b) && (k_r a =? k_r b) && (k_p a =? k_p b).
Definition merged (qs : list tilepart) (runs : Z -> list run) (layers : Z) (sel : list key) (t : Z) : part :=
  Part t 0 1 (segs_of_tile qs t)
    (flat_map (fun r => precinct_bytes layers (if existsb (key_eqb (fst r)) sel then Some (concat (snd r)) else None)) (runs t)).
