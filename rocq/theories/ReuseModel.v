(** Model of the single-tile reuse of the decoder: the fingerprint of a main
    header and the cached tile.  Line numbers alone refer to
    source/core/interface/decoder.cpp; invoke_line_based_direct (1005-1213) has
    the same text again. *)
From Verif Require Import Base MarkerModel ParamModel.

(** The lambda fnv1a_u64, 845-852; [h] is a uint64_t *)
Definition fnv_step (h b : Z) : Z := wrap64 (Z.lxor h b * 1099511628211).
Definition fnv (h : Z) (bs : list Z) : Z := fold_left fnv_step bs h.
(** The bytes of a uint64_t, least significant first (mix_u64 takes its address,
    854-856; simplified: a little-endian machine). *)
Definition bytes8 (v : Z) : list Z := map (fun i => (v / 2 ^ (8 * i)) mod 256) [0; 1; 2; 3; 4; 5; 6; 7].
Definition hash (ws : list Z) : Z := fnv 14695981039346656037 (flat_map bytes8 ws).

(** The words mixed in, 857-916 *)
Definition pair_word (p : Z * Z) : Z := Z.lor (fst p <<b 32) (snd p).
Definition comp_word (x : Z * Z * Z) : Z :=
  let '(_, xr, yr) := x in
  Z.lor (Z.lor (Z.lor (get_bitdepth x <<b 56) ((if is_signed x then 1 else 0) <<b 48)) (xr <<b 16)) yr.
Definition siz_words (x : siz) : list Z :=
  [pair_word (Xsiz x, Ysiz x); pair_word (XOsiz x, YOsiz x); pair_word (XTsiz x, YTsiz x); pair_word (XTOsiz x, YTOsiz x); Csiz x]
  ++ map comp_word (Comps x).
Definition cod_words (c : cod) : ex (list Z) :=
  let* dl := get_dwt_levels c in
  let* cm := get_Cmodes c in
  let* tx := get_transformation c in
  let? b := get_codeblock_size c in
  let? ps := prec_sizes (get_precinct_size c) (zseq (dl + 1)) in
  ret (Z.lor (Z.lor (Z.lor (Z.lor (Z.lor (dl <<b 56) (get_progression_order c <<b 48)) (get_number_of_layers c <<b 32)) (use_color_trafo c <<b 24)) (cm <<b 16)) tx
       :: pair_word b :: map pair_word ps).
Definition qcd_words (q : qcd) : out (list Z) :=
  let n0 := zlen (SPqcd q) mod 256 in
  let w := Z.lor (Z.lor (quant_style (Sqcd q) <<b 16) (get_number_of_guardbits (Sqcd q) <<b 8)) n0 in
  if 0 <? n0 then
    let* e := get_exponents (Sqcd q) (SPqcd q) 0 in
    let* m := get_mantissas (Sqcd q) (SPqcd q) 0 in
    Ret [w; Z.lor (e <<b 16) m]
  else Ret [w].
(** [seg]s are those of the main header; no SIZ is a null pointer. *)
Definition words (main : list seg) : ex (list Z) :=
  match last_of is_siz main with
  | None => UB
  | Some x =>
    let? cw := match last_of is_cod main with Some c => cod_words c | None => ret [] end in
    let* qw := match last_of is_qcd main with Some q => qcd_words q | None => Ret [] end in
    ret (siz_words x ++ cw ++ qw ++ [zlen (all_of is_coc main); zlen (all_of is_qcc main); zlen (all_of is_rgn main)])
  end.

(** A frame: the segments of the main header and of the first tile-part header,
    and how the rest of it goes: reading its tile-parts throws (951-965),
    it has no tile-part at all, building its packets throws (978-985), decoding
    rows throws, the caller's row callback included (995), or nothing throws. *)
Inductive ending := ReadThrows | NoParts | BuildThrows | RowsThrow | Done.
Record frame := Frame { f_main : list seg; f_tile : list seg; f_end : ending }.
(** cached_tileSet_ and cached_header_fingerprint_: the frame whose headers the
    cached tile's tree was built from, if there is a tile with a tree.  A tile
    without (structure_built_ false) is the same as none. *)
Record cache := Cache { tree : option frame; print : Z }.
Definition cache0 : cache := Cache None 0.
(** What the caller sees: an exception, rows decoded without the cache, or rows
    decoded with the tree built from a frame's headers. *)
Inductive result := Threw | Uncached | Used (g : frame).
(** invoke_line_based_stream_reuse, 804-999, with a reduce level that is allowed. *)
Definition reuse (st : cache) (f : frame) : out (cache * result) :=
  match last_of is_siz (f_main f) with
  | None => UB
  | Some x =>
    let* (nx, ny) := get_number_of_tiles x in
    if negb ((nx =? 1) && (ny =? 1)) then Ret (cache0, match f_end f with Done => Uncached | _ => Threw end) else
    let* ws := words (f_main f) in
    match ws with
    | None => Ret (st, Threw)
    | Some ws =>
      let fp := hash ws in
      let hit := match tree st with Some _ => print st =? fp | None => false end in
      (* create_tile_buf builds the tree only if there is none, 4141 of coding_units.cpp *)
      let g := if hit then match tree st with Some g => g | None => f end else f in
      match f_end f with
      | ReadThrows => Ret (Cache (if hit then tree st else None) (print st), Threw)
      (* a null tcomp (976) or an empty tile_part (4103 of coding_units.cpp) *)
      | NoParts => UB
      | BuildThrows => Ret (cache0, Threw)
      | RowsThrow => Ret (Cache (Some g) (print st), Threw)
      | Done => Ret (Cache (Some g) fp, Used g)
      end
    end
  end.
Fixpoint reuse_all (st : cache) (fs : list frame) : out (cache * list result) :=
  match fs with
  | [] => Ret (st, [])
  | f :: fs => let* (st, r) := reuse st f in let* (st, rs) := reuse_all st fs in Ret (st, r :: rs)
  end.
