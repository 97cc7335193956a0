(** Model of how a decoder settles the parameters of a tile-component and of
    its subbands.  Line numbers alone refer to
    source/core/coding/coding_units.cpp. *)
From Verif Require Import Base MarkerModel.

(** Coding style of a tile or tile-component: NL, codeblock_size, Cmodes,
    transformation, precinct_size (coding_units.hpp, j2k_tile_base). *)
Record style := Style { levels : Z; block : Z * Z; modes : Z; transf : Z; precs : list (Z * Z) }.
(** quantization_style, exponents, mantissas, num_guard_bits *)
Record quant := Quant { qstyle : Z; exps : list Z; mants : list Z; guard : Z }.
(** What only a tile has: use_SOP, use_EPH, progression_order, numlayers, MCT. *)
Record order := Order { o_SOP : bool; o_EPH : bool; o_prog : Z; o_layers : Z; o_mct : Z }.

(** The loops 3958-3961 and 3633-3636: sizes for r = 0..NL *)
Fixpoint prec_sizes (f : Z -> ex (Z * Z)) (rs : list Z) : ex (list (Z * Z)) :=
  match rs with
  | [] => ret []
  | r :: rs => let? p := f r in let? ps := prec_sizes f rs in ret (p :: ps)
  end.
(** j2k_tile::setCODparams, 3945-3963 *)
Definition set_cod (c : cod) : ex (order * style) :=
  let* n := get_dwt_levels c in
  let? b := get_codeblock_size c in
  let* m := get_Cmodes c in
  let* t := get_transformation c in
  let? ps := prec_sizes (get_precinct_size c) (zseq (n + 1)) in
  ret (Order (is_use_SOP c) (is_use_EPH c) (get_progression_order c) (get_number_of_layers c) (use_color_trafo c), Style n b m t ps).
(** j2k_tile::setQCDparams 3965-3986 and j2k_tile_component::setQCCparams
    3639-3660; [n] is NL as it is at the time of the call; get_num_entries is a
    uint8_t, j2kmarkers.hpp:305. *)
Fixpoint entries {A} (f : Z -> out A) (ks : list Z) : out (list A) :=
  match ks with
  | [] => Ret []
  | k :: ks => let* a := f k in let* l := entries f ks in Ret (a :: l)
  end.
Definition set_quant (n st : Z) (l : list Z) : out quant :=
  let q := quant_style st in
  if q =? 1 then
    let* e := get_exponents st l 0 in
    let* m := get_mantissas st l 0 in
    Ret (Quant q [e] [m] (get_number_of_guardbits st))
  else
    let actual := Z.min ((3 * n + 1) mod 256) (zlen l mod 256) in
    let* es := entries (get_exponents st l) (zseq actual) in
    let* ms := if q =? 2 then entries (get_mantissas st l) (zseq actual) else Ret [] in
    Ret (Quant q es ms (get_number_of_guardbits st)).
(** j2k_tile_component::setCOCparams, coding_units.cpp:3618-3637, with the queries of
    j2kmarkers.cpp:532-572.  dfs_index is kept beside the style. *)
Definition set_coc (x : coc) (s : style) (dfs : Z) : ex (style * Z) :=
  let* b0 := sp (SPcoc x) 0 in
  let n := if b0 &b 128 =? 0 then b0 &b 31 else levels s in
  let dfs := if b0 &b 128 =? 0 then dfs else b0 &b 15 in
  let? b := codeblock_size (SPcoc x) in
  let* m := sp (SPcoc x) 3 in
  let* t := sp (SPcoc x) 4 in
  let? ps := prec_sizes (precinct_size (Scoc x &b 1 =? 0) (SPcoc x)) (zseq (n + 1)) in
  ret (Style n b m t ps, dfs).

(** The loops over COC, QCC and RGN, 3534-3576 *)
Fixpoint apply_coc (l : list coc) (c : Z) (s : style) (dfs : Z) : ex (style * Z) :=
  match l with
  | [] => ret (s, dfs)
  | x :: l => if Ccoc x =? c then let? (s, dfs) := set_coc x s dfs in apply_coc l c s dfs else apply_coc l c s dfs
  end.
Fixpoint apply_qcc (l : list qcc) (c n : Z) (q : quant) : out quant :=
  match l with
  | [] => Ret q
  | x :: l => if Cqcc x =? c then let* q := set_quant n (Sqcc x) (SPqcc x) in apply_qcc l c n q else apply_qcc l c n q
  end.
Fixpoint apply_rgn (l : list rgn) (c : Z) (shift : Z) : Z :=
  match l with
  | [] => shift
  | x :: l => apply_rgn l c (if Crgn x =? c then SPrgn x else shift)
  end.

(** A tile-component: ROIshift and dfs_index keep their value from before if
    nothing sets them. *)
Record component := Component { c_style : style; c_quant : quant; c_dfs : Z; c_roi : Z }.
(** j2k_tile_component::init, coding_units.cpp:3507-3616, without positions and sample buffers.
    [old] is the component as it was: 0 for a new one (2801-2821). *)
Definition init_component (main tile : list seg) (ts : style) (tq : quant) (c : Z) (old : Z * Z) : ex component :=
  let pick {A} (f : seg -> option A) := match all_of f tile with [] => all_of f main | l => l end in
  let? (s, dfs) := apply_coc (pick is_coc) c ts (fst old) in
  let* q := apply_qcc (pick is_qcc) c (levels s) tq in
  ret (Component s q dfs (apply_rgn (pick is_rgn) c (snd old))).

Fixpoint components (main tile : list seg) (ts : style) (tq : quant) (cs : list Z) (old : Z -> Z * Z) : ex (list component) :=
  match cs with
  | [] => ret []
  | c :: cs => let? x := init_component main tile ts tq c (old c) in let? xs := components main tile ts tq cs old in ret (x :: xs)
  end.
(** dec_init (3988-3999) and add_tile_part (4001-4064) for a first tile-part:
    [main] are the segments of the main header, [tile] those of the tile-part
    header, [C] the component count.  Positions are in GeoModel.  The last part
    is porder_info (4053-4063). *)
Record tile_params := TileP { t_order : order; t_comps : list component; t_poc : list poc }.
Definition tile_init (main tile : list seg) (C : Z) (old : Z -> Z * Z) : ex tile_params :=
  match last_of is_cod main, last_of is_qcd main with
  | Some mc, Some mq =>
    let? (o, s) := set_cod mc in
    let* q := set_quant (levels s) (Sqcd mq) (SPqcd mq) in
    let? (o, s) := match last_of is_cod tile with Some c => set_cod c | None => ret (o, s) end in
    let* q := match last_of is_qcd tile with Some x => set_quant (levels s) (Sqcd x) (SPqcd x) | None => Ret q end in
    let? cs := components main tile s q (zseq C) old in
    ret (TileP o cs (match last_of is_poc tile with Some l => l | None => match last_of is_poc main with Some l => l | None => [] end end))
  | _, _ => UB
  end.
Definition fresh (_ : Z) : Z * Z := (0, 0).

(** ** Subbands *)

(** The number of a subband's entry and its exponent, mantissa and M_b:
    j2k_resolution::create_subbands, coding_units.cpp:2573-2649, without DFS.  [r] is the
    resolution, [b] the band (0 LL, 1 HL, 2 LH, 3 HH).  [assert]s are off. *)
Definition subband_quant (x : component) (r b : Z) : out (Z * Z * Z) :=
  let n := levels (c_style x) in let q := c_quant x in
  let nb := if r =? 0 then n - r else n - r + 1 in
  let idx := (3 * (n - nb) + b) mod 256 in
  let* (e, m) :=
    (if transf (c_style x) =? 1 then let* e := rd (exps q) idx in Ret (e, 0)
     else if qstyle q =? 1 then let* e0 := rd (exps q) 0 in let* m := rd (mants q) 0 in Ret ((e0 - n + nb) mod 256, m)
     else let* e := rd (exps q) idx in let* m := rd (mants q) idx in Ret (e, m)) in
  (* 1 << epsilon_b, only for the irreversible path *)
  if negb (transf (c_style x) =? 1) && (31 <? e) then UB else
  Ret (e, m, (e + guard q - 1) mod 256).
