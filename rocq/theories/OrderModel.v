(** Model of the order in which the packets of a tile are visited:
    source/core/coding/coding_units.cpp, [j2k_tile::create_tile_buf] (decoder,
    4066-4588).  [construct_packets] (encoder, 4647-4979) and
    [write_packets_direct_impl] (5050-5391) repeat the same loops.

    Simplifications.  What is done with a packet ([read_packet]) does not
    influence the order, so a visit only records the packet; an exception out
    of [read_packet], which ends the loops early, is left out.  The DFS marker
    of part 2 is absent ([dfs_info == nullptr]).  Allocation failure is left
    out.  The headers are taken already parsed ([header], PrecinctModel.v). *)
From Verif Require Import Base PrecinctModel.

(** [j2k_resolution]: npw, nph and pos0 (coding_units.cpp:2485-2503). *)
Record res := { s_npw : Z; s_nph : Z; s_x0 : Z; s_y0 : Z }.

(** [j2k_tile_component]: coding parameters and resolutions. *)
Record tcomp := { tc_par : comp; tc_res : list res }.

(** [j2k_tile]: pos0, pos1, numlayers, tcomp. *)
Record tile := {
  t_x0 : Z; t_y0 : Z; t_x1 : Z; t_y1 : Z; t_layers : Z; t_comps : list tcomp }.

(** One turn of the loop of [create_resolutions], coding_units.cpp:3739-3755.
    [1 << (NL - r)] is undefined from 32 on.  (The lookup in the precinct size
    vector of the component, 3676, fails at 473-489 of j2kmarkers.cpp when the
    vector is filled.) *)
Definition resolution (c : comp) (x0 y0 x1 y1 r : Z) : ex res :=
  let? d := shl1 (c_NL c - r) in
  let? (lx, ly) := precinct_size c r in
  let? (px, nw) := axis x0 x1 d lx in
  let? (py, nh) := axis y0 y1 d ly in
  ret {| s_npw := nw; s_nph := nh; s_x0 := px; s_y0 := py |}.

(** [j2k_tile_component::init] (the position, coding_units.cpp:3526-3529) and
    [create_resolutions] (3684-3797). *)
Definition component (x0 y0 x1 y1 : Z) (c : comp) : ex tcomp :=
  let? tx0 := cdiv x0 (fst (c_sub c)) in
  let? ty0 := cdiv y0 (snd (c_sub c)) in
  let? tx1 := cdiv x1 (fst (c_sub c)) in
  let? ty1 := cdiv y1 (snd (c_sub c)) in
  let? l := mapM (resolution c tx0 ty0 tx1 ty1) (zseq (c_NL c + 1)) in
  ret {| tc_par := c; tc_res := l |}.

(** [add_tile_part], coding_units.cpp:4012-4028: position of tile [idx]. *)
Definition make_tile (h : header) (layers idx : Z) : ex tile :=
  let? nx := tiles_along (fst (h_size h)) (fst (h_torigin h)) (fst (h_tsize h)) in
  if nx =? 0 then UB else
  let p := idx mod nx in
  let q := idx / nx in
  let x0 := tile_lo (fst (h_torigin h)) (fst (h_tsize h)) (fst (h_origin h)) p in
  let y0 := tile_lo (snd (h_torigin h)) (snd (h_tsize h)) (snd (h_origin h)) q in
  let x1 := tile_hi (fst (h_torigin h)) (fst (h_tsize h)) (fst (h_size h)) p in
  let y1 := tile_hi (snd (h_torigin h)) (snd (h_tsize h)) (snd (h_size h)) q in
  let? l := mapM (component x0 y0 x1 y1) (h_comps h) in
  ret {| t_x0 := x0; t_y0 := y0; t_x1 := x1; t_y1 := y1;
         t_layers := layers; t_comps := l |}.

(** [npw * nph], a uint32_t product. *)
Definition count (s : res) : Z := wrap32 (s_npw s * s_nph s).

(** coding_units.cpp:4131-4152: number of packets (uint32_t), largest number
    of precincts of a resolution, largest number of levels. *)
Definition num_packets (t : tile) : Z :=
  wrap32 (fold_left (fun n tc =>
            fold_left (fun n s => wrap32 (n + count s)) (tc_res tc) n)
          (t_comps t) 0 * t_layers t).
Definition max_precincts (t : tile) : Z :=
  fold_left (fun n tc => fold_left (fun n s => Z.max (count s) n) (tc_res tc) n)
    (t_comps t) 0.
Definition max_NL (t : tile) : Z :=
  fold_left (fun n tc => Z.max (c_NL (tc_par tc)) n) (t_comps t) 0.
Definition num_comps (t : tile) : Z := zlen (t_comps t).

(** A packet: layer, resolution, component, precinct. *)
Record packet := { pk_l : Z; pk_r : Z; pk_c : Z; pk_p : Z }.

Definition packet_eqb (a b : packet) : bool :=
  (pk_l a =? pk_l b) && (pk_r a =? pk_r b) && (pk_c a =? pk_c b) && (pk_p a =? pk_p b).

(** The variables of the traversal: [packet] up to packet_count,
    [cached_crp_], [is_packet_read], [p_x], [p_y]
    (coding_units.cpp:4188-4215). *)
Record st := {
  done : list packet; cached : list packet; seen : packet -> bool;
  cx : Z -> Z -> Z; cy : Z -> Z -> Z }.

(** struct CRP, coding_units.hpp:717-723: uint8_t c, uint8_t r, uint16_t p,
    uint16_t l. *)
Definition crp (q : packet) : packet :=
  {| pk_l := pk_l q; pk_r := pk_r q; pk_c := pk_c q mod 256; pk_p := pk_p q mod 65536 |}.

(** The innermost block, e.g. coding_units.cpp:4228-4242: the test and update
    of [is_packet_read] (an access outside it is undefined), the entry of the
    replay list, and [packet[packet_count++]] (undefined past its end). *)
Definition visit (t : tile) (q : packet) (s : st) : ex st :=
  if (pk_l q <? t_layers t) && (pk_r q <? max_NL t + 1) && (pk_c q <? num_comps t)
     && (pk_p q <? max_precincts t) then
    if seen s q then ret s else
    if zlen (done s) <? num_packets t then
      ret {| done := done s ++ [q]; cached := cached s ++ [crp q];
             seen := fun a => packet_eqb q a || seen s a;
             cx := cx s; cy := cy s |}
    else UB
  else UB.

Fixpoint each {A S} (l : list A) (f : A -> S -> ex S) (s : S) : ex S :=
  match l with
  | [] => ret s
  | a :: r => let? s' := f a s in each r f s'
  end.

Definition zrange (a b : Z) : list Z := map (Z.add a) (zseq (b - a)).

Definition comp_at (t : tile) (c : Z) : ex tcomp :=
  match nth_error (t_comps t) (Z.to_nat c) with Some v => ret v | None => UB end.
Definition res_at (tc : tcomp) (r : Z) : ex res :=
  match nth_error (tc_res tc) (Z.to_nat r) with Some v => ret v | None => UB end.

(** [access_precinct], coding_units.cpp:2696-2702: the index one past the end
    is let through. *)
Definition access_precinct (s : res) (p : Z) : ex unit :=
  if count s <? p then throw else if p <? count s then ret tt else UB.

(** Body of the loops over l, r and c of the orders LRCP and RLCP,
    coding_units.cpp:4221-4247, 4254-4280. *)
Definition all_precincts (t : tile) (l r c : Z) (s : st) : ex st :=
  let? tc := comp_at t c in
  if r <=? c_NL (tc_par tc) then
    let? cr := res_at tc r in
    if count cr =? 0 then ret s else
    each (zseq (count cr)) (fun p s =>
      let? _ := access_precinct cr p in
      visit t {| pk_l := l; pk_r := r; pk_c := c; pk_p := p |} s) s
  else ret s.

(** One of x_cond and y_cond, coding_units.cpp:4318-4321. *)
Definition cond (v pos0 sub pp d tr0 : Z) : ex bool :=
  let? a := shl1 (pp + d) in
  let m := wrap32 (sub * a) in
  if m =? 0 then UB else
  if v mod m =? 0 then ret true else
  if v =? pos0 then
    let? b := shl1 d in
    ret (negb (wrap32 (tr0 * b) mod a =? 0))
  else ret false.

Definition upd (f : Z -> Z -> Z) (c r v : Z) : Z -> Z -> Z :=
  fun c' r' => if (c' =? c) && (r' =? r) then v else f c' r'.

(** Body of the loops of the orders RPCL, PCRL, CPRL and PRCL once r <= c_NL,
    coding_units.cpp:4304-4350 (4378-4420, 4447-4489, 4518-4564). *)
Definition probe (t : tile) (LYE y x c r : Z) (tc : tcomp) (s : st) : ex st :=
  let? (lx, ly) := precinct_size (tc_par tc) r in
  let? cr := res_at tc r in
  if count cr =? 0 then ret s else
  let d := c_NL (tc_par tc) - r in
  let? xc := cond x (t_x0 t) (fst (c_sub (tc_par tc))) lx d (s_x0 cr) in
  let? yc := cond y (t_y0 t) (snd (c_sub (tc_par tc))) ly d (s_y0 cr) in
  if xc && yc then
    let p := wrap32 (cx s c r + wrap32 (cy s c r * s_npw cr)) in
    let? _ := access_precinct cr p in
    let? s := each (zseq LYE) (fun l s =>
      visit t {| pk_l := l; pk_r := r; pk_c := c; pk_p := p |} s) s in
    let px := wrap32 (cx s c r + 1) in
    if px =? s_npw cr then
      ret {| done := done s; cached := cached s; seen := seen s;
             cx := upd (cx s) c r 0; cy := upd (cy s) c r (wrap32 (cy s c r + 1)) |}
    else
      ret {| done := done s; cached := cached s; seen := seen s;
             cx := upd (cx s) c r px; cy := cy s |}
  else ret s.

(** [find_gcd_of_precinct_size], coding_units.cpp:5474-5486, one axis. *)
Definition min_pp (f : Z * Z -> Z) (t : tile) : Z :=
  fold_left (fun n tc => fold_left (fun n p => if f p <? n then f p else n)
                           (c_pp (tc_par tc)) n) (t_comps t) 16.

(** [x_examin] and [y_examin], coding_units.cpp:4286-4297; the counter is a
    uint32_t. *)
Fixpoint multiples (fuel : nat) (step lo hi v : Z) : ex (list Z) :=
  match fuel with
  | O => NoFuel
  | S k =>
      if v <? hi then
        let? l := multiples k step lo hi (wrap32 (v + step)) in
        ret (if lo <? v then v :: l else l)
      else ret []
  end.
Definition examined (pp lo hi : Z) : ex (list Z) :=
  let? step := shl1 pp in
  let? l := multiples (S (S (Z.to_nat (hi / step)))) step lo hi 0 in
  ret (lo :: l).

(** One entry of [porder_info] (a POC entry, or the default one). *)
Record entry := {
  e_RS : Z; e_CS : Z; e_LYE : Z; e_RE : Z; e_CE : Z; e_P : Z }.

(** One turn of the loop over the entries, coding_units.cpp:4201-4579. *)
Definition run_entry (t : tile) (e : entry) (s : st) : ex st :=
  let LYE := Z.min (e_LYE e) (t_layers t) in
  let CE := Z.min (e_CE e) (num_comps t) in
  let s := {| done := done s; cached := cached s; seen := seen s;
              cx := fun _ _ => 0; cy := fun _ _ => 0 |} in
  if e_P e =? 0 then (* LRCP *)
    each (zseq LYE) (fun l =>
      each (zrange (e_RS e) (e_RE e)) (fun r =>
        each (zrange (e_CS e) CE) (fun c => all_precincts t l r c))) s
  else if e_P e =? 1 then (* RLCP *)
    each (zrange (e_RS e) (e_RE e)) (fun r =>
      each (zseq LYE) (fun l =>
        each (zrange (e_CS e) CE) (fun c => all_precincts t l r c))) s
  else if e_P e <=? 5 then
    let? xs := examined (min_pp fst t) (t_x0 t) (t_x1 t) in
    let? ys := examined (min_pp snd t) (t_y0 t) (t_y1 t) in
    if e_P e =? 2 then (* RPCL *)
      each (zrange (e_RS e) (e_RE e)) (fun r =>
        each ys (fun y => each xs (fun x =>
          each (zrange (e_CS e) CE) (fun c s =>
            let? tc := comp_at t c in
            if r <=? c_NL (tc_par tc) then probe t LYE y x c r tc s else ret s)))) s
    else if e_P e =? 3 then (* PCRL *)
      each ys (fun y => each xs (fun x =>
        each (zrange (e_CS e) CE) (fun c s =>
          let? tc := comp_at t c in
          each (zrange (e_RS e) (Z.min (c_NL (tc_par tc) + 1) (e_RE e))) (fun r =>
            probe t LYE y x c r tc) s))) s
    else if e_P e =? 4 then (* CPRL *)
      each (zrange (e_CS e) CE) (fun c s =>
        let? tc := comp_at t c in
        each ys (fun y => each xs (fun x =>
          each (zrange (e_RS e) (Z.min (c_NL (tc_par tc) + 1) (e_RE e))) (fun r =>
            probe t LYE y x c r tc))) s) s
    else (* PRCL *)
      each ys (fun y => each xs (fun x =>
        each (zrange (e_RS e) (e_RE e)) (fun r =>
          each (zrange (e_CS e) CE) (fun c s =>
            let? tc := comp_at t c in
            if r <=? c_NL (tc_par tc) then probe t LYE y x c r tc s else ret s)))) s
  else throw.

(** The entry appended for the packets no POC entry covers,
    coding_units.cpp:4186-4187. *)
Definition default_entry (t : tile) (po : Z) : entry :=
  {| e_RS := 0; e_CS := 0; e_LYE := t_layers t; e_RE := (max_NL t + 1) mod 256;
     e_CE := num_comps t; e_P := po |}.

(** The first frame, coding_units.cpp:4183-4582. *)
Definition traverse (t : tile) (po : Z) (poc : list entry) : ex st :=
  each (poc ++ [default_entry t po]) (run_entry t)
    {| done := []; cached := []; seen := fun _ => false;
       cx := fun _ _ => 0; cy := fun _ _ => 0 |}.

(** A later frame: replay of the recorded order, coding_units.cpp:4168-4182. *)
Definition replay_one (t : tile) (q : packet) (d : list packet) : ex (list packet) :=
  let? tc := comp_at t (pk_c q) in
  let? cr := res_at tc (pk_r q) in
  let? _ := access_precinct cr (pk_p q) in
  if zlen d <? num_packets t then ret (d ++ [q]) else UB.
Definition replay (t : tile) (l : list packet) : ex (list packet) :=
  each l (replay_one t) [].
