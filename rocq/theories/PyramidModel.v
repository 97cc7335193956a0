(** The multi-level transform as the encoder and decoder run it: one streaming
    machine per level, rows handed from level to level and to the sub-bands.

    Reversible 5/3 over unbounded integers (the int32 pipeline).  Not
    modelled: the SIMD planar shortcut, quantisation and block coding of the
    sub-band rows, the column / row sub-ranges of a viewport decode, the
    HORZ / NO directions of Part 2 decompositions. *)
From Verif Require Import Base DwtModel StreamModel.

(** Sub-band storage: the rows written, in order, each at its row index.
    Reading a row yields the last one written there; a row never written is
    undefined. *)
Definition band := list (Z * list Z).
Definition get_band (b : band) (i : Z) : out (list Z) :=
  match find (fun e => fst e =? i) (rev b) with Some e => Ret (snd e) | None => UB end.

Inductive pyramid :=
  | Coarse (ll : band)
  | Finer (hl lh hh : band) (low : pyramid).

(** source/core/transform/fdwt.cpp:828-874 [adv_step_f] for 5/3: even rows
    are low-pass. *)
Definition fwd_vstep (r : Z) (k : nat) (t p n : list Z) : list Z :=
  (if r mod 2 =? 0 then map3 fwd_lp else map3 fwd_hp) t p n.

(** fdwt.cpp:1034-1059 then coding_units.cpp:838-940: the horizontal filter on
    a copy of the finished row, split into its two planes. *)
Definition analyse (u0 u1 : Z) (row : list Z) : out (list Z * list Z) :=
  let* y := fwd_row u0 u1 row in
  let* l := plane_lp u0 u1 y in
  let* h := plane_hp u0 u1 y in
  Ret (l, h).

(** fdwt.cpp:1190-1215: a lone row at an odd position is doubled. *)
Definition fwd_single (v0 : Z) (row : list Z) : list Z :=
  if v0 mod 2 =? 0 then row else map (fun x => 2 * x) row.

Definition level_fwd (u0 u1 a b : Z) (rows : list (list Z)) : out (list (event (R := list Z * list Z))) :=
  fdwt_run (fdwt_geom 1 a b) fwd_vstep (analyse u0 u1) (fwd_single a) rows.

(** coding_units.cpp:737-835 [fdwt_level_sink_planes_fn]: where the two planes
    of an emitted row go.  hl_y0 and ll0_y0 are ceil(v0/2), lh_y0 and hh_y0
    floor(v0/2) (the sub-band origins, init_line_encode 3340-3412). *)
Definition is_hp (e : event (R := list Z * list Z)) : bool := fst (fst e).
Definition to_band (y0 : Z) (plane : list Z * list Z -> list Z) (evs : list (event (R := list Z * list Z))) : band :=
  map (fun e => (snd (fst e) / 2 - y0, plane (snd e))) evs.

(** One machine per level, finest first; the low-pass planes of the low-pass
    rows are pushed into the next machine in the order they are emitted
    ([fdwt_2d_state_push_row(c->child_state, lp_row)]), or stored when there
    is none.  Simplified: the machines run one after the other instead of
    interleaved; each depends only on the sequence of rows pushed into it.
    With no level at all the rows are the only band. *)
Fixpoint encode (n : nat) (u0 u1 a b : Z) (rows : list (list Z)) : out pyramid :=
  match n with
  | O => Ret (Coarse (combine (zseq (zlen rows)) rows))
  | S n' =>
      let* evs := level_fwd u0 u1 a b rows in
      let lps := filter (fun e => negb (is_hp e)) evs in
      let hps := filter is_hp evs in
      let hl := to_band (ceil2 a) snd lps in
      let lh := to_band (a / 2) fst hps in
      let hh := to_band (a / 2) snd hps in
      match n' with
      | O => Ret (Finer hl lh hh (Coarse (to_band (ceil2 a) fst lps)))
      | S _ =>
          let* low := encode n' (ceil2 u0) (ceil2 u1) (ceil2 a) (ceil2 b) (map (fun e => fst (snd e)) lps) in
          Ret (Finer hl lh hh low)
      end
  end.

(** source/core/transform/idwt.cpp:1279-1326 [adv_step]: rows carry a flag
    "known to be all zero"; a step between two flagged rows is skipped. *)
Definition skipping {T} (step : Z -> nat -> T -> T -> T -> T) (r : Z) (k : nat) (t p n : T * bool) : T * bool :=
  if snd p && snd n then t else (step r k (fst t) (fst p) (fst n), false).
Definition inv_vstep (r : Z) (k : nat) (t p n : list Z) : list Z :=
  (if r mod 2 =? 0 then map3 inv_lp else map3 inv_hp) t p n.

(** idwt.cpp:1257-1262 [row_all_zero], coding_units.cpp:158-173
    [lp_hp_both_zero]. *)
Definition all_zero (row : list Z) : bool := forallb (fun v => v =? 0) row.
Definition zeros (w : Z) : list Z := repeat 0 (Z.to_nat w).

(** coding_units.cpp:145-152 [pse_row_idx]. *)
Definition pse_row_idx (idx len : Z) : Z :=
  if len <=? 1 then 0
  else let period := 2 * (len - 1) in
       let i := Z.rem (Z.rem idx period + period) period in
       if i <? len then i else period - i.

(** coding_units.cpp:176-320 [idwt_level_src_fn] for a BIDIR level with the
    full row range, then the zero scan of idwt.cpp:1453-1457.  [low] is what
    the low-pass input delivers for its row [sub]. *)
Definition level_src (u0 u1 a : Z) (low : Z -> out (list Z)) (hl lh hh : band) (r : Z) : out (list Z * bool) :=
  let lp := r mod 2 =? 0 in
  let sub := if lp then r / 2 - ceil2 a else r / 2 - a / 2 in
  let* l := if lp then low sub else get_band lh sub in
  let* h := if lp then get_band hl sub else get_band hh sub in
  let* row := if (0 <? u1 - u0) && (all_zero l && all_zero h) then Ret (zeros (u1 - u0))
              else inv_row_planar u0 u1 l h in
  Ret (row, all_zero row).

(** idwt.cpp:1571-1582: a lone row at an odd position is halved. *)
Definition inv_single (a : Z) (t : list Z * bool) : list Z * bool :=
  if a mod 2 =? 0 then t else (map (fun x => Z.shiftr x 1) (fst t), snd t).

Definition level_inv (u0 u1 a b : Z) (low : Z -> out (list Z)) (hl lh hh : band) : out (list (option (list Z))) :=
  let* l := idwt_pulls (idwt_geom 1 a b) (skipping inv_vstep) (inv_single a)
                       (level_src u0 u1 a low hl lh hh) (Z.to_nat (b - a)) in
  Ret (map (option_map fst) l).

(** All rows pulled from the machine of the finest level.  A level's source
    pulls its child once per even row, in increasing order (coding_units.cpp:
    268-283), so its [sub]-th low-pass row is the child's [sub]-th output; a
    null pointer becomes a zero row.  The coarsest level reads the LL band
    with [pse_row_idx]. *)
Fixpoint decode (p : pyramid) (u0 u1 a b : Z) : out (list (option (list Z))) :=
  match p with
  | Coarse ll => mapM (fun i => let* x := get_band ll i in Ret (Some x)) (zseq (b - a))
  | Finer hl lh hh low =>
      match low with
      | Coarse ll =>
          level_inv u0 u1 a b (fun sub => get_band ll (pse_row_idx sub (ceil2 b - ceil2 a))) hl lh hh
      | Finer _ _ _ _ =>
          let* child := decode low (ceil2 u0) (ceil2 u1) (ceil2 a) (ceil2 b) in
          level_inv u0 u1 a b
            (fun sub => let* o := rdT child sub in
                        Ret (match o with Some x => x | None => zeros (width_lp u0 u1) end)) hl lh hh
      end
  end.
