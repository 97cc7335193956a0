(** Model of row-by-row delivery to a callback:
    source/core/coding/coding_units.cpp:6056-6612 (decode_line_based_stream),
    3139-3190 (pull_strip_into_buf, pull_strip_advance),
    source/core/interface/decoder.cpp:502-698 (invoke_line_based_stream).

    Simplifications, besides those of OutModel.v.  The per-component fetches
    run one after the other (they may be pool tasks: C38-C41); a fetch that
    throws is left out (C53).  The column window and the zero-filling of rows
    before a row window inside the transform are left out.  A row given to the
    callback is a function from column to value, and a callback returns
    normally. *)
From Verif Require Import Base PrecinctModel GeoModel MarkerModel OutModel.

Definition row := Z -> Z.
Definition blank : row := fun _ => 0.

(** [CInfo]: csize_x, csize_y, yr, 6081-6109. *)
Record sinfo := SI { s_w : Z; s_h : Z; s_yr : Z }.
Definition si0 : sinfo := SI 0 0 0.

(** A call of the callback: row number and one row per component. *)
Definition event := (Z * list row)%type.

Section Strip.
  Variable raw : Z -> Z -> Z -> Z -> Z.
  Variable fin : Z -> Z -> Z.
  Variable mix : Z -> Z -> Z -> Z -> Z.
  Variable t : Z.          (* tile *)
  Variable mct : bool.     (* do_mct *)
  Variable ci : list sinfo.

  Definition info (c : Z) : sinfo := znth si0 ci c.

  (** pull_strip_into_buf, coding_units.cpp:3155-3178: [n] rows from row [cur] of the [h] rows
      of a component; [None] is a row of zeros. *)
  Fixpoint pull_strip (n : nat) (h cur : Z) : list (option Z) * Z :=
    match n with
    | O => ([], cur)
    | S n' => if cur <? h then let '(l, cur') := pull_strip n' h (cur + 1) in (Some cur :: l, cur')
              else (repeat None n, cur)
    end.
  (** pull_strip_advance, coding_units.cpp:3180-3190. *)
  Fixpoint pull_advance (n : nat) (h cur : Z) : Z :=
    match n with
    | O => cur
    | S n' => pull_advance n' h (if cur <? h then cur + 1 else cur)
    end.

  (** Number of rows to fetch for the strip, 6270-6281: [counts] has 16
      entries. *)
  Definition count_for (y0 y1 c : Z) : ex Z :=
    if 16 <=? c then UB else
    if mct && (c <? 3) then ret (sub32 y1 y0) else
    let? a := udiv y0 (s_yr (info c)) in
    let? b := cdiv y1 (s_yr (info c)) in
    let b := Z.min b (s_h (info c)) in
    ret (if a <? b then b - a else 0).

  (** Phase 1, 6283-6317: the fetched rows of each component. *)
  Definition fetch (y0 y1 : Z) (st : (Z -> Z) * (Z -> list (option Z))) (c : Z) : ex ((Z -> Z) * (Z -> list (option Z))) :=
    let? n := count_for y0 y1 c in
    let '(l, cur) := pull_strip (Z.to_nat n) (s_h (info c)) (fst st c) in
    ret (upd (fst st) c cur, upd (snd st) c l).

  Definition scratch (bufs : Z -> list (option Z)) (c i : Z) : out (option Z) :=
    if (0 <=? i) && (i <? zlen (bufs c)) then Ret (znth None (bufs c) i) else UB.
  Definition smp (c : Z) (k : option Z) (n : Z) : Z :=
    match k with Some k => raw t c k n | None => 0 end.

  (** One component without colour transform, 6331-6427 and 6429-6602. *)
  Definition plain (bufs : Z -> list (option Z)) (y0 y : Z) (o : Z -> row) (c : Z) : out (Z -> row) :=
    let I := info c in
    if s_yr I =? 0 then UB else
    if negb (y mod s_yr I =? 0) then Ret o else
    if s_h I <=? y / s_yr I then Ret o else
    let* k := scratch bufs c ((y - y0) / s_yr I) in
    Ret (upd o c (fun n => if n <? s_w I then fin c (smp c k n) else o c n)).

  (** The three components of the colour transform, 6320-6329; columns beyond
      those of component 0 keep their value. *)
  Definition colour (bufs : Z -> list (option Z)) (y0 y : Z) (o : Z -> row) : out (Z -> row) :=
    let* k0 := scratch bufs 0 (y - y0) in
    let* k1 := scratch bufs 1 (y - y0) in
    let* k2 := scratch bufs 2 (y - y0) in
    if (s_w (info 1) <? s_w (info 0)) || (s_w (info 2) <? s_w (info 0)) then UB else
    Ret (fun c => if (0 <=? c) && (c <? 3)
                  then fun n => if n <? s_w (info 0) then mix c (smp 0 k0 n) (smp 1 k1 n) (smp 2 k2 n) else o c n
                  else o c).

  (** Phase 2 for row [y], 6318-6605. *)
  Definition emit (bufs : Z -> list (option Z)) (y0 : Z) (st : (Z -> row) * list event) (y : Z) : out ((Z -> row) * list event) :=
    let NC := zlen ci in
    let* o := if mct then
                let* o := colour bufs y0 y (fst st) in
                foldo (plain bufs y0 y) o (map (fun c => 3 + c) (zseq (NC - 3)))
              else foldo (plain bufs y0 y) (fst st) (zseq NC) in
    Ret (o, snd st ++ [(y, map o (zseq NC))]).

  (** [strip_h_luma], coding_units.cpp:6175-6179 and 6186-6192. *)
  Definition max_yr : Z := fold_left (fun m I => if m <? s_yr I then s_yr I else m) ci 1.
  Definition strip_height (cb_h : Z) : Z :=
    let h := if cb_h =? 0 then 64 else cb_h in
    let h := if h <? 64 then 64 else h in
    wrap32 (wrap32 (h + max_yr - 1) / max_yr * max_yr).

  (** The strip loop, 6266-6606. *)
  Fixpoint strips (fuel : nat) (h eff row_lo y0 : Z) (cur : Z -> Z) (o : Z -> row) (evs : list event) : ex (list event) :=
    if eff <=? y0 then ret evs else
    match fuel with
    | O => NoFuel
    | S fuel =>
        let y1 := Z.min (wrap32 (y0 + h)) eff in
        let? (cur, bufs) := foldx (fetch y0 y1) (cur, fun _ => []) (zseq (zlen ci)) in
        let e0 := Z.max y0 row_lo in
        let* (o, evs) := foldo (emit bufs y0) (o, evs) (map (fun i => e0 + i) (zseq (y1 - e0))) in
        strips fuel h eff row_lo (wrap32 (y0 + h)) cur o evs
    end.

  (** Rows skipped before the strip that holds [row_lo], coding_units.cpp:6246-6264. *)
  Definition advance (y0 : Z) (cur : Z -> Z) (c : Z) : ex (Z -> Z) :=
    let? n := if mct && (c <? 3) then ret y0 else udiv y0 (s_yr (info c)) in
    ret (upd cur c (pull_advance (Z.to_nat n) (s_h (info c)) (cur c))).

  (** decode_line_based_stream from 6149 on.  The fuel is one per row. *)
  Definition stream_tile (cb_h row_limit row_lo : Z) : ex (list event) :=
    let H := s_h (info 0) in
    let eff := Z.min H row_limit in
    let h := strip_height cb_h in
    let? y0 := if 0 <? row_lo then let? q := udiv row_lo h in ret (Z.min (wrap32 (q * h)) eff) else ret 0 in
    let? cur := if 0 <? y0 then foldx (advance y0) (fun _ => 0) (zseq (zlen ci)) else ret (fun _ => 0) in
    strips (Z.to_nat eff + 1) h eff row_lo y0 cur (fun _ => blank) [].
End Strip.

(** Tile [i] of the image, with [do_mct] (6128) and the parameters above. *)
Definition tile_infos (s : siz) (r nx : Z) (tiles : Z -> tile_in) (i : Z) : ex (list sinfo) :=
  let t := tiles i in
  if existsb (fun n => n <? r) (t_NL t) then throw else
  let? g := tile_region s nx i in
  mapM (fun c => let* n := rd (t_NL t) c in
                 let* (_, _, yr) := siz_at s c in
                 let? k := comp_info s r g n c in
                 ret (SI (csize_x k) (csize_y k) yr)) (zseq (Csiz s)).
Definition decode_line_based_stream (raw : Z -> Z -> Z -> Z -> Z) (fin : Z -> Z -> Z) (mix : Z -> Z -> Z -> Z -> Z)
    (s : siz) (r nx : Z) (tiles : Z -> tile_in) (cb_h : Z -> Z) (skip : bool) (row_limit row_lo i : Z) : ex (list sinfo * list event) :=
  let? ci := tile_infos s r nx tiles i in
  let mct := (3 <=? zlen ci) && t_mct (tiles i) && negb skip in
  let? evs := stream_tile raw fin mix i mct ci (cb_h i) row_limit row_lo in
  ret (ci, evs).

(** get_tile_geom, decoder.cpp:568-589: x_off, t_w, t_h. *)
Definition tile_geom (s : siz) (r tx ty c : Z) : ex (Z * Z * Z) :=
  let* (_, xr, yr) := siz_at s c in
  let? a := cdiv (XOsiz s) xr in
  let? tc := tcomp_region xr yr (Reg (tile_lo (XTOsiz s) (XTsiz s) (XOsiz s) tx) (tile_lo (YTOsiz s) (YTsiz s) (YOsiz s) ty)
                                     (tile_hi (XTOsiz s) (XTsiz s) (Xsiz s) tx) (tile_hi (YTOsiz s) (YTsiz s) (Ysiz s) ty)) in
  let? d := shl1 r in
  let? p0 := cdiv (x0 tc) d in
  let? p1 := cdiv (x1 tc) d in
  let? q0 := cdiv (y0 tc) d in
  let? q1 := cdiv (y1 tc) d in
  let? a := cdiv a d in
  ret (sub32 p0 a, sub32 p1 p0, sub32 q1 q0).

Section Whole.
  Variable raw : Z -> Z -> Z -> Z -> Z.
  Variable fin : Z -> Z -> Z.
  Variable mix : Z -> Z -> Z -> Z -> Z.
  Variable s : siz.
  Variable r : Z.
  Variable tiles : Z -> tile_in.
  Variable cb_h : Z -> Z.
  Variable skip : bool.
  Variables row_limit row_lo : Z.

  (** One tile column, 593-617. *)
  Definition one_column (st : Z * list event) (ty : Z) : ex (Z * list event) :=
    let? (_, _, band) := tile_geom s r 0 ty 0 in
    let? (_, evs) := decode_line_based_stream raw fin mix s r 1 tiles cb_h skip row_limit row_lo ty in
    let g := fst st in
    ret (wrap32 (g + band), snd st ++ map (fun e => (wrap32 (g + fst e), snd e)) evs).

  (** Several tile columns, 620-698.  The accumulator of component [c] is a
      row for each of its [band c] rows; a copy across the end of such a row
      is undefined here. *)
  Definition accu := Z -> Z -> row.
  Definition scatter (ci : list sinfo) (width band : Z -> Z) (geo : list (Z * Z * Z)) (e : event) (acc : accu) (c : Z) : out accu :=
    let '(off, w, _) := znth (0, 0, 0) geo c in
    let y := fst e in
    if (w =? 0) || (band c <=? y) then Ret acc else
    if (width c <? off + w) || (s_w (znth si0 ci c) <? w) then UB else
    Ret (upd acc c (upd (acc c) y (fun x => if (off <=? x) && (x <? off + w) then znth blank (snd e) c (x - off) else acc c y x))).
  Definition column (nx ty : Z) (width band : Z -> Z) (acc : accu) (tx : Z) : ex accu :=
    let? geo := mapM (tile_geom s r tx ty) (zseq (Csiz s)) in
    let? (ci, evs) := decode_line_based_stream raw fin mix s r nx tiles cb_h skip row_limit row_lo (wrap32 (ty * nx + tx)) in
    let* acc := foldo (fun acc e => foldo (scatter ci width band geo e) acc (zseq (zlen ci))) acc evs in
    ret acc.
  Definition band_row (nx : Z) (width : Z -> Z) (st : Z * list event) (ty : Z) : ex (Z * list event) :=
    let? geo := mapM (tile_geom s r 0 ty) (zseq (Csiz s)) in
    let band c := let '(_, _, h) := znth (0, 0, 0) geo c in h in
    let? acc := foldx (column nx ty width band) (fun _ _ => blank) (zseq nx) in
    let g := fst st in
    let out_row y := (wrap32 (g + y), map (fun c => acc c (if 0 <? band c then Z.min y (band c - 1) else 0)) (zseq (Csiz s))) in
    ret (wrap32 (g + band 0), snd st ++ map out_row (zseq (band 0))).

  (** invoke_line_based_stream: the sizes and the calls of the callback. *)
  Definition invoke_line_based_stream (maxr : Z) : ex (list (Z * Z) * list event) :=
    if maxr <? r then throw else
    let? nx := tiles_along (Xsiz s) (XTOsiz s) (XTsiz s) in
    let? ny := tiles_along (Ysiz s) (YTOsiz s) (YTsiz s) in
    if 65535 <? wrap32 (nx * ny) then throw else
    let? l := mapM (out_size s r) (zseq (Csiz s)) in
    let? (_, evs) := if nx =? 1 then foldx one_column (0, []) (zseq ny)
                     else foldx (band_row nx (fun c => fst (znth (0, 0) l c))) (0, []) (zseq ny) in
    ret (l, evs).
End Whole.
