(** The row-streamed vertical transforms: a ring of rows, rows of reflected
    samples above and below, and a level counter per row.

    The forward machine is [fdwt_2d_state] (source/core/transform/dwt.hpp:741-830,
    fdwt.cpp:757-1243), the inverse machine [idwt_2d_state] (dwt.hpp:540-739,
    idwt.cpp:1230-1618).  Both keep the same tables, so the state and its
    accessors are written once, with the ring depth as a parameter.  The rows
    themselves are elements of an arbitrary type and the lifting arithmetic is
    a parameter, so the results hold for the integer 5/3, the float 5/3, the
    9/7 and the ATK steps alike. *)
From Verif Require Import Base DwtModel.

(** Where a row lives: ring slot, top-extension row, bottom-extension row. *)
Inductive addr := Ring (i : Z) | Top (i : Z) | Bot (i : Z).
Definition addr_eqb (a b : addr) : bool :=
  match a, b with
  | Ring i, Ring j | Top i, Top j | Bot i, Bot j => i =? j
  | _, _ => false
  end.

(** Fixed parameters of a state: geometry (dwt.hpp:560-580, 775-790), ring
    depth (dwt.hpp:555, 769), extension counts, number of lifting levels
    ([max_dl], idwt.cpp:1240 / [max_dl_fdwt], fdwt.cpp:775). *)
Record geom := { v0 : Z; v1 : Z; depth : Z; top_pse : Z; bot_pse : Z; mxdl : Z }.

(** Mutable part.  [rows] is the memory of ring_buf, top_pse_buf and
    bot_pse_buf ([None]: never written); [dls] is d_level, top_dlevel and
    bot_dlevel.  [nin] is next_in / next_fetch, [nout] is next_emit /
    next_out. *)
Record st (T : Type) := mk_st {
  rows : addr -> option T; dls : addr -> Z;
  origin : Z; nin : Z; nout : Z }.
Arguments mk_st {T}. Arguments rows {T}. Arguments dls {T}.
Arguments origin {T}. Arguments nin {T}. Arguments nout {T}.

Section Machine.
  Context {T : Type} (G : geom).

  (** dwt.hpp:691-700 [idwt_rptr], fdwt.cpp:784-791 [rptr_f] ([r & 7] and
      [r % 12] are both [r mod depth]).  [None] when the address would lie
      outside the allocation. *)
  Definition rptr (r : Z) : option addr :=
    if (v0 G <=? r) && (r <? v1 G) then Some (Ring (r mod depth G))
    else if (v0 G - top_pse G <=? r) && (r <? v0 G) then Some (Top (v0 G - 1 - r))
    else if (v1 G <=? r) && (r <? v1 G + bot_pse G) then Some (Bot (r - v1 G))
    else None.

  (** dwt.hpp:703-711 [idwt_get_dl], fdwt.cpp:793-801 [get_dl_f]. *)
  Definition get_dl (s : st T) (r : Z) : Z :=
    if (v0 G <=? r) && (r <? v1 G) then
      if (r <? origin s) || (origin s + depth G <=? r) then -1 else dls s (Ring (r mod depth G))
    else if (v0 G - top_pse G <=? r) && (r <? v0 G) then dls s (Top (v0 G - 1 - r))
    else if (v1 G <=? r) && (r <? v1 G + bot_pse G) then dls s (Bot (r - v1 G))
    else -1.

  Definition upd {A} (f : addr -> A) (a : addr) (v : A) : addr -> A :=
    fun b => if addr_eqb a b then v else f b.

  Definition set_row (s : st T) (a : addr) (x : T) : st T :=
    mk_st (upd (rows s) a (Some x)) (dls s) (origin s) (nin s) (nout s).
  Definition set_lv (s : st T) (a : addr) (lv : Z) : st T :=
    mk_st (rows s) (upd (dls s) a lv) (origin s) (nin s) (nout s).

  (** dwt.hpp:714-721 [idwt_set_dl], fdwt.cpp:803-809 [set_dl_f]: a row
      outside all tables is ignored. *)
  Definition set_dl (s : st T) (r lv : Z) : st T :=
    match rptr r with Some a => set_lv s a lv | None => s end.

  (** Reading a row through [rptr]: outside the allocation, or memory never
      written, is undefined. *)
  Definition get_row (s : st T) (r : Z) : out T :=
    match rptr r with
    | Some a => match rows s a with Some x => Ret x | None => UB end
    | None => UB
    end.

  (** The lifting arithmetic: row index, level, row, row above, row below. *)
  Variable step : Z -> nat -> T -> T -> T -> T.

  (** fdwt.cpp:828-874 [adv_step_f], idwt.cpp:1279-1326 [adv_step]: one
      lifting step of row [r], whose level becomes [cur + 1]. *)
  Definition adv_step (s : st T) (r cur : Z) : out (st T) :=
    let* t := get_row s r in
    let* p := get_row s (r - 1) in
    let* n := get_row s (r + 1) in
    match rptr r with
    | Some a => Ret (set_dl (set_row s a (step r (Z.to_nat cur) t p n)) r (cur + 1))
    | None => UB
    end.

  (** fdwt.cpp:877-893 [fill_pse_f], idwt.cpp:1329-1347 [fill_pse]: copy the
      raw row [r] into every still empty extension row that mirrors it. *)
  Definition fill_one (a : addr) (p r : Z) (x : T) (s : st T) : out (st T) :=
    if dls s a <? 0 then
      let* k := pse_o p (v0 G) (v1 G) in
      if v0 G + k =? r then Ret (set_lv (set_row s a x) a 0) else Ret s
    else Ret s.
  Fixpoint fill_loop (l : list (addr * Z)) (r : Z) (x : T) (s : st T) : out (st T) :=
    match l with
    | [] => Ret s
    | (a, p) :: l' => let* s' := fill_one a p r x s in fill_loop l' r x s'
    end.
  Definition pse_slots : list (addr * Z) :=
    map (fun i => (Top (i - 1), v0 G - i)) (upto (top_pse G))
    ++ map (fun i => (Bot i, v1 G + i)) (zseq (bot_pse G)).
  Definition fill_pse (s : st T) (r : Z) : out (st T) :=
    let* x := get_row s r in fill_loop pse_slots r x s.

  (** The scan window of fdwt.cpp:906-911 and idwt.cpp:1372-1378. *)
  Definition scan_lo (s : st T) : Z :=
    let margin := top_pse G + mxdl G * 2 + 2 in
    let lo_full := v0 G - top_pse G in
    if lo_full <? origin s - margin then origin s - margin else lo_full.
  Definition scan_hi (s : st T) : Z :=
    if nin s <? v1 G then nin s + bot_pse G else v1 G + bot_pse G.

  (** One phase of the cascade, e.g. fdwt.cpp:915-918: over r, r+2, ... below
      [hi], rows at level [lv] whose neighbours are at least at [need]. *)
  Fixpoint phase (count : nat) (r lv need : Z) (s : st T) : out (st T) :=
    match count with
    | O => Ret s
    | S c =>
        let* s' := if (get_dl s r =? lv) && (need <=? get_dl s (r - 1)) && (need <=? get_dl s (r + 1))
                   then adv_step s r lv else Ret s in
        phase c (r + 2) lv need s'
    end.
  (** Number of iterations of [for (r = r0; r < hi; r += 2)]. *)
  Definition steps2 (r0 hi : Z) : nat := Z.to_nat ((hi - r0 + 1) / 2).

  (** First even / odd row at or after [lo]: [lo + (lo & 1)] and
      [lo + (1 - (lo & 1))] (two's complement [&], hence [mod] also for
      negative [lo]). *)
  Definition first_even (lo : Z) : Z := lo + lo mod 2.
  Definition first_odd (lo : Z) : Z := lo + (1 - lo mod 2).

  (** The phased cascades.  fdwt.cpp:913-925 is [levels = 1], [ra] the odd
      rows and [rb] the even rows; idwt.cpp:1380-1427 is [levels = 1] (5/3)
      or [2] (9/7), [ra] the even rows and [rb] the odd rows. *)
  Fixpoint phases (levels : nat) (lv ra rb hi : Z) (s : st T) : out (st T) :=
    match levels with
    | O => Ret s
    | S n =>
        let* s1 := phase (steps2 ra hi) ra lv lv s in
        let* s2 := phase (steps2 rb hi) rb lv (lv + 1) s1 in
        phases n (lv + 1) ra rb hi s2
    end.

  (** fdwt.cpp:811-826 [needed_neighbor_dl_f], [can_adv_f]. *)
  Definition can_adv_f (s : st T) (r : Z) : bool :=
    let cur := get_dl s r in
    let need := if r mod 2 =? 0 then cur + 1 else cur in
    (0 <=? cur) && (cur <? mxdl G) && (need <=? get_dl s (r - 1)) && (need <=? get_dl s (r + 1)).

  (** fdwt.cpp:926-935: the sweep of the 9/7 cascade and its repetition while
      any row advanced. *)
  Fixpoint sweep (count : nat) (r : Z) (progress : bool) (s : st T) : out (bool * st T) :=
    match count with
    | O => Ret (progress, s)
    | S c =>
        if can_adv_f s r
        then let* s' := adv_step s r (get_dl s r) in sweep c (r + 1) true s'
        else sweep c (r + 1) progress s
    end.
  Fixpoint until_stable (fuel : nat) (lo hi : Z) (s : st T) : out (st T) :=
    match fuel with
    | O => NoFuel
    | S f =>
        let* (progress, s') := sweep (Z.to_nat (hi - lo)) lo false s in
        if progress then until_stable f lo hi s' else Ret s'
    end.

  (** fdwt.cpp:905-936 [cascade_f]: two phases unless the transform is 9/7
      ([mxdl = 2]).  The fuel is enough for every row of the window to
      advance [mxdl] times, one per sweep. *)
  Definition cascade_f (s : st T) : out (st T) :=
    let lo := scan_lo s in
    let hi := scan_hi s in
    if mxdl G =? 1 then phases 1 0 (first_odd lo) (first_even lo) hi s
    else until_stable (Z.to_nat ((mxdl G + 1) * (hi - lo)) + 1) lo hi s.

  (** Reclaiming ring slots after an emission, fdwt.cpp:1062-1067. *)
  Fixpoint reclaim (fuel : nat) (s : st T) : out (st T) :=
    match fuel with
    | O => NoFuel
    | S f =>
        if (origin s <? nout s - 4) && (mxdl G <=? get_dl s (origin s))
        then reclaim f (mk_st (rows s) (upd (dls s) (Ring (origin s mod depth G)) (-1))
                              (origin s + 1) (nin s) (nout s))
        else Ret s
    end.

  (** What the sink receives: is_hp, row index, row (fdwt.cpp:1059).  The
      horizontal filter, applied to a copy of the ring row just before
      (fdwt.cpp:1034-1057), is the parameter [hor]. *)
  Context {R : Type} (hor : T -> out R).
  Definition event : Type := (bool * Z * R)%type.

  (** fdwt.cpp:939-1069 [emit_ready_f]; the SIMD planar shortcut is not
      modelled. *)
  Fixpoint emit_ready (fuel : nat) (s : st T) : out (list event * st T) :=
    match fuel with
    | O => NoFuel
    | S f =>
        if (nout s <? v1 G) && (mxdl G <=? get_dl s (nout s)) then
          let* x := get_row s (nout s) in
          let* y := hor x in
          let s1 := mk_st (rows s) (dls s) (origin s) (nin s) (nout s + 1) in
          let* s2 := reclaim (Z.to_nat (nout s1 - origin s) + 1) s1 in
          let* (evs, s3) := emit_ready f s2 in
          Ret ((negb (nout s mod 2 =? 0), nout s, y) :: evs, s3)
        else Ret ([], s)
    end.
  Definition emit_ready_f (s : st T) : out (list event * st T) :=
    emit_ready (Z.to_nat (v1 G - nout s) + 1) s.

  (** fdwt.cpp:1104-1112: everything empty. *)
  Definition init_st : st T :=
    mk_st (fun _ => None) (fun _ => -1) (v0 G) (v0 G) (v0 G).

  (** fdwt.cpp:1150-1174 [fdwt_2d_state_push_row]. *)
  Definition push_row (x : T) (s : st T) : out (list event * st T) :=
    if v1 G <=? nin s then Ret ([], s)
    else
      let slot := Ring (nin s mod depth G) in
      if v1 G =? v0 G + 1 then
        let s1 := set_row s slot x in
        Ret ([], mk_st (rows s1) (dls s1) (origin s1) (nin s1 + 1) (nout s1))
      else
        let r := nin s in
        let s1 := set_lv (set_row s slot x) slot 0 in
        let s2 := mk_st (rows s1) (dls s1) (origin s1) (nin s1 + 1) (nout s1) in
        let* s3 := fill_pse s2 r in
        let* s4 := cascade_f s3 in
        emit_ready_f s4.

  (** fdwt.cpp:1176-1243 [fdwt_2d_state_flush].  [single x] is what a
      single-row tile does to its row before the horizontal filter
      (doubling for an odd 5/3 row). *)
  Variable single : T -> T.
  Fixpoint flush_fill (l : list Z) (s : st T) : out (st T) :=
    match l with
    | [] => Ret s
    | i :: l' =>
        let* s' :=
          if dls s (Bot i) <? 0 then
            let* k := pse_o (v1 G + i) (v0 G) (v1 G) in
            let src := v0 G + k in
            if (origin s <=? src) && (src <? origin s + depth G) && (0 <=? get_dl s src)
            then fill_pse s src else Ret s
          else Ret s in
        flush_fill l' s'
    end.
  Definition flush (s : st T) : out (list event * st T) :=
    if (v1 G =? v0 G + 1) && (nin s =? v0 G + 1) && (nout s =? v0 G) then
      let* x := get_row s (v0 G) in
      let* y := hor (single x) in
      Ret ([(negb (v0 G mod 2 =? 0), v0 G, y)],
           mk_st (rows s) (dls s) (origin s) (nin s) (nout s + 1))
    else
      let* s1 := flush_fill (zseq (bot_pse G)) s in
      let* s2 := cascade_f s1 in
      emit_ready_f s2.

  (** A whole run of the forward machine: push every row, then flush; the
      result is everything the sink received. *)
  Fixpoint push_all (l : list T) (s : st T) : out (list event * st T) :=
    match l with
    | [] => Ret ([], s)
    | x :: l' =>
        let* (e1, s1) := push_row x s in
        let* (e2, s2) := push_all l' s1 in
        Ret (e1 ++ e2, s2)
    end.
  Definition fdwt_run (l : list T) : out (list event) :=
    let* (e1, s1) := push_all l init_st in
    let* (e2, s2) := flush s1 in
    Ret (e1 ++ e2).

  (** The inverse machine.  [src r] is what get_src_row delivers for row [r];
      it is called once per row, in increasing order. *)
  Variable src : Z -> out T.

  (** idwt.cpp:1365-1428 [cascade]. *)
  Definition cascade_i (s : st T) : out (st T) :=
    let lo := scan_lo s in
    let hi := scan_hi s in
    phases (Z.to_nat (mxdl G)) 0 (first_even lo) (first_odd lo) hi s.

  (** idwt.cpp:1437-1441 (and 1602-1606, the same loop in the caller): evict
      rows already delivered while the ring is full. *)
  Fixpoint evict (fuel : nat) (s : st T) : out (st T) :=
    match fuel with
    | O => NoFuel
    | S f =>
        if (origin s + depth G <=? nin s) && (origin s <? nout s)
        then evict f (mk_st (rows s) (upd (dls s) (Ring (origin s mod depth G)) (-1))
                            (origin s + 1) (nin s) (nout s))
        else Ret s
    end.
  Definition evict_all (s : st T) : out (st T) := evict (Z.to_nat (nout s - origin s) + 1) s.

  (** idwt.cpp:1433-1468 [fetch_one]. *)
  Definition fetch_one (s : st T) : out (st T) :=
    let r := nin s in
    if v1 G <=? r then Ret s
    else
      let* s0 := evict_all s in
      let slot := Ring (r mod depth G) in
      let* x := src r in
      let s1 := set_lv (set_row s0 slot x) slot 0 in
      let s2 := mk_st (rows s1) (dls s1) (origin s1) (nin s1 + 1) (nout s1) in
      let* s3 := fill_pse s2 r in
      cascade_i s3.

  (** The fetch loop of idwt.cpp:1595-1608. *)
  Fixpoint fetch_loop (fuel : nat) (s : st T) : out (st T) :=
    match fuel with
    | O => NoFuel
    | S f =>
        if get_dl s (nout s) <? mxdl G then
          if v1 G <=? nin s then cascade_i s
          else let* s1 := evict_all s in
               let* s2 := fetch_one s1 in
               fetch_loop f s2
        else Ret s
    end.

  (** idwt.cpp:1552-1618 [idwt_2d_state_pull_row_ref], direction BIDIR:
      [None] is the null pointer. *)
  Definition pull_row (s : st T) : out (option T * st T) :=
    if v1 G <=? nout s then Ret (None, s)
    else if v1 G <=? v0 G then Ret (None, s)
    else if v1 G =? v0 G + 1 then
      let* x := src (v0 G) in
      let y := single x in
      let s1 := set_row s (Ring (v0 G mod depth G)) y in
      Ret (Some y, mk_st (rows s1) (dls s1) (origin s1) (nin s1) (nout s1 + 1))
    else
      let* s1 := fetch_loop (Z.to_nat (v1 G - nin s) + 1) s in
      if get_dl s1 (nout s1) <? mxdl G then Ret (None, s1)
      else
        let* x := get_row s1 (nout s1) in
        Ret (Some x, mk_st (rows s1) (dls s1) (origin s1) (nin s1) (nout s1 + 1)).

  (** [n] successive pulls. *)
  Fixpoint pulls (n : nat) (s : st T) : out (list (option T) * st T) :=
    match n with
    | O => Ret ([], s)
    | S k =>
        let* (x, s1) := pull_row s in
        let* (xs, s2) := pulls k s1 in
        Ret (x :: xs, s2)
    end.
  Definition idwt_pulls (n : nat) : out (list (option T)) :=
    let* (xs, s) := pulls n init_st in Ret xs.
End Machine.

(** Extension counts and depths as initialised by fdwt.cpp:763-766, 1084-1088
    and idwt.cpp:1236-1237, 1470-1476 ([m] = 2 for 9/7, 1 for the two-step
    filters). *)
Definition fdwt_geom (m a b : Z) : geom :=
  {| v0 := a; v1 := b; depth := 12; mxdl := m;
     top_pse := if m =? 2 then (if a mod 2 =? 0 then 4 else 3) else (if a mod 2 =? 0 then 2 else 1);
     bot_pse := if m =? 2 then (if b mod 2 =? 0 then 3 else 4) else (if b mod 2 =? 0 then 1 else 2) |}.
Definition idwt_geom (m a b : Z) : geom :=
  {| v0 := a; v1 := b; depth := 8; mxdl := m;
     top_pse := if m =? 2 then (if a mod 2 =? 0 then 3 else 4) else (if a mod 2 =? 0 then 1 else 2);
     bot_pse := if m =? 2 then (if b mod 2 =? 0 then 4 else 3) else (if b mod 2 =? 0 then 2 else 1) |}.
