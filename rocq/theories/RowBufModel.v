(** Model of the row buffer between code-block decoding and the inverse
    transform: j2k_subband_row_buf, source/core/coding/subband_row_buf.cpp and
    subband_row_buf.hpp, with the cursors' reset of coding_units.cpp:3262-3334
    and the drain of coding_units.cpp:3192-3222.

    The buffer hands out one row of a subband at a time.  It decodes the
    code-blocks of one strip of rows into one half of an allocation and, with a
    pool of several threads, has pool tasks decode the next strip into the
    other half while the rows of this strip are being read.

    Simplifications.  The build with OPENHTJ2K_THREAD and ring mode (the only
    mode the library uses, coding_units.cpp:5896, 6133, 6691), for a subband
    that has samples; positions are unbounded integers.  The allocation is a function
    from float index to value, of which only [0, 2 * half) may be stored to.  A
    code-block's decoder is what it stores (C30, C51, C77-C80 are about the
    decoders); its scratch buffers are left out.  Every code-block is a pool
    task of its own: tasks that the code runs together as a group
    (build_par_groups, subband_row_buf.cpp:85-103) interleave here in every way.  A pool task
    stores one sample at a time, and the pool may run between any two steps of
    the thread that reads rows; while that thread waits for the pool
    (subband_row_buf.cpp:61-76) nothing else happens.  The serial path stops
    at the first code-block that fails; the code finishes the code-blocks it
    decodes together with that one (533-540) before it throws. *)
From Verif Require Import Base GeoModel OutModel.

(** j2k_precinct_subband, coding_units.cpp:1597-1653: position,
    num_codeblock_x, num_codeblock_y, code-blocks. *)
Record pband := PB { pb_pos : region; pb_nx : Z; pb_ny : Z; pb_blocks : list cblk }.

(** The subband: position, stride, the [cb_h] given to init
    (coding_units.cpp:2856), and its precincts. *)
Record sband := SB { sb_pos : region; sb_stride : Z; sb_cbh : Z; sb_prec : list pband }.

(** What a frame holds for a code-block.  [Empty]: no passes or no data.
    [Good f low]: decoding stores [f i j] in row i, column j; [low] is given
    when the decoder stores rows in pairs (the fused dequantisation,
    ht_block_decoding.cpp:91-335), so that one more row is stored if the height is
    odd.  [Bad l]: decoding stores [l] (row, column, value), then throws or
    returns false. *)
Inductive cdata :=
| Empty
| Good (f : Z -> Z -> Z) (low : option (Z -> Z))
| Bad (l : list (Z * Z * Z)).
Definition frame := cblk -> cdata.

Definition is_empty (d : cdata) : bool := match d with Empty => true | _ => false end.
Definition is_bad (d : cdata) : bool := match d with Bad _ => true | _ => false end.

Definition mem := Z -> Z.
Definition wr := (Z * Z)%type.   (* index, value *)

(** The object: strip_y0, strip_y1, ring_y0, ring_buf and prefetch_buf (as
    indices into combined_buf), prefetch_y0, prefetch_y1, par_error, the tasks
    not finished (par_cnt counts them) with whether they fail at the end, the
    contents of combined_buf, strip_cache_; subband_row_buf.hpp:56-154. *)
Record rowbuf := RB {
  strip0 : Z; strip1 : Z; ring0 : Z; ring : Z; pre : Z; pref0 : Z; pref1 : Z;
  err : bool; tasks : list (list wr * bool); cells : mem; cache : list (option (list cblk)) }.

Section Buf.
  Variable B : sband.
  Variable many : bool.   (* the pool has more than one thread *)

  Definition half : Z := (sb_cbh B + 1) * sb_stride B.
  Definition bx : Z := x0 (sb_pos B).
  Definition top : Z := y0 (sb_pos B).
  Definition bot : Z := y1 (sb_pos B).
  Definition wid (k : cblk) : Z := x1 (cb_pos k) - x0 (cb_pos k).
  Definition hei (k : cblk) : Z := y1 (cb_pos k) - y0 (cb_pos k).

  (** access_codeblock, coding_units.cpp:1658. *)
  Definition blk (p : pband) (i : Z) : out cblk :=
    if 0 <=? i then match nth_error (pb_blocks p) (Z.to_nat i) with Some k => Ret k | None => UB end else UB.

  Fixpoint mapo {A C} (f : A -> out C) (l : list A) : out (list C) :=
    match l with
    | [] => Ret []
    | a :: l => let* c := f a in let* cs := mapo f l in Ret (c :: cs)
    end.

  (** The rows of code-blocks of a precinct from row [r] on that meet
      [ys, ye), subband_row_buf.cpp:313-319 (the same loop at 433-439, 632-637,
      709-714). *)
  Fixpoint rows_from (n : nat) (p : pband) (ys ye r : Z) : out (list cblk) :=
    match n with
    | O => Ret []
    | S n =>
      let* f := blk p (r * pb_nx p) in
      if y1 (cb_pos f) <=? ys then rows_from n p ys ye (r + 1)
      else if ye <=? y0 (cb_pos f) then Ret []
      else
        let* l := mapo (fun c => blk p (r * pb_nx p + c)) (zseq (pb_nx p)) in
        let* l' := rows_from n p ys ye (r + 1) in
        Ret (l ++ l')
    end.

  (** One precinct, subband_row_buf.cpp:301-319. *)
  Definition walk_pband (ys ye : Z) (p : pband) : out (list cblk) :=
    if (pb_nx p =? 0) || (pb_ny p =? 0) then Ret []
    else if (y1 (pb_pos p) <=? ys) || (ye <=? y0 (pb_pos p)) then Ret []
    else
      let* r0 := if y0 (pb_pos p) <? ys
                 then if sb_cbh B =? 0 then UB else Ret (Z.quot (ys - y0 (pb_pos p)) (sb_cbh B))
                 else Ret 0 in
      rows_from (Z.to_nat (pb_ny p - r0)) p ys ye r0.

  (** All precincts, subband_row_buf.cpp:300-319. *)
  Definition walk (ys ye : Z) : out (list cblk) :=
    let* l := mapo (walk_pband ys ye) (sb_prec B) in Ret (concat l).

  (** A store into combined_buf. *)
  Definition put (m : mem) (w : wr) : out mem :=
    if (0 <=? fst w) && (fst w <? 2 * half) then Ret (fun a => if a =? fst w then snd w else m a) else UB.
  Definition puts (m : mem) (l : list wr) : out mem := foldo put m l.

  (** Where code-block [k] begins in the half at [base] that holds the strip
      from [ys] on: roff + coff, subband_row_buf.cpp:327-329, 344-346, 521-523, 642-643. *)
  Definition place (base ys : Z) (k : cblk) : Z :=
    base + (y0 (cb_pos k) - ys) * sb_stride B + (x0 (cb_pos k) - bx).

  Definition row_stores (o w : Z) (f : Z -> Z) : list wr := map (fun j => (o + j, f j)) (zseq w).
  Definition rect (o w h : Z) (f : Z -> Z -> Z) : list wr :=
    flat_map (fun i => row_stores (o + i * sb_stride B) w (f i)) (zseq h).

  (** Zeroing an empty code-block, subband_row_buf.cpp:326-332, 445-451, 666-671. *)
  Definition zeros (base ys : Z) (k : cblk) : list wr := rect (place base ys k) (wid k) (hei k) (fun _ _ => 0).

  (** What decoding stores with band_buf at [place base ys k]. *)
  Definition stores (base ys : Z) (k : cblk) (d : cdata) : list wr :=
    let o := place base ys k in
    match d with
    | Empty => []
    | Good f low =>
      rect o (wid k) (hei k) f ++
      match low with
      | Some g => if Z.odd (hei k) then row_stores (o + hei k * sb_stride B) (wid k) g else []
      | None => []
      end
    | Bad l => map (fun '(i, j, v) => (o + i * sb_stride B + j, v)) l
    end.

  (** The zeroes and the tasks of a list of code-blocks,
      subband_row_buf.cpp:323-350, 661-687. *)
  Definition blanks (F : frame) (base ys : Z) (l : list cblk) : list wr :=
    flat_map (fun k => if is_empty (F k) then zeros base ys k else []) l.
  Definition jobs (F : frame) (base ys : Z) (l : list cblk) : list (list wr * bool) :=
    map (fun k => (stores base ys k (F k), is_bad (F k))) (filter (fun k => negb (is_empty (F k))) l).

  (** *** The pool *)

  Definition set_pool (s : rowbuf) (m : mem) (t : list (list wr * bool)) (e : bool) : rowbuf :=
    RB (strip0 s) (strip1 s) (ring0 s) (ring s) (pre s) (pref0 s) (pref1 s) e t m (cache s).

  (** One step of some worker: a task stores one sample, or ends, recording
      a failure (run_par_group, subband_row_buf.cpp:107-136). *)
  Inductive pool1 : rowbuf -> out rowbuf -> Prop :=
  | pool_store : forall s a w l f b m, tasks s = a ++ (w :: l, f) :: b -> put (cells s) w = Ret m ->
      pool1 s (Ret (set_pool s m (a ++ (l, f) :: b) (err s)))
  | pool_out : forall s a w l f b, tasks s = a ++ (w :: l, f) :: b -> put (cells s) w = UB -> pool1 s UB
  | pool_end : forall s a f b, tasks s = a ++ ([], f) :: b ->
      pool1 s (Ret (set_pool s (cells s) (a ++ b) (err s || f))).

  (** spin_wait, subband_row_buf.cpp:61-76: until no task is left. *)
  Inductive wait : rowbuf -> out rowbuf -> Prop :=
  | wait_done : forall s, tasks s = [] -> wait s (Ret s)
  | wait_step : forall s s' r, pool1 s (Ret s') -> wait s' r -> wait s r
  | wait_out : forall s, pool1 s UB -> wait s UB.

  (** *** decode_strip_core, subband_row_buf.cpp:280-548 *)

  (** Serial path, subband_row_buf.cpp:419-547; the flag says that it threw. *)
  Fixpoint serial (F : frame) (base ys : Z) (m : mem) (l : list cblk) : out (bool * mem) :=
    match l with
    | [] => Ret (false, m)
    | k :: l =>
      let* m := puts m (if is_empty (F k) then zeros base ys k else stores base ys k (F k)) in
      if is_bad (F k) then Ret (true, m) else serial F base ys m l
    end.

  Inductive core (F : frame) (s : rowbuf) (base ys ye : Z) : out (bool * rowbuf) -> Prop :=
  | core_tree : walk ys ye = UB -> core F s base ys ye UB
  | core_serial : forall l, many = false -> walk ys ye = Ret l ->
      core F s base ys ye
        (let* (t, m) := serial F base ys (cells s) l in Ret (t, set_pool s m (tasks s) (err s)))
  | core_zero : forall l, many = true -> walk ys ye = Ret l -> puts (cells s) (blanks F base ys l) = UB ->
      core F s base ys ye UB
  | core_none : forall l m, many = true -> walk ys ye = Ret l -> puts (cells s) (blanks F base ys l) = Ret m ->
      jobs F base ys l = [] -> core F s base ys ye (Ret (false, set_pool s m (tasks s) (err s)))
  | core_tasks : forall l m r, many = true -> walk ys ye = Ret l -> puts (cells s) (blanks F base ys l) = Ret m ->
      jobs F base ys l <> [] -> wait (set_pool s m (jobs F base ys l) false) r ->
      core F s base ys ye (let* s' := r in Ret (err s', s')).

  (** *** trigger_prefetch, subband_row_buf.cpp:594-785 *)

  (** The code-blocks of the strip from [ys] on: the cache entry, built at its
      first use, or a walk if there is no entry (subband_row_buf.cpp:606-651,
      689-728). *)
  Definition lookup (c : list (option (list cblk))) (ys ye : Z) : out (list cblk * list (option (list cblk))) :=
    if sb_cbh B =? 0 then UB else
    let i := Z.quot (ys - top) (sb_cbh B) in
    if (0 <=? i) && (i <? zlen c) then
      match nth (Z.to_nat i) c None with
      | Some l => Ret (l, c)
      | None => let* l := walk ys ye in Ret (l, ztake i c ++ Some l :: zskip (i + 1) c)
      end
    else let* l := walk ys ye in Ret (l, c).

  Definition trigger (F : frame) (s : rowbuf) (next : Z) : out rowbuf :=
    if negb (pref0 s =? -1) then Ret s
    else if bot <=? next then Ret s
    else if negb many then Ret s
    else
      let ye := Z.min (next + sb_cbh B) bot in
      let* (l, c) := lookup (cache s) next ye in
      let* m := puts (cells s) (blanks F (pre s) next l) in
      let j := jobs F (pre s) next l in
      Ret (RB (strip0 s) (strip1 s) (ring0 s) (ring s) (pre s) next ye
              (match j with [] => err s | _ => false end) j m c).

  (** *** row_ptr, subband_row_buf.cpp:790-821 *)

  Definition address (s : rowbuf) (y : Z) : Z := ring s + (y - ring0 s) * sb_stride B.

  (** A prefetch hit after the wait, subband_row_buf.cpp:801-809. *)
  Definition hit (F : frame) (s : rowbuf) (y : Z) : out (option Z * rowbuf) :=
    if err s then Ret (None, s)
    else
      let s1 := RB (pref0 s) (pref1 s) (pref0 s) (pre s) (ring s) (-1) (-1) (err s) (tasks s) (cells s) (cache s) in
      let* s2 := trigger F s1 (pref1 s) in
      Ret (Some (address s2 y), s2).

  (** decode_strip, subband_row_buf.cpp:552-572, before and after
      decode_strip_core. *)
  Definition enter (s : rowbuf) (ys ye : Z) : rowbuf :=
    RB ys ye ys (ring s) (pre s) (-1) (-1) (err s) (tasks s) (cells s) (cache s).
  Definition leave (F : frame) (y : Z) (d : out (bool * rowbuf)) : out (option Z * rowbuf) :=
    let* (t, s) := d in
    if (t : bool) then Ret (None, s) else let* s2 := trigger F s (strip1 s) in Ret (Some (address s2 y), s2).

  (** [Some p]: a pointer to the row; [None]: an exception. *)
  Definition row_ptr (F : frame) (s : rowbuf) (y : Z) (r : out (option Z * rowbuf)) : Prop :=
    if (strip0 s <=? y) && (y <? strip1 s) then r = Ret (Some (address s y), s)
    else exists w, wait s w /\
      match w with
      | Ret s1 =>
        if negb (pref0 s1 =? -1) && (pref0 s1 <=? y) && (y <? pref1 s1) then r = hit F s1 y
        else if sb_cbh B =? 0 then r = UB
        else
          let ys := top + Z.quot (y - top) (sb_cbh B) * sb_cbh B in
          let ye := Z.min (ys + sb_cbh B) bot in
          exists d, core F (enter s1 ys ye) (ring s1) ys ye d /\ r = leave F y d
      | _ => r = UB
      end.

  (** init, subband_row_buf.cpp:141-224: the memory is whatever the allocator
      returned. *)
  Definition strips : Z := (bot - top + sb_cbh B - 1) / sb_cbh B.
  Definition init (m : mem) : rowbuf :=
    RB (-1) (-1) (-1) 0 half (-1) (-1) false [] m (repeat None (Z.to_nat strips)).

  (** The end of a frame and the beginning of the next with the same objects:
      drain_prefetch (subband_row_buf.cpp:226-235), then
      reset_line_decode_cursors (coding_units.cpp:3262-3291). *)
  Definition next_frame (s : rowbuf) (r : out rowbuf) : Prop :=
    exists w, wait s w /\
      r = let* s1 := w in
          Ret (RB (-1) (-1) (-1) 0 half (-1) (-1) (err s1) [] (cells s1) (cache s1)).
End Buf.

(** The precincts of a subband as create_precincts makes them
    (coding_units.cpp:2661-2694, 2383-2420, 1597-1653): the same computation
    as GeoModel.create_band, with the numbers of code-blocks. *)
Definition make_pband (b : Z) (band res : region) (PPx PPy npw cbx cby i : Z) : ex pband :=
  let? p := precinct_region res PPx PPy npw i in
  let? pb := pband_region b p in
  let? nx := blocks_along (x0 pb) (x1 pb) cbx in
  let? ny := blocks_along (y0 pb) (y1 pb) cby in
  let? l := code_blocks band pb cbx cby in
  ret (PB pb nx ny l).
Definition make_band (NL r b : Z) (g : region) (lx ly cbx cby : Z) : ex sband :=
  let? res := res_region NL r g in
  let? PPx := PrecinctModel.shl1 lx in
  let? PPy := PrecinctModel.shl1 ly in
  let? npw := precincts_along (x0 res) (x1 res) PPx in
  let? nph := precincts_along (y0 res) (y1 res) PPy in
  let? band := band_region NL r b g res in
  let n := wrap32 (npw * nph) in
  if n =? 0 then ret (SB band (stride band) cby []) else
  let? l := PrecinctModel.mapM (make_pband b band res PPx PPy npw cbx cby) (zseq n) in
  ret (SB band (stride band) cby l).
