(** Model of what the decoder answers about a parsed image, and of how whole
    images are delivered: source/core/interface/decoder.cpp:296-362 (queries),
    383-478 (invoke_line_based), source/core/coding/coding_units.cpp:5817-6041
    (decode_line_based).

    Simplifications.  The tile-parts are taken as read (MarkerModel.v,
    TileModel.v): a tile is whether it uses the colour transform and the number
    of levels of each component.  The inverse transform of a tile-component is
    a source of rows, numbered from 0, which returns the null pointer when they
    are used up (pull_line 3089-3104, pull_line_ref 3106-3137); [raw t c k n]
    is sample n of row k of component c of tile t.  The arithmetic between
    transform and output (offset, rounding, clamping: C21) is [fin c v], with
    the colour transform [mix c v0 v1 v2].  Samples are read and stored one by
    one; the vector loops of the same functions touch the same ones.  Reading
    beyond a row's samples is undefined here, though the buffers have some
    slack.  Allocation failure is left out. *)
From Verif Require Import Base PrecinctModel GeoModel MarkerModel.

(** ** Queries *)

(** [SIZ_marker::get_subsampling_factor] and the other vectors of SIZ, indexed
    unchecked, j2kmarkers.cpp:172-189. *)
Definition siz_at (s : siz) (c : Z) : out (Z * Z * Z) :=
  if (0 <=? c) && (c <? zlen (Comps s)) then Ret (znth (0, 0, 0) (Comps s) c) else UB.

(** get_component_width and get_component_height, decoder.cpp:297-312. *)
Definition get_component_width (s : siz) (c : Z) : ex Z :=
  let* (_, xr, _) := siz_at s c in cdiv (sub32 (Xsiz s) (XOsiz s)) xr.
Definition get_component_height (s : siz) (c : Z) : ex Z :=
  let* (_, _, yr) := siz_at s c in cdiv (sub32 (Ysiz s) (YOsiz s)) yr.

(** COC_marker::is_dfs_defined 534, get_dfs_index 536, get_dwt_levels 540. *)
Definition is_dfs_defined (b : Z) : bool := negb (b &b 128 =? 0).
Definition get_dfs_index (b : Z) : Z := b &b 15.
Definition coc_levels (b : Z) : Z := b &b 31.

(** get_minimum_DWT_levels, decoder.cpp:320-337.  [i] is the index into the
    list of COC segments. *)
Fixpoint min_loop (cocs : list coc) (cs : list Z) (i n : Z) : out Z :=
  match cs with
  | [] => Ret n
  | c :: cs =>
      if negb ((0 <=? i) && (i <? zlen cocs)) then UB else
      let k := znth (Coc 0 0 []) cocs i in
      if Ccoc k =? c then
        let* b := rd (SPcoc k) 0 in
        min_loop cocs cs (i + 1) (if is_dfs_defined b then n else if coc_levels b <? n then coc_levels b else n)
      else min_loop cocs cs i n
  end.
Definition get_minimum_DWT_levels (s : siz) (c : cod) (cocs : list coc) : out Z :=
  let* n := get_dwt_levels c in
  if zlen cocs =? 0 then Ret n else min_loop cocs (zseq (Csiz s)) 0 n.

(** DFS_marker::get_max_safe_reduce, j2kmarkers.cpp:676-685; DWT_BIDIR is 1.
    get_dfs_marker, 1817-1822. *)
Fixpoint bidir_run (l : list Z) : Z :=
  match l with d :: l => if d =? 1 then 1 + bidir_run l else 0 | [] => 0 end.
Definition get_dfs_marker (ds : list dfs) (i : Z) : option dfs := List.find (fun d => Sdfs d &b 15 =? i) ds.

(** get_max_safe_reduce_NL, decoder.cpp:339-362. *)
Fixpoint reduce_loop (cocs : list coc) (ds : list dfs) (cs : list Z) (i n : Z) : out Z :=
  match cs with
  | [] => Ret n
  | c :: cs =>
      let k := znth (Coc 0 0 []) cocs i in
      if (i <? zlen cocs) && (Ccoc k =? c) then
        let* b := rd (SPcoc k) 0 in
        let n := if is_dfs_defined b then
                   match get_dfs_marker ds (get_dfs_index b) with
                   | Some d => if bidir_run (Ddfs d) <? n then bidir_run (Ddfs d) else n
                   | None => n
                   end
                 else n in
        reduce_loop cocs ds cs (i + 1) n
      else reduce_loop cocs ds cs i n
  end.
Definition get_max_safe_reduce_NL (s : siz) (c : cod) (cocs : list coc) (ds : list dfs) : out Z :=
  let* n := get_minimum_DWT_levels s c cocs in
  if zlen cocs =? 0 then Ret n else reduce_loop cocs ds (zseq (Csiz s)) 0 n.

(** ** Geometry of the output *)

(** A tile: whether it uses the colour transform (MCT) and [tcomp[c].NL]. *)
Record tile_in := { t_mct : bool; t_NL : list Z }.

(** Position of tile [i] of [nx] per row, coding_units.cpp:4014-4027. *)
Definition tile_region (s : siz) (nx i : Z) : ex region :=
  if nx =? 0 then UB else
  let p := i mod nx in
  let q := i / nx in
  ret (Reg (tile_lo (XTOsiz s) (XTsiz s) (XOsiz s) p) (tile_lo (YTOsiz s) (YTsiz s) (YOsiz s) q)
           (tile_hi (XTOsiz s) (XTsiz s) (Xsiz s) p) (tile_hi (YTOsiz s) (YTsiz s) (Ysiz s) q)).

(** Position of its component [c], coding_units.cpp:3527-3530. *)
Definition tcomp_region (xr yr : Z) (g : region) : ex region :=
  let? a := cdiv (x0 g) xr in
  let? b := cdiv (y0 g) yr in
  let? c := cdiv (x1 g) xr in
  let? e := cdiv (y1 g) yr in
  ret (Reg a b c e).

(** Width and height given to the caller, decoder.cpp:422-430. *)
Definition out_size (s : siz) (r c : Z) : ex (Z * Z) :=
  let* (_, xr, yr) := siz_at s c in
  let? a0 := cdiv (XOsiz s) xr in
  let? a1 := cdiv (Xsiz s) xr in
  let? b0 := cdiv (YOsiz s) yr in
  let? b1 := cdiv (Ysiz s) yr in
  let? d := shl1 r in
  let? w := cdiv (sub32 a1 a0) d in
  let? h := cdiv (sub32 b1 b0) d in
  ret (w, h).

(** [CInfo], coding_units.cpp:5821-5827; filled at 5829-5857.  The index of the
    resolution is a uint8_t; resolution[] has NL + 1 entries. *)
Record cinfo := CI { csize_x : Z; csize_y : Z; x_offset : Z; y_offset : Z; out_stride : Z }.
Definition active_region (NL r : Z) (g : region) : ex region :=
  let i := (NL - r) mod 256 in
  if NL <? i then UB else res_region NL i g.
Definition comp_info (s : siz) (r : Z) (g : region) (NL c : Z) : ex cinfo :=
  let* (_, xr, yr) := siz_at s c in
  let? a0 := cdiv (XOsiz s) xr in
  let? b0 := cdiv (YOsiz s) yr in
  let? a1 := cdiv (Xsiz s) xr in
  let? tc := tcomp_region xr yr g in
  let? res := active_region NL r tc in
  let? d := shl1 r in
  let? a := cdiv a0 d in
  let? b := cdiv b0 d in
  let? st := cdiv (sub32 a1 a0) d in
  ret (CI (sub32 (x1 res) (x0 res)) (sub32 (y1 res) (y0 res)) (sub32 (x0 res) a) (sub32 (y0 res) b) st).

(** ** Storing samples *)

Fixpoint foldo {A B} (f : A -> B -> out A) (a : A) (l : list B) : out A :=
  match l with
  | [] => Ret a
  | b :: l => let* a := f a b in foldo f a l
  end.
Fixpoint foldx {A B} (f : A -> B -> ex A) (a : A) (l : list B) : ex A :=
  match l with
  | [] => ret a
  | b :: l => let? a := f a b in foldx f a l
  end.

(** The caller's arrays: [new int32_t[]] leaves the elements indeterminate. *)
Definition mem := Z -> Z -> option Z.
Definition upd {A} (f : Z -> A) (i : Z) (v : A) : Z -> A := fun j => if j =? i then v else f j.
Definition store (size : Z -> Z) (m : mem) (c i v : Z) : out mem :=
  if (0 <=? i) && (i <? size c) then Ret (upd m c (upd (m c) i (Some v))) else UB.

Section Decode.
  Variable raw : Z -> Z -> Z -> Z -> Z.
  Variable fin : Z -> Z -> Z.
  Variable mix : Z -> Z -> Z -> Z -> Z.
  Variable size : Z -> Z.   (* elements of array c *)

  (** pull_line / pull_line_ref: the row, or null. *)
  Definition pull (cis : list cinfo) (cur : Z -> Z) (c : Z) : option Z * (Z -> Z) :=
    if cur c <? csize_y (znth (CI 0 0 0 0 0) cis c) then (Some (cur c), upd cur c (cur c + 1)) else (None, cur).

  (** One sample of a pulled row. *)
  Definition sample (t c : Z) (I : cinfo) (k : option Z) (n : Z) : out Z :=
    match k with
    | Some k => if n <? csize_x I then Ret (raw t c k n) else UB
    | None => UB
    end.

  (** [I.cdst + I.x_offset + (y + I.y_offset) * I.out_stride], in uint32_t
      but for the pointer additions. *)
  Definition row_start (I : cinfo) (y : Z) : Z :=
    x_offset I + wrap32 (wrap32 (y + y_offset I) * out_stride I).

  (** One row of a component without colour transform, coding_units.cpp:5960-6030
      and, for the components after the third, 5936-5953. *)
  Definition plain_row (t y : Z) (cis : list cinfo) (st : (Z -> Z) * mem) (c : Z) : out ((Z -> Z) * mem) :=
    let I := znth (CI 0 0 0 0 0) cis c in
    if csize_y I <=? y then Ret st else
    let '(k, cur) := pull cis (fst st) c in
    let* m := foldo (fun m n => let* v := sample t c I k n in
                                store size m c (row_start I y + n) (fin c v))
                    (snd st) (zseq (csize_x I)) in
    Ret (cur, m).

  (** One row of the three components under the colour transform, 5909-5934. *)
  Definition mct_row (t y : Z) (cis : list cinfo) (st : (Z -> Z) * mem) : out ((Z -> Z) * mem) :=
    let ci c := znth (CI 0 0 0 0 0) cis c in
    let '(k0, cur) := pull cis (fst st) 0 in
    let '(k1, cur) := pull cis cur 1 in
    let '(k2, cur) := pull cis cur 2 in
    let* m := foldo (fun m n => let* v0 := sample t 0 (ci 0) k0 n in
                                let* v1 := sample t 1 (ci 1) k1 n in
                                let* v2 := sample t 2 (ci 2) k2 n in
                                let* m := store size m 0 (row_start (ci 0) y + n) (mix 0 v0 v1 v2) in
                                let* m := store size m 1 (row_start (ci 1) y + n) (mix 1 v0 v1 v2) in
                                store size m 2 (row_start (ci 2) y + n) (mix 2 v0 v1 v2))
                    (snd st) (zseq (csize_x (ci 0))) in
    Ret (cur, m).

  (** The row loop, 5905-6036. *)
  Definition tile_rows (t : Z) (mct : bool) (cis : list cinfo) (m : mem) : out mem :=
    let NC := zlen cis in
    let* st := foldo (fun st y =>
        if (3 <=? NC) && mct then
          let* st := mct_row t y cis st in
          foldo (plain_row t y cis) st (map (fun c => 3 + c) (zseq (NC - 3)))
        else foldo (plain_row t y cis) st (zseq NC))
      (fun _ => 0, m) (zseq (csize_y (znth (CI 0 0 0 0 0) cis 0))) in
    Ret (snd st).

  (** decode_line_based, 5817-6041, for tile [i], with the check of
      create_tile_buf, 4133-4137. *)
  Definition decode_line_based (s : siz) (r nx : Z) (tiles : Z -> tile_in) (m : mem) (i : Z) : ex mem :=
    let t := tiles i in
    if existsb (fun n => n <? r) (t_NL t) then throw else
    let? g := tile_region s nx i in
    let? cis := mapM (fun c => let* n := rd (t_NL t) c in comp_info s r g n c) (zseq (Csiz s)) in
    let* m := tile_rows i (t_mct t) cis m in
    ret m.
End Decode.

(** invoke_line_based, decoder.cpp:383-478: the sizes of the arrays and what
    they hold.  [maxr] is get_max_safe_reduce_NL(); every tile has at least
    one tile-part. *)
Definition invoke_line_based (raw : Z -> Z -> Z -> Z -> Z) (fin : Z -> Z -> Z) (mix : Z -> Z -> Z -> Z -> Z)
    (s : siz) (r maxr : Z) (tiles : Z -> tile_in) : ex (list (Z * Z) * (Z -> Z) * mem) :=
  if maxr <? r then throw else
  let? nx := tiles_along (Xsiz s) (XTOsiz s) (XTsiz s) in
  let? ny := tiles_along (Ysiz s) (YTOsiz s) (YTsiz s) in
  let n := wrap32 (nx * ny) in
  if 65535 <? n then throw else
  let? l := mapM (out_size s r) (zseq (Csiz s)) in
  let size c := wrap32 (fst (znth (0, 0) l c) * snd (znth (0, 0) l c)) in
  let? m := foldx (decode_line_based raw fin mix size s r nx tiles) (fun _ _ => None) (zseq n) in
  ret (l, size, m).
