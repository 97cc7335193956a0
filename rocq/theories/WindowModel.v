(** Decoding a window: the horizontal kernels restricted to a column range, the
    per-level column and row ranges, and the state of the column range across
    frames of a decoder that keeps its buffers.

    A row buffer is a function from positions to samples: position [k] is
    column [u0 + k] of the level, negative positions and those from the width
    on are the slack around a ring slot.  Sample arithmetic is a parameter
    ([arith]), so the model covers the float pipelines (9/7, 5/3, the two-step
    irreversible filter) and the int32 one.  Simplified: one arithmetic for
    all horizontal and one for all vertical steps (the SIMD kernels are not
    modelled); memory bounds are not tracked here (C22, C25); the sub-band
    rows are given (C81); levels are BIDIR. *)
From Verif Require Import Base DwtModel StreamModel PyramidModel.

(** Samples and the arithmetic of one lifting step: [hs low k t p q] updates
    sample [t] of a low-pass ([low]) or high-pass position from its two
    neighbours in round [k] (9/7: round 0 is fD / fC, round 1 fB / fA; the
    others have round 0 only), horizontally; [vs] vertically.  [zt] is the test
    "all bits are zero"; [hh], [hv] halve a lone sample. *)
Record arith (T : Type) := {
  zero : T; zt : T -> bool;
  hs : bool -> nat -> T -> T -> T -> T;
  vs : bool -> nat -> T -> T -> T -> T;
  hh : T -> T; hv : T -> T }.
Arguments zero {T}. Arguments zt {T}. Arguments hs {T}. Arguments vs {T}. Arguments hh {T}. Arguments hv {T}.

(** Ranges handed to the levels: [None] when never narrowed. *)
Definition span := option (Z * Z).
Definition int_min : Z := - 2 ^ 31.
Definition int_max : Z := 2 ^ 31 - 1.

Section Row.
  Context {T : Type} (A : arith T).
  (** [wt] = transformation (0: 9/7, 1: 5/3, 2 and up: two-step irreversible);
      [use_i32]: the integer pipeline. *)
  Variable (wt : Z) (use_i32 : bool).
  Definition row := Z -> T.
  Definition put (X : row) (n : Z) (v : T) : row := fun k => if k =? n then v else X k.

  (** One lifting loop, in place, from [n] in steps of two, [count] times. *)
  Fixpoint pass (f : T -> T -> T -> T) (count : nat) (n : Z) (X : row) : row :=
    match count with
    | O => X
    | S c => pass f c (n + 2) (put X n (f (X n) (X (n - 1)) (X (n + 1))))
    end.
  (** for (n = a; n <= b; n += 2) *)
  Definition loop f (a b : Z) (X : row) : row := pass f (Z.to_nat ((b - a) / 2 + 1)) a X.

  (** source/core/transform/idwt.cpp:157-188 [idwt_1d_filtr_irrev97_fixed].
      Simplified: the unused copy of 32 bytes into [a] is left out. *)
  Definition full97 (left i0 i1 : Z) (X : row) : row :=
    let start := i0 / 2 in
    let stop := i1 / 2 in
    let offset := left - i0 mod 2 in
    let X := pass (hs A true 0) (Z.to_nat (stop + 2 - (start - 1))) (-2 + offset) X in
    let X := pass (hs A false 0) (Z.to_nat (stop + 1 - (start - 1))) (-2 + offset + 1) X in
    let X := pass (hs A true 1) (Z.to_nat (stop + 1 - start)) offset X in
    pass (hs A false 1) (Z.to_nat (stop - start)) (offset + 1) X.

  (** idwt.cpp:190-205 [idwt_1d_filtr_rev53_fixed], 137-145 (int32) and the
      two-step irreversible filter (idwt.cpp:218-233), which has the same loops. *)
  Definition full53 (left i0 i1 : Z) (X : row) : row :=
    let start := i0 / 2 in
    let stop := i1 / 2 in
    let offset := left - i0 mod 2 in
    let X := pass (hs A true 0) (Z.to_nat (stop + 1 - start)) offset X in
    pass (hs A false 0) (Z.to_nat (stop - start)) (offset + 1) X.

  (** The lambda [clip] of idwt.cpp:890-899, 931-938. *)
  Definition clip (buf_lo buf_hi n_init n_last : Z) : Z * Z :=
    let ns := if n_init <? buf_lo then buf_lo else n_init in
    let ns := if (ns - n_init) mod 2 =? 0 then ns else ns + 1 in
    let ne := if buf_hi <? n_last then buf_hi else n_last in
    let ne := if (ne - n_init) mod 2 =? 0 then ne else ne - 1 in
    (ns, ne).
  (** A clipped loop over [n] writing X[n + d]. *)
  Definition clipped f (d buf_lo buf_hi n_init n_last : Z) (X : row) : row :=
    let (ns, ne) := clip buf_lo buf_hi n_init n_last in
    loop f (ns + d) (ne + d) X.

  (** idwt.cpp:882-921 [idwt_1d_filtr_irrev97_fixed_range]. *)
  Definition range97 (left i0 i1 buf_lo buf_hi : Z) (X : row) : row :=
    let start := i0 / 2 in
    let stop := i1 / 2 in
    let offset := left - i0 mod 2 in
    let X := clipped (hs A true 0) 0 buf_lo buf_hi (-2 + offset) (-2 + offset + 2 * (stop - start + 2)) X in
    let X := clipped (hs A false 0) 1 buf_lo buf_hi (-2 + offset) (-2 + offset + 2 * (stop - start + 1)) X in
    let X := clipped (hs A true 1) 0 buf_lo buf_hi offset (offset + 2 * (stop - start)) X in
    clipped (hs A false 1) 1 buf_lo buf_hi offset (offset + 2 * (stop - start - 1)) X.

  (** idwt.cpp:924-950 [idwt_1d_filtr_rev53_fixed_range]. *)
  Definition range53 (left i0 i1 buf_lo buf_hi : Z) (X : row) : row :=
    let start := i0 / 2 in
    let stop := i1 / 2 in
    let offset := left - i0 mod 2 in
    let X := clipped (hs A true 0) 0 buf_lo buf_hi offset (offset + 2 * (stop - start)) X in
    clipped (hs A false 0) 1 buf_lo buf_hi offset (offset + 2 * (stop - start - 1)) X.

  (** source/core/transform/dwt.hpp:102-108 [PSEo] for a range of two samples or more. *)
  Definition pseo (i i0 i1 : Z) : Z :=
    let tmp0 := 2 * (i1 - i0 - 1) in
    let tmp1 := if i - i0 <? 0 then i0 - i else i - i0 in
    let m := Z.rem tmp1 tmp0 in
    if m <? tmp0 - m then m else tmp0 - m.

  (** The extension of idwt.cpp:839-850, 965-972: eight samples on each side
      by constant-pattern reflection (dwt.hpp:131-172) for nine columns or
      more, otherwise [left] and [right] of them by [PSEo].  The loops read
      inside the row and write outside it, so they are written as one
      function. *)
  Definition fill (left right u0 u1 : Z) (x : row) : row :=
    let w := u1 - u0 in
    fun k =>
      if 9 <=? w then
        if (-8 <=? k) && (k <? 0) then x (- k)
        else if (w <=? k) && (k <? w + 8) then x (w - 2 - (k - w))
        else x k
      else
        if (- left <=? k) && (k <? 0) then x (pseo (u0 + k) u0 u1)
        else if (w <=? k) && (k <? w + right) then x (pseo (u0 + k) u0 u1)
        else x k.

  (** X = row - left, run [f], and back. *)
  Definition at_left (left : Z) (f : row -> row) (x : row) : row :=
    let y := f (fun n => x (n - left)) in fun k => y (k + left).

  (** idwt.cpp:836-856 [idwt_1d_row_inplace], 858-878 (int32). *)
  Definition row_full (left right u0 u1 : Z) (x : row) : row :=
    at_left left (if wt =? 0 then full97 left u0 u1 else full53 left u0 u1) (fill left right u0 u1 x).

  (** idwt.cpp:952-1003 [idwt_1d_row_inplace_range]. *)
  Definition row_range (left right u0 u1 col_lo col_hi : Z) (x : row) : row :=
    if (col_lo <=? u0) && (u1 <=? col_hi) then row_full left right u0 u1 x
    else
      let widen := if wt =? 1 then 2 else 4 in
      let buf_lo := if col_lo - widen <? u0 then int_min else col_lo - u0 - widen + left in
      let buf_hi := if u1 <? col_hi + widen then int_max else col_hi - u0 - 1 + widen + left in
      at_left left (if wt =? 1 then range53 left u0 u1 buf_lo buf_hi
                    else if wt =? 0 then range97 left u0 u1 buf_lo buf_hi
                    else full53 left u0 u1) (fill left right u0 u1 x).

  (** Extension counts, coding_units.cpp:2957-2959, 2980-2981. *)
  Definition h_left (u0 u1 : Z) : Z :=
    if 1 <? u1 - u0 then (if wt =? 0 then 3 else 1) + u0 mod 2 else 0.
  Definition h_right (u0 u1 : Z) : Z :=
    if 1 <? u1 - u0 then (if wt =? 0 then 4 else 2) - u1 mod 2 else 0.

  (** idwt.cpp:1005-1096 [interleave_row_planes] into a slot holding [old]:
      low-pass samples at even columns. *)
  Definition woven (u0 u1 : Z) (lp hp old : row) : row := fun k =>
    if (0 <=? k) && (k <? u1 - u0) then
      if (u0 + k) mod 2 =? 0 then lp ((u0 + k) / 2 - ceil2 u0) else hp ((u0 + k) / 2 - u0 / 2)
    else old k.

  (** idwt.cpp:1098-1228 [idwt_1d_row_from_planar] without the SIMD shortcuts. *)
  Definition from_planar (u0 u1 col_lo col_hi : Z) (lp hp old : row) : row :=
    let w := u1 - u0 in
    if w <=? 0 then old
    else if w =? 1 then
      put old 0 (if u0 mod 2 =? 0 then lp 0 else if wt =? 1 then hh A (hp 0) else hp 0)
    else
      let x := woven u0 u1 lp hp old in
      if use_i32 then row_full (h_left u0 u1) (h_right u0 u1) u0 u1 x
      else row_range (h_left u0 u1) (h_right u0 u1) u0 u1 col_lo col_hi x.

  (** coding_units.cpp:158-173 [lp_hp_both_zero], idwt.cpp:1256-1261
      [row_all_zero]: are the first [w] samples zero bits? *)
  Definition scan (w : Z) (x : row) : bool := forallb (fun k => zt A (x k)) (zseq w).
  (** memset of the first [w] samples. *)
  Definition cleared (w : Z) (x : row) : row := fun k => if (0 <=? k) && (k <? w) then zero A else x k.

  (** coding_units.cpp:176-315 [idwt_level_src_fn] (BIDIR), then the flag set
      by idwt.cpp:1419-1452 [fetch_one]. *)
  Definition level_row (u0 u1 v0 col_lo col_hi row_lo : Z) (low hl lh hh : Z -> row) (old : Z -> row) (r : Z) : row * bool :=
    let w := u1 - u0 in
    if r <? row_lo then (cleared w (old r), true)
    else
      let even := r mod 2 =? 0 in
      let sub := if even then r / 2 - ceil2 v0 else r / 2 - v0 / 2 in
      let lp := if even then low sub else lh sub in
      let hp := if even then hl sub else hh sub in
      let x := if (0 <? w) && (scan (width_lp u0 u1) lp && scan (width_hp u0 u1) hp)
               then cleared w (old r)
               else from_planar u0 u1 col_lo col_hi lp hp (old r) in
      (x, scan w x).

  (** idwt.cpp:1274-1316 [adv_step]: the lifting of one row, on the columns of
      the state's range only. *)
  Definition row_step (u0 col_lo col_hi r : Z) (k : nat) (t p q : row) : row := fun c =>
    if (col_lo - u0 <=? c) && (c <? col_hi - u0) then vs A (r mod 2 =? 0) k (t c) (p c) (q c) else t c.

  (** idwt.cpp:1580-1592: a lone row at an odd position. *)
  Definition lone (u0 u1 v0 : Z) (x : row * bool) : row * bool :=
    if (wt =? 1) && (v0 mod 2 =? 1)
    then ((fun k => if (0 <=? k) && (k <? u1 - u0) then hv A (fst x k) else fst x k), snd x)
    else x.

  (** idwt.cpp:1506-1512 [idwt_2d_state_set_col_range], 1514-1520
      [idwt_2d_state_set_row_range] and the same clamps in coding_units.cpp:
      3036-3041, 3076-3081. *)
  Definition narrow (w : span) (lo hi : Z) : Z * Z :=
    match w with
    | None => (lo, hi)
    | Some (a, b) =>
        let a := if a <? lo then lo else a in
        let b := if hi <? b then hi else b in
        (if b <? a then b else a, b)
    end.
  (** The next coarser level's range: coding_units.cpp:3045-3048, 3082-3085. *)
  Definition coarser (w : span) : span :=
    match w with
    | None => None
    | Some (a, b) => Some (Z.shiftr a 1 - 4, Z.shiftr (b + 1) 1 + 4)
    end.

  (** All rows pulled from one level. *)
  Definition level (u0 u1 v0 v1 : Z) (cw rw : span) (low hl lh hh : Z -> row) (old : Z -> row) : out (list (option row)) :=
    let (col_lo, col_hi) := narrow cw u0 u1 in
    let (row_lo, row_hi) := narrow rw v0 v1 in
    let* l := idwt_pulls (idwt_geom (if wt =? 0 then 2 else 1) v0 v1)
                         (skipping (row_step u0 col_lo col_hi)) (lone u0 u1 v0)
                         (fun r => Ret (level_row u0 u1 v0 col_lo col_hi row_lo low hl lh hh old r))
                         (Z.to_nat (v1 - v0)) in
    Ret (map (option_map fst) l).

  (** Sub-band rows by index from the top of the band, coarsest inside. *)
  Inductive bands :=
    | WCoarse (ll : Z -> row)
    | WFiner (hl lh hh : Z -> row) (low : bands).
  Fixpoint depth (p : bands) : nat := match p with WCoarse _ => O | WFiner _ _ _ q => S (depth q) end.

  (** All rows pulled from the finest level, as in [PyramidModel.decode]; the
      ranges of the coarser levels by coding_units.cpp:3019-3050
      [set_line_decode_col_range] and 3052-3087 [set_line_decode_row_range].
      [old i r] is what the ring slot of row [r] at level [i] held before. *)
  Fixpoint window_rows (p : bands) (u0 u1 v0 v1 : Z) (cw rw : span) (old : nat -> Z -> row) : out (list (option row)) :=
    match p with
    | WCoarse ll => Ret (map (fun i => Some (ll i)) (zseq (v1 - v0)))
    | WFiner hl lh hh low =>
        let* child :=
          match low with
          | WCoarse ll => Ret (fun sub => ll (pse_row_idx sub (ceil2 v1 - ceil2 v0)))
          | WFiner _ _ _ _ =>
              let* l := window_rows low (ceil2 u0) (ceil2 u1) (ceil2 v0) (ceil2 v1) (coarser cw) (coarser rw) old in
              Ret (fun sub => match znth None l sub with Some x => x | None => fun _ => zero A end)
          end in
        level u0 u1 v0 v1 cw rw child hl lh hh (old (depth p))
    end.

  (** coding_units.cpp:3052-3072: the finest level's row range. *)
  Definition row_span (v1 row_lo row_hi : Z) : span :=
    let a := if v1 <=? row_lo then v1 else row_lo in
    let b := if v1 <=? row_hi then v1 else row_hi in
    Some (a - 16, b + 16).
End Row.
Arguments bands : clear implicits.

(** ** The column range across frames *)

Definition uint_max : Z := 2 ^ 32 - 1.
(** static_cast<int32_t> of a uint32_t *)
Definition to_i32 (x : Z) : Z := if x <? 2 ^ 31 then x else x - 2 ^ 32.

(** A component between frames: [None] when it has no line decoder
    ([line_dec] is null), otherwise the range its levels were last given. *)
Definition kept := option span.

(** One frame of coding_units.cpp:6055-6152 [decode_line_based_stream] for a
    component: the range is applied when it is not the default (6072-6076;
    3020: nothing happens without a line decoder), then init_line_decode
    creates the line decoder with full ranges (2982-2985, idwt.cpp:1496-1499)
    or rewinds the existing one, which leaves the column range as it is
    (coding_units.cpp:2850-2853, 3316-3328; idwt.cpp:1536-1545), then the row
    range is applied (6146-6154).  The result is the ranges the frame is
    decoded with, and what is kept; [finalize_line_decode] drops the line
    decoder unless it is to persist. *)
Definition frame (persist : bool) (yr v1 col_lo col_hi row_lo row_hi : Z) (s : kept) : span * span * kept :=
  let s := if negb (col_lo =? 0) || negb (col_hi =? uint_max) then
             match s with None => None | Some _ => Some (Some (to_i32 col_lo, to_i32 col_hi)) end
           else s in
  let cw := match s with None => None | Some w => w end in
  let rw := if row_lo =? 0 then None
            else row_span v1 (row_lo / yr) (if row_hi =? uint_max then uint_max else (row_hi + yr - 1) / yr) in
  (cw, rw, if persist then Some cw else None).
