(** The coding passes of a code-block, as ITU-T T.800 Annex D defines them. *)
From Verif Require Import Base OutModel.

Definition b2z (b : bool) : Z := if b then 1 else 0.

(** Table D.1: context of a significance decision, from the numbers of
    significant horizontal, vertical and diagonal neighbours.  Orientations:
    0 LL, 1 HL, 2 LH, 3 HH. *)
Definition table_D1_LL (H V D : Z) : Z :=
  if H =? 2 then 8 else
  if H =? 1 then (if 1 <=? V then 7 else if 1 <=? D then 6 else 5) else
  if V =? 2 then 4 else if V =? 1 then 3 else if 2 <=? D then 2 else D.
Definition table_D1_HH (HV D : Z) : Z :=
  if 3 <=? D then 8 else
  if D =? 2 then (if 1 <=? HV then 7 else 6) else
  if D =? 1 then (if 2 <=? HV then 5 else if HV =? 1 then 4 else 3) else
  if 2 <=? HV then 2 else HV.
Definition table_D1 (orient H V D : Z) : Z :=
  if orient =? 3 then table_D1_HH (H + V) D else if orient =? 1 then table_D1_LL V H D else table_D1_LL H V D.

(** Tables D.2 and D.3: context of a sign decision and the bit that flips it,
    from the contributions of the horizontal and vertical neighbours. *)
Definition contribution (a b : Z) : Z := Z.max (-1) (Z.min 1 (a + b)).
Definition table_D3 (H V : Z) : Z * Z :=
  if H =? 1 then (if V =? 1 then (13, 0) else if V =? 0 then (12, 0) else (11, 0)) else
  if H =? 0 then (if V =? 1 then (10, 0) else if V =? 0 then (9, 0) else (10, 1)) else
  (if V =? 1 then (11, 1) else if V =? 0 then (12, 1) else (13, 1)).

Section Passes.
  Variable src : Type.
  Variable dec : src -> Z -> out (Z * src).   (* a decision with a context *)
  Variable raw : src -> out (Z * src).        (* a bit *)
  Variables w h orient : Z.
  Variable causal : bool.

  (** What is known of the coefficients (row, column): significant, negative,
      magnitude, refined before, coded in this bit-plane's significance
      propagation pass, last bit-plane a bit was decoded in. *)
  Record coefs := Coefs { sig : Z -> Z -> bool; neg : Z -> Z -> bool; mag : Z -> Z -> Z; refd : Z -> Z -> bool;
    cod : Z -> Z -> bool; low : Z -> Z -> Z; cso : src }.
  Definition up2 {A} (f : Z -> Z -> A) (y x : Z) (v : A) : Z -> Z -> A :=
    fun y' x' => if (y' =? y) && (x' =? x) then v else f y' x'.

  (** Is the neighbour at [y'], [x'] seen as significant from row [y]?  Not
      outside the block, and not in the next stripe in vertically causal
      mode (D.7). *)
  Definition on (s : coefs) (y x : Z) : bool := (0 <=? y) && (y <? h) && (0 <=? x) && (x <? w) && sig s y x.
  Definition sees (s : coefs) (y y' x' : Z) : bool := on s y' x' && negb (causal && (y / 4 <? y' / 4)).
  Definition count (l : list bool) : Z := fold_right (fun b n => b2z b + n) 0 l.
  Definition context (s : coefs) (y x : Z) : Z :=
    table_D1 orient (count [sees s y y (x - 1); sees s y y (x + 1)]) (count [sees s y (y - 1) x; sees s y (y + 1) x])
      (count [sees s y (y - 1) (x - 1); sees s y (y - 1) (x + 1); sees s y (y + 1) (x - 1); sees s y (y + 1) (x + 1)]).
  Definition sense (s : coefs) (y y' x' : Z) : Z := if sees s y y' x' then (if neg s y' x' then -1 else 1) else 0.
  Definition sign_context (s : coefs) (y x : Z) : Z * Z :=
    table_D3 (contribution (sense s y y (x - 1)) (sense s y y (x + 1))) (contribution (sense s y (y - 1) x) (sense s y (y + 1) x)).

  Definition with_cso (s : coefs) (o : src) : coefs := Coefs (sig s) (neg s) (mag s) (refd s) (cod s) (low s) o.
  Definition decide (s : coefs) (label : Z) : out (Z * coefs) := let* (x, o) := dec (cso s) label in Ret (x, with_cso s o).
  Definition bit (s : coefs) : out (Z * coefs) := let* (x, o) := raw (cso s) in Ret (x, with_cso s o).
  Definition set_mag (s : coefs) (y x p : Z) : coefs := Coefs (sig s) (neg s) (up2 (mag s) y x (Z.setbit (mag s y x) p)) (refd s) (cod s) (low s) (cso s).
  Definition set_low (s : coefs) (y x p : Z) : coefs := Coefs (sig s) (neg s) (mag s) (refd s) (cod s) (up2 (low s) y x p) (cso s).
  Definition set_cod (s : coefs) (y x : Z) (v : bool) : coefs := Coefs (sig s) (neg s) (mag s) (refd s) (up2 (cod s) y x v) (low s) (cso s).
  Definition set_refd (s : coefs) (y x : Z) : coefs := Coefs (sig s) (neg s) (mag s) (up2 (refd s) y x true) (cod s) (low s) (cso s).
  Definition set_sig (s : coefs) (y x : Z) : coefs := Coefs (up2 (sig s) y x true) (neg s) (mag s) (refd s) (cod s) (low s) (cso s).
  Definition set_neg (s : coefs) (y x : Z) (v : bool) : coefs := Coefs (sig s) (up2 (neg s) y x v) (mag s) (refd s) (cod s) (low s) (cso s).

  (** A coefficient becomes significant in bit-plane [p]; its sign follows
      (D.3.2; raw in the lazy mode, D.6). *)
  Definition becomes (by_raw : bool) (p : Z) (s : coefs) (y x : Z) : out coefs :=
    let s := set_sig (set_mag s y x p) y x in
    if by_raw then let* (v, s) := bit s in Ret (set_neg s y x (v =? 1))
    else let '(label, flip) := sign_context s y x in
         let* (v, s) := decide s label in
         Ret (set_neg s y x (negb (v =? flip))).

  (** Significance propagation, D.3.1. *)
  Definition spp_at (by_raw : bool) (p : Z) (s : coefs) (yx : Z * Z) : out coefs :=
    let '(y, x) := yx in
    if negb (sig s y x) && negb (context s y x =? 0) then
      let* (v, s) := if by_raw then bit s else decide s (context s y x) in
      let s := set_low s y x p in
      let* s := if v =? 1 then becomes by_raw p s y x else Ret s in
      Ret (set_cod s y x true)
    else Ret (set_cod s y x false).
  (** Magnitude refinement, D.3.3 and Table D.4. *)
  Definition mrp_at (by_raw : bool) (p : Z) (s : coefs) (yx : Z * Z) : out coefs :=
    let '(y, x) := yx in
    if sig s y x && negb (cod s y x) then
      let* (v, s) := if by_raw then bit s else decide s (if refd s y x then 16 else if context s y x =? 0 then 14 else 15) in
      let s := if v =? 1 then set_mag s y x p else s in
      Ret (set_low (set_refd s y x) y x p)
    else Ret s.
  (** Cleanup, D.3.4: one coefficient, and a column of a stripe with the run
      mode when all four are left and have context 0. *)
  Definition cup_at (p : Z) (s : coefs) (yx : Z * Z) : out coefs :=
    let '(y, x) := yx in
    if negb (sig s y x) && negb (cod s y x) then
      let* (v, s) := decide s (context s y x) in
      let s := set_low s y x p in
      if v =? 1 then becomes false p s y x else Ret s
    else Ret s.
  Definition idle (s : coefs) (y x : Z) : bool := negb (sig s y x) && negb (cod s y x) && (context s y x =? 0).
  Definition column_of (n x : Z) : list (Z * Z) := map (fun i => (4 * n + i, x)) (zseq (Z.min 4 (h - 4 * n))).
  Definition cup_column (p : Z) (s : coefs) (nx : Z * Z) : out coefs :=
    let '(n, x) := nx in
    if (4 * n + 4 <=? h) && idle s (4 * n) x && idle s (4 * n + 1) x && idle s (4 * n + 2) x && idle s (4 * n + 3) x then
      let* (v, s) := decide s 17 in
      if v =? 1 then
        let* (a, s) := decide s 18 in
        let* (b, s) := decide s 18 in
        let r := 2 * a + b in
        let* s := becomes false p (set_low s (4 * n + r) x p) (4 * n + r) x in
        foldo (cup_at p) s (map (fun i => (4 * n + r + 1 + i, x)) (zseq (3 - r)))
      else Ret s
    else foldo (cup_at p) s (column_of n x).

  (** The scan of D.1: stripes of four rows, column by column. *)
  Definition stripes : Z := (h + 3) / 4.
  Definition stripe_columns : list (Z * Z) := flat_map (fun n => map (fun x => (n, x)) (zseq w)) (zseq stripes).
  Definition scan : list (Z * Z) := flat_map (fun nx => column_of (fst nx) (snd nx)) stripe_columns.

  Definition spp (by_raw : bool) (p : Z) (s : coefs) : out coefs := foldo (spp_at by_raw p) s scan.
  Definition mrp (by_raw : bool) (p : Z) (s : coefs) : out coefs := foldo (mrp_at by_raw p) s scan.
  Definition cup (p : Z) (s : coefs) : out coefs := foldo (cup_column p) s stripe_columns.

  (** ** All passes (D.3, D.4, D.5, D.6) *)
  Variable seg : src -> Z -> Z -> bool -> out src.
  Variable reset : src -> src.
  Variables bypass reset_cx restart segmark : bool.
  Variable plen : list Z.
  Variable length : Z.
  Variable num_pass : Z.
  Variable planes : Z.   (* number of the first bit-plane, counted from the top *)

  (** The first pass is a cleanup; then three passes per bit-plane. *)
  Definition kind (z : Z) : Z := (z + 2) mod 3.
  Definition plane_of (z : Z) : Z := planes - (z + 2) / 3.
  (** Raw passes, Table D.9: from the fifth bit-plane on, except cleanups. *)
  Definition is_raw_pass (z : Z) : bool := bypass && (10 <=? z) && negb (kind z =? 2).
  (** Passes that start a codeword segment (D.4.2, Table D.9). *)
  Definition starts (z : Z) : bool := (z =? 0) || restart || (bypass && (10 <=? z) && negb (kind z =? 1)).
  (** The bytes of the first [z] passes, and of the segment that starts with
      pass [z]. *)
  Definition bytes_before (z : Z) : Z := fold_right Z.add 0 (map (fun i => znth 0 plen i) (zseq z)).
  Fixpoint seg_end (fuel : nat) (z : Z) : Z :=
    match fuel with
    | O => z
    | S fuel => if (num_pass <=? z) || starts z then z else seg_end fuel (z + 1)
    end.
  Definition seg_bytes (z : Z) : Z := bytes_before (seg_end (Z.to_nat num_pass) (z + 1)) - bytes_before z.

  Definition a_pass (s : coefs) (z : Z) : ex coefs :=
    let? s := if starts z then
                if length <? bytes_before z + seg_bytes z then throw else
                let* o := seg (cso s) (bytes_before z) (seg_bytes z) (is_raw_pass z) in ret (with_cso s o)
              else ret s in
    let s := if (z =? 0) || reset_cx then with_cso s (reset (cso s)) else s in
    let p := plane_of z in
    if kind z =? 0 then let* s := spp (is_raw_pass z) p s in ret s
    else if kind z =? 1 then let* s := mrp (is_raw_pass z) p s in ret s
    else
      let* s := cup p s in
      if segmark then
        let* (a, s) := decide s 18 in
        let* (b, s) := decide s 18 in
        let* (c, s) := decide s 18 in
        let* (d, s) := decide s 18 in
        if (a =? 1) && (b =? 0) && (c =? 1) && (d =? 0) then ret s else throw
      else ret s.
  Definition nothing (o : src) : coefs :=
    Coefs (fun _ _ => false) (fun _ _ => false) (fun _ _ => 0) (fun _ _ => false) (fun _ _ => false) (fun _ _ => 0) o.
  Definition all_passes (o : src) : ex coefs := foldx a_pass (nothing o) (zseq num_pass).
End Passes.
Arguments Coefs {src} sig neg mag refd cod low cso.
Arguments sig {src} c. Arguments neg {src} c. Arguments mag {src} c. Arguments refd {src} c. Arguments cod {src} c.
Arguments low {src} c. Arguments cso {src} c.
