(** The reversible 5/3 wavelet transform: boundary extension, one-dimensional
    lifting, planar rows, and the whole-image vertical passes.

    Samples are unbounded integers (the int32 pipeline of the code; its float
    pipeline computes the same floors on integer-valued floats).  Simplified:
    32-bit overflow of a sum of samples is not represented.  Every buffer
    access is checked: outside the buffer the outcome is [UB]. *)
From Verif Require Import Base.

(** Checked read / write of element [i] of a buffer of any element type. *)
Definition rdT {T} (l : list T) (i : Z) : out T :=
  if i <? 0 then UB
  else match nth_error l (Z.to_nat i) with Some v => Ret v | None => UB end.
Fixpoint set_nth {T} (n : nat) (v : T) (l : list T) : list T :=
  match l, n with
  | [], _ => []
  | _ :: l', O => v :: l'
  | a :: l', S n' => a :: set_nth n' v l'
  end.
Definition wrT {T} (l : list T) (i : Z) (v : T) : out (list T) :=
  if (i <? 0) || (zlen l <=? i) then UB else Ret (set_nth (Z.to_nat i) v l).
Fixpoint mapM {A B} (f : A -> out B) (l : list A) : out (list B) :=
  match l with
  | [] => Ret []
  | a :: l' => let* b := f a in let* bs := mapM f l' in Ret (b :: bs)
  end.

(** source/core/transform/dwt.hpp:102-108 [PSEo].  [%] by zero is undefined;
    C's [%] truncates towards zero, which matters for [i1 = i0]. *)
Definition pse_o (i i0 i1 : Z) : out Z :=
  let tmp0 := 2 * (i1 - i0 - 1) in
  let tmp1 := if i - i0 <? 0 then i0 - i else i - i0 in
  if tmp0 =? 0 then UB
  else let m := Z.rem tmp1 tmp0 in
       Ret (if m <? tmp0 - m then m else tmp0 - m).

(** 1, 2, ..., n *)
Definition upto (n : Z) : list Z := map (fun i => i + 1) (zseq n).

(** source/core/transform/dwt.hpp:219-229 [dwt_1d_extr_fixed] (also the
    narrow-row branch of fdwt.cpp:231-236 and idwt.cpp:252-257): the buffer
    the filters see, left extension, signal, right extension.  The code
    copies exactly [i1 - i0] elements. *)
Definition extend {T} (left right i0 i1 : Z) (buf : list T) : out (list T) :=
  let* l := mapM (fun i => let* k := pse_o (i0 - i) i0 i1 in rdT buf k) (rev (upto left)) in
  let* r := mapM (fun i => let* k := pse_o (i1 - i0 + i - 1 + i0) i0 i1 in rdT buf k) (upto right) in
  Ret (l ++ ztake (i1 - i0) buf ++ r).

(** source/core/transform/dwt.hpp:131-172, 178-218
    [dwt_pse_fill_inplace_simd/_i32], taken for rows of at least 9 samples:
    no modulo, row[-i] = row[i], row[width+k] = row[width-2-k].  Only the
    [left] / [right] samples the filter reads are kept; the code fills eight
    per side. *)
Definition extend_wide {T} (left right i0 i1 : Z) (buf : list T) : out (list T) :=
  let width := i1 - i0 in
  let* l := mapM (fun i => rdT buf i) (rev (upto left)) in
  let* r := mapM (fun k => rdT buf (width - 2 - (k - 1))) (upto right) in
  Ret (l ++ ztake width buf ++ r).

(** One lifting pass: for [count] positions n, n+2, ... the element there is
    replaced by [f element left_neighbour right_neighbour]. *)
Fixpoint lift {T} (f : T -> T -> T -> T) (count : nat) (n : Z) (X : list T) : out (list T) :=
  match count with
  | O => Ret X
  | S c =>
      let* t := rdT X n in
      let* p := rdT X (n - 1) in
      let* q := rdT X (n + 1) in
      let* X' := wrT X n (f t p q) in
      lift f c (n + 2) X'
  end.

(** source/core/common/utils.hpp [ceil_int] for non-negative [a]. *)
Definition ceil2 (a : Z) : Z := (a + 1) / 2.

(** source/core/transform/fdwt.cpp:181-193 [fdwt_1d_filtr_rev53_i32], over
    any element type (the vertical pass fdwt.cpp:355-417 runs the same two
    loops over rows): two lifting passes, high-pass positions first. *)
Definition fdwt_1d {T} (hp lp : T -> T -> T -> T) (X : list T) (left i0 i1 : Z) : out (list T) :=
  let start := ceil2 i0 in
  let stop := ceil2 i1 in
  let offset := left + i0 mod 2 in
  let* X1 := lift hp (Z.to_nat (stop - (start - 1))) (-2 + offset + 1) X in
  lift lp (Z.to_nat (stop - start)) offset X1.

(** source/core/transform/idwt.cpp:137-145 [idwt_1d_filtr_rev53_i32_scalar]
    (vertical: idwt.cpp:369-427): low-pass positions first. *)
Definition idwt_1d {T} (lp hp : T -> T -> T -> T) (X : list T) (left i0 i1 : Z) : out (list T) :=
  let start := i0 / 2 in
  let stop := i1 / 2 in
  let offset := left - i0 mod 2 in
  let* X1 := lift lp (Z.to_nat (stop + 1 - start)) offset X in
  lift hp (Z.to_nat (stop - start)) (offset + 1) X1.

(** The sample arithmetic of the 5/3 lifting steps ([>>] on int32 is an
    arithmetic shift): fdwt.cpp:187-192 and idwt.cpp:141-144. *)
Definition fwd_hp (t p q : Z) : Z := t - Z.shiftr (p + q) 1.
Definition fwd_lp (t p q : Z) : Z := t + Z.shiftr (p + q + 2) 2.
Definition inv_lp (t p q : Z) : Z := t - Z.shiftr (p + q + 2) 2.
Definition inv_hp (t p q : Z) : Z := t + Z.shiftr (p + q) 1.

(** Extension counts for 5/3: fdwt.cpp:251-257, 358-361 and 763-769
    ([num_pse_i0], [num_pse_i1], [kPseFdwtTop], [kHorizLeft] ...);
    idwt.cpp:290-295, 372-375 and 1236-1237. *)
Definition fdwt_left (i0 : Z) : Z := if i0 mod 2 =? 0 then 2 else 1.
Definition fdwt_right (i1 : Z) : Z := if i1 mod 2 =? 0 then 1 else 2.
Definition idwt_left (i0 : Z) : Z := if i0 mod 2 =? 0 then 1 else 2.
Definition idwt_right (i1 : Z) : Z := if i1 mod 2 =? 0 then 2 else 1.

(** The horizontal analysis of one row: the single-column case of
    fdwt.cpp:1034-1043 (batch: 260-266) or extension plus filter,
    fdwt.cpp:1044-1050, reading the result at [horiz_tmp + horiz_left]. *)
Definition fwd_row (u0 u1 : Z) (row : list Z) : out (list Z) :=
  if u1 =? u0 + 1 then
    let* x := rdT row 0 in Ret [if u0 mod 2 =? 0 then x else 2 * x]
  else
    let* ext := extend (fdwt_left u0) (fdwt_right u1) u0 u1 row in
    let* X := fdwt_1d fwd_hp fwd_lp ext (fdwt_left u0) u0 u1 in
    Ret (ztake (u1 - u0) (zskip (fdwt_left u0) X)).

(** source/core/transform/idwt.cpp:858-878 [idwt_1d_row_inplace_i32]:
    extension (wide rows by reversal, narrow ones by [PSEo]) and filter, for
    rows of two or more samples. *)
Definition inv_row_inplace (u0 u1 : Z) (row : list Z) : out (list Z) :=
  let* ext := if 9 <=? u1 - u0 then extend_wide (idwt_left u0) (idwt_right u1) u0 u1 row
              else extend (idwt_left u0) (idwt_right u1) u0 u1 row in
  let* X := idwt_1d inv_lp inv_hp ext (idwt_left u0) u0 u1 in
  Ret (ztake (u1 - u0) (zskip (idwt_left u0) X)).

(** The two planes of an interleaved row starting at column [u0]:
    coding_units.cpp:838-940 [fdwt_level_sink_fn] ([u_off = u0 & 1],
    lp[i] = row[2i + u_off], hp[i] = row[2i + 1 - u_off]). *)
Definition width_lp (u0 u1 : Z) : Z := ceil2 u1 - ceil2 u0.
Definition width_hp (u0 u1 : Z) : Z := u1 / 2 - u0 / 2.
Definition plane_lp (u0 u1 : Z) (row : list Z) : out (list Z) :=
  mapM (fun i => rdT row (2 * i + u0 mod 2)) (zseq (width_lp u0 u1)).
Definition plane_hp (u0 u1 : Z) (row : list Z) : out (list Z) :=
  mapM (fun i => rdT row (2 * i + (1 - u0 mod 2))) (zseq (width_hp u0 u1)).

(** source/core/transform/idwt.cpp:1005-1096 [interleave_row_planes]: [a] at
    the even offsets of [out], [b] at the odd ones. *)
Fixpoint interleave {T} (a b : list T) : list T :=
  match a with
  | [] => b
  | x :: a' => x :: match b with [] => a' | y :: b' => y :: interleave a' b' end
  end.

(** source/core/transform/idwt.cpp:1098-1228 [idwt_1d_row_from_planar], the
    int32 path without SIMD: nothing for an empty row, the lone sample of a
    single-column row (halved when it is high-pass), otherwise interleave and
    filter. *)
Definition inv_row_planar (u0 u1 : Z) (lp hp : list Z) : out (list Z) :=
  let width := u1 - u0 in
  if width <=? 0 then Ret []
  else if width =? 1 then
    let* v := rdT (if u0 mod 2 =? 0 then lp else hp) 0 in
    Ret [if u0 mod 2 =? 0 then v else Z.shiftr v 1]
  else
    inv_row_inplace u0 u1 (if u0 mod 2 =? 0 then interleave lp hp else interleave hp lp).

(** A lifting step applied to whole rows, column by column:
    fdwt.cpp:400-411, idwt.cpp:413-421, and the row kernels
    [adv_fdwt_rev_hp_step_i32] ... of the streaming path. *)
Fixpoint map3 (f : Z -> Z -> Z -> Z) (a b c : list Z) : list Z :=
  match a, b, c with
  | x :: a', y :: b', z :: c' => f x y z :: map3 f a' b' c'
  | _, _, _ => []
  end.

(** source/core/transform/fdwt.cpp:355-417 [fdwt_rev_ver_sr_fixed] (whole
    image held in memory; rows are the elements). *)
Definition fwd_ver (v0 v1 : Z) (img : list (list Z)) : out (list (list Z)) :=
  if v0 =? v1 - 1 then
    Ret (if v0 mod 2 =? 0 then img else map (map (fun x => 2 * x)) img)
  else
    let* ext := extend (fdwt_left v0) (fdwt_right v1) v0 v1 img in
    let* X := fdwt_1d (map3 fwd_hp) (map3 fwd_lp) ext (fdwt_left v0) v0 v1 in
    Ret (ztake (v1 - v0) (zskip (fdwt_left v0) X)).

(** source/core/transform/idwt.cpp:369-427 [idwt_rev_ver_sr_fixed].  The
    single-row case is only taken for odd [v0]; a single row at even [v0]
    goes on to [PSEo] of a length-1 signal. *)
Definition inv_ver (v0 v1 : Z) (img : list (list Z)) : out (list (list Z)) :=
  if (v0 =? v1 - 1) && negb (v0 mod 2 =? 0) then
    Ret (map (map (fun x => Z.shiftr x 1)) img)
  else
    let* ext := extend (idwt_left v0) (idwt_right v1) v0 v1 img in
    let* X := idwt_1d (map3 inv_lp) (map3 inv_hp) ext (idwt_left v0) v0 v1 in
    Ret (ztake (v1 - v0) (zskip (idwt_left v0) X)).
