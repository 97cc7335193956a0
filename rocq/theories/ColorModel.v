(** Model of the reversible colour path: source/core/transform/color.cpp
    (scalar functions) and the per-row sample finalisation of
    source/core/coding/coding_units.cpp.  Signed 32-bit overflow is undefined
    behaviour. *)
From Verif Require Import Base.

(** int32_t arithmetic result: outside the range is undefined behaviour. *)
Definition i32 (v : Z) : out Z :=
  if (- 2 ^ 31 <=? v) && (v <? 2 ^ 31) then Ret v else UB.

(** static_cast<float>(int32_t): IEEE binary32, round to nearest, ties to
    even.  The result is an integer, represented exactly in Z. *)
Definition f32_of_i32 (v : Z) : Z :=
  let a := Z.abs v in
  if a <=? 2 ^ 24 then v
  else
    let e := Z.log2 a - 23 in
    let q := a / 2 ^ e in
    let r := a mod 2 ^ e in
    let half := 2 ^ (e - 1) in
    let q := if r <? half then q
             else if half <? r then q + 1
             else if Z.even q then q else q + 1 in
    Z.sgn v * (q * 2 ^ e).
(** static_cast<int32_t>(float) for an integer-valued float. *)
Definition i32_of_f32 (f : Z) : out Z := i32 f.

(** color.cpp:45-52 body of cvt_rgb_to_ycbcr_rev *)
Definition fwd_rct (R G B : Z) : out (Z * Z * Z) :=
  let* g2 := i32 (2 * G) in
  let* s := i32 (R + g2) in
  let* s := i32 (s + B) in
  let Y := Z.shiftr s 2 in
  let* Cb := i32 (B - G) in
  let* Cr := i32 (R - G) in
  Ret (Y, Cb, Cr).

(** color.cpp:87-94 body of cvt_ycbcr_to_rgb_rev *)
Definition inv_rct (Y Cb Cr : Z) : out (Z * Z * Z) :=
  let* s := i32 (Cb + Cr) in
  let* G := i32 (Y - Z.shiftr s 2) in
  let* R := i32 (Cr + G) in
  let* B := i32 (Cb + G) in
  Ret (R, G, B).

(** color.cpp:44,86,... "for (n = 0; n < width; n++)" over three rows in
    step; a row shorter than [width] is read out of bounds. *)
Fixpoint row3 (f : Z -> Z -> Z -> out (Z * Z * Z)) (width : nat) (a b c : list Z)
  : out (list Z * list Z * list Z) :=
  match width with
  | O => Ret (a, b, c)
  | S w =>
      match a, b, c with
      | x :: a, y :: b, z :: c =>
          let* (x, y, z) := f x y z in
          let* (a, b, c) := row3 f w a b c in
          Ret (x :: a, y :: b, z :: c)
      | _, _, _ => UB
      end
  end.

(** color.cpp:38-53 / 80-95: the loop over rows; row y of a plane starts at
    y * round_up(width, 32).  A plane is the list of its rows (padding
    included). *)
Fixpoint plane3 (f : Z -> Z -> Z -> out (Z * Z * Z)) (width : nat) (p0 p1 p2 : list (list Z))
  : out (list (list Z) * list (list Z) * list (list Z)) :=
  match p0, p1, p2 with
  | a :: p0, b :: p1, c :: p2 =>
      let* (a, b, c) := row3 f width a b c in
      let* (p0, p1, p2) := plane3 f width p0 p1 p2 in
      Ret (a :: p0, b :: p1, c :: p2)
  | [], [], [] => Ret ([], [], [])
  | _, _, _ => UB
  end.

Definition cvt_rgb_to_ycbcr_rev := plane3 fwd_rct.
Definition cvt_ycbcr_to_rgb_rev := plane3 inv_rct.

(** color.cpp:152-169 body of cvt_rgb_to_ycbcr_rev_float: int32 in, float out *)
Definition fwd_rct_float (R G B : Z) : out (Z * Z * Z) :=
  let* (Y, Cb, Cr) := fwd_rct R G B in
  Ret (f32_of_i32 Y, f32_of_i32 Cb, f32_of_i32 Cr).

(** color.cpp:119-136 body of cvt_ycbcr_to_rgb_rev_float *)
Definition inv_rct_float (Yf Cbf Crf : Z) : out (Z * Z * Z) :=
  let* Y := i32_of_f32 Yf in
  let* Cb := i32_of_f32 Cbf in
  let* Cr := i32_of_f32 Crf in
  let* (R, G, B) := inv_rct Y Cb Cr in
  Ret (f32_of_i32 R, f32_of_i32 G, f32_of_i32 B).

(** color.hpp:54-60 FinalizeParams; ds = downshift, rnd = rounding offset *)
Record fparams : Type := mkFP { f_ds : Z; f_rnd : Z; f_dc : Z; f_max : Z; f_min : Z }.

(** coding_units.cpp:5829-5855 per-component output parameters of a
    reversibly coded component (downshift 0) *)
Definition rev_params (bd : Z) (is_signed : bool) : out fparams :=
  let one := 1 in
  let* h := i32 (Z.shiftl one (bd - 1)) in
  let dc := if is_signed then 0 else h in
  let* mx := (if is_signed then i32 (h - 1)
              else let* f := i32 (Z.shiftl one bd) in i32 (f - 1)) in
  let mn := if is_signed then - h else 0 in
  Ret (mkFP 0 0 dc mx mn).

(** color.cpp:226-231 clamp *)
Definition clamp (p : fparams) (v : Z) : out Z :=
  let* v := i32 (v + f_dc p) in
  let v := if f_max p <? v then f_max p else v in
  let v := if v <? f_min p then f_min p else v in
  Ret v.

(** color.cpp:218-236 body of fused_ycbcr_rev_to_rgb_i32 *)
Definition fused_rct (fr fg fb : fparams) (y cb cr : Z) : out (Z * Z * Z) :=
  let* Y := i32_of_f32 y in
  let* Cb := i32_of_f32 cb in
  let* Cr := i32_of_f32 cr in
  let* s := i32 (Cb + Cr) in
  let* G := i32 (Y - Z.shiftr s 2) in
  let* r0 := i32 (Cr + G) in
  let* R := clamp fr r0 in
  let* Gc := clamp fg G in
  let* b0 := i32 (Cb + G) in
  let* B := clamp fb b0 in
  Ret (R, Gc, B).
Definition fused_ycbcr_rev_to_rgb_i32 (fr fg fb : fparams) := row3 (fused_rct fr fg fb).

(** coding_units.cpp:6012-6019 finalisation of one int32 sample of a
    component without colour transform (is_i32): shift, level shift, clamp *)
Definition finalize_sample (p : fparams) (v : Z) : out Z :=
  let* v := (if f_ds p <? 0 then let* s := i32 (v + f_rnd p) in i32 (Z.shiftl s (- f_ds p))
             else if 0 <? f_ds p then let* s := i32 (v + f_rnd p) in Ret (Z.shiftr s (f_ds p))
             else Ret v) in
  clamp p v.

(** coding_units.cpp:5909-5924 decoder, reversible colour: cvt_i32_to_f on
    each row of int32 inverse-DWT output, then the fused function *)
Definition decode_mct_px (fr fg fb : fparams) (Y Cb Cr : Z) : out (Z * Z * Z) :=
  fused_rct fr fg fb (f32_of_i32 Y) (f32_of_i32 Cb) (f32_of_i32 Cr).
Definition decode_mct_row (fr fg fb : fparams) := row3 (decode_mct_px fr fg fb).

(** coding_units.cpp:3790-3802, 7088: the encoder's level shift of a sample
    (shiftup = 0 on the reversible path) *)
Definition level_shift (bd : Z) (is_signed : bool) (v : Z) : out Z :=
  let* dc := (if is_signed then Ret 0 else i32 (Z.shiftl 1 (bd - 1))) in
  i32 (v - dc).
