(** Model of the dequantisation of Part 1 code-blocks,
    source/core/coding/block_dequant.cpp:35-134, called at the end of
    j2k_decode (block_decoding.cpp:599-601).

    Simplifications.  An int32_t sample is its 32-bit pattern; the state byte
    is a byte.  A left shift whose result does not fit 31 bits counts as
    undefined (in C++17 some such results are implementation-defined).  The
    float computation of [scale] (83-92) is left out: [scale] is a parameter.
    The band array is a function with a checked size. *)
From Verif Require Import Base OutModel PassModel.

(** An int32_t result, undefined on overflow. *)
Definition int32 (v : Z) : out Z := if (- 2 ^ 31 <=? v) && (v <? 2 ^ 31) then Ret v else UB.
(** 1 << n and v << n for int32_t. *)
Definition shl32 (v n : Z) : out Z := if (n <? 0) || (31 <? n) then UB else int32 (v * 2 ^ n).
Definition shr32 (v n : Z) : out Z := if (n <? 0) || (31 <? n) then UB else Ret (v / 2 ^ n).

(** static_cast<float>(v): to the nearest value with 24 significant bits,
    ties to even. *)
Definition to_float (v : Z) : Z :=
  let e := Z.max 0 (Z.log2 (Z.abs v) - 23) in
  let m := Z.abs v / 2 ^ e in
  let r := Z.abs v mod 2 ^ e in
  let m := if (2 ^ e <? 2 * r) || ((2 ^ e =? 2 * r) && Z.odd m) then m + 1 else m in
  Z.sgn v * (m * 2 ^ e).

Section Dequant.
  Variables Mb ROIshift : Z.
  Definition pLSB : Z := 31 - Mb.
  (** UINT32_MAX >> (M_b + 1), 43 and 81. *)
  Definition mask : out Z := if (Mb + 1 <? 0) || (31 <? Mb + 1) then UB else Ret (4294967295 / 2 ^ (Mb + 1)).

  (** Magnitude with the background scaled up, 50-55 and 108-113. *)
  Definition unshift (mask u : Z) : out Z :=
    let v := Z.land u 2147483647 in
    if negb (ROIshift =? 0) && (Z.land v (4294967295 - mask) =? 0) then shl32 v ROIshift else Ret v.
  (** Number of decoded bit-planes, 56-60 and 114-118. *)
  Definition N_b (state : Z) : Z := if ROIshift =? 0 then 30 - state / 8 + 1 else 30 - pLSB + 1.

  (** j2k_dequant_rev_scalar, one sample: 46-66. *)
  Definition rev_sample (mask u state : Z) : out Z :=
    let* v := unshift mask u in
    let* v := if negb (v =? 0) && (N_b state <? Mb) then let* r := shl32 1 (pLSB - 1 + Mb - N_b state) in Ret (Z.lor v r) else Ret v in
    let v := if 2 ^ 31 <=? u then - v else v in
    shr32 v pLSB.
  (** The irreversible path, one sample: 104-130. *)
  Definition irrev_sample (scale mask u state : Z) : out Z :=
    let* v := unshift mask u in
    let* r := shl32 1 (pLSB - 1 + (if N_b state <? Mb then Mb - N_b state else 0)) in
    let v := if v =? 0 then v else Z.lor v r in
    let* v := int32 (v + 2 ^ 15) in
    let* v := int32 (v / 2 ^ 16 * scale) in
    let* v := int32 (v + 2 ^ 14) in
    let q := v / 2 ^ 15 in
    Ret (if 2 ^ 31 <=? u then - q else q).

  (** j2k_dequant, block_dequant.cpp:74-134: [size] floats from [off] on; [stride] is
      band_stride, [i32] dequant_i32. *)
  Variables w h : Z.
  Variables size off stride : Z.
  Variable i32 : bool.
  Variable reversible : bool.
  Variable scale : Z.
  Definition put (band : Z -> Z) (i v : Z) : out (Z -> Z) :=
    if (0 <=? i) && (i <? size) then Ret (fun j => if j =? i then v else band j) else UB.
  Definition dq_sample {A} (m : Z) (b : blk A) (y : Z) (band : Z -> Z) (x : Z) : out (Z -> Z) :=
    let n := wrap32 (x + wrap32 (y * stride)) in
    let* u := rd_sm A w h b (x + y * sstr w) in
    let* s := rd_st A w h b ((x + 1) + (y + 1) * tstr w) in
    if reversible then
      let* q := rev_sample m u s in
      put band (off + n) (if i32 then q else to_float q)
    else
      let* q := irrev_sample scale m u s in
      put band (off + n) (to_float q).
  Definition j2k_dequant {A} (b : blk A) (band : Z -> Z) : out (Z -> Z) :=
    let* m := mask in
    foldo (fun band y => foldo (dq_sample m b y) band (zseq w)) band (zseq h).
End Dequant.
