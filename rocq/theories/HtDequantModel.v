(** Model of the dequantisation of high-throughput code-blocks whose samples
    are not stored by the cleanup pass itself (several passes, odd height or a
    region of interest), source/core/coding/ht_block_decoding.cpp:825-926, and
    of its call at 1085-1095.

    Simplifications as in DequantModel.v.  Of the irreversible branches
    (873-924) only the choice is modelled: their arithmetic is on floats. *)
From Verif Require Import Base OutModel PassModel DequantModel RefineModel.

Section HtDequant.
  Variables Mb ROIshift : Z.
  (** One sample, 849-860. *)
  Definition ht_rev_sample (mask u : Z) : out Z :=
    let* v := unshift ROIshift mask u in
    let* v := shr32 v (pLSB Mb) in
    Ret (if 2 ^ 31 <=? u then - Z.land v 2147483647 else v).
  Variables w h : Z.
  Variables size off stride : Z.
  Variable i32 : bool.
  Definition ht_dq_sample (m : Z) (sm : Z -> Z) (y : Z) (band : Z -> Z) (x : Z) : out (Z -> Z) :=
    let* u := if (0 <=? y * sstr w + x) && (y * sstr w + x <? n_sm w h) then Ret (sm (y * sstr w + x)) else UB in
    let* q := ht_rev_sample m u in
    put size band (off + (y * stride + x)) (if i32 then q else to_float q).
  (** dequantize of a reversible block, 825-872. *)
  Definition ht_dequantize (sm band : Z -> Z) : out (Z -> Z) :=
    let* m := mask Mb in
    foldo (fun band y => foldo (ht_dq_sample m sm y) band (zseq w)) band (zseq h).
  (** The refinement passes, then dequantisation, 1085-1095: [S_blk] is the
      number of bit-planes above the one the cleanup pass decodes. *)
  Definition ht_finish (causal : bool) (D : list Z) (S_blk passes : Z) (st sm band : Z -> Z) : out (Z -> Z) :=
    let* (st, sm) := ht_refine w h causal D (30 - (S_blk + 1)) passes st sm in
    ht_dequantize sm band.
End HtDequant.
