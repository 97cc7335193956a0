(** C67: the reader of packet headers takes the segments and their lengths from
    where the standard puts them. *)
From Verif Require Import Base BaseLemmas PacketModel PacketCode SegmentSpec SegmentProofs.

(** A contribution of any legal size to a block of any coding style, whatever
    earlier layers gave it. The bits are the standard's for the chosen segments;
    the reader consumes exactly them and records every pass. Partial: at most 128
    passes in the block, and, for HT blocks, the first cleanup pass is known to
    have gone by; the next two theorems are for HT blocks before it. The mode that
    mixes HT and other blocks in one codestream is left out. *)
Theorem C67_segments_partial b bytes layer new d segs rest fuel :
  holds b bytes -> has (cmodes b) HT_PHLD = false -> 1 <= new -> zlen bytes + new <= 128 ->
  map fst segs = runs (grouping_of (cmodes b)) (Z.to_nat new) (zlen bytes) 0 ->
  fits (lblock b + Z.of_nat d) segs -> (grouping_of (cmodes b) = Ht -> ht_legal (zlen bytes) false segs) ->
  0 <= lblock b -> 0 <= layer < zlen (lpasses b) -> (d < fuel)%nat ->
  exists b', contribution list_bit fuel layer b (contribution_code new (lblock b) d segs ++ rest) = ret (b', rest) /\
    holds b' (bytes ++ pass_bytes segs) /\ updated b b' layer new (lblock b + Z.of_nat d) /\ cmodes b' = cmodes b.
Proof.
  intros H Hp Hn Hs R F Hg Hl Hy Hf. apply segments_std; auto. intros M. apply Hg. rewrite grouping_is, M. reflexivity.
Qed.
Print Assumptions C67_segments_partial.

(** An HT block before its first cleanup pass: placeholder passes, one empty
    segment however many there are; the block still awaits its cleanup pass. *)
Theorem C67_placeholders_partial b bytes layer new d rest fuel :
  holds b bytes -> has (cmodes b) HT_PHLD = true -> has (cmodes b) HT_MIXED = false -> 1 <= new -> zlen bytes + new <= 128 ->
  fits (lblock b + Z.of_nat d) [(new, 0)] -> 0 <= lblock b -> 0 <= layer < zlen (lpasses b) -> (d < fuel)%nat ->
  exists b', contribution list_bit fuel layer b (contribution_code new (lblock b) d [(new, 0)] ++ rest) = ret (b', rest) /\
    holds b' (bytes ++ pass_bytes [(new, 0)]) /\ updated b b' layer new (lblock b + Z.of_nat d) /\ cmodes b' = cmodes b.
Proof. exact (placeholder_std b bytes layer new d rest fuel). Qed.
Print Assumptions C67_placeholders_partial.

(** The first cleanup pass is the last in the contribution whose index is a
    multiple of three; it and the placeholders before it are one segment of [sp]
    passes; the passes that refine it follow. *)
Theorem C67_first_cleanup_partial b bytes layer new d sp v segs rest fuel :
  holds b bytes -> has (cmodes b) HT = true -> has (cmodes b) HT_PHLD = true -> has (cmodes b) HT_MIXED = false -> 1 <= new -> zlen bytes + new <= 128 ->
  1 <= sp <= new -> new < sp + 3 -> (zlen bytes + sp - 1) mod 3 = 0 -> 2 <= v ->
  map fst segs = runs Ht (Z.to_nat (new - sp)) (zlen bytes + sp) 0 -> fits (lblock b + Z.of_nat d) ((sp, v) :: segs) ->
  0 <= cmodes b < 65536 -> 0 <= lblock b -> 0 <= layer < zlen (lpasses b) -> (d < fuel)%nat ->
  exists b', contribution list_bit fuel layer b (contribution_code new (lblock b) d ((sp, v) :: segs) ++ rest) = ret (b', rest) /\
    holds b' (bytes ++ pass_bytes ((sp, v) :: segs)) /\ updated b b' layer new (lblock b + Z.of_nat d) /\ cmodes b' = clear_flags (cmodes b) HT_PHLD.
Proof.
  intros H H1 H2 H3 Hn Hs Hsp Hsp2 Hm Hv R F Hc Hl Hy Hf. apply cleanup_std; auto; try lia.
  assert (forall l i, 0 <= i -> i mod 3 = 1 -> i + Z.of_nat (Z.to_nat (new - sp)) <= i + 2 -> map fst l = runs Ht (Z.to_nat (new - sp)) i 0 -> ht_legal i false l) as G; [|apply (G segs); auto; pose proof (zlen_nonneg bytes); lia].
  intros l i Hi Mi Le E. assert (Z.to_nat (new - sp) = 0 \/ Z.to_nat (new - sp) = 1 \/ Z.to_nat (new - sp) = 2)%nat as [N|[N|N]] by lia; rewrite N in E.
  - apply segs_nil in E. subst l. exact I.
  - rewrite runs_last in E by exact Hi. apply segs_cons in E as (x & l' & -> & E). apply segs_nil in E. subst l'. cbn [ht_legal]. rewrite Mi. cbn. split; [discriminate|exact I].
  - rewrite runs_two in E by (auto; exact Hi). apply segs_cons in E as (x & l' & -> & E). cbn [runs] in E. apply segs_nil in E. subst l'. cbn [ht_legal]. rewrite Mi. cbn. split; [discriminate|exact I].
Qed.
Print Assumptions C67_first_cleanup_partial.

(** Cases that meet the hypotheses. A lazily coded block with eight passes gets
    seven more: segments of 2, 2, 1 and 2 passes; a block in pass termination; an
    HT block with two sets of placeholders, a cleanup pass and its refinements. *)
Definition lazy_block : cb := CB 1 8 5 0 3 ([0; 0; 0; 0; 0; 0; 0; 90] ++ repeat 0 120) 8 [0; 8; 0] [8; 0; 0] true.
Example C67_example_lazy :
  holds lazy_block [0; 0; 0; 0; 0; 0; 0; 90] /\ grouping_of 1 = Lazy /\ runs Lazy 7 8 0 = [2; 2; 1; 2] /\ fits (3 + 2) [(2, 40); (2, 33); (1, 31); (2, 0)] /\
  contribution_code 7 3 2 [(2, 40); (2, 33); (1, 31); (2, 0)] =
    [1; 1; 1; 1; 0; 0; 0; 0; 1] ++ [1; 1; 0] ++ [1; 0; 1; 0; 0; 0] ++ [1; 0; 0; 0; 0; 1] ++ [1; 1; 1; 1; 1] ++ [0; 0; 0; 0; 0; 0] /\
  pass_bytes [(2, 40); (2, 33); (1, 31); (2, 0)] = [0; 40; 0; 33; 31; 0; 0].
Proof.
  split; [constructor; [reflexivity|reflexivity|reflexivity|right; split; [reflexivity|cbn; lia]]|]. split; [reflexivity|]. split; [reflexivity|]. split; [|split; reflexivity].
  repeat constructor; cbn; lia.
Qed.
Example C67_example_apart : grouping_of 5 = Apart /\ runs Apart 3 6 0 = [1; 1; 1] /\ grouping_of 0 = Together /\ runs Together 3 6 0 = [3].
Proof. repeat split; reflexivity. Qed.
Definition ht_block : cb := CB (64 + 256) 0 2 0 3 (repeat 0 4) 0 [0] [0] true.
Example C67_example_ht : holds ht_block [] /\ has (cmodes ht_block) HT = true /\ has (cmodes ht_block) HT_PHLD = true /\ has (cmodes ht_block) HT_MIXED = false /\
  runs Ht (Z.to_nat (9 - 7)) (0 + 7) 0 = [2] /\ (0 + 7 - 1) mod 3 = 0 /\ fits (3 + 1) [(7, 50); (2, 12)] /\ fits 3 [(9, 0)].
Proof.
  split; [constructor; [reflexivity|reflexivity|reflexivity|left; split; [reflexivity|cbn; lia]]|]. repeat (split; [reflexivity|]). split; repeat constructor; cbn; lia.
Qed.
(** More than 128 passes, which the standard's codewords can announce, are
    refused: a block of one segment with 129 passes. *)
Theorem C67_pass_limit_refuted : exists b bytes segs,
  holds b bytes /\ has (cmodes b) HT_PHLD = false /\ map fst segs = runs (grouping_of (cmodes b)) (Z.to_nat 129) (zlen bytes) 0 /\ fits (lblock b + Z.of_nat 0) segs /\
  contribution list_bit 9 0 b (contribution_code 129 (lblock b) 0 segs) = throw.
Proof.
  exists (CB 0 0 2 0 3 (repeat 0 4) 0 [0] [0] true), [], [(129, 100)]. split; [constructor; [reflexivity|reflexivity|reflexivity|left; split; [reflexivity|cbn; lia]]|].
  split; [reflexivity|]. split; [reflexivity|]. split; [repeat constructor; cbn; lia|]. vm_compute. reflexivity.
Qed.
Print Assumptions C67_pass_limit_refuted.
