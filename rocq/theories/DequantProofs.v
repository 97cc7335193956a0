(** Lemmas for C78. *)
From Verif Require Import Base BaseLemmas OutModel OutProofs StripProofs PassModel PassSpec PassProofs PassRun PassLow DequantModel.

Lemma lor_add m r : 0 <= r -> (2 ^ (r + 1) | m) -> 0 <= m -> Z.lor m (2 ^ r) = m + 2 ^ r.
Proof.
  intros Hr [q ->] Hm. rewrite <- Z.lxor_lor, <- Z.add_nocarry_lxor; [reflexivity| |];
  (apply Z.bits_inj'; intros j Hj; rewrite Z.land_spec, Z.bits_0, Z.pow2_bits_eqb by lia; destruct (Z.eqb_spec r j) as [<-|N]; [rewrite Z.mul_pow2_bits_low by lia; reflexivity|apply andb_false_r]).
Qed.
Lemma to_float_small v : Z.abs v <= 2 ^ 24 -> to_float v = v.
Proof.
  intros H. change (2 ^ 24) with 16777216 in H. unfold to_float.
  assert (E : Z.max 0 (Z.log2 (Z.abs v) - 23) = 0 \/ Z.abs v = 2 ^ 24).
  { destruct (Z_lt_dec (Z.abs v) (2 ^ 24)) as [L|L]; [|right; change (2 ^ 24) with 16777216 in *; lia]. left. destruct (Z_lt_dec 0 (Z.abs v)) as [P|P]; [|replace (Z.abs v) with 0 by lia; reflexivity].
    apply Z.log2_lt_pow2 in L; [lia|exact P]. }
  destruct E as [E|E].
  - rewrite E. cbn [Z.pow]. change (2 ^ 0) with 1. rewrite Z.div_1_r, Z.mod_1_r. cbn. rewrite Z.mul_1_r. lia.
  - assert (v = 2 ^ 24 \/ v = - 2 ^ 24) as [->| ->] by lia; reflexivity.
Qed.

Section Fill.
  Variables w h size off stride : Z.
  Hypothesis Hw : 0 <= w <= stride.
  Hypothesis Hh : 0 <= h.
  Hypothesis Hoff : 0 <= off.
  Hypothesis Hsize : forall y x, 0 <= y < h -> 0 <= x < w -> off + (y * stride + x) < size.
  Variable f : Z -> (Z -> Z) -> Z -> out (Z -> Z).
  Variable q : Z -> Z -> Z.
  Hypothesis Hf : forall y x band, 0 <= y < h -> 0 <= x < w -> f y band x = put size band (off + (y * stride + x)) (q y x).

  Lemma row_fill y band : 0 <= y < h -> exists band', foldo (f y) band (zseq w) = Ret band' /\
    (forall x, 0 <= x < w -> band' (off + (y * stride + x)) = q y x) /\ (forall j, (forall x, 0 <= x < w -> j <> off + (y * stride + x)) -> band' j = band j).
  Proof using Hw Hoff Hsize Hf. clear Hh. intros Hy.
    assert (K : forall n, 0 <= n -> n <= w -> exists band', foldo (f y) band (zseq n) = Ret band' /\
      (forall x, 0 <= x < n -> band' (off + (y * stride + x)) = q y x) /\ (forall j, (forall x, 0 <= x < n -> j <> off + (y * stride + x)) -> band' j = band j)).
    { apply (natlike_ind (fun n => n <= w -> exists band', foldo (f y) band (zseq n) = Ret band' /\
        (forall x, 0 <= x < n -> band' (off + (y * stride + x)) = q y x) /\ (forall j, (forall x, 0 <= x < n -> j <> off + (y * stride + x)) -> band' j = band j))).
      - intros _. exists band. split; [reflexivity|]. split; [intros x Hx; lia|intros; reflexivity].
      - intros n Hn IH Hl. unfold Z.succ in *. destruct (IH ltac:(lia)) as (b1 & E & A & B). rewrite zseq_snoc, foldo_app, E by exact Hn. cbn [bind foldo]. rewrite Hf by lia. unfold put.
        pose proof (Hsize y n ltac:(lia) ltac:(lia)). assert (0 <= y * stride) by (apply Z.mul_nonneg_nonneg; lia).
        replace ((0 <=? off + (y * stride + n)) && (off + (y * stride + n) <? size)) with true by lia. cbn [bind]. eexists. split; [reflexivity|]. split.
        + intros x Hx. cbn beta. destruct (Z.eqb_spec (off + (y * stride + x)) (off + (y * stride + n))) as [e|e]; [f_equal; lia|apply A; lia].
        + intros j Hj. cbn beta. destruct (Z.eqb_spec j (off + (y * stride + n))) as [e|e]; [exfalso; apply (Hj n); lia|]. apply B. intros x Hx. apply Hj. lia. }
    apply K; lia.
  Qed.
  Lemma all_fill band : exists band', foldo (fun band y => foldo (f y) band (zseq w)) band (zseq h) = Ret band' /\
    (forall y x, 0 <= y < h -> 0 <= x < w -> band' (off + (y * stride + x)) = q y x) /\ (forall j, (forall y x, 0 <= y < h -> 0 <= x < w -> j <> off + (y * stride + x)) -> band' j = band j).
  Proof using Hw Hh Hoff Hsize Hf.
    assert (K : forall n, 0 <= n -> n <= h -> exists band', foldo (fun band y => foldo (f y) band (zseq w)) band (zseq n) = Ret band' /\
      (forall y x, 0 <= y < n -> 0 <= x < w -> band' (off + (y * stride + x)) = q y x) /\ (forall j, (forall y x, 0 <= y < n -> 0 <= x < w -> j <> off + (y * stride + x)) -> band' j = band j)).
    { apply (natlike_ind (fun n => n <= h -> exists band', foldo (fun band y => foldo (f y) band (zseq w)) band (zseq n) = Ret band' /\
        (forall y x, 0 <= y < n -> 0 <= x < w -> band' (off + (y * stride + x)) = q y x) /\ (forall j, (forall y x, 0 <= y < n -> 0 <= x < w -> j <> off + (y * stride + x)) -> band' j = band j))).
      - intros _. exists band. split; [reflexivity|]. split; [intros y x Hy; lia|intros; reflexivity].
      - intros n Hn IH Hl. unfold Z.succ in *. destruct (IH ltac:(lia)) as (b1 & E & A & B). rewrite zseq_snoc, foldo_app, E by exact Hn. cbn [bind foldo].
        destruct (row_fill n b1 ltac:(lia)) as (b2 & E2 & A2 & B2). rewrite E2. cbn [bind]. exists b2. split; [reflexivity|]. split.
        + intros y x Hy Hx. destruct (Z.eq_dec y n) as [->|N]; [apply A2; exact Hx|]. rewrite B2; [apply A; lia|]. intros x' Hx' e. assert (y < n) by lia.
          assert ((y + 1) * stride <= n * stride) by (apply Z.mul_le_mono_nonneg_r; lia). lia.
        + intros j Hj. rewrite B2; [apply B; intros; apply Hj; lia|]. intros x Hx. apply Hj; lia. }
    apply K; lia.
  Qed.
End Fill.

(** One sample. *)
Definition signed (n : bool) (v : Z) : Z := if n then - v else v.
Definition pat (n : bool) (m : Z) : Z := m + (if n then 2 ^ 31 else 0).
Lemma pat_parts n m : 0 <= m < 2 ^ 31 -> Z.land (pat n m) 2147483647 = m /\ (2 ^ 31 <=? pat n m) = n.
Proof.
  intros Hm. change 2147483647 with (Z.ones 31). rewrite Z.land_ones by lia. unfold pat. change (2 ^ 31) with 2147483648 in *. destruct n; split; try lia.
Qed.
Lemma pow_lt a b : 0 <= a < b -> 2 ^ a < 2 ^ b. Proof. intros. apply Z.pow_lt_mono_r; lia. Qed.
Lemma sum_lt p m k : 0 <= p < k -> (2 ^ p | m) -> 0 <= m < 2 ^ k -> m + 2 ^ p <= 2 ^ k.
Proof. intros Hp [q ->] H. replace (2 ^ k) with (2 ^ (k - p) * 2 ^ p) in * by (rewrite <- Z.pow_add_r by lia; f_equal; lia). assert (0 < 2 ^ p) by lia. assert (q < 2 ^ (k - p)) by nia. nia. Qed.

Lemma rev_plain Mb msk n m st lw : 0 < Mb <= 31 -> 0 <= m < 2 ^ 31 -> (m <> 0 -> st / 8 = lw /\ 31 - Mb <= lw < 31 /\ (2 ^ lw | m)) ->
  exists v, rev_sample Mb 0 msk (pat n m) st = Ret v /\ v * 2 ^ (31 - Mb) * 2 = signed n (if m =? 0 then 0 else 2 * m + (if 31 - Mb <? lw then 2 ^ lw else 0)).
Proof.
  intros HM Hm Hs. destruct (pat_parts n m Hm) as [E1 E2]. unfold rev_sample, unshift, N_b. rewrite E1, E2. cbn [Z.eqb negb andb bind].
  unfold pLSB, shr32. replace ((31 - Mb <? 0) || (31 <? 31 - Mb)) with false by lia.
  destruct (Z.eqb_spec m 0) as [->|N]; cbn [negb andb bind].
  { exists 0. split; [destruct n; reflexivity|destruct n; reflexivity]. }
  destruct (Hs N) as (Es & Hl & Hd). rewrite Es.
  assert (P : 0 < 2 ^ (31 - Mb)) by lia.
  assert (X : forall v, (2 ^ (31 - Mb) | v) -> 0 <= v -> (if n then - v else v) / 2 ^ (31 - Mb) * 2 ^ (31 - Mb) = signed n v).
  { intros v [k ->] Hv. destruct n; cbn [signed]; [rewrite <- Z.mul_opp_l|]; rewrite Z.div_mul; lia. }
  destruct (Z.ltb_spec (31 - Mb) lw) as [L|L].
  - replace (30 - lw + 1 <? Mb) with true by lia. unfold shl32. replace (31 - Mb - 1 + Mb - (30 - lw + 1)) with (lw - 1) by lia. replace ((lw - 1 <? 0) || (31 <? lw - 1)) with false by lia.
    rewrite Z.mul_1_l. unfold int32. pose proof (pow_lt (lw - 1) 31 ltac:(lia)). replace ((- 2 ^ 31 <=? 2 ^ (lw - 1)) && (2 ^ (lw - 1) <? 2 ^ 31)) with true by (change (2 ^ 31) with 2147483648 in *; lia). cbn [bind].
    rewrite lor_add by (try lia; replace (lw - 1 + 1) with lw by lia; exact Hd). eexists. split; [reflexivity|]. rewrite X.
    + replace (2 ^ lw) with (2 * 2 ^ (lw - 1)) by (rewrite <- Z.pow_succ_r by lia; f_equal; lia). destruct n; cbn [signed]; lia.
    + apply Z.divide_add_r; [eapply div_le; [|lia|exact Hd]; lia|]. eapply div_le; [|lia|apply Z.divide_refl]. lia.
    + lia.
  - replace (30 - lw + 1 <? Mb) with false by lia. cbn [bind]. eexists. split; [reflexivity|]. rewrite X; [destruct n; cbn [signed]; lia| |lia]. eapply div_le; [|lia|exact Hd]. lia.
Qed.
Lemma rev_region Mb ROI n m st : 0 < Mb -> 0 < ROI -> Mb + ROI <= 31 -> 0 <= m < 2 ^ 31 -> (2 ^ (31 - Mb - ROI) | m) -> (2 ^ (31 - Mb) <= m -> (2 ^ (31 - Mb) | m)) -> (m < 2 ^ (31 - Mb) -> m < 2 ^ (31 - ROI)) ->
  exists v, rev_sample Mb ROI (4294967295 / 2 ^ (Mb + 1)) (pat n m) st = Ret v /\ v * 2 ^ (31 - Mb) = signed n (if m <? 2 ^ (31 - Mb) then m * 2 ^ ROI else m).
Proof.
  intros HM HR HMR Hm Hd Hr Hg. destruct (pat_parts n m Hm) as [E1 E2]. unfold rev_sample, unshift, N_b. rewrite E1, E2. replace (ROI =? 0) with false by lia. cbn [negb andb].
  assert (P : 0 < 2 ^ (31 - Mb)) by lia.
  assert (Em : (Z.land m (4294967295 - 4294967295 / 2 ^ (Mb + 1)) =? 0) = (m <? 2 ^ (31 - Mb))).
  { assert (Q : 4294967295 / 2 ^ (Mb + 1) = 2 ^ (31 - Mb) - 1).
    { symmetry. apply Z.div_unique with (r := 2 ^ (Mb + 1) - 1); [left; pose proof (Z.pow_pos_nonneg 2 (Mb + 1)); lia|]. assert (2 ^ (Mb + 1) * 2 ^ (31 - Mb) = 4294967296) by (rewrite <- Z.pow_add_r by lia; replace (Mb + 1 + (31 - Mb)) with 32 by lia; reflexivity). lia. }
    rewrite Q. set (j := 31 - Mb) in *. assert (Ej : 4294967295 - (2 ^ j - 1) = (2 ^ 32 - 2 ^ j)) by (change (2 ^ 32) with 4294967296; lia). rewrite Ej.
    assert (Eb : Z.land m (2 ^ 32 - 2 ^ j) = m / 2 ^ j * 2 ^ j).
    { rewrite <- Z.shiftr_div_pow2, <- Z.shiftl_mul_pow2 by lia. replace (2 ^ 32 - 2 ^ j) with (Z.shiftl (Z.ones (32 - j)) j) by (rewrite Z.shiftl_mul_pow2, Z.ones_equiv by lia; unfold Z.pred; rewrite Z.mul_add_distr_r, <- Z.pow_add_r by lia; replace (32 - j + j) with 32 by lia; lia).
      apply Z.bits_inj'. intros i Hi. rewrite Z.land_spec, !Z.shiftl_spec by lia. destruct (Z_lt_dec i j) as [L|L]; [rewrite !(Z.testbit_neg_r _ (i - j)) by lia; apply andb_false_r|].
      rewrite Z.shiftr_spec by lia. replace (i - j + j) with i by lia. destruct (Z_lt_dec i 32) as [L2|L2]; [rewrite Z.ones_spec_low by lia; apply andb_true_r|].
      rewrite <- (Z.mod_small m (2 ^ 31)) by exact Hm. rewrite Z.mod_pow2_bits_high by lia. reflexivity. }
    rewrite Eb. destruct (Z.ltb_spec m (2 ^ j)) as [L|L]; [rewrite Z.div_small by lia; reflexivity|]. assert (1 <= m / 2 ^ j) by (apply Z.div_le_lower_bound; lia). apply Z.eqb_neq. nia. }
  rewrite Em. unfold pLSB. replace (30 - (31 - Mb) + 1 <? Mb) with false by lia. unfold shr32. replace ((31 - Mb <? 0) || (31 <? 31 - Mb)) with false by lia.
  assert (X : forall v, (2 ^ (31 - Mb) | v) -> 0 <= v -> (if n then - v else v) / 2 ^ (31 - Mb) * 2 ^ (31 - Mb) = signed n v).
  { intros v [k ->] Hv. destruct n; cbn [signed]; [rewrite <- Z.mul_opp_l|]; rewrite Z.div_mul; lia. }
  destruct (Z.ltb_spec m (2 ^ (31 - Mb))) as [L|L]; cbn [bind].
  - unfold shl32, int32. replace ((ROI <? 0) || (31 <? ROI)) with false by lia.
    assert (B : m * 2 ^ ROI < 2 ^ 31) by (specialize (Hg L); replace (2 ^ 31) with (2 ^ (31 - ROI) * 2 ^ ROI) by (rewrite <- Z.pow_add_r by lia; f_equal; lia); apply Z.mul_lt_mono_pos_r; lia).
    assert (B0 : 0 <= m * 2 ^ ROI) by (apply Z.mul_nonneg_nonneg; lia).
    replace ((- 2 ^ 31 <=? m * 2 ^ ROI) && (m * 2 ^ ROI <? 2 ^ 31)) with true by (change (2 ^ 31) with 2147483648 in *; lia). cbn [bind]. rewrite andb_false_r. cbn [bind]. eexists. split; [reflexivity|]. apply X; [|exact B0].
    destruct Hd as [k ->]. exists k. rewrite <- Z.mul_assoc, <- Z.pow_add_r by lia. do 2 f_equal. lia.
  - rewrite andb_false_r. cbn [bind]. eexists. split; [reflexivity|]. apply X; [apply Hr; exact L|lia].
Qed.
Lemma irrev_plain Mb scale msk n m st lw : 0 < Mb <= 30 -> 0 <= scale -> 0 <= m < 2 ^ 31 -> (m <> 0 -> st / 8 = lw /\ 31 - Mb <= lw < 31 /\ (2 ^ lw | m)) -> (m = 0 -> 0 <= st < 256) ->
  (m <> 0 -> 2 * m + 2 ^ lw + 2 ^ 16 < 2 ^ 32 /\ (2 * m + 2 ^ lw + 2 ^ 16) / 2 ^ 17 * scale + 2 ^ 14 < 2 ^ 31) ->
  exists v, irrev_sample Mb 0 scale msk (pat n m) st = Ret (signed n v) /\ 0 <= v <= 2 ^ 16 /\
    (m = 0 -> v = 0) /\ (m <> 0 -> Z.abs (2 ^ 32 * v - scale * (2 * m + 2 ^ lw)) <= 2 ^ 31 + scale * 2 ^ 16).
Proof.
  intros HM Hsc Hm Hs H0 Hb. destruct (pat_parts n m Hm) as [E1 E2]. unfold irrev_sample, unshift, N_b. rewrite E1, E2. cbn [Z.eqb negb andb bind]. unfold pLSB.
  change (2 ^ 31) with 2147483648 in *. change (2 ^ 32) with 4294967296 in *. change (2 ^ 17) with 131072 in *. change (2 ^ 16) with 65536 in *. change (2 ^ 15) with 32768 in *. change (2 ^ 14) with 16384 in *.
  assert (Hsh : forall k, 0 <= k <= 30 -> shl32 1 k = Ret (2 ^ k)).
  { intros k Hk. unfold shl32, int32. replace ((k <? 0) || (31 <? k)) with false by lia. rewrite Z.mul_1_l. pose proof (pow_lt k 31 ltac:(lia)). assert (0 < 2 ^ k) by lia. change (2 ^ 31) with 2147483648 in *. replace ((- (2147483648) <=? 2 ^ k) && (2 ^ k <? 2147483648)) with true by lia. reflexivity. }
  destruct (Z.eqb_spec m 0) as [->|N].
  { assert (0 <= st / 8 < 32) by (specialize (H0 eq_refl); lia). rewrite Hsh by (destruct (Z.ltb_spec (30 - st / 8 + 1) Mb); lia). cbn [bind]. replace (int32 (0 + 32768)) with (Ret 32768) by reflexivity. cbn [bind]. change (32768 / 65536) with 0. rewrite Z.mul_0_l. replace (int32 0) with (Ret 0) by reflexivity. cbn [bind]. replace (int32 (0 + 16384)) with (Ret 16384) by reflexivity. cbn [bind]. change (16384 / 32768) with 0. exists 0. split; [destruct n; reflexivity|]. split; [lia|]. split; [reflexivity|]. intros C; contradiction C; reflexivity. }
  destruct (Hs N) as (Es & Hl & Hd). rewrite Es. replace (31 - Mb - 1 + (if 30 - lw + 1 <? Mb then Mb - (30 - lw + 1) else 0)) with (lw - 1) by (destruct (Z.ltb_spec (30 - lw + 1) Mb); lia).
  rewrite Hsh by lia. cbn [bind]. rewrite lor_add by (try lia; replace (lw - 1 + 1) with lw by lia; exact Hd). destruct (Hb N) as [B1 B2].
  assert (El : 2 ^ lw = 2 * 2 ^ (lw - 1)) by (rewrite <- Z.pow_succ_r by lia; f_equal; lia). rewrite El in *. assert (0 < 2 ^ (lw - 1)) by lia. set (V := m + 2 ^ (lw - 1)) in *.
  replace (2 * m + 2 * 2 ^ (lw - 1)) with (2 * V) in * by lia. replace ((2 * V + 65536) / 131072) with ((V + 32768) / 65536) in B2 by (replace (2 * V + 65536) with ((V + 32768) * 2) by lia; change 131072 with (65536 * 2); rewrite Z.div_mul_cancel_r; lia).
  unfold int32 at 1. change (2 ^ 31) with 2147483648. replace ((- (2147483648) <=? V + 32768) && (V + 32768 <? 2147483648)) with true by lia. cbn [bind].
  set (W := (V + 32768) / 65536) in *. assert (HW : 65536 * W <= V + 32768 < 65536 * W + 65536) by (unfold W; lia). assert (0 <= W * scale) by (apply Z.mul_nonneg_nonneg; lia).
  unfold int32. change (2 ^ 31) with 2147483648. replace ((- (2147483648) <=? W * scale) && (W * scale <? 2147483648)) with true by lia. cbn [bind]. replace ((- (2147483648) <=? W * scale + 16384) && (W * scale + 16384 <? 2147483648)) with true by lia. cbn [bind].
  exists ((W * scale + 16384) / 32768). split; [reflexivity|]. split; [lia|]. split; [intros C; contradiction|]. intros _.
  set (Q := (W * scale + 16384) / 32768). assert (HQ : 32768 * Q <= W * scale + 16384 < 32768 * Q + 32768) by (unfold Q; lia). clearbody Q W V.
  assert (K : Z.abs (W * scale * 65536 - V * scale) <= scale * 32768) by nia. nia.
Qed.
