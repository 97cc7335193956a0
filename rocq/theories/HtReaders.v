(** The LSB-first readers (MagSgn and VLC) return the bits of the unstuffed
    stream. *)
From Verif Require Import Base BaseLemmas HtBits HtStreamModel.

(** ** Four-byte loads *)

Lemma byte_of_range v i : 0 <= byte_of v i < 256.
Proof. unfold byte_of. rewrite land_255. apply Z.mod_pos_bound. lia. Qed.

Lemma byte_of_0 v : Z.land v 255 = byte_of v 0.
Proof. unfold byte_of. change (8 * 0) with 0. now rewrite Z.shiftr_0_r. Qed.

Lemma byte_of_le32 b0 b1 b2 b3 : byte_ok b0 -> byte_ok b1 -> byte_ok b2 -> byte_ok b3 ->
  byte_of (le32 b0 b1 b2 b3) 0 = b0 /\ byte_of (le32 b0 b1 b2 b3) 1 = b1 /\
  byte_of (le32 b0 b1 b2 b3) 2 = b2 /\ byte_of (le32 b0 b1 b2 b3) 3 = b3.
Proof.
  unfold byte_ok. intros H0 H1 H2 H3. unfold byte_of, le32.
  rewrite !byte_div by lia. rewrite !Z.shiftl_mul_pow2 by lia.
  change (2 ^ (8 * 0)) with 1. change (2 ^ (8 * 1)) with 256. change (2 ^ (8 * 2)) with 65536.
  change (2 ^ (8 * 3)) with 16777216. change (2 ^ 8) with 256. change (2 ^ 16) with 65536.
  change (2 ^ 24) with 16777216.
  repeat split; lia.
Qed.

Lemma le32_range b0 b1 b2 b3 : byte_ok b0 -> byte_ok b1 -> byte_ok b2 -> byte_ok b3 ->
  0 <= le32 b0 b1 b2 b3 < 2 ^ 32.
Proof.
  unfold byte_ok, le32. intros. rewrite !Z.shiftl_mul_pow2 by lia.
  change (2 ^ 8) with 256. change (2 ^ 16) with 65536. change (2 ^ 24) with 16777216.
  change (2 ^ 32) with 4294967296. lia.
Qed.

Lemma shiftr24 v : 0 <= v < 2 ^ 32 -> Z.shiftr v 24 = byte_of v 3.
Proof.
  intros H. unfold byte_of. rewrite land_255. change (8 * 3) with 24.
  rewrite Z.mod_small; auto. rewrite Z.shiftr_div_pow2 by lia.
  change (2 ^ 24) with 16777216. change (2 ^ 32) with 4294967296 in H. lia.
Qed.

Lemma byte_put_same val v i : byte_ok v -> In i [0; 1; 2; 3] ->
  byte_of (Z.lor (Z.land val (wrap32 (Z.lnot (Z.shiftl 255 (8 * i))))) (Z.shiftl v (8 * i))) i = v.
Proof.
  intros Hv Hi. unfold byte_of. apply Z.bits_inj'. intros k Hk.
  change 255 with (Z.ones 8) at 2. rewrite Z.land_spec.
  destruct (Z.lt_ge_cases k 8).
  - rewrite Z.ones_spec_low, andb_true_r by lia. rewrite Z.shiftr_spec by lia.
    rewrite Z.lor_spec, Z.land_spec.
    assert (0 <= i <= 3) by (cbn in Hi; lia).
    rewrite Z.shiftl_spec by lia. replace (k + 8 * i - 8 * i) with k by lia.
    replace (Z.testbit (wrap32 (Z.lnot (Z.shiftl 255 (8 * i)))) (k + 8 * i)) with false.
    + now rewrite andb_false_r.
    + rewrite wrap32_testbit by lia. rewrite Z.lnot_spec by lia. rewrite Z.shiftl_spec by lia.
      replace (k + 8 * i - 8 * i) with k by lia. change 255 with (Z.ones 8).
      rewrite Z.ones_spec_low by lia. cbn. now rewrite andb_false_r.
  - rewrite Z.ones_spec_high by lia. rewrite andb_false_r. symmetry.
    apply testbit_high with 8; unfold byte_ok in Hv; try lia. 
Qed.

Lemma byte_put_other val v i j : byte_ok v -> In i [0; 1; 2; 3] -> In j [0; 1; 2; 3] -> i <> j ->
  byte_of (Z.lor (Z.land val (wrap32 (Z.lnot (Z.shiftl 255 (8 * i))))) (Z.shiftl v (8 * i))) j = byte_of val j.
Proof.
  intros Hv Hi Hj Hij. unfold byte_of. apply Z.bits_inj'. intros k Hk.
  change 255 with (Z.ones 8) at 2 3. rewrite !Z.land_spec.
  destruct (Z.lt_ge_cases k 8).
  2: { rewrite Z.ones_spec_high by lia. now rewrite !andb_false_r. }
  rewrite Z.ones_spec_low, !andb_true_r by lia. rewrite !Z.shiftr_spec by lia.
  rewrite Z.lor_spec, Z.land_spec.
  assert (0 <= i <= 3) by (cbn in Hi; lia). assert (0 <= j <= 3) by (cbn in Hj; lia).
  rewrite (Z.shiftl_spec v) by lia.
  replace (Z.testbit v (k + 8 * j - 8 * i)) with false.
  2: { symmetry. destruct (Z.lt_ge_cases j i).
       - apply Z.testbit_neg_r. lia.
       - apply testbit_high with 8; unfold byte_ok in Hv; lia. }
  rewrite orb_false_r. rewrite wrap32_testbit by lia. rewrite Z.lnot_spec by lia.
  rewrite (Z.shiftl_spec 255) by lia.
  replace (Z.testbit 255 (k + 8 * j - 8 * i)) with false.
  2: { symmetry. destruct (Z.lt_ge_cases j i).
       - apply Z.testbit_neg_r. lia.
       - apply testbit_high with 8; lia. }
  replace (k + 8 * j <? 32) with true by lia. cbn. apply andb_true_r.
Qed.

Lemma Forall_cons_inv {A} (P : A -> Prop) x l : Forall P (x :: l) -> P x /\ Forall P l.
Proof. intros H. inversion H. auto. Qed.

(** The bytes of the partially filled word: missing bytes are 0xFF. *)
Lemma put_bytes_spec l : bytes_ok l -> (length l <= 4)%nat ->
  let v := put_bytes 4294967295 0 l in
  byte_of v 0 = nth 0 l 255 /\ byte_of v 1 = nth 1 l 255 /\ byte_of v 2 = nth 2 l 255 /\ byte_of v 3 = nth 3 l 255.
Proof.
  intros H Hl. cbv zeta.
  assert (forall val b, byte_ok b ->
    (forall j, In j [0;1;2;3] -> byte_of (Z.lor (Z.land val (wrap32 (Z.lnot (Z.shiftl 255 0)))) (Z.shiftl b 0)) j
     = if j =? 0 then b else byte_of val j)) as P0.
  { intros val b Hb j Hj. destruct (j =? 0) eqn:E.
    - replace j with 0 by lia. apply (byte_put_same val b 0); cbn; auto.
    - apply (byte_put_other val b 0 j); cbn; auto. lia. }
  assert (forall val b, byte_ok b ->
    (forall j, In j [0;1;2;3] -> byte_of (Z.lor (Z.land val (wrap32 (Z.lnot (Z.shiftl 255 (0 + 8))))) (Z.shiftl b (0 + 8))) j
     = if j =? 1 then b else byte_of val j)) as P1.
  { intros val b Hb j Hj. destruct (j =? 1) eqn:E.
    - replace j with 1 by lia. apply (byte_put_same val b 1); cbn; auto.
    - apply (byte_put_other val b 1 j); cbn; auto. lia. }
  assert (forall val b, byte_ok b ->
    (forall j, In j [0;1;2;3] -> byte_of (Z.lor (Z.land val (wrap32 (Z.lnot (Z.shiftl 255 (0 + 8 + 8))))) (Z.shiftl b (0 + 8 + 8))) j
     = if j =? 2 then b else byte_of val j)) as P2.
  { intros val b Hb j Hj. destruct (j =? 2) eqn:E.
    - replace j with 2 by lia. apply (byte_put_same val b 2); cbn; auto.
    - apply (byte_put_other val b 2 j); cbn; auto. lia. }
  assert (forall val b, byte_ok b ->
    (forall j, In j [0;1;2;3] -> byte_of (Z.lor (Z.land val (wrap32 (Z.lnot (Z.shiftl 255 (0 + 8 + 8 + 8))))) (Z.shiftl b (0 + 8 + 8 + 8))) j
     = if j =? 3 then b else byte_of val j)) as P3.
  { intros val b Hb j Hj. destruct (j =? 3) eqn:E.
    - replace j with 3 by lia. apply (byte_put_same val b 3); cbn; auto.
    - apply (byte_put_other val b 3 j); cbn; auto. lia. }
  destruct l as [|a [|b [|c [|d [|e l]]]]]; try (cbn in Hl; lia); cbn [put_bytes nth];
    unfold bytes_ok in H;
    repeat match goal with H : Forall byte_ok (_ :: _) |- _ => apply Forall_cons_inv in H; destruct H end;
    repeat split;
    repeat first [ rewrite P3 by (cbn; auto 10) | rewrite P2 by (cbn; auto 10)
                 | rewrite P1 by (cbn; auto 10) | rewrite P0 by (cbn; auto 10) ]; reflexivity.
Qed.

Lemma put_high_spec l : bytes_ok l -> (length l <= 3)%nat ->
  put_high 0 24 l = le32 0 (nth 2 l 0) (nth 1 l 0) (nth 0 l 0).
Proof.
  intros H Hl. unfold le32.
  destruct l as [|a [|b [|c [|d l]]]]; try (cbn in Hl; lia); cbn [put_high nth];
    unfold bytes_ok in H;
    repeat match goal with H : Forall byte_ok (_ :: _) |- _ => apply Forall_cons_inv in H; destruct H end;
    unfold byte_ok in *.
  - reflexivity.
  - rewrite Z.lor_0_l, !Z.shiftl_mul_pow2 by lia. lia.
  - rewrite Z.lor_0_l. rewrite lor_shift_add by (try lia; change (24 - 8) with 16; rewrite Z.shiftl_mul_pow2; lia).
    change (24 - 8) with 16. rewrite !Z.shiftl_mul_pow2 by lia. lia.
  - rewrite Z.lor_0_l. change (24 - 8) with 16. change (16 - 8) with 8.
    rewrite (lor_shift_add a) by (try lia; rewrite Z.shiftl_mul_pow2; lia).
    rewrite Z.lor_comm. replace (a * 2 ^ 24 + Z.shiftl b 16) with (Z.shiftl (a * 256 + b) 16)
      by (rewrite !Z.shiftl_mul_pow2 by lia; lia).
    rewrite Z.lor_comm, lor_shift_add by (try lia; rewrite Z.shiftl_mul_pow2; lia).
    rewrite !Z.shiftl_mul_pow2 by lia. lia.
Qed.

(** ** The generic reader invariant *)

Section Reader.
Variable width : bool -> Z -> Z.
Variable nextu : Z -> bool.
Variable fill : Z.
Hypothesis width_78 : forall u b, width u b = 7 \/ width u b = 8.
Hypothesis fill_ok : byte_ok fill.

(** [pre u bs l]: the stream stored in the bytes [bs] (continued with [fill]
    bytes for ever), after a byte that sets the stuffing flag to [u], starts
    with the bits [l].  A byte of seven bits whose eighth bit is set leaves
    that bit behind; it must then coincide with the bit that follows. *)
Inductive pre : bool -> list Z -> list bool -> Prop :=
| pre_part u bs l : Z.of_nat (length l) <= width u (hd fill bs) ->
    l = bitsLE (length l) (hd fill bs) -> pre u bs l
| pre_full u bs l :
    (width u (hd fill bs) = 7 -> Z.testbit (hd fill bs) 7 = true -> hd true l = true) ->
    pre (nextu (hd fill bs)) (tl bs) l ->
    pre u bs (bitsLE (Z.to_nat (width u (hd fill bs))) (hd fill bs) ++ l).

(** What a reader holding [bits] bits in [creg] knows about the bits [l] still
    to be delivered. *)
Record Inv (creg bits : Z) (u : bool) (rest : list Z) (l : list bool) : Prop := MkInv {
  inv_c : 0 <= creg;
  inv_b : 0 <= bits;
  inv_in : forall i, 0 <= i < bits -> i < zlen l -> Z.testbit creg i = znth false l i;
  inv_out : forall i, bits <= i < zlen l -> Z.testbit creg i = true -> znth false l i = true;
  inv_pre : pre u rest (zskip bits l);
  inv_ok : bytes_ok rest }.

Lemma Inv_wrap c bits u rest l : Inv c bits u rest l -> bits <= 64 -> Inv (wrap64 c) bits u rest l.
Proof. clear width_78 fill_ok.
  intros [Hc Hb Hi Ho Hp Hk] H. constructor; auto.
  - apply wrap64_range.
  - intros i H1 H2. rewrite wrap64_testbit by lia. replace (i <? 64) with true by lia. cbn. auto.
  - intros i H1. rewrite wrap64_testbit by lia. intros H2. apply andb_true_iff in H2. apply Ho; tauto.
Qed.

Lemma hd_ok bs : bytes_ok bs -> byte_ok (hd fill bs).
Proof. intros H. destruct bs; cbn; auto. inversion H; auto. Qed.
Lemma tl_ok bs : bytes_ok bs -> bytes_ok (tl bs).
Proof. intros H. destruct bs; cbn; auto. inversion H; auto. Qed.

Lemma znth_bitsLE n v i : 0 <= i < Z.of_nat n -> znth false (bitsLE n v) i = Z.testbit v i.
Proof. clear width_78 fill_ok. intros H. unfold znth. rewrite bitsLE_nth by lia. now rewrite Z2Nat.id by lia. Qed.
Lemma zlen_bitsLE n v : zlen (bitsLE n v) = Z.of_nat n.
Proof. clear width_78 fill_ok. unfold zlen. now rewrite bitsLE_length. Qed.

Lemma absorb c bits u rest l : Inv c bits u rest l ->
  Inv (Z.lor c (Z.shiftl (hd fill rest) bits)) (bits + width u (hd fill rest))
      (nextu (hd fill rest)) (tl rest) l.
Proof.
  intros [Hc Hb Hi Ho Hp Hk].
  pose proof (hd_ok rest Hk) as Hd. unfold byte_ok in Hd.
  set (b := hd fill rest) in *.
  assert (7 <= width u b <= 8) as Hw by (destruct (width_78 u b); lia).
  assert (0 <= Z.shiftl b bits) by (apply Z.shiftl_nonneg; lia).
  (* what the stream says about the bits of b *)
  assert ((forall i, bits <= i < bits + width u b -> i < zlen l -> znth false l i = Z.testbit b (i - bits)) /\
          (bits + width u b < zlen l -> width u b = 7 -> Z.testbit b 7 = true -> znth false l (bits + 7) = true) /\
          pre (nextu b) (tl rest) (zskip (bits + width u b) l)) as (S1 & S2 & S3).
  { remember (zskip bits l) as m eqn:Em. destruct Hp as [u bs m Hm1 Hm2|u bs m Hm1 Hm2].
    - fold b in Hm1, Hm2. assert (zlen l <= bits \/ (bits <= zlen l /\ zlen m = zlen l - bits)) as Hz.
      { destruct (Z.le_gt_cases (zlen l) bits); [left; lia|right]. subst m. rewrite zlen_zskip by lia. lia. }
      split; [|split].
      + intros i Hi1 Hi2. replace i with (bits + (i - bits)) at 1 by lia.
        rewrite <- znth_zskip, <- Em by lia. rewrite Hm2. apply znth_bitsLE. unfold zlen in *. lia.
      + intros Hx. unfold zlen in *. lia.
      + rewrite zskip_all by (unfold zlen in *; lia). left; [|reflexivity]. cbn [length Z.of_nat].
        destruct (width_78 (nextu b) (hd fill (tl bs))); lia.
    - fold b in Hm1, Hm2, Em. fold b.
      assert (zlen l > bits) as Hlen.
      { apply (f_equal zlen) in Em. rewrite zlen_app, zlen_bitsLE in Em.
        destruct (Z.le_gt_cases (zlen l) bits); [|lia].
        rewrite zskip_all in Em by lia. rewrite zlen_nil in Em. pose proof (zlen_nonneg m). lia. }
      assert (l = ztake bits l ++ bitsLE (Z.to_nat (width u b)) b ++ m) as El.
      { rewrite <- (ztake_zskip bits l) at 1. now rewrite <- Em. }
      assert (zlen (ztake bits l) = bits) as Ht by (apply zlen_ztake; lia).
      split; [|split].
      + intros i Hi1 Hi2. rewrite El. rewrite znth_app_r by lia. rewrite Ht.
        rewrite znth_app_l by (rewrite zlen_bitsLE; lia). apply znth_bitsLE. lia.
      + intros Hx Hw7 Hb7. rewrite El. rewrite znth_app_r by lia. rewrite Ht.
        rewrite znth_app_r by (rewrite zlen_bitsLE; lia). rewrite zlen_bitsLE.
        replace (bits + 7 - bits - Z.of_nat (Z.to_nat (width u b))) with 0 by lia.
        specialize (Hm1 Hw7 Hb7). destruct m as [|x m']; [|exact Hm1].
        exfalso. apply (f_equal zlen) in El. rewrite app_nil_r, zlen_app, zlen_bitsLE in El. lia.
      + rewrite Z.add_comm, <- zskip_zskip, <- Em by lia. rewrite zskip_app; auto.
        rewrite zlen_bitsLE. lia. }
  constructor; auto.
  - apply Z.lor_nonneg. lia.
  - lia.
  - intros i H1 H2. rewrite Z.lor_spec, Z.shiftl_spec by lia.
    destruct (Z.lt_ge_cases i bits).
    + rewrite (Z.testbit_neg_r b), orb_false_r by lia. apply Hi; lia.
    + rewrite <- S1 by lia. destruct (Z.testbit c i) eqn:Eci; [|reflexivity].
      cbn. symmetry. apply Ho; [lia|assumption].
  - intros i H1. rewrite Z.lor_spec, Z.shiftl_spec by lia. intros H2. apply orb_true_iff in H2.
    destruct H2 as [H2|H2].
    + apply Ho; [lia|assumption].
    + destruct (Z.lt_ge_cases (i - bits) 8).
      * assert (width u b = 7) by lia. replace i with (bits + 7) in * by lia.
        apply S2; auto; try lia. now replace (bits + 7 - bits) with 7 in H2 by lia.
      * rewrite (testbit_high b 8) in H2 by (change (2 ^ 8) with 256; lia). discriminate.
  - now apply tl_ok.
Qed.

Lemma absorb4 c bits u rest l b0 b1 b2 b3 w0 w1 w2 w3 : Inv c bits u rest l ->
  b0 = hd fill rest -> b1 = hd fill (tl rest) -> b2 = hd fill (tl (tl rest)) ->
  b3 = hd fill (tl (tl (tl rest))) ->
  w0 = width u b0 -> w1 = width (nextu b0) b1 -> w2 = width (nextu b1) b2 -> w3 = width (nextu b2) b3 ->
  bits <= 32 ->
  Inv (wrap64 (Z.lor c (Z.shiftl
         (wrap32 (Z.lor (wrap32 (Z.lor (wrap32 (Z.lor b0 (Z.shiftl b1 w0)))
            (Z.shiftl b2 (w0 + w1)))) (Z.shiftl b3 (w0 + w1 + w2)))) bits)))
      (bits + (w0 + w1 + w2 + w3)) (nextu b3) (tl (tl (tl (tl rest)))) l.
Proof.
  intros HI E0 E1 E2 E3 Hw0 Hw1 Hw2 Hw3 Hb.
  pose proof (inv_b _ _ _ _ _ HI) as Hb0.
  pose proof (inv_ok _ _ _ _ _ HI) as Hk.
  assert (byte_ok b0) as B0 by (subst; apply hd_ok; auto).
  assert (byte_ok b1) as B1 by (subst b1; apply hd_ok; repeat apply tl_ok; auto).
  assert (byte_ok b2) as B2 by (subst b2; apply hd_ok; repeat apply tl_ok; auto).
  assert (byte_ok b3) as B3 by (subst b3; apply hd_ok; repeat apply tl_ok; auto).
  apply absorb in HI. rewrite <- E0 in HI. apply absorb in HI. rewrite <- E1 in HI.
  apply absorb in HI. rewrite <- E2 in HI. apply absorb in HI. rewrite <- E3 in HI.
  rewrite <- Hw0, <- Hw1, <- Hw2, <- Hw3 in HI.
  assert (7 <= w0 <= 8 /\ 7 <= w1 <= 8 /\ 7 <= w2 <= 8 /\ 7 <= w3 <= 8) as (W0 & W1 & W2 & W3).
  { rewrite Hw0, Hw1, Hw2, Hw3. repeat split;
    match goal with |- context [width ?a ?b] => destruct (width_78 a b) end; lia. }
  clear E0 E1 E2 E3 Hw0 Hw1 Hw2 Hw3.
  apply Inv_wrap in HI; [|lia].
  unfold byte_ok in *.
  assert (forall a n k, 0 <= a < 2 ^ n -> 0 <= n <= k -> 0 <= a < 2 ^ k) as mono.
  { intros a n k Ha Hn. assert (2 ^ n <= 2 ^ k) by (apply Z.pow_le_mono_r; lia). lia. }
  assert (forall b w, 0 <= b < 256 -> 0 <= w <= 24 -> 0 <= Z.shiftl b w < 2 ^ 32) as sr.
  { intros b w Hb' Hw. apply mono with (8 + w); [|lia].
    apply shiftl_range; [lia|exact Hb'|lia]. }
  assert (0 <= Z.lor b0 (Z.shiftl b1 w0) < 2 ^ 32) as R1.
  { apply lor_range; [lia| |apply sr; lia]. apply mono with 8; [exact B0|lia]. }
  rewrite (wrap32_small (Z.lor b0 _)) by exact R1.
  assert (0 <= Z.lor (Z.lor b0 (Z.shiftl b1 w0)) (Z.shiftl b2 (w0 + w1)) < 2 ^ 32) as R2.
  { apply lor_range; [lia|exact R1|apply sr; lia]. }
  rewrite (wrap32_small (Z.lor (Z.lor b0 _) _)) by exact R2.
  rewrite wrap32_small by (apply lor_range; [lia|exact R2|apply sr; lia]).
  rewrite !Z.shiftl_lor. rewrite !Z.shiftl_shiftl by lia.
  rewrite !Z.lor_assoc.
  replace (w0 + bits) with (bits + w0) by lia.
  replace (w0 + w1 + bits) with (bits + w0 + w1) by lia.
  replace (w0 + w1 + w2 + bits) with (bits + w0 + w1 + w2) by lia.
  replace (bits + (w0 + w1 + w2 + w3)) with (bits + w0 + w1 + w2 + w3) by lia.
  exact HI.
Qed.

Lemma Inv_advance c bits u rest l n : Inv c bits u rest l -> 0 <= n <= bits ->
  Inv (Z.shiftr c n) (bits - n) u rest (zskip n l).
Proof. clear width_78 fill_ok.
  intros [Hc Hb Hi Ho Hp Hk] Hn.
  assert (forall i, 0 <= i -> i < zlen (zskip n l) -> n + i < zlen l) as Hl.
  { intros i H1 H2. destruct (Z.le_gt_cases (zlen l) n).
    - rewrite zskip_all, zlen_nil in H2 by lia. lia.
    - rewrite zlen_zskip in H2 by lia. lia. }
  constructor; auto.
  - apply Z.shiftr_nonneg. lia.
  - lia.
  - intros i H1 H2. rewrite Z.shiftr_spec, znth_zskip, (Z.add_comm i n) by lia. apply Hi; [lia|]. apply Hl; lia.
  - intros i H1. rewrite Z.shiftr_spec, znth_zskip, (Z.add_comm i n) by lia. apply Ho. split; [lia|]. apply Hl; lia.
  - rewrite zskip_zskip by lia. now replace (bits - n + n) with bits by lia.
Qed.

(** A shorter expectation is implied. *)
Lemma pre_app u bs l m : pre u bs (l ++ m) -> pre u bs l.
Proof.
  intros H. remember (l ++ m) as k eqn:Ek. revert l m Ek.
  induction H as [u bs k H1 H2|u bs k H1 H2 IH]; intros l m Ek.
  - subst k. left.
    + rewrite app_length in H1. lia.
    + rewrite app_length in H2. rewrite Nat.add_comm in H2.
      apply (f_equal (firstn (length l))) in H2. rewrite firstn_app, Nat.sub_diag, firstn_all, firstn_O, app_nil_r in H2.
      rewrite H2 at 1. symmetry. apply bitsLE_prefix. lia.
  - set (b := hd fill bs) in *. set (n := Z.to_nat (width u b)) in *.
    destruct (Nat.le_gt_cases (length l) n).
    + left; fold b; [destruct (width_78 u b); lia|].
      apply (f_equal (firstn (length l))) in Ek. rewrite !firstn_app, Nat.sub_diag, firstn_all, firstn_O, app_nil_r in Ek.
      rewrite bitsLE_length in Ek. replace (length l - n)%nat with 0%nat in Ek by lia.
      rewrite firstn_O, app_nil_r, <- bitsLE_prefix in Ek by lia. now symmetry.
    + assert (l = bitsLE n b ++ skipn n l) as El.
      { rewrite <- (firstn_skipn n l) at 1. f_equal.
        apply (f_equal (firstn n)) in Ek. rewrite !firstn_app, bitsLE_length, Nat.sub_diag, firstn_O, app_nil_r in Ek.
        rewrite firstn_all2 in Ek by (rewrite bitsLE_length; lia).
        replace (n - length l)%nat with 0%nat in Ek by lia. rewrite firstn_O, app_nil_r in Ek. now symmetry. }
      rewrite El in Ek. rewrite <- app_assoc in Ek. apply app_inv_head in Ek.
      rewrite El. right; fold b.
      * intros Hw Ht. specialize (H1 Hw Ht). rewrite Ek in H1. destruct (skipn n l); auto.
      * eapply IH. exact Ek.
Qed.

(** Reading past what the stream promises is harmless. *)
Lemma Inv_app c bits u rest l m : Inv c bits u rest (l ++ m) -> Inv c bits u rest l.
Proof.
  intros [Hc Hb Hi Ho Hp Hk]. rewrite zlen_app in *. pose proof (zlen_nonneg m). constructor; auto.
  - intros i H1 H2. rewrite Hi by lia. apply znth_app_l. lia.
  - intros i H1 H2. rewrite <- (znth_app_l false l m) by lia. apply Ho; [lia|assumption].
  - destruct (Z.le_gt_cases bits (zlen l)).
    + rewrite zskip_app_le in Hp by lia. eapply pre_app; eauto.
    + rewrite zskip_all by lia. left; [|reflexivity]. cbn [length Z.of_nat]. destruct (width_78 u (hd fill rest)); lia.
Qed.

End Reader.
