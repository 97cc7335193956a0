(** Bit lists: arithmetic facts used by the proofs about the HT bit streams. *)
From Verif Require Import Base BaseLemmas.

(** The [n] low bits of [v], least significant first. *)
Definition bitsLE (n : nat) (v : Z) : list bool :=
  map (fun i => Z.testbit v (Z.of_nat i)) (seq 0 n).

(** The [n] low bits of [v], most significant first. *)
Definition bitsBE (n : nat) (v : Z) : list bool := rev (bitsLE n v).

Lemma bitsLE_length n v : length (bitsLE n v) = n.
Proof. unfold bitsLE. now rewrite map_length, seq_length. Qed.
Lemma bitsBE_length n v : length (bitsBE n v) = n.
Proof. unfold bitsBE. now rewrite rev_length, bitsLE_length. Qed.

Lemma bitsLE_nth n v i d : (i < n)%nat -> nth i (bitsLE n v) d = Z.testbit v (Z.of_nat i).
Proof.
  intros H. unfold bitsLE.
  rewrite nth_indep with (d' := Z.testbit v (Z.of_nat 0)) by now rewrite map_length, seq_length.
  rewrite (map_nth (fun i => Z.testbit v (Z.of_nat i)) (seq 0 n) 0%nat i), seq_nth by lia. reflexivity.
Qed.

Lemma bits_ext (l1 l2 : list bool) :
  length l1 = length l2 -> (forall i, (i < length l1)%nat -> nth i l1 false = nth i l2 false) -> l1 = l2.
Proof. intros H1 H2. apply nth_ext with false false; auto. Qed.

Lemma bitsLE_ext n a b : (forall i, 0 <= i < Z.of_nat n -> Z.testbit a i = Z.testbit b i) -> bitsLE n a = bitsLE n b.
Proof.
  intros H. apply bits_ext; rewrite ?bitsLE_length; auto.
  intros i Hi. rewrite !bitsLE_nth by lia. apply H. lia.
Qed.

Lemma bitsLE_split n m v : bitsLE (n + m) v = bitsLE n v ++ bitsLE m (Z.shiftr v (Z.of_nat n)).
Proof.
  apply bits_ext; rewrite ?app_length, ?bitsLE_length; auto.
  intros i Hi. rewrite bitsLE_nth by lia.
  destruct (Nat.lt_ge_cases i n).
  - rewrite app_nth1 by (rewrite bitsLE_length; lia). now rewrite bitsLE_nth by lia.
  - rewrite app_nth2 by (rewrite bitsLE_length; lia). rewrite bitsLE_length, bitsLE_nth by lia.
    rewrite Z.shiftr_spec by lia. f_equal. lia.
Qed.

Lemma bitsLE_lor n m a b : 0 <= a < 2 ^ Z.of_nat n ->
  bitsLE (n + m) (Z.lor a (Z.shiftl b (Z.of_nat n))) = bitsLE n a ++ bitsLE m b.
Proof.
  intros Ha. rewrite bitsLE_split. f_equal.
  - apply bitsLE_ext. intros i Hi. rewrite Z.lor_spec, (Z.shiftl_spec_low b) by lia. apply orb_false_r.
  - f_equal. rewrite Z.shiftr_lor, Z.shiftr_shiftl_l by lia.
    rewrite Z.shiftr_div_pow2, Z.div_small, Z.lor_0_l by lia.
    now rewrite Z.sub_diag, Z.shiftl_0_r.
Qed.

Lemma bitsLE_S n v : bitsLE (S n) v = Z.testbit v 0 :: bitsLE n (Z.shiftr v 1).
Proof. change (S n) with (1 + n)%nat. now rewrite bitsLE_split. Qed.

Lemma bitsLE_prefix n m v : (n <= m)%nat -> bitsLE n v = firstn n (bitsLE m v).
Proof.
  intros H. replace m with (n + (m - n))%nat by lia. rewrite bitsLE_split, firstn_app, bitsLE_length.
  rewrite Nat.sub_diag, firstn_O, app_nil_r, firstn_all2; auto. rewrite bitsLE_length. lia.
Qed.

Lemma bitsLE_land n m v : (n <= m)%nat -> bitsLE n (Z.land v (2 ^ Z.of_nat m - 1)) = bitsLE n v.
Proof.
  intros H. apply bitsLE_ext. intros i Hi.
  replace (2 ^ Z.of_nat m - 1) with (Z.ones (Z.of_nat m)) by (rewrite Z.ones_equiv; lia).
  rewrite Z.land_spec, Z.ones_spec_low by lia. apply andb_true_r.
Qed.

Lemma bitsLE_mod n m v : (n <= m)%nat -> bitsLE n (v mod 2 ^ Z.of_nat m) = bitsLE n v.
Proof.
  intros H. apply bitsLE_ext. intros i Hi. apply Z.mod_pow2_bits_low. lia.
Qed.

(** Two numbers with the same low bits are equal modulo a power of two. *)
Lemma testbit_mod_eq n a b : 0 <= n -> (forall i, 0 <= i < n -> Z.testbit a i = Z.testbit b i) ->
  a mod 2 ^ n = b mod 2 ^ n.
Proof.
  intros Hn H. apply Z.bits_inj'. intros i Hi.
  destruct (Z.lt_ge_cases i n).
  - rewrite !Z.mod_pow2_bits_low by lia. apply H. lia.
  - rewrite !Z.mod_pow2_bits_high by lia. reflexivity.
Qed.

Lemma lor_range n a b : 0 <= n -> 0 <= a < 2 ^ n -> 0 <= b < 2 ^ n -> 0 <= Z.lor a b < 2 ^ n.
Proof.
  intros Hn Ha Hb. split; [apply Z.lor_nonneg; lia|].
  assert (Z.lor a b mod 2 ^ n = Z.lor a b) as E.
  { apply Z.bits_inj'. intros i Hi. destruct (Z.lt_ge_cases i n).
    - now rewrite Z.mod_pow2_bits_low by lia.
    - rewrite Z.mod_pow2_bits_high by lia. rewrite Z.lor_spec.
      symmetry. apply orb_false_iff. split.
      + rewrite <- (Z.mod_small a (2 ^ n)) by lia. apply Z.mod_pow2_bits_high. lia.
      + rewrite <- (Z.mod_small b (2 ^ n)) by lia. apply Z.mod_pow2_bits_high. lia. }
  rewrite <- E. apply Z.mod_pos_bound. apply Z.pow_pos_nonneg; lia.
Qed.

Lemma shiftl_range v s n : 0 <= s -> 0 <= v < 2 ^ n -> 0 <= n -> 0 <= Z.shiftl v s < 2 ^ (n + s).
Proof.
  intros Hs Hv Hn. rewrite Z.shiftl_mul_pow2, Z.pow_add_r by lia.
  assert (0 < 2 ^ s) by (apply Z.pow_pos_nonneg; lia). nia.
Qed.

Lemma testbit_high v n i : 0 <= v < 2 ^ n -> n <= i -> 0 <= n -> Z.testbit v i = false.
Proof.
  intros Hv Hi Hn. rewrite <- (Z.mod_small v (2 ^ n)) by lia. apply Z.mod_pow2_bits_high. lia.
Qed.

Lemma wrap32_testbit v i : 0 <= i -> Z.testbit (wrap32 v) i = (i <? 32) && Z.testbit v i.
Proof.
  intros Hi. unfold wrap32, two32. destruct (i <? 32) eqn:E.
  - now rewrite Z.mod_pow2_bits_low by lia.
  - now rewrite Z.mod_pow2_bits_high by lia.
Qed.
Lemma wrap64_testbit v i : 0 <= i -> Z.testbit (wrap64 v) i = (i <? 64) && Z.testbit v i.
Proof.
  intros Hi. unfold wrap64, two64. destruct (i <? 64) eqn:E.
  - now rewrite Z.mod_pow2_bits_low by lia.
  - now rewrite Z.mod_pow2_bits_high by lia.
Qed.

Lemma wrap32_range v : 0 <= wrap32 v < 2 ^ 32.
Proof. unfold wrap32, two32. apply Z.mod_pos_bound. reflexivity. Qed.
Lemma wrap64_range v : 0 <= wrap64 v < 2 ^ 64.
Proof. unfold wrap64, two64. apply Z.mod_pos_bound. reflexivity. Qed.

(** Conversion back from bits to a number. *)
Fixpoint valLE (l : list bool) : Z :=
  match l with [] => 0 | b :: t => Z.b2z b + 2 * valLE t end.

Lemma valLE_range l : 0 <= valLE l < 2 ^ zlen l.
Proof.
  induction l as [|b t IH]; [cbn; lia|].
  rewrite zlen_cons, Z.pow_add_r by (try lia; apply zlen_nonneg). cbn [valLE].
  destruct b; cbn [Z.b2z]; lia.
Qed.
Lemma bitsLE_valLE l : bitsLE (length l) (valLE l) = l.
Proof.
  induction l as [|b t IH]; [reflexivity|].
  cbn [length valLE]. rewrite bitsLE_S. rewrite Z.shiftr_div_pow2 by lia. change (2 ^ 1) with 2.
  replace ((Z.b2z b + 2 * valLE t) / 2) with (valLE t) by (destruct b; cbn [Z.b2z]; lia).
  rewrite IH. f_equal. rewrite Z.add_comm. apply Z.testbit_0_r.
Qed.
Lemma bitsLE_inj n a b : bitsLE n a = bitsLE n b -> a mod 2 ^ Z.of_nat n = b mod 2 ^ Z.of_nat n.
Proof.
  intros H. apply testbit_mod_eq; [lia|]. intros i Hi.
  pose proof (bitsLE_nth n a (Z.to_nat i) false ltac:(lia)) as Ha.
  pose proof (bitsLE_nth n b (Z.to_nat i) false ltac:(lia)) as Hb.
  rewrite Z2Nat.id in * by lia. congruence.
Qed.
Lemma valLE_bitsLE n v : valLE (bitsLE n v) = v mod 2 ^ Z.of_nat n.
Proof.
  pose proof (bitsLE_valLE (bitsLE n v)) as H. rewrite bitsLE_length in H.
  apply bitsLE_inj in H. rewrite Z.mod_small in H; auto.
  pose proof (valLE_range (bitsLE n v)) as R. unfold zlen in R. rewrite bitsLE_length in R. lia.
Qed.

(** Bytes of a 32-bit little-endian word. *)
Lemma byte_div a n : 0 <= n -> Z.land (Z.shiftr a n) 255 = (a / 2 ^ n) mod 256.
Proof. intros. now rewrite land_255, Z.shiftr_div_pow2. Qed.

Lemma forall_repeat {A} (x : A) l : Forall (fun y => y = x) l <-> l = repeat x (length l).
Proof.
  induction l as [|a t IH]; cbn; [split; auto|]. split.
  - intros H. inversion_clear H. subst. f_equal. now apply IH.
  - intros H. injection H as <- H. constructor; auto. now apply IH.
Qed.
