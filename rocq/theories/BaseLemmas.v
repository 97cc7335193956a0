From Verif Require Import Base.

Lemma zlen_nil {A} : zlen (@nil A) = 0. Proof. reflexivity. Qed.
Lemma zlen_cons {A} (x : A) l : zlen (x :: l) = 1 + zlen l.
Proof. unfold zlen; simpl length; lia. Qed.
Lemma zlen_app {A} (a b : list A) : zlen (a ++ b) = zlen a + zlen b.
Proof. unfold zlen; rewrite app_length; lia. Qed.
Lemma zlen_nonneg {A} (l : list A) : 0 <= zlen l.
Proof. unfold zlen; lia. Qed.
Lemma zlen_0 {A} (l : list A) : zlen l = 0 -> l = [].
Proof. destruct l; auto. rewrite zlen_cons. pose proof (zlen_nonneg l). lia. Qed.
Lemma zlen_map {A B} (f : A -> B) l : zlen (map f l) = zlen l.
Proof. unfold zlen; rewrite map_length; auto. Qed.
Lemma zlen_rev {A} (l : list A) : zlen (rev l) = zlen l.
Proof. unfold zlen; rewrite rev_length; auto. Qed.
Lemma zlen_repeat {A} (x : A) n : zlen (repeat x n) = Z.of_nat n.
Proof. unfold zlen; rewrite repeat_length; auto. Qed.

Lemma zskip_0 {A} (l : list A) : zskip 0 l = l. Proof. reflexivity. Qed.
Lemma zskip_neg {A} n (l : list A) : n <= 0 -> zskip n l = l.
Proof. intros; unfold zskip. replace (Z.to_nat n) with O by lia. reflexivity. Qed.
Lemma zskip_app {A} n (a b : list A) : zlen a = n -> zskip n (a ++ b) = b.
Proof.
  intros <-. unfold zskip, zlen. rewrite Nat2Z.id.
  rewrite skipn_app, skipn_all, Nat.sub_diag. reflexivity.
Qed.
Lemma zskip_zskip {A} n m (l : list A) : 0 <= n -> 0 <= m -> zskip n (zskip m l) = zskip (n + m) l.
Proof.
  intros; unfold zskip.
  replace (Z.to_nat (n + m)) with (Z.to_nat m + Z.to_nat n)%nat by lia.
  revert l. induction (Z.to_nat m); intros l; simpl; auto.
  destruct l; simpl; auto. destruct (Z.to_nat n); auto.
Qed.
Lemma zskip_app_le {A} n (a b : list A) : n <= zlen a -> zskip n (a ++ b) = zskip n a ++ b.
Proof.
  intros; unfold zskip, zlen in *. rewrite skipn_app.
  replace (Z.to_nat n - length a)%nat with O by lia. reflexivity.
Qed.
Lemma zlen_zskip {A} n (l : list A) : 0 <= n <= zlen l -> zlen (zskip n l) = zlen l - n.
Proof. unfold zskip, zlen. rewrite skipn_length. lia. Qed.
Lemma zlen_ztake {A} n (l : list A) : 0 <= n <= zlen l -> zlen (ztake n l) = n.
Proof. unfold ztake, zlen. rewrite firstn_length. lia. Qed.
Lemma ztake_zskip {A} n (l : list A) : ztake n l ++ zskip n l = l.
Proof. apply firstn_skipn. Qed.
Lemma ztake_app {A} n (a b : list A) : zlen a = n -> ztake n (a ++ b) = a.
Proof.
  intros <-. unfold ztake, zlen. rewrite Nat2Z.id, firstn_app, Nat.sub_diag, firstn_all.
  apply app_nil_r.
Qed.
Lemma ztake_app_le {A} n (a b : list A) : n <= zlen a -> ztake n (a ++ b) = ztake n a.
Proof.
  intros; unfold ztake, zlen in *. rewrite firstn_app.
  replace (Z.to_nat n - length a)%nat with O by lia. simpl. apply app_nil_r.
Qed.
Lemma ztake_all {A} n (l : list A) : zlen l <= n -> ztake n l = l.
Proof. unfold ztake, zlen; intros. apply firstn_all2. lia. Qed.
Lemma zskip_all {A} n (l : list A) : zlen l <= n -> zskip n l = [].
Proof. unfold zskip, zlen; intros. apply skipn_all2. lia. Qed.
Lemma ztake_0 {A} n (l : list A) : n <= 0 -> ztake n l = [].
Proof. intros; unfold ztake. replace (Z.to_nat n) with O by lia. reflexivity. Qed.

Lemma znth_app_l {A} (d : A) a b i : 0 <= i < zlen a -> znth d (a ++ b) i = znth d a i.
Proof. unfold znth, zlen; intros. apply app_nth1. lia. Qed.
Lemma znth_app_r {A} (d : A) a b i : zlen a <= i -> znth d (a ++ b) i = znth d b (i - zlen a).
Proof.
  unfold znth, zlen; intros. rewrite app_nth2 by lia. f_equal. lia.
Qed.
Lemma znth_0 {A} (d : A) x l : znth d (x :: l) 0 = x. Proof. reflexivity. Qed.
Lemma znth_cons {A} (d : A) x l i : 0 < i -> znth d (x :: l) i = znth d l (i - 1).
Proof.
  unfold znth; intros. replace (Z.to_nat i) with (S (Z.to_nat (i - 1))) by lia. reflexivity.
Qed.
Lemma znth_In {A} (d : A) l i : 0 <= i < zlen l -> In (znth d l i) l.
Proof. unfold znth, zlen; intros. apply nth_In. lia. Qed.
Lemma znth_zskip {A} (d : A) l n i : 0 <= n -> 0 <= i -> znth d (zskip n l) i = znth d l (n + i).
Proof.
  unfold znth, zskip; intros.
  replace (Z.to_nat (n + i)) with (Z.to_nat n + Z.to_nat i)%nat by lia.
  revert l. induction (Z.to_nat n); intros l; simpl; auto.
  destruct l; simpl; auto. destruct (Z.to_nat i); auto.
Qed.
Lemma znth_ztake {A} (d : A) l n i : 0 <= i < n -> znth d (ztake n l) i = znth d l i.
Proof.
  intros. unfold znth, ztake.
  destruct (Nat.lt_ge_cases (Z.to_nat i) (length l)).
  - rewrite <- (firstn_skipn (Z.to_nat n) l) at 2. rewrite app_nth1; auto.
    rewrite firstn_length. lia.
  - rewrite !nth_overflow; auto. rewrite firstn_length. lia.
Qed.
Lemma znth_map {A B} (da : A) (db : B) (f : A -> B) l i :
  0 <= i < zlen l -> znth db (map f l) i = f (znth da l i).
Proof.
  unfold znth, zlen; intros. rewrite (nth_indep _ db (f da)) by (rewrite map_length; lia).
  apply map_nth.
Qed.
Lemma znth_ext {A} (d : A) l1 l2 :
  zlen l1 = zlen l2 -> (forall i, 0 <= i < zlen l1 -> znth d l1 i = znth d l2 i) -> l1 = l2.
Proof.
  unfold zlen, znth; intros Hl H. apply (nth_ext _ _ d d); [lia|].
  intros n Hn. specialize (H (Z.of_nat n)). rewrite Nat2Z.id in H. apply H. lia.
Qed.
Lemma zskip_cons_nth {A} (d : A) l i :
  0 <= i < zlen l -> zskip i l = znth d l i :: zskip (i + 1) l.
Proof.
  unfold zskip, znth, zlen; intros.
  replace (Z.to_nat (i + 1)) with (S (Z.to_nat i)) by lia.
  assert (Hn : (Z.to_nat i < length l)%nat) by lia. clear H. revert l Hn.
  induction (Z.to_nat i); intros [|x l] Hn; simpl in *; try lia; auto.
  apply IHn. lia.
Qed.

Lemma zseq_len n : 0 <= n -> zlen (zseq n) = n.
Proof. intros; unfold zseq. rewrite zlen_map. unfold zlen. rewrite seq_length. lia. Qed.
Lemma zseq_0 n : n <= 0 -> zseq n = [].
Proof. intros; unfold zseq. replace (Z.to_nat n) with O by lia. reflexivity. Qed.
Lemma zseq_snoc n : 0 <= n -> zseq (n + 1) = zseq n ++ [n].
Proof.
  intros; unfold zseq. replace (Z.to_nat (n + 1)) with (S (Z.to_nat n)) by lia.
  rewrite seq_S, map_app. simpl. rewrite Z2Nat.id by lia. reflexivity.
Qed.
Lemma zseq_nth n i : 0 <= i < n -> znth 0 (zseq n) i = i.
Proof.
  intros; unfold znth, zseq.
  rewrite (nth_indep _ 0 (Z.of_nat 0)) by (rewrite map_length, seq_length; lia).
  rewrite map_nth, seq_nth; lia.
Qed.
Lemma zseq_In n i : In i (zseq n) <-> 0 <= i < n.
Proof.
  unfold zseq. rewrite in_map_iff. split.
  - intros (k & <- & Hk). apply in_seq in Hk. lia.
  - intros H. exists (Z.to_nat i). split; [lia|]. apply in_seq. lia.
Qed.

Lemma rd_in l i : 0 <= i < zlen l -> rd l i = Ret (znth 0 l i).
Proof. intros; unfold rd. replace ((0 <=? i) && (i <? zlen l)) with true by lia. reflexivity. Qed.
Lemma rd_out l i : ~ (0 <= i < zlen l) -> rd l i = UB.
Proof. intros; unfold rd. replace ((0 <=? i) && (i <? zlen l)) with false by lia. reflexivity. Qed.

Lemma bytes_ok_app a b : bytes_ok (a ++ b) <-> bytes_ok a /\ bytes_ok b.
Proof. apply Forall_app. Qed.
Lemma bytes_ok_nth l i : bytes_ok l -> 0 <= i < zlen l -> 0 <= znth 0 l i < 256.
Proof. intros H Hi. eapply Forall_forall in H. exact H. apply znth_In; auto. Qed.
Lemma bytes_ok_zskip n l : bytes_ok l -> bytes_ok (zskip n l).
Proof.
  intros H. rewrite <- (ztake_zskip n l) in H. apply bytes_ok_app in H. tauto.
Qed.
Lemma bytes_ok_ztake n l : bytes_ok l -> bytes_ok (ztake n l).
Proof.
  intros H. rewrite <- (ztake_zskip n l) in H. apply bytes_ok_app in H. tauto.
Qed.

(** Bit operations as arithmetic *)
Lemma land_ones_mod v n : 0 <= n -> Z.land v (2 ^ n - 1) = v mod 2 ^ n.
Proof. intros. rewrite <- Z.land_ones by lia. f_equal. rewrite Z.ones_equiv. lia. Qed.
Lemma land_127 v : Z.land v 127 = v mod 128.
Proof. apply (land_ones_mod v 7). lia. Qed.
Lemma land_15 v : Z.land v 15 = v mod 16.
Proof. apply (land_ones_mod v 4). lia. Qed.
Lemma land_255 v : Z.land v 255 = v mod 256.
Proof. apply (land_ones_mod v 8). lia. Qed.
Lemma land_1 v : Z.land v 1 = v mod 2.
Proof. apply (land_ones_mod v 1). lia. Qed.
Lemma land_3 v : Z.land v 3 = v mod 4.
Proof. apply (land_ones_mod v 2). lia. Qed.
Lemma land_7 v : Z.land v 7 = v mod 8.
Proof. apply (land_ones_mod v 3). lia. Qed.

Lemma land_shift_small a b n : 0 <= n -> 0 <= b < 2 ^ n -> Z.land (Z.shiftl a n) b = 0.
Proof.
  intros Hn Hb. apply Z.bits_inj'. intros k Hk. rewrite Z.land_spec, Z.bits_0.
  destruct (Z.lt_ge_cases k n).
  - rewrite Z.shiftl_spec_low by lia. reflexivity.
  - replace (Z.testbit b k) with false. apply andb_false_r.
    symmetry. destruct (Z.eq_dec b 0) as [->|]. apply Z.bits_0.
    apply Z.bits_above_log2. lia.
    apply Z.log2_lt_pow2; [lia|]. apply Z.lt_le_trans with (2 ^ n); [lia|].
    apply Z.pow_le_mono_r; lia.
Qed.
Lemma lor_shift_add a b n : 0 <= n -> 0 <= b < 2 ^ n -> Z.lor (Z.shiftl a n) b = a * 2 ^ n + b.
Proof.
  intros. rewrite <- Z.shiftl_mul_pow2 by lia. symmetry.
  rewrite <- Z.lxor_lor by (apply land_shift_small; auto).
  apply Z.add_nocarry_lxor. apply land_shift_small; auto.
Qed.
Lemma lor_mul_add a b n : 0 <= n -> 0 <= b < 2 ^ n -> Z.lor (a * 2 ^ n) b = a * 2 ^ n + b.
Proof.
  intros. rewrite <- lor_shift_add by auto. rewrite Z.shiftl_mul_pow2 by lia. reflexivity.
Qed.

Lemma zseq_cons n : 0 < n -> zseq n = 0 :: map (fun i => 1 + i) (zseq (n - 1)).
Proof.
  intros. unfold zseq. replace (Z.to_nat n) with (S (Z.to_nat (n - 1))) by lia.
  cbn [seq map]. f_equal. rewrite map_map, <- seq_shift, map_map. apply map_ext. intros. lia.
Qed.

(** [injection] reduces arithmetic; these do not. *)
Lemma Ret_inj {A} (a b : A) : Ret a = Ret b -> a = b. Proof. congruence. Qed.
Lemma Ret_inj3 {A B C} (a a' : A) (b b' : B) (c c' : C) :
  Ret (a, b, c) = Ret (a', b', c') -> a = a' /\ b = b' /\ c = c'.
Proof. intros H; repeat split; congruence. Qed.
Lemma Some_inj {A} (a b : A) : Some a = Some b -> a = b. Proof. congruence. Qed.
Lemma pair_inj {A B} (a a' : A) (b b' : B) : (a, b) = (a', b') -> a = a' /\ b = b'.
Proof. intros H; split; congruence. Qed.

Lemma bytes_ok_nil : bytes_ok []. Proof. constructor. Qed.
Global Hint Resolve bytes_ok_nil bytes_ok_zskip bytes_ok_ztake : core.

(** Split visible conjunctions only (does not unfold definitions). *)
Ltac conj := repeat match goal with |- _ /\ _ => split end; auto.

Lemma ztake_plus {A} a b (l : list A) : 0 <= a -> 0 <= b ->
  ztake a l ++ ztake b (zskip a l) = ztake (a + b) l.
Proof.
  intros. unfold ztake, zskip. replace (Z.to_nat (a + b)) with (Z.to_nat a + Z.to_nat b)%nat by lia.
  revert l; induction (Z.to_nat a); intros l; simpl; auto. destruct l; simpl; [rewrite firstn_nil; auto|].
  f_equal. auto.
Qed.

Lemma wrap64_small v : 0 <= v < two64 -> wrap64 v = v.
Proof. intros H. apply Z.mod_small. exact H. Qed.
Lemma wrap32_small v : 0 <= v < two32 -> wrap32 v = v.
Proof. intros H. apply Z.mod_small. exact H. Qed.
