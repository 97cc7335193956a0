(** Big-endian words in byte lists. *)
From Verif Require Import Base BaseLemmas.

(** A checked big-endian read of two and four bytes: [(p[0] << 8) | p[1]], ... *)
Definition rd16 (l : list Z) (i : Z) : out Z :=
  let* a := rd l i in let* b := rd l (i + 1) in Ret (Z.lor (Z.shiftl a 8) b).
Definition rd32 (l : list Z) (i : Z) : out Z :=
  let* a := rd l i in let* b := rd l (i + 1) in let* c := rd l (i + 2) in let* d := rd l (i + 3) in
  Ret (Z.lor (Z.lor (Z.lor (Z.shiftl a 24) (Z.shiftl b 16)) (Z.shiftl c 8)) d).

(** Specification side: the bytes of a number, most significant first. *)
Definition be16 (v : Z) : list Z := [v / 256 mod 256; v mod 256].
Definition be32 (v : Z) : list Z := [v / 16777216 mod 256; v / 65536 mod 256; v / 256 mod 256; v mod 256].

Lemma be16_len v : zlen (be16 v) = 2. Proof. reflexivity. Qed.
Lemma be32_len v : zlen (be32 v) = 4. Proof. reflexivity. Qed.
Lemma be16_ok v : bytes_ok (be16 v).
Proof. repeat constructor; lia. Qed.
Lemma be32_ok v : bytes_ok (be32 v).
Proof. repeat constructor; lia. Qed.

Lemma rd_app_r a b i : 0 <= i -> rd (a ++ b) (zlen a + i) = rd b i.
Proof.
  intros H. unfold rd. rewrite zlen_app. pose proof (zlen_nonneg a).
  replace (0 <=? zlen a + i) with true by lia. replace (0 <=? i) with true by lia.
  replace (zlen a + i <? zlen a + zlen b) with (i <? zlen b) by lia. cbn [andb].
  destruct (i <? zlen b); [|reflexivity]. rewrite znth_app_r by lia. do 2 f_equal. lia.
Qed.
Lemma rd_0 x l : rd (x :: l) 0 = Ret x.
Proof. rewrite rd_in; [reflexivity|]. rewrite zlen_cons. pose proof (zlen_nonneg l). lia. Qed.
Lemma rd_S x l i : 0 <= i -> rd (x :: l) (i + 1) = rd l i.
Proof. intros H. pose proof (rd_app_r [x] l i H) as E. change (zlen [x]) with 1 in E. rewrite Z.add_comm in E. exact E. Qed.

Lemma rd_in_ex l i : bytes_ok l -> 0 <= i < zlen l -> exists v, rd l i = Ret v /\ 0 <= v < 256.
Proof. intros H Hi. exists (znth 0 l i). split; [now apply rd_in|now apply bytes_ok_nth]. Qed.

Lemma rd16_in l i : bytes_ok l -> 0 <= i -> i + 2 <= zlen l -> exists v, rd16 l i = Ret v /\ 0 <= v < 65536.
Proof.
  intros H Hi Hl. unfold rd16. destruct (rd_in_ex l i H ltac:(lia)) as (a & -> & Ha).
  destruct (rd_in_ex l (i + 1) H ltac:(lia)) as (b & -> & Hb). cbn [bind].
  eexists. split; [reflexivity|]. rewrite (lor_shift_add a b 8) by lia. change (2 ^ 8) with 256. lia.
Qed.
Lemma rd32_in l i : bytes_ok l -> 0 <= i -> i + 4 <= zlen l -> exists v, rd32 l i = Ret v /\ 0 <= v < 2 ^ 32.
Proof.
  intros H Hi Hl. unfold rd32. destruct (rd_in_ex l i H ltac:(lia)) as (a & -> & Ha).
  destruct (rd_in_ex l (i + 1) H ltac:(lia)) as (b & -> & Hb).
  destruct (rd_in_ex l (i + 2) H ltac:(lia)) as (c & -> & Hc).
  destruct (rd_in_ex l (i + 3) H ltac:(lia)) as (d & -> & Hd). cbn [bind].
  eexists. split; [reflexivity|].
  rewrite (lor_shift_add a (Z.shiftl b 16) 24) by (rewrite ?Z.shiftl_mul_pow2; lia).
  rewrite (Z.shiftl_mul_pow2 b) by lia.
  replace (a * 2 ^ 24 + b * 2 ^ 16) with ((a * 256 + b) * 2 ^ 16) by lia.
  rewrite (lor_mul_add (a * 256 + b) (Z.shiftl c 8) 16) by (rewrite ?Z.shiftl_mul_pow2; lia).
  rewrite (Z.shiftl_mul_pow2 c) by lia.
  replace ((a * 256 + b) * 2 ^ 16 + c * 2 ^ 8) with (((a * 256 + b) * 256 + c) * 2 ^ 8) by lia.
  rewrite lor_mul_add by lia. change (2 ^ 8) with 256. change (2 ^ 32) with 4294967296. lia.
Qed.

Lemma rd16_be a v l i : zlen a = i -> 0 <= v < 65536 -> rd16 (a ++ be16 v ++ l) i = Ret v.
Proof.
  intros <- Hv. unfold rd16.
  assert (rd (a ++ be16 v ++ l) (zlen a) = Ret (v / 256 mod 256)) as ->.
  { rewrite <- (Z.add_0_r (zlen a)), rd_app_r by lia. apply rd_0. }
  rewrite rd_app_r by lia. cbn [bind be16 app]. rewrite (rd_S _ _ 0), rd_0 by lia. cbn [bind].
  rewrite (lor_shift_add _ _ 8) by lia. f_equal. change (2 ^ 8) with 256. lia.
Qed.
Lemma rd32_be a v l i : zlen a = i -> 0 <= v < 2 ^ 32 -> rd32 (a ++ be32 v ++ l) i = Ret v.
Proof.
  intros <- Hv. change (2 ^ 32) with 4294967296 in Hv. unfold rd32.
  assert (rd (a ++ be32 v ++ l) (zlen a) = Ret (v / 16777216 mod 256)) as ->.
  { rewrite <- (Z.add_0_r (zlen a)), rd_app_r by lia. apply rd_0. }
  rewrite !rd_app_r by lia. cbn [bind be32 app].
  assert (forall x0 x1 x2 x3 t, rd (x0 :: x1 :: x2 :: x3 :: t) 1 = Ret x1) as -> by (intros; rewrite (rd_S _ _ 0) by lia; apply rd_0). cbn [bind].
  assert (forall x0 x1 x2 x3 t, rd (x0 :: x1 :: x2 :: x3 :: t) 2 = Ret x2) as ->.
  { intros. rewrite (rd_S _ _ 1), (rd_S _ _ 0) by lia. apply rd_0. } cbn [bind].
  assert (forall x0 x1 x2 x3 t, rd (x0 :: x1 :: x2 :: x3 :: t) 3 = Ret x3) as ->.
  { intros. rewrite (rd_S _ _ 2), (rd_S _ _ 1), (rd_S _ _ 0) by lia. apply rd_0. } cbn [bind].
  set (a3 := v / 16777216 mod 256). set (a2 := v / 65536 mod 256). set (a1 := v / 256 mod 256). set (a0 := v mod 256).
  assert (0 <= a2 < 256 /\ 0 <= a1 < 256 /\ 0 <= a0 < 256 /\ v = ((a3 * 256 + a2) * 256 + a1) * 256 + a0) as (B2 & B1 & B0 & Ev)
    by (unfold a3, a2, a1, a0; lia).
  clearbody a3 a2 a1 a0.
  rewrite (lor_shift_add a3 (Z.shiftl a2 16) 24) by (rewrite ?Z.shiftl_mul_pow2; lia).
  rewrite (Z.shiftl_mul_pow2 a2) by lia.
  replace (a3 * 2 ^ 24 + a2 * 2 ^ 16) with ((a3 * 256 + a2) * 2 ^ 16) by lia.
  rewrite (lor_mul_add (a3 * 256 + a2) (Z.shiftl a1 8) 16) by (rewrite ?Z.shiftl_mul_pow2; lia).
  rewrite (Z.shiftl_mul_pow2 a1) by lia.
  replace ((a3 * 256 + a2) * 2 ^ 16 + a1 * 2 ^ 8) with (((a3 * 256 + a2) * 256 + a1) * 2 ^ 8) by lia.
  rewrite lor_mul_add by lia. f_equal. change (2 ^ 8) with 256. lia.
Qed.
Lemma rd_be a x l i : zlen a = i -> rd (a ++ x :: l) i = Ret x.
Proof. intros <-. rewrite <- (Z.add_0_r (zlen a)), rd_app_r by lia. apply rd_0. Qed.
