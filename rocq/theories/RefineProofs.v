(** The refinement passes of the code are those of the standard. *)
From Verif Require Import Base BaseLemmas OutModel OutProofs StripProofs PassModel PassSpec PassProofs RefineModel RefineSpec.

(** ** Bit readers *)
Lemma bits_of_S n b : bits_of (S n) b = Z.testbit b 0 :: bits_of n (Z.shiftr b 1).
Proof.
  unfold bits_of. rewrite <- cons_seq. cbn [map]. f_equal. rewrite <- seq_shift, map_map. apply map_ext_in. intros i _. rewrite Z.shiftr_spec by lia. f_equal. lia.
Qed.
Lemma bits_of_0 n i : nth i (bits_of n 0) false = false.
Proof.
  destruct (nth_in_or_default i (bits_of n 0) false) as [H|H]; [|exact H]. unfold bits_of in H at 2. apply in_map_iff in H as (k & <- & _). apply Z.bits_0.
Qed.
Lemma land1_bit v : Z.land v 1 = Z.b2z (Z.testbit v 0).
Proof. change 1 with (Z.ones 1). rewrite Z.land_ones by lia. change (2 ^ 1) with 2. rewrite Z.bit0_mod. reflexivity. Qed.
Lemma skipn_S (l : list Z) n : (n < length l)%nat -> skipn n l = nth n l 0 :: skipn (S n) l.
Proof. revert n. induction l as [|a l IH]; intros n H; [cbn in H; lia|]. destruct n; [reflexivity|]. cbn [skipn nth]. apply IH. cbn in H. lia. Qed.
Lemma firstn_snoc (l : list Z) n : (n < length l)%nat -> firstn (S n) l = firstn n l ++ [nth n l 0].
Proof. revert n. induction l as [|a l IH]; intros n H; [cbn in H; lia|]. destruct n; [reflexivity|]. cbn [firstn nth app]. f_equal. apply IH. cbn in H. lia. Qed.

Definition sp_rest (D : list Z) (s : spdec) : list bool := bits_of (Z.to_nat (sp_bits s)) (sp_tmp s) ++ sp_bits_from (sp_last s) (skipn (Z.to_nat (sp_pos s)) D).
Definition Rsp (D : list Z) (s : spdec) (k : nat) : Prop := 0 <= sp_bits s /\ 0 <= sp_pos s /\ forall i, nth i (sp_rest D s) false = sp_bit D (k + i).
Lemma sp_init_R D : Rsp D sp_init 0.
Proof. split; [cbn; lia|]. split; [cbn; lia|]. intros i. reflexivity. Qed.
Lemma import_sp_R D s k : Rsp D s k -> exists s', import_sp D s = Ret (Z.b2z (sp_bit D k), s') /\ Rsp D s' (S k).
Proof.
  intros (Hb & Hp & Hr). unfold import_sp.
  assert (F : exists s1, sp_fill D s = Ret s1 /\ 0 < sp_bits s1 /\ 0 <= sp_pos s1 /\ forall i, nth i (sp_rest D s1) false = sp_bit D (k + i)).
  { unfold sp_fill. destruct (Z.eqb_spec (sp_bits s) 0) as [E|E]; [|exists s; split; [reflexivity|]; split; [lia|]; split; assumption]. cbv zeta.
    unfold sp_rest in Hr. rewrite E in Hr. change (bits_of (Z.to_nat 0) (sp_tmp s)) with (@nil bool) in Hr. cbn [app] in Hr.
    destruct (Z.ltb_spec (sp_pos s) (zlen D)) as [L|L].
    - rewrite rd_in by lia. cbn [bind]. eexists. split; [reflexivity|]. cbn [sp_bits sp_pos]. split; [destruct (sp_last s =? 255); lia|]. split; [lia|]. intros i. rewrite <- Hr. f_equal.
      unfold sp_rest. cbn [sp_bits sp_tmp sp_last sp_pos]. unfold zlen in L. rewrite (skipn_S D (Z.to_nat (sp_pos s))) by lia. replace (Z.to_nat (sp_pos s + 1)) with (S (Z.to_nat (sp_pos s))) by lia.
      unfold znth. replace (sp_pos s <? 0) with false by lia. cbn [sp_bits_from]. destruct (sp_last s =? 255); reflexivity.
    - eexists. split; [reflexivity|]. cbn [sp_bits sp_pos]. split; [destruct (sp_last s =? 255); lia|]. split; [exact Hp|]. intros i. rewrite <- Hr. unfold zlen in L. rewrite skipn_all2 by lia.
      unfold sp_rest. cbn [sp_bits sp_tmp sp_last sp_pos]. rewrite skipn_all2 by lia. cbn [sp_bits_from]. rewrite app_nil_r, bits_of_0. destruct i; reflexivity. }
  destruct F as (s1 & -> & B1 & P1 & R1). cbn [bind]. eexists. split.
  - rewrite land1_bit. do 3 f_equal. specialize (R1 O). rewrite Nat.add_0_r in R1. rewrite <- R1. unfold sp_rest. replace (Z.to_nat (sp_bits s1)) with (S (Z.to_nat (sp_bits s1 - 1))) by lia. rewrite bits_of_S. reflexivity.
  - split; [cbn; lia|]. split; [exact P1|]. intros i. specialize (R1 (S i)). replace (S k + i)%nat with (k + S i)%nat by lia. rewrite <- R1. unfold sp_rest. cbn [sp_bits sp_tmp sp_last sp_pos].
    replace (Z.to_nat (sp_bits s1)) with (S (Z.to_nat (sp_bits s1 - 1))) by lia. rewrite bits_of_S. reflexivity.
Qed.
Definition mr_rest (D : list Z) (s : mrdec) : list bool := bits_of (Z.to_nat (mr_bits s)) (mr_tmp s) ++ mr_bits_from (mr_last s) (rev (firstn (Z.to_nat (mr_pos s + 1)) D)).
Definition Rmr (D : list Z) (s : mrdec) (k : nat) : Prop := 0 <= mr_bits s /\ -1 <= mr_pos s < zlen D /\ forall i, nth i (mr_rest D s) false = mr_bit D (k + i).
Lemma mr_init_R D : Rmr D (mr_init D) 0.
Proof.
  unfold mr_init. split; [cbn; lia|]. pose proof (zlen_nonneg D). split; [cbn; destruct (Z.eqb_spec (zlen D) 0); lia|]. intros i. unfold mr_rest, mr_bit. cbn [mr_bits mr_tmp mr_last mr_pos Nat.add]. change (bits_of (Z.to_nat 0) 0) with (@nil bool). cbn [app].
  do 3 f_equal. apply firstn_all2. unfold zlen in *. destruct (Z.eqb_spec (Z.of_nat (length D)) 0); lia.
Qed.
Lemma import_mr_R D s k : Rmr D s k -> exists s', import_mr D s = Ret (Z.b2z (mr_bit D k), s') /\ Rmr D s' (S k).
Proof.
  intros (Hb & Hp & Hr). unfold import_mr.
  assert (F : exists s1, mr_fill D s = Ret s1 /\ 0 < mr_bits s1 /\ -1 <= mr_pos s1 < zlen D /\ forall i, nth i (mr_rest D s1) false = mr_bit D (k + i)).
  { unfold mr_fill. destruct (Z.eqb_spec (mr_bits s) 0) as [E|E]; [|exists s; split; [reflexivity|]; split; [lia|]; split; assumption]. cbv zeta.
    unfold mr_rest in Hr. rewrite E in Hr. change (bits_of (Z.to_nat 0) (mr_tmp s)) with (@nil bool) in Hr. cbn [app] in Hr.
    destruct (Z.leb_spec 0 (mr_pos s)) as [L|L].
    - rewrite rd_in by lia. cbn [bind]. eexists. split; [reflexivity|]. cbn [mr_bits mr_pos]. split; [match goal with |- context [if ?c then _ else _] => destruct c end; lia|]. split; [lia|]. intros i. rewrite <- Hr. f_equal.
      unfold mr_rest. cbn [mr_bits mr_tmp mr_last mr_pos]. unfold zlen in Hp. replace (Z.to_nat (mr_pos s + 1)) with (S (Z.to_nat (mr_pos s))) by lia. rewrite firstn_snoc, rev_app_distr by lia. cbn [rev app mr_bits_from].
      replace (mr_pos s - 1 + 1) with (mr_pos s) by lia. unfold znth. replace (mr_pos s <? 0) with false by lia. change 127 with (Z.ones 7) at 1. rewrite Z.land_ones by lia. change (2 ^ 7) with 128.
      match goal with |- context [if ?c then 7 else 8] => destruct c end; reflexivity.
    - cbn [bind]. change (Z.land 0 127 =? 127) with false. rewrite andb_false_r. eexists. split; [reflexivity|]. cbn [mr_bits mr_pos]. split; [lia|]. split; [lia|]. intros i. rewrite <- Hr.
      unfold mr_rest. cbn [mr_bits mr_tmp mr_last mr_pos]. replace (Z.to_nat (mr_pos s + 1)) with O by lia. cbn [firstn rev mr_bits_from]. rewrite app_nil_r, bits_of_0. destruct i; reflexivity. }
  destruct F as (s1 & -> & B1 & P1 & R1). cbn [bind]. eexists. split.
  - rewrite land1_bit. do 3 f_equal. specialize (R1 O). rewrite Nat.add_0_r in R1. rewrite <- R1. unfold mr_rest. replace (Z.to_nat (mr_bits s1)) with (S (Z.to_nat (mr_bits s1 - 1))) by lia. rewrite bits_of_S. reflexivity.
  - split; [cbn; lia|]. split; [exact P1|]. intros i. specialize (R1 (S i)). replace (S k + i)%nat with (k + S i)%nat by lia. rewrite <- R1. unfold mr_rest. cbn [mr_bits mr_tmp mr_last mr_pos].
    replace (Z.to_nat (mr_bits s1)) with (S (Z.to_nat (mr_bits s1 - 1))) by lia. rewrite bits_of_S. reflexivity.
Qed.

(** ** Lists of cells *)
Lemma NoDup_flat {A B} (f : A -> list B) l : NoDup l -> (forall a, In a l -> NoDup (f a)) -> (forall a a' b, In a l -> In a' l -> In b (f a) -> In b (f a') -> a = a') -> NoDup (flat_map f l).
Proof.
  induction l as [|a l IH]; intros Hn Hf Hd; [constructor|]. cbn [flat_map]. inversion_clear Hn as [|? ? Ha Hl].
  assert (K : forall l1 l2 : list B, NoDup l1 -> NoDup l2 -> (forall x, In x l1 -> ~ In x l2) -> NoDup (l1 ++ l2)).
  { clear. induction l1 as [|x l1 IH]; intros l2 H1 H2 H; [exact H2|]. inversion_clear H1 as [|? ? Hx H1']. cbn [app]. constructor; [intros C; apply in_app_or in C as [C|C]; [exact (Hx C)|exact (H x (or_introl eq_refl) C)]|]. apply IH; [assumption|assumption|]. intros y Hy. apply H. right. exact Hy. }
  apply K; [apply Hf; left; reflexivity|apply IH; [exact Hl|intros; apply Hf; right; assumption|intros a1 a2 b ? ?; apply Hd; right; assumption]|].
  intros x Hx C. apply in_flat_map in C as (a' & Ha' & C). rewrite (Hd a a' x (or_introl eq_refl) (or_intror Ha') Hx C) in Ha. exact (Ha Ha').
Qed.
Lemma NoDup_zseq n : NoDup (zseq n).
Proof. unfold zseq. apply FinFun.Injective_map_NoDup; [intros a b; lia|apply seq_NoDup]. Qed.
Lemma in_cells y0 hh x0 ww y x : In (y, x) (cells y0 hh x0 ww) <-> (y0 <= y < y0 + hh /\ x0 <= x < x0 + ww).
Proof.
  unfold cells. rewrite in_flat_map. split.
  - intros (j & Hj & H). apply in_map_iff in H as (i & E & Hi). apply zseq_In in Hj, Hi. injection E as <- <-. lia.
  - intros [Hy Hx]. exists (x - x0). split; [apply zseq_In; lia|]. apply in_map_iff. exists (y - y0). split; [f_equal; lia|apply zseq_In; lia].
Qed.
Lemma NoDup_cells y0 hh x0 ww : NoDup (cells y0 hh x0 ww).
Proof.
  unfold cells. apply NoDup_flat; [apply NoDup_zseq|intros j _; apply FinFun.Injective_map_NoDup; [intros a b E; injection E; lia|apply NoDup_zseq]|].
  intros j j' c _ _ H H'. apply in_map_iff in H as (i & <- & _). apply in_map_iff in H' as (i' & E & _). injection E. lia.
Qed.
Lemma foldo_cells {A} (f : A -> Z -> Z -> out A) y0 hh x0 ww a :
  foldo (fun a j => foldo (fun a i => f a (x0 + j) (y0 + i)) a (zseq hh)) a (zseq ww) = foldo (fun a yx => f a (snd yx) (fst yx)) a (cells y0 hh x0 ww).
Proof. unfold cells. rewrite foldo_flat. apply foldo_ext_in. intros b j _. rewrite foldo_map. reflexivity. Qed.
