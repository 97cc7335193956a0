From Verif Require Import Base BaseLemmas Text.

Lemma dec_digits_acc fuel : forall n acc, dec_digits fuel n acc = dec_digits fuel n [] ++ acc.
Proof.
  induction fuel as [| f IH]; intros n acc; cbn [dec_digits]; [reflexivity |].
  destruct (n <? 10); [reflexivity |]. rewrite IH, (IH _ [48 + n mod 10]), <- app_assoc. reflexivity.
Qed.
Lemma horner_app base val a b : horner base val (a ++ b) = fold_left (fun v c => base * v + val c) b (horner base val a).
Proof. unfold horner. apply fold_left_app. Qed.

Lemma dec_digits_spec fuel : forall n, 0 <= n < 2 ^ Z.of_nat fuel ->
  Forall (fun c => is_digit c = true) (dec_digits fuel n []) /\ (fuel <> O -> dec_digits fuel n [] <> []) /\
  dec_value (dec_digits fuel n []) = n.
Proof.
  induction fuel as [| f IH]; intros n H.
  - change (2 ^ Z.of_nat 0) with 1 in H. cbn [dec_digits]. split; [constructor | split; [congruence |]]. unfold dec_value, horner. cbn. lia.
  - cbn [dec_digits]. destruct (Z.ltb_spec n 10).
    + split; [| split; [discriminate |]].
      * constructor; [unfold is_digit; lia | constructor].
      * unfold dec_value, horner. cbn [fold_left]. lia.
    + rewrite dec_digits_acc. rewrite Nat2Z.inj_succ, Z.pow_succ_r in H by lia.
      destruct (IH (n / 10)) as [F [_ V]]; [split; [lia |]; apply Z.div_lt_upper_bound; lia |].
      split; [| split].
      * apply Forall_app. split; [assumption |]. constructor; [unfold is_digit; lia | constructor].
      * intros _ E. apply app_eq_nil in E as [_ E]. discriminate E.
      * unfold dec_value in *. rewrite horner_app, V. cbn [fold_left]. lia.
Qed.

Lemma dec_spec n : 0 <= n ->
  Forall (fun c => is_digit c = true) (dec n) /\ dec n <> [] /\ dec_value (dec n) = n.
Proof.
  intros H. unfold dec. destruct (dec_digits_spec (S (Z.to_nat (Z.log2 n))) n) as [A [B C]].
  - split; [assumption |]. rewrite Nat2Z.inj_succ, Z2Nat.id by apply Z.log2_nonneg.
    destruct (Z.eq_dec n 0) as [-> | N]; [reflexivity |]. apply Z.log2_spec. lia.
  - auto.
Qed.
Lemma dec_inj a b : 0 <= a -> 0 <= b -> dec a = dec b -> a = b.
Proof. intros Ha Hb E. rewrite <- (proj2 (proj2 (dec_spec a Ha))), E. apply dec_spec. assumption. Qed.

Definition stops (p : Z -> bool) (rest : list Z) : Prop := match rest with [] => True | c :: _ => p c = false end.
Lemma take_while_app p ds rest : Forall (fun c => p c = true) ds -> stops p rest -> take_while p (ds ++ rest) = ds.
Proof.
  induction ds as [| c ds IH]; intros F N; cbn [app take_while].
  - destruct rest as [| c rest]; cbn [take_while stops] in *; [reflexivity | now rewrite N].
  - inversion_clear F as [| ? ? Hc Hds]. rewrite Hc. now rewrite IH.
Qed.

Lemma strtoull_dec n rest : 0 <= n < two64 -> stops is_digit rest ->
  strtoull (dec n ++ rest) = (n, zlen (dec n)).
Proof.
  intros H N. destruct (dec_spec n ltac:(lia)) as [F [NE V]].
  unfold strtoull. destruct (dec n) as [| c ds] eqn:E; [congruence |].
  assert (Hc : is_digit c = true) by now inversion F.
  assert (Hws : take_while is_space ((c :: ds) ++ rest) = []).
  { cbn [app take_while]. unfold is_digit in Hc. unfold is_space.
    replace (_ || _) with false by lia. reflexivity. }
  rewrite Hws. change (zlen (@nil Z)) with 0. rewrite zskip_0.
  assert (Hsg : match (c :: ds) ++ rest with
                | 45 :: s' => (true, 1, s')
                | 43 :: s' => (false, 1, s')
                | _ => (false, 0, (c :: ds) ++ rest)
                end = (false, 0, (c :: ds) ++ rest)).
  { cbn [app]. unfold is_digit in Hc.
    assert (c <> 45 /\ c <> 43) as [? ?] by lia. destruct c as [| p | p]; try reflexivity.
    repeat (destruct p as [p | p |]; try reflexivity; try congruence). }
  rewrite Hsg. rewrite take_while_app by assumption.
  rewrite V. destruct (Z.leb_spec two64 n); [lia |]. reflexivity.
Qed.
