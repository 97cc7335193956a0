(** Finite maps as association lists, for models of std::unordered_map.
    Nothing here models a particular C++ function of the repository. *)
From Verif Require Import Base.

Lemma filter_length_le {A} (p : A -> bool) l : (length (filter p l) <= length l)%nat.
Proof. induction l as [| a l IH]; cbn [filter length]; [auto |]. destruct (p a); cbn [length]; lia. Qed.

Section Assoc.
  Context {K V : Type} (eqb : K -> K -> bool).
  Fixpoint aget (m : list (K * V)) (k : K) : option V :=
    match m with
    | [] => None
    | (k', v) :: m' => if eqb k' k then Some v else aget m' k
    end.
  (** Overwrite in place, or append. *)
  Fixpoint aput (m : list (K * V)) (k : K) (v : V) : list (K * V) :=
    match m with
    | [] => [(k, v)]
    | (k', v') :: m' => if eqb k' k then (k', v) :: m' else (k', v') :: aput m' k v
    end.
  Definition adel (m : list (K * V)) (k : K) : list (K * V) :=
    filter (fun e => negb (eqb (fst e) k)) m.

  Hypothesis eqb_spec : forall a b, reflect (a = b) (eqb a b).

  Lemma eqb_rf a : eqb a a = true.
  Proof. destruct (eqb_spec a a); congruence. Qed.

  Lemma aget_aput m k v k' : aget (aput m k v) k' = if eqb k k' then Some v else aget m k'.
  Proof.
    induction m as [| [a b] m IH]; cbn [aput aget].
    - destruct (eqb_spec k k'); reflexivity.
    - destruct (eqb_spec a k) as [E | N]; cbn [aget].
      + subst a. destruct (eqb_spec k k'); reflexivity.
      + rewrite IH. destruct (eqb_spec a k'), (eqb_spec k k'); congruence.
  Qed.
  Lemma aget_adel m k k' : aget (adel m k) k' = if eqb k k' then None else aget m k'.
  Proof.
    unfold adel. induction m as [| [a b] m IH]; cbn [filter aget fst].
    - now destruct (eqb k k').
    - destruct (eqb_spec a k) as [E | N]; cbn [negb aget].
      + subst a. rewrite IH. destruct (eqb_spec k k'); reflexivity.
      + rewrite IH. destruct (eqb_spec a k'), (eqb_spec k k'); congruence.
  Qed.
  Lemma aget_In m k v : aget m k = Some v -> In (k, v) m.
  Proof.
    induction m as [| [a b] m IH]; cbn [aget]; [discriminate |].
    destruct (eqb_spec a k) as [-> |]; [intros [= ->]; now left | right; auto].
  Qed.
  Lemma aget_None m k : aget m k = None <-> ~ In k (map fst m).
  Proof.
    induction m as [| [a b] m IH]; cbn [aget map fst]; [easy |].
    destruct (eqb_spec a k) as [-> | N].
    - split; [discriminate | intros H; exfalso; apply H; now left].
    - rewrite IH. cbn [In]. tauto.
  Qed.
  Lemma aget_NoDup m k v : NoDup (map fst m) -> In (k, v) m -> aget m k = Some v.
  Proof.
    induction m as [| [a b] m IH]; cbn [aget map fst]; intros D I; [easy |].
    inversion_clear D as [| ? ? Na Dm]. destruct I as [[= -> ->] | I]; [now rewrite eqb_rf |].
    destruct (eqb_spec a k) as [-> |]; [| now apply IH].
    exfalso. apply Na. now apply (in_map fst) in I.
  Qed.
  Lemma adel_keys m k k' : In k' (map fst (adel m k)) <-> In k' (map fst m) /\ k' <> k.
  Proof.
    unfold adel. rewrite !in_map_iff. split.
    - intros [[a b] [<- I]]. apply filter_In in I as [I E]. cbn [fst] in *.
      split; [now exists (a, b) |]. intros ->. now rewrite eqb_rf in E.
    - intros [[[a b] [<- I]] N]. cbn [fst] in *. exists (a, b). split; [reflexivity |].
      apply filter_In. split; [assumption |]. cbn [fst]. destruct (eqb_spec a k); easy.
  Qed.
  Lemma adel_NoDup m k : NoDup (map fst m) -> NoDup (map fst (adel m k)).
  Proof.
    unfold adel. induction m as [| [a b] m IH]; cbn [filter map fst]; [auto |]. intros D.
    inversion_clear D as [| ? ? Na Dm]. destruct (negb (eqb a k)); [| auto].
    cbn [map fst]. constructor; [| auto]. intros I. apply (adel_keys m k a) in I. tauto.
  Qed.
  Lemma aput_keys m k v k' : In k' (map fst (aput m k v)) <-> In k' (map fst m) \/ k' = k.
  Proof.
    induction m as [| [a b] m IH]; cbn [aput map fst In]; [intuition congruence |].
    destruct (eqb_spec a k) as [-> |]; cbn [map fst In]; [intuition congruence | rewrite IH; intuition congruence].
  Qed.
  Lemma aput_NoDup m k v : NoDup (map fst m) -> NoDup (map fst (aput m k v)).
  Proof.
    induction m as [| [a b] m IH]; cbn [aput map fst]; intros D; [repeat constructor; easy |].
    inversion_clear D as [| ? ? Na Dm]. destruct (eqb_spec a k) as [-> |]; cbn [map fst]; constructor; auto.
    rewrite aput_keys. intros [I | ->]; congruence.
  Qed.
  Lemma aput_length m k v : (length (aput m k v) <= S (length m))%nat.
  Proof. induction m as [| [a b] m IH]; cbn [aput length]; [auto |]. destruct (eqb a k); cbn [length]; lia. Qed.
  Lemma aput_length_in m k v : In k (map fst m) -> length (aput m k v) = length m.
  Proof.
    induction m as [| [a b] m IH]; cbn [aput length map fst In]; [easy |]. intros [-> | I].
    - now rewrite eqb_rf.
    - destruct (eqb a k); cbn [length]; auto.
  Qed.
  Lemma aput_length_out m k v : ~ In k (map fst m) -> length (aput m k v) = S (length m).
  Proof.
    induction m as [| [a b] m IH]; cbn [aput length map fst In]; [auto |]. intros N.
    destruct (eqb_spec a k) as [-> |]; cbn [length]; [tauto |]. rewrite IH; tauto.
  Qed.
  Lemma adel_length m k : (length (adel m k) <= length m)%nat.
  Proof. unfold adel. apply filter_length_le. Qed.
  Lemma adel_length_in m k : In k (map fst m) -> (length (adel m k) < length m)%nat.
  Proof.
    unfold adel. induction m as [| [a b] m IH]; cbn [map fst In filter length]; [easy |].
    intros [-> | I].
    - rewrite eqb_rf. cbn [negb]. pose proof (filter_length_le (fun e : K * V => negb (eqb (fst e) k)) m). lia.
    - specialize (IH I). destruct (negb (eqb a k)); cbn [length]; lia.
  Qed.
End Assoc.

Lemma zeqb_reflect a b : reflect (a = b) (a =? b).
Proof. apply Z.eqb_spec. Qed.

(** Strings are lists of character codes. *)
Fixpoint str_eqb (a b : list Z) : bool :=
  match a, b with
  | [], [] => true
  | x :: a', y :: b' => (x =? y) && str_eqb a' b'
  | _, _ => false
  end.
Lemma str_eqb_spec a b : reflect (a = b) (str_eqb a b).
Proof.
  revert b. induction a as [| x a IH]; intros [| y b]; cbn [str_eqb]; try (constructor; congruence).
  destruct (Z.eqb_spec x y) as [-> | N]; cbn [andb]; [| constructor; congruence].
  destruct (IH b) as [-> | N]; constructor; congruence.
Qed.
