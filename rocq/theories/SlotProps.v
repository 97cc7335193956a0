(** The latest-frame slot neither duplicates nor loses items (C43). *)
From Coq Require Import Permutation.
From Verif Require Import Base BaseLemmas SlotModel.

Section Props.
Context {T : Type}.
Implicit Types (s : st T) (t : tstate T).

Definition opt {A} (o : option A) : list A := match o with Some x => [x] | None => [] end.
(** Items that left the slot, by whether a consumer took them. *)
Definition popped s : list T := map snd (filter (fun e => fst e) (taken s)).
Definition evicted s : list T := map snd (filter (fun e => negb (fst e)) (taken s)).
(** Results a call holds and has not returned yet. *)
Definition stale_of t : list T :=
  match t with PushEmplace _ o | PushUnlock o | PushNotify o | PushRet o => opt o | _ => [] end.
Definition got_of t : list T := match t with PopUnlock o | PopRet o => opt o | _ => [] end.
Definition holds t : Z :=
  match t with PushIn _ | PushStale _ | PushEmplace _ _ | PushUnlock _ | PopCheck | PopBlock | PopTest | PopSwap | PopUnlock _ | TryTest => 1 | _ => 0 end.
Definition holders (l : list (tstate T)) : Z := fold_right Z.add 0 (map holds l).

(** What a thread knows about the slot while it has the mutex. *)
Definition knows (sl : option T) t : Prop :=
  match t with
  | PushEmplace _ _ | PopBlock => sl = None
  | PushStale _ | PopSwap => sl <> None
  | _ => True
  end.
(** Someone who will take the item or notify. *)
Definition obliged t : bool :=
  match t with PushUnlock _ | PushNotify _ | PopCheck | PopTest | PopSwap | TryTest | PushIn _ | PushStale _ => true | PopSleep w => w | _ => false end.

Record Inv s : Prop := {
  v_lock : holders (threads s) = if locked s then 1 else 0;
  v_knows : Forall (knows (slot s)) (threads s);
  v_order : pushed s = map snd (taken s) ++ opt (slot s);
  v_evict : Permutation (evicted s) (returned_evicted s ++ flat_map stale_of (threads s));
  v_pop : Permutation (popped s) (returned_popped s ++ flat_map got_of (threads s));
  v_count : evictions s = zlen (evicted s);
  v_wake : slot s <> None -> In (PopSleep false) (threads s) -> existsb obliged (threads s) = true }.

Lemma holds_01 t : 0 <= holds t <= 1. Proof. destruct t; cbn; lia. Qed.
Lemma holders_nonneg l : 0 <= holders l.
Proof. induction l as [|t l IH]; cbn in *; [lia|]. pose proof (holds_01 t). unfold holders in IH. lia. Qed.
Lemma holders_app a b : holders (a ++ b) = holders a + holders b.
Proof. unfold holders. induction a as [|t a IH]; cbn in *; [lia|]. rewrite IH. lia. Qed.
Lemma holders_cons t b : holders (t :: b) = holds t + holders b. Proof. reflexivity. Qed.

(** A thread without the mutex knows nothing. *)
Lemma knows_free sl sl' l : holders l = 0 -> Forall (knows sl) l -> Forall (knows sl') l.
Proof.
  induction l as [|t l IH]; intros H F; constructor.
  - rewrite holders_cons in H. pose proof (holders_nonneg l). pose proof (holds_01 t). assert (holds t = 0) as Z by lia. destruct t; cbn in *; auto; discriminate Z.
  - inversion F; subst. rewrite holders_cons in H. pose proof (holders_nonneg l). pose proof (holds_01 t). apply IH; [lia|assumption].
Qed.

Lemma inv0 n : Inv (st0 n).
Proof.
  assert (forall A (f : tstate T -> list A), f Idle = [] -> flat_map f (repeat Idle n) = []) as K.
  { intros A f E. induction n as [|n' IH]; [reflexivity|]. cbn. now rewrite E, IH. }
  constructor; cbn.
  - clear K. induction n as [|n' IH]; [reflexivity|]. cbn. exact IH.
  - apply Forall_forall. intros t H. apply repeat_spec in H. subst t. exact I.
  - reflexivity.
  - rewrite K by reflexivity. constructor.
  - rewrite K by reflexivity. constructor.
  - reflexivity.
  - congruence.
Qed.

Lemma wake_holders (l : list (tstate T)) : holders (wake l) = holders l.
Proof. induction l as [|t l IH]; [reflexivity|]. cbn [wake map]. fold (wake l). rewrite !holders_cons, IH. destruct t as [| | | | | | | | | | |[]| | | | | | |]; reflexivity. Qed.
Lemma wake_knows sl (l : list (tstate T)) : Forall (knows sl) l -> Forall (knows sl) (wake l).
Proof. induction 1 as [|t l H F IH]; [constructor|]. constructor; [|exact IH]. destruct t as [| | | | | | | | | | |[]| | | | | | |]; exact H. Qed.
Lemma wake_stale (l : list (tstate T)) : flat_map stale_of (wake l) = flat_map stale_of l.
Proof. induction l as [|t l IH]; [reflexivity|]. cbn [wake map flat_map]. fold (wake l). rewrite IH. destruct t as [| | | | | | | | | | |[]| | | | | | |]; reflexivity. Qed.
Lemma wake_got (l : list (tstate T)) : flat_map got_of (wake l) = flat_map got_of l.
Proof. induction l as [|t l IH]; [reflexivity|]. cbn [wake map flat_map]. fold (wake l). rewrite IH. destruct t as [| | | | | | | | | | |[]| | | | | | |]; reflexivity. Qed.
Lemma wake_none (l : list (tstate T)) : ~ In (PopSleep false) (wake l).
Proof. induction l as [|t l IH]; [auto|]. intros [E|E]; [|now apply IH]. destruct t as [| | | | | | | | | | |[]| | | | | | |]; discriminate E. Qed.

Lemma inv_step s s' : Inv s -> step s s' -> Inv s'.
Proof.
  intros I H.
  destruct H; destruct I as [V1 V2 V3 V4 V5 V6 V7]; unfold popped, evicted in *; cbn [locked slot evictions stop threads pushed taken returned_evicted returned_popped] in *;
    rewrite ?app_comm_cons in *;
    rewrite ?holders_app, ?holders_cons, ?Forall_app, ?Forall_cons_iff, ?flat_map_app, ?existsb_app, ?in_app_iff in *;
    cbn [holds knows flat_map stale_of got_of existsb obliged opt app In] in *;
    pose proof (holders_nonneg a) as Na; pose proof (holders_nonneg b) as Nb.
  all: constructor; cbn [locked slot evictions stop threads pushed taken returned_evicted returned_popped];
    rewrite ?app_comm_cons, ?holders_app, ?holders_cons, ?Forall_app, ?Forall_cons_iff, ?flat_map_app, ?existsb_app, ?in_app_iff;
    cbn [holds knows flat_map stale_of got_of existsb obliged opt app In]; try assumption.
  all: try (unfold popped, evicted; cbn [taken]; assumption).
  all: try (destruct lk; lia). all: try lia.
  all: try (intuition (auto; discriminate)).
  all: try (split; [|split]; [..|exact I]).
  all: try (assert (holders a = 0 /\ holders b = 0) as [Ha Hb] by (destruct lk; lia)).
  all: try (destruct V2 as (V2a & V2t & V2b); split; [|split]; [apply (knows_free sl _ a); assumption|auto|apply (knows_free sl _ b); assumption]).
  all: unfold evicted, popped; cbn [taken]; rewrite ?map_app, ?filter_app, ?map_app.
  (* push: the item found is evicted *)
  - destruct V2 as (_ & V2 & _). destruct sl as [x|]; [|congruence]. cbn [map snd opt] in *. rewrite app_nil_r. exact V3.
  - destruct V2 as (_ & V2 & _). destruct sl as [x|]; [|congruence]. cbn [filter fst negb map snd opt app] in *.
    rewrite app_assoc. apply Permutation_cons_app with (l1 := (re ++ flat_map stale_of a)) (a := x) (l2 := flat_map stale_of b) in V4 || idtac.
    etransitivity; [symmetry; apply Permutation_cons_append|]. apply Permutation_cons_app. rewrite <- app_assoc. exact V4.
  - destruct V2 as (_ & V2 & _). destruct sl as [x|]; [|congruence]. cbn [filter fst negb map snd opt app] in *. rewrite app_nil_r. exact V5.
  - destruct V2 as (_ & V2 & _). destruct sl as [x|]; [|congruence]. cbn [filter fst negb map snd opt app] in *. rewrite zlen_app, zlen_cons, zlen_nil. lia.
  (* push: the slot is empty when the new item is stored *)
  - destruct V2 as (_ & V2 & _). subst sl. cbn [opt] in V3. rewrite app_nil_r in V3. now rewrite V3.
  - fold (opt stale). etransitivity; [exact V4|]. rewrite <- app_assoc. apply Permutation_app_head. rewrite !app_assoc. apply Permutation_app_tail. apply Permutation_app_comm.
  (* pop *)
  - destruct V2 as (_ & V2 & _). destruct sl as [x|]; [|congruence]. cbn [map snd opt] in *. rewrite app_nil_r. exact V3.
  - destruct V2 as (_ & V2 & _). destruct sl as [x|]; [|congruence]. cbn [filter fst negb map snd opt app] in *. rewrite app_nil_r. exact V4.
  - destruct V2 as (_ & V2 & _). destruct sl as [x|]; [|congruence]. cbn [filter fst negb map snd opt app] in *.
    rewrite app_assoc. etransitivity; [symmetry; apply Permutation_cons_append|]. apply Permutation_cons_app. rewrite <- app_assoc. exact V5.
  - destruct V2 as (_ & V2 & _). destruct sl as [x|]; [|congruence]. cbn [filter fst negb map snd opt app] in *. rewrite app_nil_r. exact V6.
  - fold (opt got). etransitivity; [exact V5|]. rewrite <- app_assoc. apply Permutation_app_head. rewrite !app_assoc. apply Permutation_app_tail. apply Permutation_app_comm.
  (* notify_all *)
  - rewrite !wake_holders. lia.
  - split; [|split]; [apply wake_knows; tauto|exact I|apply wake_knows; tauto].
  - rewrite !wake_stale. exact V4.
  - rewrite !wake_got. exact V5.
  - intros _ [K|[K|K]]; [now apply wake_none in K|discriminate K|now apply wake_none in K].
Qed.
Lemma reach_inv n s : reach n s -> Inv s.
Proof. induction 1; [apply inv0|eapply inv_step; eassumption]. Qed.

(** ** C43 *)

(** In every state of every run, the items stored so far, in order, are those
    that have left the slot, in the order they left, and then the one in it;
    those that left to consumers are exactly the ones their calls have returned
    or are about to return, those evicted are the ones push calls have returned
    or are about to return, and the counter is the number evicted. *)
Theorem C43_one_place : forall n s, reach n s ->
  pushed s = map snd (taken s) ++ opt (slot s) /\
  Permutation (popped s) (returned_popped s ++ flat_map got_of (threads s)) /\
  Permutation (evicted s) (returned_evicted s ++ flat_map stale_of (threads s)) /\
  evictions s = zlen (evicted s).
Proof. intros n s H. destruct (reach_inv n s H). conj. Qed.

(** Counted: an item pushed [k] times is in [k] places. *)
Theorem C43_conservation : forall n s (eqd : forall x y : T, {x = y} + {x <> y}) x, reach n s ->
  let count := count_occ eqd in
  (count (pushed s) x =
   count (returned_popped s) x + count (returned_evicted s) x + count (opt (slot s)) x +
   count (flat_map got_of (threads s)) x + count (flat_map stale_of (threads s)) x)%nat.
Proof.
  intros n s eqd x H. cbv zeta. destruct (C43_one_place n s H) as (E & P & Q & _). rewrite E, count_occ_app.
  apply (Permutation_count_occ eqd) with (x := x) in P. apply (Permutation_count_occ eqd) with (x := x) in Q. rewrite count_occ_app in P, Q.
  assert (forall l : list (bool * T), (count_occ eqd (map snd l) x = count_occ eqd (map snd (filter (fun e => fst e) l)) x + count_occ eqd (map snd (filter (fun e => negb (fst e)) l)) x)%nat) as K.
  { induction l as [|[[] y] l IH]; [reflexivity|..]; cbn; destruct (eqd y x); lia. }
  rewrite K. unfold popped, evicted in *. lia.
Qed.

(** Consumers receive items in push order: what they took is a subsequence of
    what was pushed. *)
Inductive subseq {A} : list A -> list A -> Prop :=
| sub_nil l : subseq [] l
| sub_take x a b : subseq a b -> subseq (x :: a) (x :: b)
| sub_skip x a b : subseq a b -> subseq a (x :: b).
Theorem C43_in_order : forall n s, reach n s -> subseq (popped s) (pushed s).
Proof.
  intros n s H. destruct (C43_one_place n s H) as (E & _). rewrite E. unfold popped. generalize (opt (slot s)) as r. generalize (taken s) as l. clear. intros l r.
  induction l as [|[[] y] l IH]; cbn; [apply sub_nil|now apply sub_take|now apply sub_skip].
Qed.

(** No item waits for a sleeping consumer: if nothing is left to run but calls
    that have not been made and consumers asleep, the slot is empty or nobody
    sleeps. *)
Theorem C43_no_sleep_on_item : forall n s, reach n s ->
  (forall t, In t (threads s) -> t = Idle \/ t = PopSleep false) -> slot s <> None -> ~ In (PopSleep false) (threads s).
Proof.
  intros n s H Q Sl In. pose proof (v_wake s (reach_inv n s H) Sl In) as W. apply existsb_exists in W as (t & Ht & Ho).
  destruct (Q t Ht) as [->| ->]; discriminate Ho.
Qed.

(** The mutex is held by one call at a time. *)
Theorem C43_exclusion : forall n s, reach n s -> holders (threads s) <= 1.
Proof. intros n s H. destruct (reach_inv n s H). destruct (locked s); lia. Qed.
End Props.
Print Assumptions C43_one_place.
Print Assumptions C43_conservation.
Print Assumptions C43_in_order.
Print Assumptions C43_no_sleep_on_item.
Print Assumptions C43_exclusion.

(** Shutdown can be missed: the stop flag is set and notify() called while a
    consumer has evaluated its condition and is about to sleep.  It then sleeps
    although nothing is left to run, and the join that follows in
    pipeline_multi_threaded.cpp:545 does not return. *)
Theorem C43_stop_missed_refuted : exists s : st Z, reach 2 s /\ stop s = true /\ threads s = [PopSleep false; Idle].
Proof.
  eexists. split. {
  eapply reachS; [|apply (s_pop_block [] [Idle])].
  eapply reachS; [|apply (s_notify_all [PopBlock] [])].
  eapply reachS; [|apply (s_stop [PopBlock] [])].
  eapply reachS; [|apply (s_pop_false [] [Idle])].
  eapply reachS; [|apply (s_pop_lock [] [Idle])].
  eapply reachS; [|apply (s_pop [] [Idle])].
  refine (reach0 2). }
  cbn. repeat split.
Qed.
Print Assumptions C43_stop_missed_refuted.

(** A run: 5 is pushed, 6 evicts it, 6 is popped. *)
Example C43_case : exists s : st Z, reach 2 s /\ pushed s = [5; 6] /\ returned_evicted s = [5] /\ returned_popped s = [6] /\ slot s = None /\ evictions s = 1.
Proof.
  eexists. split. {
  eapply reachS; [|apply (s_pop_ret [Idle] [] (Some 6))].
  eapply reachS; [|apply (s_pop_unlock [Idle] [] (Some 6))].
  eapply reachS; [|apply (s_pop_swap [Idle] [] true (Some 6))].
  eapply reachS; [|apply (s_try_some [Idle] [] true 6)].
  eapply reachS; [|apply (s_try_lock [Idle] [])].
  eapply reachS; [|apply (s_try [Idle] [])].
  eapply reachS; [|apply (s_push_ret [] [Idle] (Some 5))].
  eapply reachS; [|apply (s_push_notify_none [] [Idle] (Some 5)); cbn; intuition discriminate].
  eapply reachS; [|apply (s_push_unlock [] [Idle] (Some 5) true)].
  eapply reachS; [|apply (s_push_emplace [] [Idle] 6 (Some 5) true None)].
  eapply reachS; [|apply (s_push_stale [] [Idle] 6 true (Some 5))].
  eapply reachS; [|apply (s_push_full [] [Idle] 6 true 5)].
  eapply reachS; [|apply (s_push_lock [] [Idle] 6)].
  eapply reachS; [|apply (s_push [] [Idle] 6)].
  eapply reachS; [|apply (s_push_ret [] [Idle] None)].
  eapply reachS; [|apply (s_push_notify_none [] [Idle] None); cbn; intuition discriminate].
  eapply reachS; [|apply (s_push_unlock [] [Idle] None true)].
  eapply reachS; [|apply (s_push_emplace [] [Idle] 5 None true None)].
  eapply reachS; [|apply (s_push_empty [] [Idle] 5)].
  eapply reachS; [|apply (s_push_lock [] [Idle] 5)].
  eapply reachS; [|apply (s_push [] [Idle] 5)].
  refine (reach0 2). }
  cbn. repeat split.
Qed.
