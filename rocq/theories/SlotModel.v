(** Model of LatestSlot, source/apps/rtp_recv/frame_pipeline.hpp:37-116, under
    every interleaving of any number of threads.  One step is one access to
    shared state: taking or releasing the mutex, testing or changing the slot,
    sleeping on or notifying the condition variable, or setting the stop flag
    the consumers watch. *)
From Verif Require Import Base.

Section Slot.
Context {T : Type}.

(** Where a thread is. *)
Inductive tstate :=
| Idle
(* push, frame_pipeline.hpp:60-72 *)
| PushLock (v : T)                        (* called; about to take the mutex *)
| PushIn (v : T)                          (* has it; about to test the slot *)
| PushStale (v : T)                       (* occupied; about to count and swap *)
| PushEmplace (v : T) (stale : option T)  (* about to store *)
| PushUnlock (stale : option T)           (* stored; about to release *)
| PushNotify (stale : option T)           (* released; about to notify_one *)
| PushRet (stale : option T)
(* pop_wait, frame_pipeline.hpp:80-87 *)
| PopLock
| PopCheck                                (* has the mutex; about to evaluate the predicate *)
| PopBlock                                (* predicate false; about to release and sleep, in one step *)
| PopSleep (woken : bool)
| PopTest                                 (* predicate true; about to test the slot again *)
| PopSwap                                 (* about to swap *)
| PopUnlock (got : option T)
| PopRet (got : option T)
(* try_pop, frame_pipeline.hpp:92-98 *)
| TryLock
| TryTest
(* shutdown: the stop flag is set and notify() called, frame_pipeline.hpp:102,
   pipeline_multi_threaded.cpp:542-544 *)
| StopNotify.

(** The object, and a record of what has happened: [pushed] in the order of
    storing, [taken] in the order of leaving the slot with the way each item
    left, and what calls have returned. *)
Record st := St {
  locked : bool; slot : option T; evictions : Z; stop : bool; threads : list tstate;
  pushed : list T; taken : list (bool * T); returned_evicted : list T; returned_popped : list T }.

Definition st0 (n : nat) : st := St false None 0 false (repeat Idle n) [] [] [] [].

(** Every sleeper is woken, frame_pipeline.hpp:102. *)
Definition wake := map (fun t => match t with PopSleep false => PopSleep true | _ => t end).

(** One step of a thread. [locked] and [stop] aside, the state it sees. *)
Inductive step : st -> st -> Prop :=
(* calls *)
| s_push a b v lk sl ev sp pu ta re rp :
    step (St lk sl ev sp (a ++ Idle :: b) pu ta re rp) (St lk sl ev sp (a ++ PushLock v :: b) pu ta re rp)
| s_pop a b lk sl ev sp pu ta re rp :
    step (St lk sl ev sp (a ++ Idle :: b) pu ta re rp) (St lk sl ev sp (a ++ PopLock :: b) pu ta re rp)
| s_try a b lk sl ev sp pu ta re rp :
    step (St lk sl ev sp (a ++ Idle :: b) pu ta re rp) (St lk sl ev sp (a ++ TryLock :: b) pu ta re rp)
| s_stop a b lk sl ev sp pu ta re rp :
    step (St lk sl ev sp (a ++ Idle :: b) pu ta re rp) (St lk sl ev true (a ++ StopNotify :: b) pu ta re rp)
(* push: lock_guard, line 63 *)
| s_push_lock a b v sl ev sp pu ta re rp :
    step (St false sl ev sp (a ++ PushLock v :: b) pu ta re rp) (St true sl ev sp (a ++ PushIn v :: b) pu ta re rp)
(* line 64 *)
| s_push_full a b v lk x ev sp pu ta re rp :
    step (St lk (Some x) ev sp (a ++ PushIn v :: b) pu ta re rp) (St lk (Some x) ev sp (a ++ PushStale v :: b) pu ta re rp)
| s_push_empty a b v lk ev sp pu ta re rp :
    step (St lk None ev sp (a ++ PushIn v :: b) pu ta re rp) (St lk None ev sp (a ++ PushEmplace v None :: b) pu ta re rp)
(* lines 65-66: the counter, and swapping the slot with an empty optional *)
| s_push_stale a b v lk sl ev sp pu ta re rp :
    step (St lk sl ev sp (a ++ PushStale v :: b) pu ta re rp)
         (St lk None (ev + 1) sp (a ++ PushEmplace v sl :: b) pu (ta ++ match sl with Some x => [(false, x)] | None => [] end) re rp)
(* line 68: whatever is in the slot is destroyed *)
| s_push_emplace a b v stale lk sl ev sp pu ta re rp :
    step (St lk sl ev sp (a ++ PushEmplace v stale :: b) pu ta re rp) (St lk (Some v) ev sp (a ++ PushUnlock stale :: b) (pu ++ [v]) ta re rp)
| s_push_unlock a b stale lk sl ev sp pu ta re rp :
    step (St lk sl ev sp (a ++ PushUnlock stale :: b) pu ta re rp) (St false sl ev sp (a ++ PushNotify stale :: b) pu ta re rp)
(* line 70: notify_one wakes one sleeper, if there is one *)
| s_push_notify_one a b c stale lk sl ev sp pu ta re rp :
    step (St lk sl ev sp (a ++ PushNotify stale :: b ++ PopSleep false :: c) pu ta re rp)
         (St lk sl ev sp (a ++ PushRet stale :: b ++ PopSleep true :: c) pu ta re rp)
| s_push_notify_one' a b c stale lk sl ev sp pu ta re rp :
    step (St lk sl ev sp (a ++ PopSleep false :: b ++ PushNotify stale :: c) pu ta re rp)
         (St lk sl ev sp (a ++ PopSleep true :: b ++ PushRet stale :: c) pu ta re rp)
| s_push_notify_none a b stale lk sl ev sp pu ta re rp :
    ~ In (PopSleep false) (a ++ b) ->
    step (St lk sl ev sp (a ++ PushNotify stale :: b) pu ta re rp) (St lk sl ev sp (a ++ PushRet stale :: b) pu ta re rp)
| s_push_ret a b stale lk sl ev sp pu ta re rp :
    step (St lk sl ev sp (a ++ PushRet stale :: b) pu ta re rp)
         (St lk sl ev sp (a ++ Idle :: b) pu ta (re ++ match stale with Some x => [x] | None => [] end) rp)
(* pop_wait: unique_lock, line 81, and the wait, line 82 *)
| s_pop_lock a b sl ev sp pu ta re rp :
    step (St false sl ev sp (a ++ PopLock :: b) pu ta re rp) (St true sl ev sp (a ++ PopCheck :: b) pu ta re rp)
| s_pop_true a b lk sl ev sp pu ta re rp :
    sl <> None \/ sp = true ->
    step (St lk sl ev sp (a ++ PopCheck :: b) pu ta re rp) (St lk sl ev sp (a ++ PopTest :: b) pu ta re rp)
| s_pop_false a b lk ev pu ta re rp :
    step (St lk None ev false (a ++ PopCheck :: b) pu ta re rp) (St lk None ev false (a ++ PopBlock :: b) pu ta re rp)
| s_pop_block a b lk sl ev sp pu ta re rp :
    step (St lk sl ev sp (a ++ PopBlock :: b) pu ta re rp) (St false sl ev sp (a ++ PopSleep false :: b) pu ta re rp)
(* notified, or woken for no reason; the mutex is taken again *)
| s_pop_spurious a b lk sl ev sp pu ta re rp :
    step (St lk sl ev sp (a ++ PopSleep false :: b) pu ta re rp) (St lk sl ev sp (a ++ PopSleep true :: b) pu ta re rp)
| s_pop_wake a b sl ev sp pu ta re rp :
    step (St false sl ev sp (a ++ PopSleep true :: b) pu ta re rp) (St true sl ev sp (a ++ PopCheck :: b) pu ta re rp)
(* lines 83-86 *)
| s_pop_none a b lk ev sp pu ta re rp :
    step (St lk None ev sp (a ++ PopTest :: b) pu ta re rp) (St lk None ev sp (a ++ PopUnlock None :: b) pu ta re rp)
| s_pop_some a b lk x ev sp pu ta re rp :
    step (St lk (Some x) ev sp (a ++ PopTest :: b) pu ta re rp) (St lk (Some x) ev sp (a ++ PopSwap :: b) pu ta re rp)
| s_pop_swap a b lk sl ev sp pu ta re rp :
    step (St lk sl ev sp (a ++ PopSwap :: b) pu ta re rp)
         (St lk None ev sp (a ++ PopUnlock sl :: b) pu (ta ++ match sl with Some x => [(true, x)] | None => [] end) re rp)
| s_pop_unlock a b got lk sl ev sp pu ta re rp :
    step (St lk sl ev sp (a ++ PopUnlock got :: b) pu ta re rp) (St false sl ev sp (a ++ PopRet got :: b) pu ta re rp)
| s_pop_ret a b got lk sl ev sp pu ta re rp :
    step (St lk sl ev sp (a ++ PopRet got :: b) pu ta re rp)
         (St lk sl ev sp (a ++ Idle :: b) pu ta re (rp ++ match got with Some x => [x] | None => [] end))
(* try_pop: lock_guard, line 93; the test and swap of lines 94-97 are those of
   pop_wait *)
| s_try_lock a b sl ev sp pu ta re rp :
    step (St false sl ev sp (a ++ TryLock :: b) pu ta re rp) (St true sl ev sp (a ++ TryTest :: b) pu ta re rp)
| s_try_none a b lk ev sp pu ta re rp :
    step (St lk None ev sp (a ++ TryTest :: b) pu ta re rp) (St lk None ev sp (a ++ PopUnlock None :: b) pu ta re rp)
| s_try_some a b lk x ev sp pu ta re rp :
    step (St lk (Some x) ev sp (a ++ TryTest :: b) pu ta re rp) (St lk (Some x) ev sp (a ++ PopSwap :: b) pu ta re rp)
(* notify_all, line 102 *)
| s_notify_all a b lk sl ev sp pu ta re rp :
    step (St lk sl ev sp (a ++ StopNotify :: b) pu ta re rp) (St lk sl ev sp (wake a ++ Idle :: wake b) pu ta re rp).

Inductive reach (n : nat) : st -> Prop :=
| reach0 : reach n (st0 n)
| reachS s s' : reach n s -> step s s' -> reach n s'.
End Slot.
Arguments tstate : clear implicits.
Arguments st : clear implicits.
