(** Model of ThreadPool, source/core/common/ThreadPool.hpp:126-358, under every
    interleaving of any number of client threads and workers.  A step is the
    taking or releasing of the mutex, one test or one queue operation made
    while holding it, a notification, or the start or end of a task.  Tasks are
    opaque, may call the pool themselves (re-entrancy, 249-256) and end.  Not
    modelled: the task storage of InlineTask beyond "present or moved out",
    thread numbering, and the singleton. *)
From Verif Require Import Base.

(** ThreadPool.hpp:313, 320-321 *)
Definition BATCH : Z := 4.
Definition RING_CAP : Z := 32768.
Definition RING_MASK : Z := RING_CAP - 1.

Section Pool.
Context {T : Type}.

(** The pool's fields, and a record of what has happened: tasks in the order
    they were put in the ring and taken out of it, tasks that have ended,
    whether a batch was cut short by an overflow after some of it was queued,
    whether the destructor has been called, and whether an empty task has been
    invoked (a call through a null pointer). *)
Record sh := Sh {
  locked : bool; stop : bool; head : Z; tail : Z; ring : Z -> option T;
  accepted : list T; taken : list T; finished : list T;
  cut : bool; closing : bool; crashed : bool }.

(** ThreadPool.hpp:323-324; size_t counters *)
Definition ring_empty (g : sh) : bool := head g =? tail g.
Definition ring_size (g : sh) : Z := wrap64 (tail g - head g).
(** ThreadPool.hpp:228-229, 306-307 *)
Definition put (g : sh) (x : T) : sh :=
  let slot := Z.land (tail g) RING_MASK in
  Sh (locked g) (stop g) (head g) (wrap64 (tail g + 1)) (fun i => if i =? slot then Some x else ring g i)
     (accepted g ++ [x]) (taken g) (finished g) (cut g) (closing g) (crashed g).
(** ThreadPool.hpp:262-263, 349-350: the slot is moved from *)
Definition front (g : sh) : option T := ring g (Z.land (head g) RING_MASK).
Definition take (g : sh) : sh :=
  let slot := Z.land (head g) RING_MASK in
  Sh (locked g) (stop g) (wrap64 (head g + 1)) (tail g) (fun i => if i =? slot then None else ring g i)
     (accepted g) (taken g ++ match front g with Some x => [x] | None => [] end) (finished g) (cut g) (closing g) (crashed g).
Definition set_lock (g : sh) (b : bool) : sh :=
  Sh b (stop g) (head g) (tail g) (ring g) (accepted g) (taken g) (finished g) (cut g) (closing g) (crashed g).
Definition set_stop (g : sh) : sh :=
  Sh (locked g) true (head g) (tail g) (ring g) (accepted g) (taken g) (finished g) (cut g) (closing g) (crashed g).
Definition set_cut (g : sh) (b : bool) : sh :=
  Sh (locked g) (stop g) (head g) (tail g) (ring g) (accepted g) (taken g) (finished g) (cut g || b) (closing g) (crashed g).
Definition set_closing (g : sh) : sh :=
  Sh (locked g) (stop g) (head g) (tail g) (ring g) (accepted g) (taken g) (finished g) (cut g) true (crashed g).
Definition set_crashed (g : sh) : sh :=
  Sh (locked g) (stop g) (head g) (tail g) (ring g) (accepted g) (taken g) (finished g) (cut g) (closing g) true.
Definition finish (g : sh) (x : T) : sh :=
  Sh (locked g) (stop g) (head g) (tail g) (ring g) (accepted g) (taken g) (finished g ++ [x]) (cut g) (closing g) (crashed g).

(** What a thread is doing at the bottom of its stack: a client's own code,
    the destructor (141-154), or the worker loop (332-358). *)
Inductive base :=
| User
| DLock | DStop | DNotify | DJoin | DDone
| WLock                                   (* about to take the mutex, 340 *)
| WCheck                                  (* about to evaluate the condition, 341 *)
| WBlock                                  (* it was false: about to release and sleep, in one step *)
| WSleep (woken : bool)
| WTest                                   (* about to test for exit, 343 *)
| WDrain (batch : list (option T))        (* 348-351 *)
| WRun (batch : list (option T))          (* released; about to run these, 354-356 *)
| WDone.
(** Calls and tasks above that. *)
Inductive frame :=
| Run (x : T)                             (* inside task x *)
| PLock (items : list T)                  (* push_task (293-311) or push_batch (214-238) called *)
| PCheck (items : list T)                 (* has the mutex; about to test stop, 220, 298 *)
| PPut (n done : Z) (items : list T)      (* 223-230, 302-307: [n] items in all, [done] queued *)
| PNotify (k : Z)                         (* released; k notifications to go, 236-237, 310 *)
| TLock | TTest.                          (* try_run_one, 257-267 *)
Definition thread : Type := base * list frame.
Definition st : Type := sh * list thread.

(** The thread is in a client's code or a task's, and can make a call. *)
Definition code (b : base) (fs : list frame) : Prop :=
  match b, fs with User, [] => True | _, Run _ :: _ => True | _, _ => False end.

(** Steps that touch only the pool's fields and the thread itself.  [w] is the
    number of workers. *)
Inductive tstep (w : Z) : sh -> thread -> sh -> thread -> Prop :=
(* a client, or a task, calls push or push_batch; an empty batch returns at
   once (217) *)
| t_push g b fs items : code b fs -> items <> [] -> tstep w g (b, fs) g (b, PLock items :: fs)
| t_push_lock g b items fs : locked g = false -> tstep w g (b, PLock items :: fs) (set_lock g true) (b, PCheck items :: fs)
(* 220-222: throws, releasing the mutex *)
| t_push_stopped g b items fs : stop g = true -> tstep w g (b, PCheck items :: fs) (set_lock g false) (b, fs)
| t_push_open g b items fs : stop g = false -> tstep w g (b, PCheck items :: fs) g (b, PPut (zlen items) 0 items :: fs)
(* 224-227: throws *)
| t_push_over g b n done x items fs : RING_CAP <= ring_size g ->
    tstep w g (b, PPut n done (x :: items) :: fs) (set_lock (set_cut g (0 <? done)) false) (b, fs)
| t_push_put g b n done x items fs : ring_size g < RING_CAP ->
    tstep w g (b, PPut n done (x :: items) :: fs) (put g x) (b, PPut n (done + 1) items :: fs)
(* 235: min (ceil (n / BATCH)) thread_count; for push_task that is 1 *)
| t_push_unlock g b n done fs :
    tstep w g (b, PPut n done [] :: fs) (set_lock g false) (b, PNotify (Z.min ((n + BATCH - 1) / BATCH) w) :: fs)
| t_push_ret g b k fs : k <= 0 -> tstep w g (b, PNotify k :: fs) g (b, fs)
(* try_run_one; try_to_lock may fail *)
| t_try g b fs : code b fs -> tstep w g (b, fs) g (b, TLock :: fs)
| t_try_fail g b fs : tstep w g (b, TLock :: fs) g (b, fs)
| t_try_lock g b fs : locked g = false -> tstep w g (b, TLock :: fs) (set_lock g true) (b, TTest :: fs)
| t_try_empty g b fs : ring_empty g = true -> tstep w g (b, TTest :: fs) (set_lock g false) (b, fs)
| t_try_take g b fs x : ring_empty g = false -> front g = Some x ->
    tstep w g (b, TTest :: fs) (set_lock (take g) false) (b, Run x :: fs)
| t_try_null g b fs : ring_empty g = false -> front g = None ->
    tstep w g (b, TTest :: fs) (set_crashed (set_lock (take g) false)) (b, fs)
(* a task ends *)
| t_end g b x fs : tstep w g (b, Run x :: fs) (finish g x) (b, fs)
(* the worker loop *)
| t_w_lock g : locked g = false -> tstep w g (WLock, []) (set_lock g true) (WCheck, [])
| t_w_go g : ring_empty g = false \/ stop g = true -> tstep w g (WCheck, []) g (WTest, [])
| t_w_wait g : ring_empty g = true -> stop g = false -> tstep w g (WCheck, []) g (WBlock, [])
| t_w_block g : tstep w g (WBlock, []) (set_lock g false) (WSleep false, [])
| t_w_spurious g : tstep w g (WSleep false, []) g (WSleep true, [])
| t_w_wake g : locked g = false -> tstep w g (WSleep true, []) (set_lock g true) (WCheck, [])
| t_w_exit g : stop g = true -> ring_empty g = true -> tstep w g (WTest, []) (set_lock g false) (WDone, [])
| t_w_drain g : stop g = false \/ ring_empty g = false -> tstep w g (WTest, []) g (WDrain [], [])
| t_w_take g l : zlen l < BATCH -> ring_empty g = false -> tstep w g (WDrain l, []) (take g) (WDrain (l ++ [front g]), [])
| t_w_unlock g l : BATCH <= zlen l \/ ring_empty g = true -> tstep w g (WDrain l, []) (set_lock g false) (WRun l, [])
| t_w_run g x l : tstep w g (WRun (Some x :: l), []) g (WRun l, [Run x])
| t_w_null g l : tstep w g (WRun (None :: l), []) (set_crashed g) (WRun l, [])
| t_w_again g : tstep w g (WRun [], []) g (WLock, [])
(* the destructor, called at most once *)
| t_d_call g : closing g = false -> tstep w g (User, []) (set_closing g) (DLock, [])
| t_d_lock g : locked g = false -> tstep w g (DLock, []) (set_lock g true) (DStop, [])
| t_d_stop g : tstep w g (DStop, []) (set_lock (set_stop g) false) (DNotify, []).

(** notify_one wakes one sleeper, if there is one; notify_all wakes all. *)
Inductive notify_one : list thread -> list thread -> Prop :=
| n_some a b fs : notify_one (a ++ (WSleep false, fs) :: b) (a ++ (WSleep true, fs) :: b)
| n_none l : (forall fs, ~ In (WSleep false, fs) l) -> notify_one l l.
Definition wake (t : thread) : thread :=
  match t with (WSleep false, fs) => (WSleep true, fs) | _ => t end.

Definition worker (t : thread) : bool :=
  match fst t with User | DLock | DStop | DNotify | DJoin | DDone => false | _ => true end.
Definition exited (t : thread) : bool := match fst t with WDone => true | _ => false end.

Inductive step (w : Z) : st -> st -> Prop :=
| s_local g a t b g' t' : tstep w g t g' t' -> step w (g, a ++ t :: b) (g', a ++ t' :: b)
| s_notify g a bs k fs b l : 0 < k -> notify_one (a ++ (bs, PNotify (k - 1) :: fs) :: b) l ->
    step w (g, a ++ (bs, PNotify k :: fs) :: b) (g, l)
| s_notify_all g a b : step w (g, a ++ (DNotify, []) :: b) (g, map wake (a ++ (DJoin, []) :: b))
(* 151-153: returns when every worker has *)
| s_join g a b : (forall t, In t (a ++ b) -> worker t = true -> exited t = true) ->
    step w (g, a ++ (DJoin, []) :: b) (g, a ++ (DDone, []) :: b).

(** A new pool with [w] workers and [c] clients. *)
Definition st0 (w c : nat) : st :=
  (Sh false false 0 0 (fun _ => None) [] [] [] false false false, repeat (WLock, []) w ++ repeat (User, []) c).
Inductive reach (w c : nat) : st -> Prop :=
| reach0 : reach w c (st0 w c)
| reachS s s' : reach w c s -> step (Z.of_nat w) s s' -> reach w c s'.
End Pool.
Arguments sh : clear implicits.
Arguments st : clear implicits.
Arguments thread : clear implicits.
Arguments base : clear implicits.
Arguments frame : clear implicits.
