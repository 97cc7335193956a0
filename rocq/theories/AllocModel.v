(** Model of the large-buffer cache, source/core/common/utils.hpp:225-271, and
    of the aligned_mem_alloc / aligned_mem_free built on it (274-313), for any
    number of threads: the cache is thread-local, the heap is shared. *)
From Verif Require Import Base.

(** utils.hpp:226-227 *)
Definition THRESHOLD : Z := 16384.
Definition MAX_SLOTS : Z := 128.
Definition SIZE_MAX : Z := 2 ^ 64 - 1.

(** A block: address and usable size. *)
Notation block := (Z * Z)%type.

(** The C allocator's blocks in existence, the pointers handed to callers and
    not released, and each thread's cache (utils.hpp:228-230). *)
Record world := World { heap : list block; used : list Z; cache : nat -> list block }.

(** utils.hpp:237-244: the loop over the slots, from slot [i] *)
Fixpoint best_fit (bytes align : Z) (i : Z) (slots : list block) (best_i best_u : Z) : Z :=
  match slots with
  | [] => best_i
  | (ptr, usable) :: rest =>
    if (bytes <=? usable) && (usable <? best_u) && (Z.land ptr (align - 1) =? 0)
    then best_fit bytes align (i + 1) rest i usable
    else best_fit bytes align (i + 1) rest best_i best_u
  end.
(** utils.hpp:246-248: slots[best_i] = slots[--count] *)
Definition take_slot (slots : list block) (i : Z) : block * list block :=
  let n := zlen slots - 1 in
  (znth (0, 0) slots i, ztake i (ztake n slots) ++ (if i <? n then [znth (0, 0) slots n] else []) ++ zskip (i + 1) (ztake n slots)).

(** malloc_usable_size and free on the allocator's blocks; a pointer that is not
    one of them is undefined behaviour. *)
Fixpoint usable_size (h : list block) (p : Z) : out Z :=
  match h with [] => UB | (q, u) :: r => if q =? p then Ret u else usable_size r p end.
Fixpoint free (h : list block) (p : Z) : out (list block) :=
  match h with
  | [] => UB
  | (q, u) :: r => if q =? p then Ret r else let* r' := free r p in Ret ((q, u) :: r')
  end.
Fixpoint free_all (h : list block) (l : list block) : out (list block) :=
  match l with [] => Ret h | (p, _) :: l => let* h := free h p in free_all h l end.

Definition set_cache (c : nat -> list block) (t : nat) (l : list block) : nat -> list block :=
  fun u => if Nat.eqb u t then l else c u.
Fixpoint drop (p : Z) (l : list Z) : list Z :=
  match l with [] => [] | q :: r => if q =? p then r else q :: drop p r end.

(** utils.hpp:232-254, called by thread [t]; [fresh] is what posix_memalign
    answers if it is called.  0 is the null pointer. *)
Definition alloc (w : world) (t : nat) (bytes align : Z) (fresh : option block) : world * Z :=
  let slots := cache w t in
  let best_i := if THRESHOLD <=? bytes then best_fit bytes align 0 slots (-1) SIZE_MAX else -1 in
  if 0 <=? best_i then
    let '(b, slots) := take_slot slots best_i in
    (World (heap w) (fst b :: used w) (set_cache (cache w) t slots), fst b)
  else
    match fresh with
    | Some b => (World (b :: heap w) (fst b :: used w) (cache w), fst b)
    | None => (w, 0)
    end.

(** utils.hpp:256-264; writing past the array of slots is undefined. *)
Definition release (w : world) (t : nat) (p : Z) : out world :=
  if p =? 0 then Ret w else
  let* sz := usable_size (heap w) p in
  let slots := cache w t in
  if (THRESHOLD <=? sz) && (zlen slots <? MAX_SLOTS) then
    if zlen slots <? 128 then Ret (World (heap w) (drop p (used w)) (set_cache (cache w) t (slots ++ [(p, sz)]))) else UB
  else
    let* h := free (heap w) p in Ret (World h (drop p (used w)) (cache w)).

(** utils.hpp:266-269: a thread ends *)
Definition thread_exit (w : world) (t : nat) : out world :=
  let* h := free_all (heap w) (cache w t) in Ret (World h (used w) (set_cache (cache w) t [])).

Inductive op := Alloc (t : nat) (bytes align : Z) (fresh : option block) | Release (t : nat) (p : Z) | Exit (t : nat).
Definition exec (w : world) (o : op) : out world :=
  match o with
  | Alloc t bytes align fresh => Ret (fst (alloc w t bytes align fresh))
  | Release t p => release w t p
  | Exit t => thread_exit w t
  end.
Fixpoint run (w : world) (ops : list op) : out world :=
  match ops with [] => Ret w | o :: ops => let* w := exec w o in run w ops end.
Definition world0 : world := World [] [] (fun _ => []).
