(** Model of the JPIP session table (source/core/jpip/channel_manager.cpp). *)
From Verif Require Import Base Assoc Text CacheModel.
From Coq Require Import Permutation.

(** channel_manager.cpp:11-23 [negotiate_transport]; strings are lists of
    character codes.  The loop runs over the suffix still to be read. *)
Definition is_blank (c : Z) : bool := (c =? 32) || (c =? 9).
Fixpoint trim_front (l : list Z) : list Z :=
  match l with
  | c :: l' => if is_blank c then trim_front l' else l
  | [] => []
  end.
Definition trim (l : list Z) : list Z := rev (trim_front (rev (trim_front l))).
Definition http : list Z := [104; 116; 116; 112].
Fixpoint negotiate_loop (fuel : nat) (p : list Z) : out (list Z) :=
  match fuel with
  | O => NoFuel
  | S f => let comma := match index_of 44 p with Some i => i | None => zlen p end in
           if str_eqb (trim (ztake comma p)) http then Ret http
           else if comma + 1 <=? zlen p then negotiate_loop f (zskip (comma + 1) p) else Ret []
  end.
Definition negotiate_transport (s : list Z) : out (list Z) := negotiate_loop (S (length s)) s.

(** channel_manager.hpp:38-43 [SentBin]. *)
Record sent_bin := { s_class : Z; s_id : Z; s_end : Z; s_complete : bool }.
(** channel_manager.hpp:93-104: a channel, and the manager's fields.  The
    list is the hash map's content in its current iteration order. *)
Record channel := { ch_model : cmodel; ch_used : Z }.
Record manager := { channels : list (list Z * channel); next_cid : Z; use_clock : Z; max_channels : Z }.
Definition new_manager (maxc : Z) : manager :=
  {| channels := []; next_cid := 1; use_clock := 0; max_channels := maxc |}.

Definition chget (l : list (list Z * channel)) (c : list Z) := aget str_eqb l c.

(** channel_manager.cpp:28-32: the victim search. *)
Fixpoint lru_victim (victim : list Z * channel) (l : list (list Z * channel)) : list Z * channel :=
  match l with
  | [] => victim
  | x :: l' => lru_victim (if ch_used (snd x) <? ch_used (snd victim) then x else victim) l'
  end.

(** channel_manager.cpp:34-36: "JPH%llu". *)
Definition cid_text (n : Z) : list Z := [74; 80; 72] ++ dec n.

(** channel_manager.cpp:25-39 [open].  Erasing [begin()] of an empty map is
    undefined. *)
Definition open (s : manager) : out (list Z * manager) :=
  let* kept := if max_channels s <=? zlen (channels s) then
                 match channels s with
                 | [] => UB
                 | x :: l => Ret (adel str_eqb (channels s) (fst (lru_victim x (x :: l))))
                 end
               else Ret (channels s) in
  let cid := cid_text (next_cid s) in
  let clock := wrap64 (use_clock s + 1) in
  let model := match chget kept cid with Some ch => ch_model ch | None => [] end in
  Ret (cid, {| channels := aput str_eqb kept cid {| ch_model := model; ch_used := clock |};
               next_cid := wrap64 (next_cid s + 1); use_clock := clock; max_channels := max_channels s |}).

(** The common shape of snapshot, commit and apply_model: look up, touch,
    replace the model. *)
Definition touch (s : manager) (cid : list Z) (ch : channel) (m : cmodel) : manager :=
  let clock := wrap64 (use_clock s + 1) in
  {| channels := aput str_eqb (channels s) cid {| ch_model := m; ch_used := clock |};
     next_cid := next_cid s; use_clock := clock; max_channels := max_channels s |}.

(** channel_manager.cpp:41-48 [snapshot]. *)
Definition snapshot (s : manager) (cid : list Z) : option cmodel * manager :=
  match chget (channels s) cid with
  | None => (None, s)
  | Some ch => (Some (ch_model ch), touch s cid ch (ch_model ch))
  end.

(** channel_manager.cpp:50-62 [commit]. *)
Definition commit_bin (m : cmodel) (b : sent_bin) : cmodel :=
  if s_complete b then mark m (s_class b) (s_id b) else mark_partial m (s_class b) (s_id b) (s_end b).
Definition commit (s : manager) (cid : list Z) (sent : list sent_bin) : manager :=
  match chget (channels s) cid with
  | None => s
  | Some ch => touch s cid ch (fold_left commit_bin sent (ch_model ch))
  end.

(** channel_manager.cpp:64-71 [apply_model]. *)
Definition apply_model (s : manager) (cid : list Z) (text : list Z) : out (bool * manager) :=
  match chget (channels s) cid with
  | None => Ret (false, s)
  | Some ch => let* m := apply (ch_model ch) text in Ret (true, touch s cid ch m)
  end.

(** channel_manager.cpp:73-76 [close]. *)
Definition close (s : manager) (cid : list Z) : bool * manager :=
  match chget (channels s) cid with
  | None => (false, s)
  | Some _ => (true, {| channels := adel str_eqb (channels s) cid; next_cid := next_cid s;
                        use_clock := use_clock s; max_channels := max_channels s |})
  end.

(** channel_manager.cpp:78-81 [size]. *)
Definition size (s : manager) : Z := zlen (channels s).

(** Requests arrive on many threads, but every method body runs under the
    manager's mutex, so an execution is a sequence of whole calls. *)
Inductive call :=
| Open
| Snapshot (cid : list Z)
| Commit (cid : list Z) (sent : list sent_bin)
| ApplyModel (cid text : list Z)
| Close (cid : list Z)
| Size.
Inductive answer :=
| ACid (cid : list Z)
| AModel (m : option cmodel)
| ADone
| ABool (b : bool)
| ASize (n : Z).
Definition do_call (s : manager) (c : call) : out (answer * manager) :=
  match c with
  | Open => let* (cid, s') := open s in Ret (ACid cid, s')
  | Snapshot cid => let '(m, s') := snapshot s cid in Ret (AModel m, s')
  | Commit cid sent => Ret (ADone, commit s cid sent)
  | ApplyModel cid text => let* (b, s') := apply_model s cid text in Ret (ABool b, s')
  | Close cid => let '(b, s') := close s cid in Ret (ABool b, s')
  | Size => Ret (ASize (size s), s)
  end.

(** The hash map may change its iteration order whenever it likes. *)
Definition reordered (s : manager) (l : list (list Z * channel)) : manager :=
  {| channels := l; next_cid := next_cid s; use_clock := use_clock s; max_channels := max_channels s |}.
Inductive runs_to : manager -> list (call * answer) -> manager -> Prop :=
| runs_nil s : runs_to s [] s
| runs_reorder s l h s' : Permutation (channels s) l -> runs_to (reordered s l) h s' -> runs_to s h s'
| runs_call s c a s1 h s' : do_call s c = Ret (a, s1) -> runs_to s1 h s' -> runs_to s ((c, a) :: h) s'.
