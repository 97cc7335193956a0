(** What the session table is supposed to do: a list of live sessions, most
    recently used first. *)
From Verif Require Import Base Assoc Text CacheModel ChannelModel.

Record sessions := { live : list (list Z * cmodel); opened : Z }.
Definition no_sessions : sessions := {| live := []; opened := 0 |}.
Definition model_of (t : sessions) (cid : list Z) : option cmodel := aget str_eqb (live t) cid.
(** Everything but [cid], and [cid] moved to the front with model [m]. *)
Definition used_now (t : sessions) (cid : list Z) (m : cmodel) : sessions :=
  {| live := (cid, m) :: adel str_eqb (live t) cid; opened := opened t |}.

(** Opening beyond [maxc] sessions drops the ones at the back. *)
Definition spec_call (maxc : Z) (t : sessions) (c : call) : answer * sessions :=
  match c with
  | Open => let cid := cid_text (opened t + 1) in
            (ACid cid, {| live := (cid, []) :: firstn (Z.to_nat (maxc - 1)) (live t); opened := opened t + 1 |})
  | Snapshot cid => match model_of t cid with
                    | None => (AModel None, t)
                    | Some m => (AModel (Some m), used_now t cid m)
                    end
  | Commit cid sent => match model_of t cid with
                       | None => (ADone, t)
                       | Some m => (ADone, used_now t cid (fold_left commit_bin sent m))
                       end
  | ApplyModel cid text => match model_of t cid with
                           | None => (ABool false, t)
                           | Some m => match apply m text with
                                       | Ret m' => (ABool true, used_now t cid m')
                                       | _ => (ABool false, t)
                                       end
                           end
  | Close cid => match model_of t cid with
                 | None => (ABool false, t)
                 | Some _ => (ABool true, {| live := adel str_eqb (live t) cid; opened := opened t |})
                 end
  | Size => (ASize (zlen (live t)), t)
  end.
Fixpoint spec_run (maxc : Z) (t : sessions) (cs : list call) : list answer * sessions :=
  match cs with
  | [] => ([], t)
  | c :: cs' => let '(a, t1) := spec_call maxc t c in
                let '(r, t2) := spec_run maxc t1 cs' in (a :: r, t2)
  end.

(** Ids handed out in a history. *)
Definition ids_of (h : list (call * answer)) : list (list Z) :=
  concat (map (fun ca => match snd ca with ACid c => [c] | _ => [] end) h).

(** A textual statement list without any drop ('-' at the start of a token). *)
Definition no_drops (text : list Z) : Prop :=
  forall pre post, text = pre ++ 45 :: post -> pre <> [] /\ last pre 0 <> 44.

(** Calls that can make a session forget. *)
Definition keeps (cid : list Z) (c : call) : Prop :=
  match c with
  | Close d => d <> cid
  | ApplyModel d text => d = cid -> no_drops text
  | _ => True
  end.
(** Is the sent bin held by model [m]? *)
Definition holds (m : cmodel) (b : sent_bin) : Prop :=
  has m (s_class b) (s_id b) = true \/ (s_complete b = false /\ s_end b <= received_bytes m (s_class b) (s_id b)).

Definition http_name : list Z := [104; 116; 116; 112].
(** The client's list names [http]: somewhere between commas, up to blanks. *)
Definition names_http (s : list Z) : Prop :=
  exists pre a b post, s = pre ++ a ++ http_name ++ b ++ post
    /\ Forall (fun c => is_blank c = true) a /\ Forall (fun c => is_blank c = true) b
    /\ (pre = [] \/ exists p, pre = p ++ [44]) /\ (post = [] \/ exists p, post = 44 :: p).
