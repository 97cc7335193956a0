(** The JPIP cache model: source/core/jpip/cache_model.cpp and .hpp. *)
From Verif Require Import Base Assoc Text.

(** cache_model.hpp:66-70: the map; cache_model.hpp:63-65 [key] on 64-bit
    words. *)
Record centry := { ce_bytes : Z; ce_complete : bool }.
Definition cmodel := list (Z * centry).
Definition ckey (cls id : Z) : Z := Z.lor (wrap64 (Z.shiftl cls 56)) id.
Definition fresh : centry := {| ce_bytes := 0; ce_complete := false |}.
Definition cget (m : cmodel) (k : Z) : option centry := aget Z.eqb m k.
(** operator[]: a missing entry is created with the defaults. *)
Definition cget_or_new (m : cmodel) (k : Z) : centry := match cget m k with Some e => e | None => fresh end.

(** cache_model.cpp:25-27 *)
Definition mark (m : cmodel) (cls id : Z) : cmodel :=
  let k := ckey cls id in
  aput Z.eqb m k {| ce_bytes := ce_bytes (cget_or_new m k); ce_complete := true |}.
(** cache_model.cpp:29-32 *)
Definition mark_partial (m : cmodel) (cls id bytes : Z) : cmodel :=
  let k := ckey cls id in
  let e := cget_or_new m k in
  aput Z.eqb m k (if negb (ce_complete e) && (ce_bytes e <? bytes)
                  then {| ce_bytes := bytes; ce_complete := ce_complete e |} else e).
(** cache_model.cpp:34-36 *)
Definition unmark (m : cmodel) (cls id : Z) : cmodel := adel Z.eqb m (ckey cls id).
(** cache_model.cpp:38-41 *)
Definition has (m : cmodel) (cls id : Z) : bool :=
  match cget m (ckey cls id) with Some e => ce_complete e | None => false end.
(** cache_model.cpp:43-46 *)
Definition received_bytes (m : cmodel) (cls id : Z) : Z :=
  match cget m (ckey cls id) with Some e => ce_bytes e | None => 0 end.
(** cache_model.cpp:48, cache_model.hpp:44 *)
Definition clear (m : cmodel) : cmodel := [].
Definition csize (m : cmodel) : Z := zlen m.

(** cache_model.cpp:55-63 [class_prefix]; class numbers jpp_message.hpp:45-51. *)
Definition class_prefix (cls : Z) : option (list Z) :=
  if cls =? 6 then Some [72; 109]      (* "Hm" *)
  else if cls =? 2 then Some [72]      (* "H" *)
  else if cls =? 0 then Some [80]      (* "P" *)
  else if cls =? 8 then Some [77]      (* "M" *)
  else None.

(** cache_model.cpp:65-78 [prefix_to_class].  [q] is the string from the
    pointer on, [len] the distance to [end]; result: class, new pointer, new
    distance; [None] for 0xFF. *)
Definition char_at (q : list Z) (i : Z) : Z := znth 0 q i.
Definition prefix_to_class (q : list Z) (len : Z) : option (Z * list Z * Z) :=
  let two := 2 <=? len in
  if two && (char_at q 0 =? 72) && (char_at q 1 =? 109) then Some (6, zskip 2 q, len - 2)
  else if two && (char_at q 0 =? 72) && (char_at q 1 =? 116) then Some (2, zskip 2 q, len - 2)
  else if two && (char_at q 0 =? 72) && (char_at q 1 =? 112) then Some (0, zskip 2 q, len - 2)
  else if (0 <? len) && (char_at q 0 =? 80) then Some (0, zskip 1 q, len - 1)
  else if (0 <? len) && (char_at q 0 =? 72) then Some (2, zskip 1 q, len - 1)
  else if (0 <? len) && (char_at q 0 =? 77) then Some (8, zskip 1 q, len - 1)
  else None.

(** cache_model.cpp:80-104: the grouping pass of [format], over the entries in
    the order the hash map happens to yield them. *)
Record cgroup := { g_cls : Z; g_complete : list Z; g_partial : list (Z * Z) }.
Definition group_add (g : cgroup) (id : Z) (e : centry) : cgroup :=
  if ce_complete e then {| g_cls := g_cls g; g_complete := g_complete g ++ [id]; g_partial := g_partial g |}
  else if 0 <? ce_bytes e
       then {| g_cls := g_cls g; g_complete := g_complete g; g_partial := g_partial g ++ [(id, ce_bytes e)] |}
       else g.
Fixpoint groups_add (gs : list cgroup) (cls id : Z) (e : centry) : list cgroup :=
  match gs with
  | [] => [group_add {| g_cls := cls; g_complete := []; g_partial := [] |} id e]
  | g :: gs' => if g_cls g =? cls then group_add g id e :: gs' else g :: groups_add gs' cls id e
  end.
Definition key_class (k : Z) : Z := Z.shiftr k 56.
Definition key_id (k : Z) : Z := Z.land k 0xFFFFFFFFFFFFFF.
Definition group_all (l : cmodel) : list cgroup :=
  fold_left (fun gs kv => groups_add gs (key_class (fst kv)) (key_id (fst kv)) (snd kv)) l [].

(** std::sort on distinct ids: insertion sort computes the same list. *)
Fixpoint insert {A} (key : A -> Z) (x : A) (l : list A) : list A :=
  match l with
  | [] => [x]
  | y :: l' => if key x <=? key y then x :: l else y :: insert key x l'
  end.
Definition sort {A} (key : A -> Z) (l : list A) : list A := fold_right (insert key) [] l.

(** cache_model.cpp:129-139: consecutive ids as runs. *)
Fixpoint runs_from (start end_ : Z) (l : list Z) : list (Z * Z) :=
  match l with
  | [] => [(start, end_)]
  | x :: l' => if x =? wrap64 (end_ + 1) then runs_from start x l' else (start, end_) :: runs_from x x l'
  end.
Definition runs (l : list Z) : list (Z * Z) := match l with [] => [] | x :: l' => runs_from x x l' end.

(** cache_model.cpp:106-148: one token per run / partial bin, separated by
    commas. *)
Definition add_token (out tok : list Z) : list Z := (if zlen out =? 0 then [] else out ++ [44]) ++ tok.
Definition run_token (pfx : list Z) (r : Z * Z) : list Z :=
  pfx ++ dec (fst r) ++ (if snd r =? fst r then [] else 45 :: dec (snd r)).
Definition partial_token (pfx : list Z) (p : Z * Z) : list Z := pfx ++ dec (fst p) ++ 58 :: dec (snd p).
Definition group_tokens (g : cgroup) : list (list Z) :=
  match class_prefix (g_cls g) with
  | None => []
  | Some pfx =>
      let ids := sort (fun x => x) (g_complete g) in
      let ps := sort fst (g_partial g) in
      if g_cls g =? 6 then
        (match ids with [] => [] | _ => [pfx] end) ++ map (fun p => pfx ++ 58 :: dec (snd p)) ps
      else map (run_token pfx) (runs ids) ++ map (partial_token pfx) ps
  end.
(** [l] is the map's content in iteration order. *)
Definition format (l : cmodel) : list Z :=
  fold_left add_token (concat (map group_tokens (group_all l))) [].

(** memchr *)
Fixpoint index_of (c : Z) (s : list Z) : option Z :=
  match s with
  | [] => None
  | x :: s' => if x =? c then Some 0 else option_map (fun i => 1 + i) (index_of c s')
  end.

(** cache_model.cpp:23, 218-224: the loop over a range of ids, [id] a 64-bit
    word.  Result: model, remaining budget, [true] when the budget ran out. *)
Definition max_bin_ops : Z := 2 ^ 22.
Fixpoint range_ops (fuel : nat) (op : cmodel -> Z -> cmodel) (m : cmodel) (id end_id budget : Z)
  : out (cmodel * Z * bool) :=
  match fuel with
  | O => NoFuel
  | S f => if id <=? end_id then
             if budget =? 0 then Ret (m, budget, true)
             else range_ops f op (op m id) (wrap64 (id + 1)) end_id (budget - 1)
           else Ret (m, budget, false)
  end.

(** cache_model.cpp:174-224: one token; [q] the string from the token's start
    on (the number parser is not told where the token ends), [len] its
    length. *)
Definition apply_token (m : cmodel) (budget : Z) (q : list Z) (len : Z) : out (cmodel * Z * bool) :=
  let sub := (0 <? len) && (char_at q 0 =? 45) in
  let '(q, len) := if sub then (zskip 1 q, len - 1) else (q, len) in
  match prefix_to_class q len with
  | None => Ret (m, budget, false)
  | Some (cls, q, len) =>
      if cls =? 6 then
        let m' := if sub then unmark m cls 0
                  else match index_of 58 (ztake len q) with
                       | Some colon => mark_partial m cls 0 (fst (strtoull (zskip (colon + 1) q)))
                       | None => mark m cls 0
                       end in
        Ret (m', budget, false)
      else if len <=? 0 then Ret (m, budget, false)
      else
        let '(start, n1) := strtoull q in
        if n1 =? 0 then Ret (m, budget, false)
        else
          let '(end_id, numend, bad) :=
            if (n1 <? len) && (char_at q n1 =? 45) then
              let '(e, n2) := strtoull (zskip (n1 + 1) q) in (e, n1 + 1 + n2, (n2 =? 0) || (e <? start))
            else (start, n1, false) in
          if bad then Ret (m, budget, false)
          else
            let partial := (numend <? len) && (char_at q numend =? 58) in
            let bytes := if partial then fst (strtoull (zskip (numend + 1) q)) else 0 in
            range_ops (S (Z.to_nat budget))
              (fun m id => if sub then unmark m cls id
                           else if partial then mark_partial m cls id bytes else mark m cls id)
              m start end_id budget
  end.

(** cache_model.cpp:157-226 [apply] and 151-155 [parse]. *)
Definition token_len (p : list Z) : Z := match index_of 44 p with Some i => i | None => zlen p end.
Fixpoint apply_loop (fuel : nat) (p : list Z) (budget : Z) (m : cmodel) : out cmodel :=
  match fuel with
  | O => NoFuel
  | S f => if zlen p =? 0 then Ret m
           else let len := token_len p in
                let* (m', budget', stop) := apply_token m budget p len in
                if stop then Ret m' else apply_loop f (zskip (len + 1) p) budget' m'
  end.
Definition apply (m : cmodel) (s : list Z) : out cmodel := apply_loop (S (length s)) s max_bin_ops m.
Definition parse (s : list Z) : out cmodel := apply [] s.
