(** What the cache model is supposed to remember. *)
From Verif Require Import Base Assoc Text CacheModel.

(** Statements a client (or the server on its behalf) makes about bins. *)
Inductive stmt :=
| Have (cls id : Z)                 (** the whole bin is held *)
| HavePart (cls id bytes : Z)       (** its first [bytes] bytes are held *)
| Drop (cls id : Z)                 (** nothing of it is held any more *)
| DropAll.

(** Running statements through the class interface. *)
Definition exec (m : cmodel) (s : stmt) : cmodel :=
  match s with
  | Have c i => mark m c i
  | HavePart c i b => mark_partial m c i b
  | Drop c i => unmark m c i
  | DropAll => clear m
  end.
Definition exec_all (m : cmodel) (h : list stmt) : cmodel := fold_left exec h m.

(** Does a statement make the model forget bin (c, i)? *)
Definition drops (c i : Z) (s : stmt) : Prop := s = Drop c i \/ s = DropAll.

(** Bin numbers the 64-bit key has room for. *)
Definition bin_ok (c i : Z) : Prop := 0 <= c < 256 /\ 0 <= i < 2 ^ 56.
Definition stmt_ok (s : stmt) : Prop :=
  match s with Have c i | Drop c i => bin_ok c i | HavePart c i b => bin_ok c i /\ 0 <= b | DropAll => True end.

(** Bytes known to be held while the bin is not complete: the largest count
    stated since the bin was last dropped.  (Counts stated for a bin already
    held in full are ignored.) *)
Fixpoint stated_bytes (c i : Z) (complete : bool) (bytes : Z) (h : list stmt) : Z :=
  match h with
  | [] => bytes
  | Have c' i' :: h' => stated_bytes c i (complete || ((c' =? c) && (i' =? i))) bytes h'
  | HavePart c' i' b :: h' =>
      stated_bytes c i complete (if (c' =? c) && (i' =? i) && negb complete then Z.max bytes b else bytes) h'
  | Drop c' i' :: h' =>
      if (c' =? c) && (i' =? i) then stated_bytes c i false 0 h' else stated_bytes c i complete bytes h'
  | DropAll :: h' => stated_bytes c i false 0 h'
  end.

(** The text form of statements (JPIP section C.9): an optional '-', the
    class letter(s), a bin number or range, an optional ':bytes'. *)
Inductive tstmt :=
| TMain (drop : bool) (part : option Z)                             (** Hm, Hm:123, -Hm *)
| TBins (drop long : bool) (cls lo hi : Z) (part : option Z).       (** P4, P4-9, H0:17, -M3; long: Hp4, Ht0 *)
Definition letter (long : bool) (cls : Z) : list Z :=
  if long then (if cls =? 0 then [72; 112] else [72; 116])
  else if cls =? 0 then [80] else if cls =? 2 then [72] else [77].
Definition text (t : tstmt) : list Z :=
  let minus (d : bool) := if d then [45] else [] in
  let colon p := match p with Some b => 58 :: dec b | None => [] end in
  match t with
  | TMain d p => minus d ++ [72; 109] ++ colon p
  | TBins d long cls lo hi p =>
      minus d ++ letter long cls ++ dec lo ++ (if hi =? lo then [] else 45 :: dec hi) ++ colon p
  end.
Fixpoint join (l : list (list Z)) : list Z :=
  match l with
  | [] => []
  | [t] => t
  | t :: l' => t ++ 44 :: join l'
  end.
Definition part_ok (p : option Z) : Prop := match p with Some b => 0 <= b < 2 ^ 64 | None => True end.
Definition tstmt_ok (t : tstmt) : Prop :=
  match t with
  | TMain _ p => part_ok p
  | TBins _ long cls lo hi p => (cls = 0 \/ cls = 2 \/ (cls = 8 /\ long = false)) /\ 0 <= lo <= hi /\ hi < 2 ^ 56 /\ part_ok p
  end.
(** What a textual statement says. *)
Definition meaning1 (drop : bool) (part : option Z) (c i : Z) : stmt :=
  if drop then Drop c i else match part with Some b => HavePart c i b | None => Have c i end.
Definition meaning (t : tstmt) : list stmt :=
  match t with
  | TMain d p => [meaning1 d p 6 0]
  | TBins d _ cls lo hi p => map (fun k => meaning1 d p cls (lo + k)) (zseq (hi - lo + 1))
  end.
Definition bins_named (t : tstmt) : Z :=
  match t with TMain _ _ => 0 | TBins _ _ _ lo hi _ => hi - lo + 1 end.
Definition sumZ (l : list Z) : Z := fold_right Z.add 0 l.

(** A text that names more bins than [budget] is obeyed up to that many bins;
    the rest of it is ignored. *)
Fixpoint within (budget : Z) (ts : list tstmt) : list stmt :=
  match ts with
  | [] => []
  | t :: ts' => if bins_named t <=? budget then meaning t ++ within (budget - bins_named t) ts'
                else firstn (Z.to_nat budget) (meaning t)
  end.
