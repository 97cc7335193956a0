(** Code-blocks decoded one at a time, and what threads do together. *)
From Verif Require Import Base BatchModel.

(** One code-block after the other until one throws: the results, and whether
    one threw. *)
Fixpoint one_by_one (decode : blk -> option bool) (bs : list blk) : list (blk * bool) * bool :=
  match bs with
  | [] => ([], false)
  | b :: bs => match decode b with
               | None => ([], true)
               | Some r => ((b, r) :: fst (one_by_one decode bs), snd (one_by_one decode bs))
               end
  end.

Definition stored (l : list ev) : list (blk * bool) := flat_map (fun e => match e with Stored b r => [(b, r)] | _ => [] end) l.
Definition prepared (l : list ev) : list blk := flat_map (fun e => match e with Prepared b => [b] | _ => [] end) l.
Definition lefts (l : list ev) : nat := length (filter (fun e => match e with Left => true | _ => false end) l).

(** The tasks of several threads interleaved in any way. *)
Inductive shuffle : list (list ev) -> list ev -> Prop :=
| sh_end ls : Forall (fun l => l = []) ls -> shuffle ls []
| sh_step a e l b q : shuffle (a ++ l :: b) q -> shuffle (a ++ (e :: l) :: b) (e :: q).

(** The code-blocks of a row that have data. *)
Definition present (row : list (option blk)) : list blk := flat_map (fun c => match c with Some b => [b] | None => [] end) row.
