(** Shared vocabulary of the model: outcomes, bytes, bounded reads.
    Nothing here models a particular C++ function. *)
From Coq Require Export ZArith List Lia Bool.
From Coq Require Export ZifyBool ZifyNat ZifyN.
Export ListNotations.
Open Scope Z_scope.

Ltac Zify.zify_post_hook ::= Z.div_mod_to_equations.

(** Outcome of running a piece of C++: a value, undefined behaviour (an
    out-of-bounds access, a null dereference, an invalid shift ...), or "the
    model's fuel ran out" (never a legal answer; theorems exclude it). *)
Inductive out (A : Type) : Type :=
| Ret (a : A)
| UB
| NoFuel.
Arguments Ret {A} a.
Arguments UB {A}.
Arguments NoFuel {A}.

Definition bind {A B} (m : out A) (f : A -> out B) : out B :=
  match m with Ret a => f a | UB => UB | NoFuel => NoFuel end.
Notation "'let*' x := m 'in' k" := (bind m (fun x => k))
  (at level 200, x pattern, m at level 100, k at level 200).

Definition byte_ok (b : Z) : Prop := 0 <= b < 256.
Definition bytes_ok (l : list Z) : Prop := Forall byte_ok l.

Definition zlen {A} (l : list A) : Z := Z.of_nat (length l).
Definition zskip {A} (n : Z) (l : list A) : list A := skipn (Z.to_nat n) l.
Definition ztake {A} (n : Z) (l : list A) : list A := firstn (Z.to_nat n) l.
Definition znth {A} (d : A) (l : list A) (i : Z) : A := nth (Z.to_nat i) l d.
(** 0, 1, ..., n-1 *)
Definition zseq (n : Z) : list Z := map Z.of_nat (seq 0 (Z.to_nat n)).

(** Checked read of [l[i]]: outside the buffer is undefined behaviour. *)
Definition rd (l : list Z) (i : Z) : out Z :=
  if (0 <=? i) && (i <? zlen l) then Ret (znth 0 l i) else UB.

Definition two64 : Z := 2 ^ 64.
Definition two32 : Z := 2 ^ 32.
Definition wrap64 (v : Z) : Z := v mod two64.
Definition wrap32 (v : Z) : Z := v mod two32.

(** A call that may throw. *)
Definition ex (A : Type) : Type := out (option A).
Definition ret {A} (a : A) : ex A := Ret (Some a).
Definition throw {A} : ex A := Ret None.
Definition bindx {A B} (m : ex A) (f : A -> ex B) : ex B :=
  match m with
  | Ret (Some a) => f a
  | Ret None => Ret None
  | UB => UB
  | NoFuel => NoFuel
  end.
Notation "'let?' x := m 'in' k" := (bindx m (fun x => k))
  (at level 200, x pattern, m at level 100, k at level 200).
