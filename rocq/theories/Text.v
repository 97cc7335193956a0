(** Text conversions of the C and C++ standard libraries the code relies on:
    characters are codes 0-255, strings lists of them.  Nothing here models a
    function of the repository. *)
From Verif Require Import Base.

(** std::to_string and "%llu" for a non-negative number. *)
Fixpoint dec_digits (fuel : nat) (n : Z) (acc : list Z) : list Z :=
  match fuel with
  | O => acc
  | S f => if n <? 10 then (48 + n) :: acc else dec_digits f (n / 10) ((48 + n mod 10) :: acc)
  end.
Definition dec (n : Z) : list Z := dec_digits (S (Z.to_nat (Z.log2 n))) n [].

Definition is_digit (c : Z) : bool := (48 <=? c) && (c <=? 57).
Definition is_space (c : Z) : bool := (c =? 32) || ((9 <=? c) && (c <=? 13)).

Fixpoint take_while (p : Z -> bool) (s : list Z) : list Z :=
  match s with
  | c :: s' => if p c then c :: take_while p s' else []
  | [] => []
  end.
Definition horner (base : Z) (value : Z -> Z) (ds : list Z) : Z := fold_left (fun v c => base * v + value c) ds 0.
Definition dec_value (ds : list Z) : Z := horner 10 (fun c => c - 48) ds.

(** std::strtoull(s, &end, 10) on a NUL-terminated string: value and number
    of characters consumed (0 when no number is found: end = s).  White space
    and a sign are accepted; a negative number is negated modulo 2^64; out of
    range gives ULLONG_MAX. *)
Definition strtoull (s : list Z) : Z * Z :=
  let ws := take_while is_space s in
  let s1 := zskip (zlen ws) s in
  let '(neg, sg, s2) := match s1 with
                       | 45 :: s' => (true, 1, s')
                       | 43 :: s' => (false, 1, s')
                       | _ => (false, 0, s1)
                       end in
  let ds := take_while is_digit s2 in
  match ds with
  | [] => (0, 0)
  | _ => let v := dec_value ds in
         let r := if two64 <=? v then two64 - 1 else if neg then wrap64 (- v) else v in
         (r, zlen ws + sg + zlen ds)
  end.
