(** What a lifting transform is, independently of buffers and schedules. *)
From Verif Require Import Base.

(** Whole-sample symmetric extension: position [j] of the doubly infinite
    signal that repeats [x(i0) .. x(i1-1)] by reflection about both end
    samples, as a position inside [i0, i1). *)
Definition mirror (i0 i1 j : Z) : Z :=
  let p := 2 * (i1 - i0 - 1) in
  let m := (j - i0) mod p in
  i0 + Z.min m (p - m).

(** [m] rounds of lifting of the doubly infinite signal [x].  In each round
    the positions [q] with [first q] are updated from their two neighbours,
    then the other positions from their updated neighbours.  [step q k] is
    the arithmetic used at position [q] in round [k] (element, left and right
    neighbour). *)
Section Lifting.
  Context {T : Type} (first : Z -> bool) (step : Z -> nat -> T -> T -> T -> T) (x : Z -> T).
  Fixpoint lifted (k : nat) (r : Z) : T :=
    match k with
    | O => x r
    | S k' =>
        let f q := step q k' (lifted k' q) (lifted k' (q - 1)) (lifted k' (q + 1)) in
        if first r then f r else step r k' (lifted k' r) (f (r - 1)) (f (r + 1))
    end.
End Lifting.

(** The finite signal [l] starting at [i0], extended by reflection. *)
Definition extended {T} (d : T) (i0 : Z) (l : list T) (j : Z) : T :=
  znth d l (mirror i0 (i0 + zlen l) j - i0).

(** i0, i0+1, ..., i1-1 *)
Definition range (i0 i1 : Z) : list Z := map (fun k => i0 + k) (zseq (i1 - i0)).

(** The reversible 5/3 filter of JPEG 2000 on a doubly infinite signal [x]:
    high-pass samples at odd positions, low-pass samples at even ones. *)
Definition high53 (x : Z -> Z) (j : Z) : Z := x j - (x (j - 1) + x (j + 1)) / 2.
Definition low53 (x : Z -> Z) (j : Z) : Z := x j + (high53 x (j - 1) + high53 x (j + 1) + 2) / 4.
Definition analysed53 (x : Z -> Z) (j : Z) : Z := if Z.odd j then high53 x j else low53 x j.

(** ceil(u / 2^k): the origin of a tile-component at resolution reduced [k]
    times. *)
Definition reduced (u : Z) (k : nat) : Z := (u + 2 ^ Z.of_nat k - 1) / 2 ^ Z.of_nat k.
