(** What "the window is decoded right" means: nothing here refers to kernels,
    rings or ranges of levels. *)
From Verif Require Import Base WindowModel.

(** The sample arithmetic needed: all zero bits is the value zero, lifting
    with two zero neighbours changes nothing, half of zero is zero.  (For
    floats this identifies the two zeros.) *)
Definition sane {T} (A : arith T) : Prop :=
  (forall x, zt A x = true -> x = zero A)
  /\ (forall low k t, hs A low k t (zero A) (zero A) = t)
  /\ (forall low k t, vs A low k t (zero A) (zero A) = t)
  /\ hh A (zero A) = zero A /\ hv A (zero A) = zero A.

(** Two decodings of rows v0, v1, ... of a component with columns [u0, u1)
    agree on the samples of column [c] and row [r] satisfying [P]. *)
Definition agree_on {T} (P : Z -> Z -> Prop) (u0 u1 v0 v1 : Z) (l l' : list (option (Z -> T))) : Prop :=
  zlen l = v1 - v0 /\ zlen l' = v1 - v0 /\
  forall r c, v0 <= r < v1 -> u0 <= c < u1 -> P c r ->
    exists x x', znth None l (r - v0) = Some x /\ znth None l' (r - v0) = Some x' /\ x (c - u0) = x' (c - u0).

(** Column [c] is inside a range. *)
Definition inside (w : option (Z * Z)) (c : Z) : Prop :=
  match w with None => True | Some (a, b) => a <= c < b end.

(** Frames decoded one after the other: the component's state before the
    last. *)
Record request := { q_persist : bool; q_col_lo : Z; q_col_hi : Z; q_row_lo : Z; q_row_hi : Z }.
Definition well_formed (q : request) : Prop :=
  0 <= q_col_lo q <= uint_max /\ 0 <= q_col_hi q <= uint_max /\
  0 <= q_row_lo q <= uint_max /\ 0 <= q_row_hi q <= uint_max.
Definition frame_of (yr v1 : Z) (q : request) := frame (q_persist q) yr v1 (q_col_lo q) (q_col_hi q) (q_row_lo q) (q_row_hi q).
Definition after (yr v1 : Z) (s : kept) (qs : list request) : kept :=
  fold_left (fun s q => snd (frame_of yr v1 q s)) qs s.
Definition whole_width (q : request) : Prop := q_col_lo q = 0 /\ q_col_hi q = uint_max.
