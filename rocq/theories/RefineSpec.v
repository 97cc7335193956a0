(** T.814, 7.1.5, 7.1.6, 7.4 and 7.5: the refinement segment and the SigProp
    and MagRef passes. *)
From Verif Require Import Base PassSpec.

(** Bits of a byte, least significant first. *)
Definition bits_of (n : nat) (b : Z) : list bool := map (fun i => Z.testbit b (Z.of_nat i)) (seq 0 n).
(** 7.1.5: forwards; the top bit of a byte after 0xFF is no data. *)
Fixpoint sp_bits_from (prev : Z) (l : list Z) : list bool :=
  match l with
  | [] => []
  | b :: l => bits_of (if prev =? 255 then 7 else 8) b ++ sp_bits_from b l
  end.
(** 7.1.6: backwards; a byte whose low seven bits are set, read after a byte
    above 0x8F, has no top bit. *)
Fixpoint mr_bits_from (prev : Z) (l : list Z) : list bool :=
  match l with
  | [] => []
  | b :: l => bits_of (if (143 <? prev) && (b mod 128 =? 127) then 7 else 8) b ++ mr_bits_from b l
  end.
(** Beyond the segment there are zeros. *)
Definition sp_bit (D : list Z) (k : nat) : bool := nth k (sp_bits_from 0 D) false.
Definition mr_bit (D : list Z) (k : nat) : bool := nth k (mr_bits_from 255 (rev D)) false.

Section Refinement.
  Variables w h : Z.
  Variable causal : bool.
  Variable sigma : Z -> Z -> bool.   (* significant after the cleanup pass *)

  (** ** SigProp *)
  (** Newly significant samples, their signs, and the bits used. *)
  Record news := News { new : Z -> Z -> bool; minus : Z -> Z -> bool; used : nat }.
  Definition inside (y x : Z) : bool := (0 <=? y) && (y <? h) && (0 <=? x) && (x <? w).
  Definition lit (s : news) (y y' x' : Z) : bool :=
    inside y' x' && negb (causal && (y / 4 <? y' / 4)) && (sigma y' x' || new s y' x').
  Definition near (s : news) (y x : Z) : bool :=
    lit s y (y - 1) (x - 1) || lit s y (y - 1) x || lit s y (y - 1) (x + 1) || lit s y y (x - 1) || lit s y y (x + 1) ||
    lit s y (y + 1) (x - 1) || lit s y (y + 1) x || lit s y (y + 1) (x + 1).
  Definition mag_step (B : nat -> bool) (s : news) (yx : Z * Z) : news :=
    let '(y, x) := yx in
    if negb (sigma y x) && near s y x then News (up2 (new s) y x (B (used s))) (minus s) (S (used s)) else s.
  Definition sign_step (B : nat -> bool) (s : news) (yx : Z * Z) : news :=
    let '(y, x) := yx in
    if new s y x then News (new s) (up2 (minus s) y x (B (used s))) (S (used s)) else s.
  (** Groups of four columns of a stripe of four rows, scanned by columns:
      first all magnitudes, then all signs. *)
  Definition cells (y0 height x0 width : Z) : list (Z * Z) :=
    flat_map (fun j => map (fun i => (y0 + i, x0 + j)) (zseq height)) (zseq width).
  Definition group (n g : Z) : list (Z * Z) := cells (4 * n) (Z.min 4 (h - 4 * n)) (4 * g) (Z.min 4 (w - 4 * g)).
  Definition sp_group (B : nat -> bool) (s : news) (l : list (Z * Z)) : news :=
    fold_left (sign_step B) l (fold_left (mag_step B) l s).
  Definition groups : list (list (Z * Z)) := flat_map (fun n => map (group n) (zseq ((w + 3) / 4))) (zseq ((h + 3) / 4)).
  Definition sig_prop (D : list Z) : news :=
    fold_left (sp_group (sp_bit D)) groups (News (fun _ _ => false) (fun _ _ => false) 0).

  (** ** MagRef: a bit for each significant sample, stripe by stripe and
      column by column. *)
  Definition stripe_scan : list (Z * Z) := flat_map (fun n => cells (4 * n) (Z.min 4 (h - 4 * n)) 0 w) (zseq ((h + 3) / 4)).
  Definition ref_step (B : nat -> bool) (s : (Z -> Z -> bool) * nat) (yx : Z * Z) : (Z -> Z -> bool) * nat :=
    let '(y, x) := yx in
    if sigma y x then (up2 (fst s) y x (B (snd s)), S (snd s)) else s.
  Definition mag_ref (D : list Z) : Z -> Z -> bool := fst (fold_left (ref_step (mr_bit D)) stripe_scan (fun _ _ => false, O)).
End Refinement.

(** What the cleanup pass hands over: which samples are significant, and of
    each of these the magnitude down to bit-plane [p + 1] and the sign.  A
    value is a sign at bit 31 and a magnitude whose lowest set bit marks the
    middle of the interval it stands for. *)
Record cleaned (p : Z) := Cleaned { sig : Z -> Z -> bool; mag : Z -> Z -> Z; neg : Z -> Z -> bool }.
Arguments Cleaned {p}. Arguments sig {p}. Arguments mag {p}. Arguments neg {p}.
Definition pattern (neg : bool) (m : Z) : Z := Z.b2z neg * 2 ^ 31 + m.
(** After the refinement: a significant sample gets a bit of bit-plane [p] if
    there is a MagRef pass; a newly significant one is 1 in bit-plane [p]. *)
Definition refined (w h : Z) (causal : bool) (D : list Z) (p : Z) (passes : Z) (c : cleaned p) (y x : Z) : Z :=
  let s := sig_prop w h causal (sig c) D in
  if sig c y x then
    if passes <? 3 then pattern (neg c y x) ((2 * mag c y x + 1) * 2 ^ p)
    else pattern (neg c y x) ((2 * (2 * mag c y x + Z.b2z (mag_ref w h (sig c) D y x)) + 1) * 2 ^ (p - 1))
  else if new s y x then pattern (minus s y x) ((2 * 1 + 1) * 2 ^ (p - 1)) else 0.
