(** Vocabulary for the properties of the HT block coder. *)
From Verif Require Import Base HtTables HtStreamModel HtBlockModel.

(** ** Reading words back, one after the other *)

(** Fetch 32 bits, keep the low [m], advance by [m]. *)
Fixpoint magsgn_read (f : fwd) (lens : list Z) : option (list Z) :=
  match lens with
  | [] => Some []
  | m :: t =>
    match fwd_fetch f with
    | Some (v, f1) =>
      match fwd_advance f1 m with
      | Some f2 => match magsgn_read f2 t with Some l => Some (v mod 2 ^ m :: l) | None => None end
      | None => None
      end
    | None => None
    end
  end.

Fixpoint vlc_read (r : rbuf) (lens : list Z) : option (list Z) :=
  match lens with
  | [] => Some []
  | m :: t =>
    let (v, r1) := rev_fetch r in
    match rev_advance r1 m with
    | Some (_, r2) => match vlc_read r2 t with Some l => Some (v mod 2 ^ m :: l) | None => None end
    | None => None
    end
  end.

Fixpoint mel_decisions (n : nat) (run : Z) (s : meldec) : list bool :=
  match n with
  | O => []
  | S n' => let '(e, (run', s')) := mel_event run s in e :: mel_decisions n' run' s'
  end.

(** A word of [m] bits, at most 32. *)
Definition word_ok (c : Z * Z) : Prop := 0 <= snd c <= 32 /\ 0 <= fst c < 2 ^ snd c.
(** A MagSgn word (v, m, e): the [m] bits of [v - e * 2^m]. *)
Definition triple_ok (c : Z * Z * Z) : Prop :=
  let '(v, m, e) := c in 0 <= m <= 32 /\ 0 <= v - e * 2 ^ m < 2 ^ m.

(** In [l], a byte 0xFF is never followed by a byte above [lim]. *)
Definition ff_then_at_most (lim : Z) (l : list Z) : Prop :=
  forall i, 0 <= i -> i + 1 < zlen l -> znth 0 l i = 255 -> znth 0 l (i + 1) <= lim.

(** ** Blocks *)

(** The sizes the standard permits: 2^xcb by 2^ycb with xcb, ycb in 2..10 and
    xcb + ycb at most 12, and any smaller block at the edge of a band. *)
Definition size_ok (w h : Z) : Prop := exists xcb ycb,
  2 <= xcb <= 10 /\ 2 <= ycb <= 10 /\ xcb + ycb <= 12 /\ 1 <= w <= 2 ^ xcb /\ 1 <= h <= 2 ^ ycb.

(** Every coefficient is below the bit-plane bound. *)
Definition bounded (b : block) : Prop :=
  forall y x, 0 <= y < b_h b -> 0 <= x < b_w b -> Z.abs (b_q b y x) < 2 ^ b_Mb b.

(** The same coefficients. *)
Definition same (b : block) (g : grid) : Prop :=
  forall y x, 0 <= y < b_h b -> 0 <= x < b_w b -> g y x = b_q b y x.

(** The word the decoder stores for a coefficient: sign, magnitude, and the
    centre of the quantisation bin, with [31 - Mb] missing planes below. *)
Definition stored (Mb q : Z) : Z :=
  if q =? 0 then 0 else (if q <? 0 then 2 ^ 31 else 0) + (2 * Z.abs q + 1) * 2 ^ (30 - Mb).
