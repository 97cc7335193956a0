(** The packets of a tile and the order ITU-T T.800 B.12 (and T.801 I.2.6)
    gives them, on unbounded integers, independent of the code's counters,
    strides and bit widths. *)
From Verif Require Import Base PrecinctModel PrecinctSpec OrderModel.

(** The packets that tile (tx,ty) has. *)
Definition is_packet (h : header) (layers tx ty : Z) (q : packet) : Prop :=
  0 <= pk_l q < layers /\
  exists c, 0 <= pk_c q /\ nth_error (h_comps h) (Z.to_nat (pk_c q)) = Some c /\
    0 <= pk_r q <= c_NL c /\ 0 <= pk_p q < n_precincts h c tx ty (pk_r q).

(** Their number. *)
Definition n_packets (h : header) (layers tx ty : Z) : Z :=
  sumf (fun c => sumf (n_precincts h c tx ty) (zseq (c_NL c + 1))) (h_comps h) * layers.

Definition tile_x (h : header) (tx : Z) : Z * Z :=
  tile_span (fst (h_size h)) (fst (h_origin h)) (fst (h_tsize h)) (fst (h_torigin h)) tx.
Definition tile_y (h : header) (ty : Z) : Z * Z :=
  tile_span (snd (h_size h)) (snd (h_origin h)) (snd (h_tsize h)) (snd (h_torigin h)) ty.

(** B.12.1.3, the condition on x (or y): "x divisible by
    XRsiz * 2^(PPx + NL - r), or x = tx0 and trx0 * 2^(NL - r) not divisible by
    2^(PPx + NL - r)". *)
Definition begins (v t0 sub pp n tr0 : Z) : bool :=
  (v mod (sub * 2 ^ (pp + n)) =? 0) ||
  ((v =? t0) && negb ((tr0 * 2 ^ n) mod 2 ^ (pp + n) =? 0)).

(** The number, along one axis, of the precinct cell that the grid position
    [v] falls into, counted from the first cell of the interval [ab]. *)
Definition cell_at (ab : Z * Z) (sub pp n v : Z) : Z :=
  ceil_div v (sub * 2 ^ n) / 2 ^ pp - fst ab / 2 ^ pp.

(** The packets that come when the loops of B.12.1.3-5 are at (y, x), component
    number [c] and resolution [r]: if both conditions hold, the layers of the
    precinct that begins there. *)
Definition packets_at (h : header) (tx ty LYE y x c r : Z) : list packet :=
  match nth_error (h_comps h) (Z.to_nat c) with
  | Some k =>
      if (r <=? c_NL k) &&
         begins x (fst (tile_x h tx)) (fst (c_sub k)) (ppx k r) (c_NL k - r)
                (fst (x_span h k tx r)) &&
         begins y (fst (tile_y h ty)) (snd (c_sub k)) (ppy k r) (c_NL k - r)
                (fst (y_span h k ty r)) &&
         (0 <? n_precincts h k tx ty r)
      then
        let p := cell_at (x_span h k tx r) (fst (c_sub k)) (ppx k r) (c_NL k - r) x
               + cell_at (y_span h k ty r) (snd (c_sub k)) (ppy k r) (c_NL k - r) y
                 * cells (x_span h k tx r) (ppx k r) in
        map (fun l => {| pk_l := l; pk_r := r; pk_c := c; pk_p := p |}) (zseq LYE)
      else []
  | None => []
  end.

(** The packets of layer [l], resolution [r], component number [c] (B.12.1.1). *)
Definition packets_of (h : header) (tx ty l r c : Z) : list packet :=
  match nth_error (h_comps h) (Z.to_nat c) with
  | Some k =>
      if r <=? c_NL k
      then map (fun p => {| pk_l := l; pk_r := r; pk_c := c; pk_p := p |})
               (zseq (n_precincts h k tx ty r))
      else []
  | None => []
  end.

(** The sequence of one progression entry: the five orders of B.12.1 and the
    sixth of T.801, as nested loops over all layers, resolutions, components
    and grid positions of the tile. *)
Definition sequence (h : header) (layers tx ty : Z) (e : entry) : list packet :=
  let ls := zseq (Z.min (e_LYE e) layers) in
  let rs := zrange (e_RS e) (e_RE e) in
  let cs := zrange (e_CS e) (Z.min (e_CE e) (zlen (h_comps h))) in
  let ys := zrange (fst (tile_y h ty)) (snd (tile_y h ty)) in
  let xs := zrange (fst (tile_x h tx)) (snd (tile_x h tx)) in
  let at_ y x c r := packets_at h tx ty (Z.min (e_LYE e) layers) y x c r in
  if e_P e =? 0 then
    flat_map (fun l => flat_map (fun r => flat_map (fun c =>
      packets_of h tx ty l r c) cs) rs) ls
  else if e_P e =? 1 then
    flat_map (fun r => flat_map (fun l => flat_map (fun c =>
      packets_of h tx ty l r c) cs) ls) rs
  else if e_P e =? 2 then
    flat_map (fun r => flat_map (fun y => flat_map (fun x => flat_map (fun c =>
      at_ y x c r) cs) xs) ys) rs
  else if e_P e =? 3 then
    flat_map (fun y => flat_map (fun x => flat_map (fun c => flat_map (fun r =>
      at_ y x c r) rs) cs) xs) ys
  else if e_P e =? 4 then
    flat_map (fun c => flat_map (fun y => flat_map (fun x => flat_map (fun r =>
      at_ y x c r) rs) xs) ys) cs
  else
    flat_map (fun y => flat_map (fun x => flat_map (fun r => flat_map (fun c =>
      at_ y x c r) cs) rs) xs) ys.

(** B.12.2: a packet already sent is not sent again. *)
Definition add_new (d : list packet) (q : packet) : list packet :=
  if existsb (packet_eqb q) d then d else d ++ [q].
Definition first_times (l : list packet) : list packet := fold_left add_new l [].

(** The fields of a POC entry as read from one byte or one word each. *)
Definition entry_ok (e : entry) : Prop :=
  0 <= e_RS e <= 255 /\ 0 <= e_CS e <= 65535 /\ 0 <= e_LYE e <= 65535 /\
  0 <= e_RE e <= 255 /\ 0 <= e_CE e <= 65535 /\ 0 <= e_P e <= 5.

(** The precinct sizes, projected on the reference grid, fit in 32 bits. *)
Definition fits (h : header) : Prop :=
  forall c r, In c (h_comps h) -> 0 <= r <= c_NL c ->
    fst (c_sub c) * 2 ^ (ppx c r + (c_NL c - r)) < 2 ^ 32 /\
    snd (c_sub c) * 2 ^ (ppy c r + (c_NL c - r)) < 2 ^ 32.

(** The entry that asks for everything in progression order [po]. *)
Definition everything (h : header) (layers po : Z) : entry :=
  {| e_RS := 0; e_CS := 0; e_LYE := layers; e_RE := 33;
     e_CE := zlen (h_comps h); e_P := po |}.
