(** Which segment rules a tile-component, and what it says, after Rec. ITU-T
    T.800: A.6.1 and A.6.2 (tile-part COC > tile-part COD > main COC > main
    COD), A.6.3 (RGN), A.6.4 and A.6.5 (the same for QCC and QCD), A.6.6 (POC),
    Tables A.15 to A.21 and Equation E-5. *)
From Verif Require Import Base MarkerModel MarkerSpec ParamModel.

(** The segment for component [c] among a header's; a header has one at most,
    and of several the last one counts. *)
Fixpoint for_component {A} (num : A -> Z) (c : Z) (l : list A) : option A :=
  match l with
  | [] => None
  | x :: l => match for_component num c l with Some y => Some y | None => if num x =? c then Some x else None end
  end.
Definition first_of {A} (a b : option A) : option A := match a with Some _ => a | None => b end.

(** What a coding style says, whichever segment says it: whether precincts are
    given, and the bytes from the number of levels on. *)
Record coding := Coding { given : bool; bytes : list Z }.
Definition cod_says (c : cod) : coding := Coding (Z.odd (Scod c)) (SPcod c).
Definition coc_says (x : coc) : coding := Coding (Z.odd (Scoc x)) (SPcoc x).
(** A quantisation: style and guard bits in one byte, then the values. *)
Record quantisation := Quantisation { head : Z; steps : list Z }.
Definition qcd_says (q : qcd) : quantisation := Quantisation (Sqcd q) (SPqcd q).
Definition qcc_says (q : qcc) : quantisation := Quantisation (Sqcc q) (SPqcc q).

(** The rule, for a header [main] and a first tile-part header [tile]. *)
Definition coding_for (main tile : list seg) (c : Z) : option coding :=
  first_of (option_map coc_says (for_component Ccoc c (all_of is_coc tile)))
  (first_of (option_map cod_says (last_of is_cod tile))
  (first_of (option_map coc_says (for_component Ccoc c (all_of is_coc main)))
            (option_map cod_says (last_of is_cod main)))).
Definition quantisation_for (main tile : list seg) (c : Z) : option quantisation :=
  first_of (option_map qcc_says (for_component Cqcc c (all_of is_qcc tile)))
  (first_of (option_map qcd_says (last_of is_qcd tile))
  (first_of (option_map qcc_says (for_component Cqcc c (all_of is_qcc main)))
            (option_map qcd_says (last_of is_qcd main)))).
Definition roi_for (main tile : list seg) (c : Z) : Z :=
  match first_of (for_component Crgn c (all_of is_rgn tile)) (for_component Crgn c (all_of is_rgn main)) with Some x => SPrgn x | None => 0 end.
Definition order_for (main tile : list seg) : option cod := first_of (last_of is_cod tile) (last_of is_cod main).
Definition poc_for (main tile : list seg) : list poc := match first_of (last_of is_poc tile) (last_of is_poc main) with Some l => l | None => [] end.

(** What the bytes mean. *)
Definition levels_in (x : coding) : Z := znth 0 (bytes x) 0.
Definition block_in (x : coding) : Z * Z := (2 ^ (znth 0 (bytes x) 1 + 2), 2 ^ (znth 0 (bytes x) 2 + 2)).
Definition modes_in (x : coding) : Z := znth 0 (bytes x) 3.
Definition transf_in (x : coding) : Z := znth 0 (bytes x) 4.
(** Precinct exponents of resolution [r]. *)
Definition precinct_in (x : coding) (r : Z) : Z * Z :=
  if given x then (znth 0 (bytes x) (5 + r) mod 16, znth 0 (bytes x) (5 + r) / 16) else (15, 15).
(** Legal without Part 2: a COD may say 32 levels. *)
Definition coding_legal (x : coding) : Prop :=
  Forall in_byte (bytes x) /\ 5 <= zlen (bytes x) /\ levels_in x <= 32 /\ (given x = true -> 5 + levels_in x < zlen (bytes x))
  /\ znth 0 (bytes x) 1 + znth 0 (bytes x) 2 <= 8.
(** The style [s] is what [x] says. *)
Definition follows (x : coding) (s : style) : Prop :=
  levels s = levels_in x /\ block s = block_in x /\ modes s = modes_in x /\ transf s = transf_in x
  /\ zlen (precs s) = levels_in x + 1 /\ forall r, 0 <= r <= levels_in x -> znth (0, 0) (precs s) r = precinct_in x r.

Definition style_in (q : quantisation) : Z := head q mod 32.
Definition guard_in (q : quantisation) : Z := head q / 32.
(** The number of band [b] of resolution [r] in the list of subbands. *)
Definition band_number (r b : Z) : Z := if r =? 0 then 0 else 3 * (r - 1) + b.
(** The decomposition level of resolution [r] of [n] levels. *)
Definition level_of (n r : Z) : Z := if r =? 0 then n else n - r + 1.
Definition exponent_in (q : quantisation) (n r b : Z) : Z :=
  if style_in q =? 0 then znth 0 (steps q) (band_number r b) / 8
  else if style_in q =? 1 then znth 0 (steps q) 0 / 2048 - n + level_of n r
  else znth 0 (steps q) (band_number r b) / 2048.
Definition mantissa_in (q : quantisation) (r b : Z) : Z :=
  if style_in q =? 0 then 0 else if style_in q =? 1 then znth 0 (steps q) 0 mod 2048 else znth 0 (steps q) (band_number r b) mod 2048.
(** Complete for [n] levels, no more entries than 255, and fit for the
    transformation: none for the reversible one, some for the other, no
    negative exponent. *)
Definition quant_legal (q : quantisation) (n t : Z) : Prop :=
  in_byte (head q) /\ Forall (if style_in q =? 0 then in_byte else in_word) (steps q) /\ zlen (steps q) <= 255
  /\ (if t =? 1 then style_in q = 0 else style_in q = 1 \/ style_in q = 2)
  /\ (if style_in q =? 1 then 1 <= zlen (steps q) /\ n <= znth 0 (steps q) 0 / 2048 else 3 * n + 1 <= zlen (steps q)).
(** Band numbers: LL alone in resolution 0. *)
Definition is_band (r b : Z) : Prop := if r =? 0 then b = 0 else 1 <= b <= 3.

(** Headers whose segments can all be used: COD and QCD are there; COCs say at
    most 31 levels (see [C71_levels_refuted]); a derived quantisation has its value. *)
Definition usable (q : quantisation) : Prop := style_in q = 1 -> 1 <= zlen (steps q).
Record headers_legal (main tile : list seg) : Prop := {
  hl_cod : exists c, last_of is_cod main = Some c /\ coding_legal (cod_says c);
  hl_tcod : forall c, last_of is_cod tile = Some c -> coding_legal (cod_says c);
  hl_coc : forall x, In x (all_of is_coc main ++ all_of is_coc tile) -> coding_legal (coc_says x) /\ levels_in (coc_says x) <= 31;
  hl_qcd : exists q, last_of is_qcd main = Some q /\ usable (qcd_says q);
  hl_tqcd : forall q, last_of is_qcd tile = Some q -> usable (qcd_says q);
  hl_qcc : forall x, In x (all_of is_qcc main ++ all_of is_qcc tile) -> usable (qcc_says x) }.

(** Where the code follows the rule: the component has no segment of its own in
    the main header, or one in the tile-part header, or the tile-part header has
    segments of both kinds (one for all and some for single components) or of none. *)
Definition settled {A B} (num : A -> Z) (c : Z) (main tile : list A) (all : option B) : Prop :=
  for_component num c main = None \/ for_component num c tile <> None \/ (tile = [] <-> all = None).
Definition roi_settled (main tile : list seg) (c : Z) : Prop :=
  for_component Crgn c (all_of is_rgn main) = None \/ for_component Crgn c (all_of is_rgn tile) <> None \/ all_of is_rgn tile = [].

(** The number of levels for which entries of the ruling quantisation were
    kept: all the component's if it is a QCC, else those of the COD that counts
    where the QCD was found. *)
Definition levels_kept (main tile : list seg) (c n : Z) : Prop :=
  match first_of (for_component Cqcc c (all_of is_qcc tile)) (if last_of is_qcd tile then None else for_component Cqcc c (all_of is_qcc main)) with
  | Some _ => True
  | None => forall d, (if last_of is_qcd tile then order_for main tile else last_of is_cod main) = Some d -> n <= levels_in (cod_says d)
  end.
