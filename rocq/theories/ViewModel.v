(** Model of source/core/jpip/view_window.cpp: choosing a discard level and
    resolving a view window into precincts. *)
From Verif Require Import Base PrecinctModel.

(** [ViewWindow], source/core/jpip/view_window.hpp:17-33. *)
Inductive round := Down | Up | Closest.
Record window := {
  fx : Z; fy : Z; ox : Z; oy : Z; sx : Z; sy : Z;
  comps : list Z; rounding : round }.

(** [fsiz_at], view_window.cpp:21-26. *)
Definition fsiz_at (x : index) (r : Z) : ex (Z * Z) :=
  let h := hdr x in
  let? div := shl1 r in
  let? a := cdiv (fst (h_size h)) div in
  let? b := cdiv (fst (h_origin h)) div in
  let? c := cdiv (snd (h_size h)) div in
  let? d := cdiv (snd (h_origin h)) div in
  ret (wrap32 (a - b), wrap32 (c - d)).

(** [dwt_margin_subband], view_window.cpp:32-36. *)
Definition margin (irreversible : bool) (levels_above : Z) : Z :=
  if levels_above =? 0 then 0 else
  2 * (if irreversible then 4 else 2).

(** [sub_sat], view_window.cpp:39. *)
Definition sub_sat (a b : Z) : Z := if b <? a then a - b else 0.

(** The round-down search, view_window.cpp:56-61, over the levels [rs]. *)
Fixpoint pick_down (x : index) (qx qy : Z) (rs : list Z) (r_max : Z) : ex Z :=
  match rs with
  | [] => ret r_max
  | r :: more =>
      let? (a, b) := fsiz_at x r in
      if (a <=? qx) && (b <=? qy) then ret r else pick_down x qx qy more r_max
  end.

(** The round-up search, view_window.cpp:66-71 (called on the levels from the
    largest to 0). *)
Fixpoint pick_up (x : index) (qx qy : Z) (rs : list Z) : ex Z :=
  match rs with
  | [] => ret 0
  | r :: more =>
      let? (a, b) := fsiz_at x r in
      if (qx <=? a) && (qy <=? b) then ret r else pick_up x qx qy more
  end.

(** The closest-area search, view_window.cpp:76-89. *)
Fixpoint pick_closest (x : index) (target : Z) (rs : list Z) (best_diff best_r : Z)
  : ex Z :=
  match rs with
  | [] => ret best_r
  | r :: more =>
      let? (a, b) := fsiz_at x r in
      let area := wrap64 (a * b) in
      let diff := if target <? area then area - target else target - area in
      if diff <? best_diff then pick_closest x target more diff r
      else pick_closest x target more best_diff best_r
  end.

(** [pick_discard_level], view_window.cpp:43-92. *)
Definition pick_discard_level (x : index) (w : window) : ex Z :=
  let r_max := max_NL x in
  let qx := if fx w =? 0 then fst (h_size (hdr x)) else fx w in
  let qy := if fy w =? 0 then snd (h_size (hdr x)) else fy w in
  match rounding w with
  | Down => pick_down x qx qy (zseq (r_max + 1)) r_max
  | Up => pick_up x qx qy (rev (zseq (r_max + 1)))
  | Closest => pick_closest x (wrap64 (qx * qy)) (zseq (r_max + 1)) (two64 - 1) 0
  end.

(** The integers lo, lo+1, ..., hi-1. *)
Definition range (lo hi : Z) : list Z := map (fun i => lo + i) (zseq (hi - lo)).

(** The precinct range of one axis, view_window.cpp:168-196, from the clipped
    tile-component interval [tcA, tcB). *)
Definition precinct_range (irr : bool) (NLtc r tcA tcB log2PP respos0 n : Z)
  : ex (Z * Z) :=
  let? scale_r := shl1 (NLtc - r) in
  let? a := udiv tcA scale_r in
  let? b := cdiv tcB scale_r in
  let m := margin irr (NLtc - r) in
  let a' := sub_sat a m in
  let b' := wrap32 (b + m) in
  let? PP := shl1 log2PP in
  let? off := udiv respos0 PP in
  let? lo := udiv a' PP in
  let? hi := cdiv b' PP in
  ret (Z.max 0 (lo - off), Z.min n (hi - off)).

(** The body of the resolution loop, view_window.cpp:167-208. *)
Definition keys_of_resolution (x : index) (t c : Z) (i : tcinfo)
  (ax ay bx by_ : Z) (r : Z) : ex (list key) :=
  let irr := h_irreversible (hdr x) in
  let? v := row i r in
  let? (xlo, xhi) := precinct_range irr (NL i) r ax bx (log2PPx v) (respos0_x v) (npw v) in
  let? (ylo, yhi) := precinct_range irr (NL i) r ay by_ (log2PPy v) (respos0_y v) (nph v) in
  ret (flat_map (fun py =>
         map (fun px => {| k_t := t; k_c := c; k_r := r;
                           k_p := wrap32 (py * npw v + px) |})
             (range xlo xhi))
         (range ylo yhi)).

(** The body of the component loop, view_window.cpp:149-209, on the region
    clipped to the tile. *)
Definition keys_of_component (x : index) (r_star t : Z) (ax ay bx by_ : Z) (c : Z)
  : ex (list key) :=
  if num_components x <=? c then ret [] else
  let? (subx, suby) := subsampling x c in
  let? tax := cdiv ax subx in
  let? tay := cdiv ay suby in
  let? tbx := cdiv bx subx in
  let? tby := cdiv by_ suby in
  if (tbx <=? tax) || (tby <=? tay) then ret [] else
  let? i := tile_component x t c in
  let top := if NL i <=? r_star then 0 else NL i - r_star in
  let? l := mapM (keys_of_resolution x t c i tax tay tbx tby) (zseq (top + 1)) in
  ret (concat l).

(** The body of the tile loops, view_window.cpp:136-210. *)
Definition keys_of_tile (x : index) (cs : list Z) (r_star : Z)
  (Ax Ay Bx By trow tcol : Z) : ex (list key) :=
  let h := hdr x in
  let t := wrap32 (trow * num_tiles_x x + tcol) mod 65536 in
  let x0 := tile_lo (fst (h_torigin h)) (fst (h_tsize h)) (fst (h_origin h)) tcol in
  let y0 := tile_lo (snd (h_torigin h)) (snd (h_tsize h)) (snd (h_origin h)) trow in
  let x1 := tile_hi (fst (h_torigin h)) (fst (h_tsize h)) (fst (h_size h)) tcol in
  let y1 := tile_hi (snd (h_torigin h)) (snd (h_tsize h)) (snd (h_size h)) trow in
  let ax := Z.max Ax x0 in
  let ay := Z.max Ay y0 in
  let bx := Z.min Bx x1 in
  let by_ := Z.min By y1 in
  if (bx <=? ax) || (by_ <=? ay) then ret [] else
  let? l := mapM (keys_of_component x r_star t ax ay bx by_) cs in
  ret (concat l).

(** One axis of steps 2 and 4, view_window.cpp:106-118 and 129-132. *)
Definition region_lo (o scale origin size : Z) : Z :=
  Z.min (wrap32 (wrap32 (o * scale) + origin)) size.
Definition region_hi (whole : bool) (o s scale origin size : Z) : Z :=
  Z.min (if whole then size
         else wrap32 (wrap32 (wrap32 (o + s) * scale) + origin)) size.
Definition tile_first (A torigin tsize : Z) : ex Z :=
  udiv (sub_sat A torigin) tsize.
Definition tile_last (B torigin tsize n : Z) : ex Z :=
  let? q := cdiv (wrap32 (B - torigin)) tsize in ret (Z.min n q).

(** [resolve_view_window], view_window.cpp:94-213. *)
Definition resolve_view_window (x : index) (w : window) : ex (list key) :=
  if (num_components x =? 0) || (num_tiles x =? 0) then ret [] else
  let h := hdr x in
  let? r_star := pick_discard_level x w in
  let? scale := shl1 r_star in
  let whole := (sx w =? 0) && (sy w =? 0) in
  let Ax := region_lo (ox w) scale (fst (h_origin h)) (fst (h_size h)) in
  let Ay := region_lo (oy w) scale (snd (h_origin h)) (snd (h_size h)) in
  let Bx := region_hi whole (ox w) (sx w) scale (fst (h_origin h)) (fst (h_size h)) in
  let By := region_hi whole (oy w) (sy w) scale (snd (h_origin h)) (snd (h_size h)) in
  if (Bx <=? Ax) || (By <=? Ay) then ret [] else
  let cs := match comps w with [] => zseq (num_components x) | l => l end in
  let? tcol0 := tile_first Ax (fst (h_torigin h)) (fst (h_tsize h)) in
  let? trow0 := tile_first Ay (snd (h_torigin h)) (snd (h_tsize h)) in
  let? tcol1 := tile_last Bx (fst (h_torigin h)) (fst (h_tsize h)) (num_tiles_x x) in
  let? trow1 := tile_last By (snd (h_torigin h)) (snd (h_tsize h)) (num_tiles_y x) in
  let? l := mapM (fun trow =>
              let? row_ := mapM (keys_of_tile x cs r_star Ax Ay Bx By trow)
                             (range tcol0 tcol1) in
              ret (concat row_))
              (range trow0 trow1) in
  ret (concat l).
