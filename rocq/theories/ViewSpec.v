(** Vocabulary for the view-window properties, on exact integers. *)
From Verif Require Import Base PrecinctModel PrecinctSpec ViewModel.

(** Size along one axis of the image after discarding [d] levels
    (ISO/IEC 15444-9 C.4.1). *)
Definition reduced (size origin d : Z) : Z :=
  ceil_div size (2 ^ d) - ceil_div origin (2 ^ d).
Definition frame_w (h : header) (d : Z) : Z :=
  reduced (fst (h_size h)) (fst (h_origin h)) d.
Definition frame_h (h : header) (d : Z) : Z :=
  reduced (snd (h_size h)) (snd (h_origin h)) d.

(** [m] is the largest number of decomposition levels of any component. *)
Definition most_levels (h : header) (m : Z) : Prop :=
  (exists c, In c (h_comps h) /\ c_NL c = m) /\
  (forall c, In c (h_comps h) -> c_NL c <= m).

(** The frame size a client asks for; zero means "the full size". *)
Definition asked_w (h : header) (w : window) : Z :=
  if fx w =? 0 then fst (h_size h) else fx w.
Definition asked_h (h : header) (w : window) : Z :=
  if fy w =? 0 then snd (h_size h) else fy w.

(** A window whose fields are the 32-bit numbers of the request. *)
Definition u32 (v : Z) : Prop := 0 <= v < 2 ^ 32.
Record window_ok (w : window) : Prop := {
  wo_fx : u32 (fx w); wo_fy : u32 (fy w); wo_ox : u32 (ox w); wo_oy : u32 (oy w);
  wo_sx : u32 (sx w); wo_sy : u32 (sy w);
  wo_comps : Forall (fun c => 0 <= c < 65536) (comps w) }.

(** Order of precinct keys: tile, then component, then resolution, then
    position. *)
Definition key_lt (a b : key) : Prop :=
  k_t a < k_t b \/
  (k_t a = k_t b /\
   (k_c a < k_c b \/
    (k_c a = k_c b /\
     (k_r a < k_r b \/ (k_r a = k_r b /\ k_p a < k_p b))))).

(** Component [c] is among those the window selects (none listed = all). *)
Definition selects (w : window) (c : Z) : Prop := comps w = [] \/ In c (comps w).

(** The highest resolution kept when [d] levels are discarded. *)
Definition top_res (c : comp) (d : Z) : Z := Z.max 0 (c_NL c - d).

(** The region of the canvas a window asks for, along one axis, when [d]
    levels are discarded: from offset [o] for [s] reduced samples, or up to the
    end of the image when the request gives no region size. *)
Definition asked_span (whole : bool) (o s d origin size : Z) : Z * Z :=
  (o * 2 ^ d + origin, if whole then size else (o + s) * 2 ^ d + origin).
Definition no_region (w : window) : bool := (sx w =? 0) && (sy w =? 0).
Definition asked_x (h : header) (w : window) (d : Z) : Z * Z :=
  asked_span (no_region w) (ox w) (sx w) d (fst (h_origin h)) (fst (h_size h)).
Definition asked_y (h : header) (w : window) (d : Z) : Z * Z :=
  asked_span (no_region w) (oy w) (sy w) d (snd (h_origin h)) (snd (h_size h)).

(** Component sample [s] (subsampled by [sub]) lies in both intervals. *)
Definition sample_in (sub s : Z) (region tile : Z * Z) : Prop :=
  fst region <= s * sub < snd region /\ fst tile <= s * sub < snd tile.

(** Which positions wavelet synthesis reads.  Resolution [r] >= 1 is produced
    from its interleaved coefficients; sample [m] of it reads the coefficients
    at distance at most [L] (2 for the 5/3 filters, 4 for the 9/7 ones); the
    coefficients at even positions [n] are the samples [n/2] of resolution
    [r-1].  [wants L u k m]: producing sample [u] needs sample [m], [k]
    resolutions lower. *)
Definition reach (irreversible : bool) : Z := if irreversible then 4 else 2.
Inductive wants (L u : Z) : nat -> Z -> Prop :=
| wants_self : wants L u 0 u
| wants_lower k m n : wants L u k m -> Z.abs (2 * n - m) <= L -> wants L u (S k) n.

(** Coefficient position [n] of resolution [r] is read when sample [u] of
    resolution [top] is produced. *)
Definition needed (L u top r n : Z) : Prop :=
  if r =? 0 then wants L u (Z.to_nat top) n
  else exists m, wants L u (Z.to_nat (top - r)) m /\ Z.abs (n - m) <= L.

(** The key of the precinct in column [qx], row [qy]. *)
Definition at_cell (h : header) (c : comp) (tx ty i r qx qy : Z) : key :=
  {| k_t := ty * tiles_x h + tx; k_c := i; k_r := r;
     k_p := qy * cells (x_span h c tx r) (ppx c r) + qx |}.
