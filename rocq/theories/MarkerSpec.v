(** What coding settings and a header that carries them are, stated with the
    reader's queries only. *)
From Verif Require Import Base MarkerModel.

Definition in_byte (v : Z) := 0 <= v < 256.
Definition in_word (v : Z) := 0 <= v < 65536.
Definition in_dword (v : Z) := 0 <= v < 4294967296.

(** Image and tile sizes that fit their fields; sampling factors are not 0. *)
Record sizes_ok (x : siz) : Prop := {
  so_fields : in_word (Rsiz x) /\ in_dword (Xsiz x) /\ in_dword (Ysiz x) /\ in_dword (XOsiz x) /\ in_dword (YOsiz x)
              /\ in_dword (XTsiz x) /\ in_dword (YTsiz x) /\ in_dword (XTOsiz x) /\ in_dword (YTOsiz x);
  so_count : 1 <= Csiz x <= 16384 /\ zlen (Comps x) = Csiz x;
  so_comps : Forall (fun c : Z * Z * Z => in_byte (fst (fst c)) /\ 1 <= snd (fst c) < 256 /\ 1 <= snd c < 256) (Comps x) }.

(** Coding settings that fit their fields. *)
Record coding_ok (P : cod_params) : Prop := {
  ok_levels : 0 <= p_levels P <= 32;
  ok_order : in_byte (p_order P);
  ok_layers : in_word (p_layers P);
  ok_color : in_byte (p_color P);
  ok_block : 0 <= blkwidth P <= 8 /\ 0 <= blkheight P <= 8 /\ blkwidth P + blkheight P <= 8;
  ok_style : in_byte (p_style P);
  ok_transf : in_byte (p_transf P);
  ok_precincts : zlen (PPx P) = zlen (PPy P) /\ Forall (fun v => 0 <= v <= 15) (PPx P) /\ Forall (fun v => 0 <= v <= 15) (PPy P) }.

(** The step words: one for each subband, or one for all of them. *)
Definition reversible (P : cod_params) : bool := p_transf P =? 1.
Definition steps_ok (P : cod_params) (derived : bool) (steps : list Z) : Prop :=
  zlen steps = (if negb (reversible P) && derived then 1 else 3 * p_levels P + 1)
  /\ Forall (if reversible P then in_byte else in_word) steps.

(** The precinct exponent given for resolution [r]: entries are for the full
    resolution first, and the last one stands for all the lower ones. *)
Definition precinct_exponent (P : cod_params) (l : list Z) (r : Z) : Z := znth 0 l (Z.min (p_levels P - r) (zlen l - 1)).

(** The style number of a quantisation. *)
Definition style_of (P : cod_params) (derived : bool) : Z := if reversible P then 0 else if derived then 1 else 2.

(** The tile size: a size of 0 asks for one tile of the image's size. *)
Definition tile_size (x : siz) : Z * Z :=
  if (XTsiz x =? 0) || (YTsiz x =? 0) then (Xsiz x - XOsiz x, Ysiz x - YOsiz x) else (XTsiz x, YTsiz x).
Definition columns (x : siz) : Z := (Xsiz x - XTOsiz x + fst (tile_size x) - 1) / fst (tile_size x).
Definition rows (x : siz) : Z := (Ysiz x - YTOsiz x + snd (tile_size x) - 1) / snd (tile_size x).
(** Tile sizes whose area and whose sums with the image size fit 32 bits. *)
Definition tiles_fit (x : siz) : Prop :=
  XTsiz x * YTsiz x < 4294967296 /\ Xsiz x + fst (tile_size x) < 4294967296 /\ Ysiz x + snd (tile_size x) < 4294967296.
(** A non-empty image that meets the first tile. *)
Definition image_ok (x : siz) : Prop :=
  XTOsiz x <= XOsiz x < Xsiz x /\ YTOsiz x <= YOsiz x < Ysiz x
  /\ XOsiz x < XTOsiz x + fst (tile_size x) /\ YOsiz x < YTOsiz x + snd (tile_size x).

(** The sizes as asked for. *)
Definition finds_sizes (x0 : siz) (h : hdr) : Prop :=
  exists x, h_siz h = Some x /\ Xsiz x = Xsiz x0 /\ Ysiz x = Ysiz x0 /\ XOsiz x = XOsiz x0 /\ YOsiz x = YOsiz x0
  /\ XTOsiz x = XTOsiz x0 /\ YTOsiz x = YTOsiz x0 /\ (XTsiz x, YTsiz x) = tile_size x0
  /\ Csiz x = Csiz x0 /\ Comps x = Comps x0 /\ Rsiz x = Z.lor (Rsiz x0) 16384.

(** Sampling factors of component [i], and whether the first three share them. *)
Definition sampling (x : siz) (i : Z) : Z * Z := let '(_, xr, yr) := znth (0, 0, 0) (Comps x) i in (xr, yr).
Definition same_sampling (x : siz) : Prop := sampling x 0 = sampling x 1 /\ sampling x 1 = sampling x 2.
(** The colour transform asked for is used when it applies. *)
Definition finds_color (x0 : siz) (P : cod_params) (v : Z) : Prop :=
  (p_color P <> 1 -> v = p_color P) /\ (p_color P = 1 -> 3 <= Csiz x0 -> same_sampling x0 -> v = 1) /\ (p_color P = 1 -> Csiz x0 < 3 -> v = 0).

Definition finds_coding (x0 : siz) (P : cod_params) (h : hdr) : Prop :=
  exists c, h_cod h = Some c /\ is_use_SOP c = p_SOP P /\ is_use_EPH c = p_EPH P /\ is_maximum_precincts c = p_max P
  /\ get_progression_order c = p_order P /\ get_number_of_layers c = p_layers P /\ finds_color x0 P (use_color_trafo c)
  /\ get_dwt_levels c = Ret (p_levels P)
  /\ get_codeblock_size c = ret (2 ^ (blkwidth P + 2), 2 ^ (blkheight P + 2))
  /\ get_Cmodes c = Ret (p_style P) /\ get_transformation c = Ret (p_transf P)
  /\ forall r, 0 <= r <= p_levels P ->
       get_precinct_size c r = ret (if p_max P then (15, 15) else (precinct_exponent P (PPx P) r, precinct_exponent P (PPy P) r)).

(** The quantisation of component 0, and of component [i + 1]. *)
Definition finds_quant (P : cod_params) (Q : qcd_params) (qf : bool) (steps : list Z) (h : hdr) : Prop :=
  exists q, h_qcd h = Some q /\ SPqcd q = steps /\ get_number_of_guardbits (Sqcd q) = p_guard Q
  /\ quant_style (Sqcd q) = style_of P (p_derived Q && negb qf).
Definition finds_quants (C : Z) (P : cod_params) (Q : qcd_params) (csteps : list (list Z)) (h : hdr) : Prop :=
  zlen (h_qcc h) = C - 1 /\ forall i, 0 <= i < C - 1 ->
    let y := znth (Qcc 0 0 []) (h_qcc h) i in
    Cqcc y = i + 1 /\ SPqcc y = znth [] csteps i /\ get_number_of_guardbits (Sqcc y) = p_guard Q /\ quant_style (Sqcc y) = style_of P false.

(** That the codestream uses Part 15, with or without the irreversible
    transformation, is signalled. *)
Definition finds_capability (P : cod_params) (h : hdr) : Prop :=
  exists c, h_cap h = Some c /\ Z.testbit (Pcap c) 17 = true /\ Z.testbit (znth 0 (Ccap c) 14) 5 = (p_transf P =? 0).

(** Tile-part lengths, for several tiles. *)
Definition finds_lengths (tiles : Z) (lengths : list Z) (h : hdr) : Prop :=
  if 1 <? tiles then exists t, h_tlm h = [t] /\ Ptlm t = lengths /\ Ttlm t = zseq tiles else h_tlm h = [].
