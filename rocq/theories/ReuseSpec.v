(** What a tile's tree is made of, and when two frames call for the same one. *)
From Verif Require Import Base MarkerModel MarkerSpec ParamModel ParamSpec ReuseModel.

(** The geometry of the image and of each component, and the layers, coding
    style and quantisation of the components. *)
Definition geometry (x : siz) :=
  (Xsiz x, Ysiz x, (XOsiz x, YOsiz x), (XTsiz x, YTsiz x), (XTOsiz x, YTOsiz x), Csiz x, map (fun c : Z * Z * Z => (get_bitdepth c, snd (fst c), snd c)) (Comps x)).
(** The tree that a frame's own headers call for. *)
Definition wanted (f : frame) :=
  match last_of is_siz (f_main f) with
  | None => None
  | Some x =>
    match tile_init (f_main f) (f_tile f) (Csiz x) fresh with
    | Ret (Some p) => Some (geometry x, o_layers (t_order p), map (fun c => (c_style c, c_quant c)) (t_comps p))
    | _ => None
    end
  end.
(** A frame that can be decoded. *)
Record frame_legal (f : frame) : Prop := {
  fl_siz : exists x, last_of is_siz (f_main f) = Some x /\ sizes_ok x /\ 0 < XTsiz x /\ 0 < YTsiz x;
  fl_headers : headers_legal (f_main f) (f_tile f);
  fl_sg : forall c, last_of is_cod (f_main f) = Some c -> in_dword (SGcod c);
  fl_steps : forall q, last_of is_qcd (f_main f) = Some q ->
    in_byte (Sqcd q) /\ zlen (SPqcd q) <= 255 /\ Forall (if quant_style (Sqcd q) =? 0 then in_byte else in_word) (SPqcd q) }.
(** What two frames must share, for the fingerprint leaves it out: the
    segments for single components, those of the tile-part header, and the
    values of the QCD after the first one. *)
Definition alike (f g : frame) : Prop :=
  all_of is_coc (f_main f) = all_of is_coc (f_main g) /\ all_of is_qcc (f_main f) = all_of is_qcc (f_main g)
  /\ f_tile f = f_tile g
  /\ (forall q q', last_of is_qcd (f_main f) = Some q -> last_of is_qcd (f_main g) = Some q' -> tl (SPqcd q) = tl (SPqcd q')).
(** No two of the frames have different fingerprinted values and the same
    fingerprint. *)
Definition no_collision (fs : list frame) : Prop :=
  forall f g v w, In f fs -> In g fs -> words (f_main f) = ret v -> words (f_main g) = ret w -> hash v = hash w -> v = w.

(** An image of one tile. *)
Definition one_tile (f : frame) : Prop := exists x, last_of is_siz (f_main f) = Some x /\ get_number_of_tiles x = Ret (1, 1).
