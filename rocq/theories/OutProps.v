(** C74: what the decoder answers about a parsed image.
    C75: a decoded image is complete and in place. *)
From Coq Require Import Sorted.
From Verif Require Import Base BaseLemmas PrecinctModel PrecinctSpec PrecinctProofs GeoModel MarkerModel OutModel OutSpec OutProofs.

Section Whole.
  Variable raw : Z -> Z -> Z -> Z -> Z.
  Variable fin : Z -> Z -> Z.
  Variable mix : Z -> Z -> Z -> Z -> Z.
  Variable s : siz.
  Variable r : Z.
  Variable tiles_in : Z -> tile_in.
  Hypothesis L : image_legal s.
  Hypothesis Hr : 0 <= r <= 31.
  Hypothesis Hfit : forall i, 0 <= i < cols_of_tiles s * rows_of_tiles s -> tile_fits s r (tiles_in i).
  Hypothesis Hdiv : forall c, 0 <= c < Csiz s -> (sub_y s 0 | sub_y s c).
  Hypothesis Hsmall : forall c, 0 <= c < Csiz s -> out_w s r c * out_h s r c < two32.
  Let nx := cols_of_tiles s.
  Let size c := wrap32 (fst (znth (0, 0) (map (fun c => (out_w s r c, out_h s r c)) (zseq (Csiz s))) c) *
                        snd (znth (0, 0) (map (fun c => (out_w s r c, out_h s r c)) (zseq (Csiz s))) c)).

  Lemma extent_nonneg c : 0 <= c < Csiz s -> 0 <= out_w s r c /\ 0 <= out_h s r c.
  Proof using L Hr. clear raw fin mix Hfit Hdiv Hsmall tiles_in.
    intros Hc. destruct L as [Lx Ly _ Hsub _]. destruct (Hsub c Hc). pose proof (pow_r r Hr).
    destruct (whole_ok _ _ _ _ Lx (sub_x s c) ltac:(lia)) as [A _]. destruct (whole_ok _ _ _ _ Ly (sub_y s c) ltac:(lia)) as [B _].
    split; apply ceil_nonneg; lia.
  Qed.
  Lemma size_exact c : 0 <= c < Csiz s -> size c = out_w s r c * out_h s r c.
  Proof using L Hr Hsmall. clear raw fin mix Hfit Hdiv tiles_in.
    intros Hc. unfold size. rewrite (znth_map 0 (0, 0)) by (rewrite zseq_len; lia). rewrite zseq_nth by lia. cbn [fst snd].
    pose proof (extent_nonneg c Hc). pose proof (Hsmall c Hc). apply wrap32_small. nia.
  Qed.

  (** Where sample (u, v) of component [c] belongs. *)
  Definition address (c u v : Z) : Z := (u - fst (columns s r c)) + (v - fst (lines s r c)) * out_w s r c.
  Definition in_tile (i c u v : Z) : Prop :=
    within (tile_columns s r c (i mod nx)) u /\ within (tile_lines s r c (i / nx)) v.
  Definition value (i c u v : Z) : Z :=
    let n := u - fst (tile_columns s r c (i mod nx)) in
    let k := v - fst (tile_lines s r c (i / nx)) in
    if t_mct (tiles_in i) && (3 <=? Csiz s) && (c <? 3) then mix c (raw i 0 k n) (raw i 1 k n) (raw i 2 k n) else fin c (raw i c k n).
  Definition Upto (j : Z) (m : mem) : Prop :=
    forall c, 0 <= c < Csiz s ->
      (forall i u v, 0 <= i < j -> in_tile i c u v -> m c (address c u v) = Some (value i c u v)) /\
      (forall a, (forall i u v, 0 <= i < j -> in_tile i c u v -> a <> address c u v) -> m c a = None).

  Lemma in_tile_range i c u v : 0 <= i < nx * rows_of_tiles s -> 0 <= c < Csiz s -> in_tile i c u v ->
    0 <= u - fst (columns s r c) < out_w s r c /\ 0 <= v - fst (lines s r c) < out_h s r c.
  Proof using L Hr. clear raw fin mix Hfit Hdiv Hsmall tiles_in.
    intros Hi Hc [A B]. destruct (place s L i Hi) as [Hp Hq]. destruct L as [Lx Ly _ Hsub _]. destruct (Hsub c Hc) as [Sx Sy].
    pose proof (part_numbers _ _ _ _ Lx r _ Hr Sx _ Hp) as X. pose proof (part_numbers _ _ _ _ Ly r _ Hr Sy _ Hq) as Y. cbv zeta in X, Y.
    unfold within in A, B. unfold tile_columns, tile_lines, columns, lines, out_w, out_h in *. unfold nx in *. lia.
  Qed.
  Lemma address_split i c u v : 0 <= i < nx * rows_of_tiles s -> 0 <= c < Csiz s -> in_tile i c u v ->
    address c u v / out_w s r c = v - fst (lines s r c) /\ address c u v mod out_w s r c = u - fst (columns s r c).
  Proof using L Hr. clear raw fin mix Hfit Hdiv Hsmall tiles_in.
    intros Hi Hc H. pose proof (in_tile_range i c u v Hi Hc H) as [A B]. unfold address. split.
    - symmetry. apply (Z.div_unique_pos _ _ _ (u - fst (columns s r c))); lia.
    - symmetry. apply (Z.mod_unique_pos _ _ (v - fst (lines s r c)) _); lia.
  Qed.

  Lemma tile_unique i i' c u v : 0 <= i < nx * rows_of_tiles s -> 0 <= i' < nx * rows_of_tiles s -> 0 <= c < Csiz s ->
    in_tile i c u v -> in_tile i' c u v -> i = i'.
  Proof using L Hr. clear raw fin mix Hfit Hdiv Hsmall tiles_in.
    intros Hi Hi' Hc [A B] [A' B']. pose proof (proj1 (grid_pos s L)) as G. fold nx in G. destruct (place s L i Hi) as [Hp Hq]. destruct (place s L i' Hi') as [Hp' Hq'].
    destruct L as [Lx Ly _ Hsub _]. destruct (Hsub c Hc) as [Sx Sy].
    pose proof (part_unique _ _ _ _ Lx r _ Hr Sx (i mod nx) (i' mod nx) u (proj1 Hp) (proj1 Hp') A A') as E1.
    pose proof (part_unique _ _ _ _ Ly r _ Hr Sy (i / nx) (i' / nx) v (proj1 Hq) (proj1 Hq') B B') as E2.
    rewrite (Z.div_mod i nx), (Z.div_mod i' nx) by lia. rewrite E1, E2. reflexivity.
  Qed.

  Lemma tile_step j m : 0 <= j < nx * rows_of_tiles s -> Upto j m ->
    exists m', decode_line_based raw fin mix size s r nx tiles_in m j = ret m' /\ Upto (j + 1) m'.
  Proof.
    intros Hj HU. destruct (Hfit j Hj) as (F1 & F2 & F3). destruct (place s L j Hj) as [Hp Hq]. fold nx in Hp, Hq.
    assert (NC : 1 <= Csiz s) by (destruct L as [_ _ [_ N] _ _]; exact N).
    unfold decode_line_based.
    assert (Ex : existsb (fun n => n <? r) (t_NL (tiles_in j)) = false).
    { destruct (existsb (fun n => n <? r) (t_NL (tiles_in j))) eqn:X; [|reflexivity]. apply existsb_exists in X. destruct X as (n & Hn & Hlt).
      rewrite Forall_forall in F2. pose proof (F2 n Hn). lia. }
    rewrite Ex.
    destruct (tile_region s nx j) as [[g|]| |] eqn:G;
      try (exfalso; unfold tile_region in G; destruct (nx =? 0) eqn:Z0; [unfold nx in *; destruct (grid_pos s L); lia|discriminate G]).
    cbn [bindx].
    assert (M1 : mapM (fun c => let* n := rd (t_NL (tiles_in j)) c in comp_info s r g n c) (zseq (Csiz s)) = ret (map (ci_spec s r j) (zseq (Csiz s)))).
    { apply mapM_ok. intros c Hc. apply zseq_In in Hc. rewrite rd_in by lia. cbn [bind].
      pose proof (comp_info_exact s r L Hr j c (znth 0 (t_NL (tiles_in j)) c) Hj Hc) as E. fold nx in E. rewrite G in E. apply E.
      rewrite Forall_forall in F2. apply F2. apply znth_In. lia. }
    rewrite M1. cbn [bindx ret]. set (cis := map (ci_spec s r j) (zseq (Csiz s))).
    assert (Lc : zlen cis = Csiz s) by (unfold cis; rewrite zlen_map, zseq_len; lia).
    assert (At : forall c, 0 <= c < Csiz s -> ci_at cis c = ci_spec s r j c).
    { intros c Hc. unfold cis. rewrite (znth_map 0) by (rewrite zseq_len; lia). rewrite zseq_nth by lia. reflexivity. }
    assert (Ok : forall c, 0 <= c < zlen cis -> ci_ok size cis c).
    { intros c Hc. rewrite Lc in Hc. destruct L as [Lx Ly _ Hsub _]. destruct (Hsub c Hc) as [Sx Sy]. destruct (Hsub 0 ltac:(lia)) as [Sx0 Sy0].
      pose proof (part_numbers _ _ _ _ Lx r _ Hr Sx _ Hp) as X. pose proof (part_numbers _ _ _ _ Ly r _ Hr Sy _ Hq) as Y. cbv zeta in X, Y.
      pose proof (extent_nonneg c Hc) as [E1 E2]. pose proof (Hsmall c Hc) as E3.
      pose proof (thinner _ _ _ _ r _ _ _ Ly ltac:(lia) (proj1 Sy0) (proj1 Sy) (Hdiv c Hc) Hq) as T. cbv zeta in T.
      change (2 ^ 31) with 2147483648 in *.
      constructor; rewrite ?(At c Hc), ?(At 0 ltac:(lia)), ?(size_exact c Hc); unfold ci_spec; cbn [csize_x csize_y x_offset y_offset out_stride]; fold nx;
        unfold tile_columns, tile_lines, columns, lines, out_w, out_h in *; rewrite ?two32_val in *; try lia.
      assert (0 <= ceil_div (snd (comp_span (sub_x s c) (XOsiz s, Xsiz s)) - fst (comp_span (sub_x s c) (XOsiz s, Xsiz s))) (2 ^ r)) by lia. nia. }
    assert (Mc : use_mct (t_mct (tiles_in j)) cis = true -> forall c, 1 <= c <= 2 ->
      csize_x (ci_at cis c) = csize_x (ci_at cis 0) /\ csize_y (ci_at cis c) = csize_y (ci_at cis 0)).
    { unfold use_mct. rewrite Lc. intros U c Hc. apply andb_true_iff in U. destruct U as [Ua Ub].
      assert (N3 : t_mct (tiles_in j) = true /\ 3 <= Csiz s) by (split; first [assumption | lia]).
      destruct (F3 (proj1 N3) (proj2 N3) c Hc) as [Q1 Q2]. rewrite !At by lia. unfold ci_spec, tile_columns, tile_lines. cbn [csize_x csize_y].
      rewrite Q1, Q2. split; reflexivity. }
    destruct (rows_exact raw fin mix size j (t_mct (tiles_in j)) cis m Ok Mc ltac:(lia)) as (m' & -> & Hm'). cbn [bind].
    exists m'. split; [reflexivity|]. intros c Hc. destruct (HU c Hc) as [U1 U2].
    assert (Hm'' : forall a, m' c a = if hit (ci_spec s r j c) (csize_y (ci_spec s r j c)) a
        then Some (tval raw fin mix j (t_mct (tiles_in j)) cis c (a / out_w s r c - y_offset (ci_spec s r j c)) (a mod out_w s r c - x_offset (ci_spec s r j c))) else m c a).
    { intros a. rewrite Hm'. unfold M. rewrite Lc. replace ((0 <=? c) && (c <? Csiz s)) with true by lia. cbn [andb].
      pose proof (ok_first _ _ _ (Ok c ltac:(lia))) as Of. rewrite !(At c Hc) in *. change (out_stride (ci_spec s r j c)) with (out_w s r c).
      assert (H : hit (ci_spec s r j c) (csize_y (ci_at cis 0)) a = hit (ci_spec s r j c) (csize_y (ci_spec s r j c)) a).
      { unfold hit. rewrite !Z.min_r by lia. reflexivity. }
      rewrite H. reflexivity. }
    assert (Hit : forall a, hit (ci_spec s r j c) (csize_y (ci_spec s r j c)) a = true <->
       in_tile j c (a mod out_w s r c + fst (columns s r c)) (a / out_w s r c + fst (lines s r c))).
    { intros a. unfold hit, in_tile, within. rewrite Z.min_id. change (out_stride (ci_spec s r j c)) with (out_w s r c). unfold ci_spec. cbn [csize_x csize_y x_offset y_offset]. fold nx.
      rewrite !andb_true_iff, !Z.leb_le, !Z.ltb_lt. lia. }
    split.
    - intros i u v Hi Ht. rewrite Hm''. destruct (Z.eq_dec i j) as [->|N].
      + destruct (address_split j c u v Hj Hc Ht) as [D R]. rewrite D, R.
        assert (Hh : hit (ci_spec s r j c) (csize_y (ci_spec s r j c)) (address c u v) = true).
        { apply Hit. rewrite D, R. replace (u - fst (columns s r c) + fst (columns s r c)) with u by lia. replace (v - fst (lines s r c) + fst (lines s r c)) with v by lia. assumption. }
        rewrite Hh. f_equal. unfold tval, value, use_mct. rewrite Lc. unfold ci_spec. cbn [x_offset y_offset]. fold nx.
        replace (v - fst (lines s r c) - (fst (tile_lines s r c (j / nx)) - fst (lines s r c))) with (v - fst (tile_lines s r c (j / nx))) by lia.
        replace (u - fst (columns s r c) - (fst (tile_columns s r c (j mod nx)) - fst (columns s r c))) with (u - fst (tile_columns s r c (j mod nx))) by lia.
        rewrite (andb_comm (3 <=? Csiz s)). reflexivity.
      + assert (Hi' : 0 <= i < nx * rows_of_tiles s) by lia. destruct (address_split i c u v Hi' Hc Ht) as [D R].
        destruct (hit (ci_spec s r j c) (csize_y (ci_spec s r j c)) (address c u v)) eqn:Hh.
        * apply Hit in Hh. rewrite D, R in Hh. replace (u - fst (columns s r c) + fst (columns s r c)) with u in Hh by lia. replace (v - fst (lines s r c) + fst (lines s r c)) with v in Hh by lia.
          exfalso. apply N. apply (tile_unique i j c u v); assumption.
        * apply U1; [lia|assumption].
    - intros a Ha. rewrite Hm''. destruct (hit (ci_spec s r j c) (csize_y (ci_spec s r j c)) a) eqn:Hh.
      + exfalso. apply Hit in Hh. apply (Ha j _ _ (conj (proj1 Hj) (Z.lt_succ_diag_r j)) Hh). unfold address.
        replace (a mod out_w s r c + fst (columns s r c) - fst (columns s r c)) with (a mod out_w s r c) by lia.
        replace (a / out_w s r c + fst (lines s r c) - fst (lines s r c)) with (a / out_w s r c) by lia.
        pose proof (in_tile_range j c _ _ Hj Hc Hh). rewrite Z.add_comm, Z.mul_comm. apply Z.div_mod. lia.
      + apply U2. intros i u v Hi Ht. apply (Ha i u v); [lia|assumption].
  Qed.

  Lemma whole_image maxr : r <= maxr -> exists m,
    invoke_line_based raw fin mix s r maxr tiles_in = ret (map (fun c => (out_w s r c, out_h s r c)) (zseq (Csiz s)), size, m) /\
    Upto (nx * rows_of_tiles s) m.
  Proof.
    intros Hmax. unfold invoke_line_based. replace (maxr <? r) with false by lia.
    pose proof (tiles_along_exact _ _ _ _ (il_x _ L)) as E1. pose proof (tiles_along_exact _ _ _ _ (il_y _ L)) as E2. rewrite E1, E2. rewrite !ret_bindx.
    fold (cols_of_tiles s) (rows_of_tiles s). fold nx. pose proof (grid_pos s L) as [G1 G2]. pose proof (il_tiles _ L) as G3. fold nx in G1, G3.
    rewrite wrap32_small by (rewrite two32_val; nia). replace (65535 <? nx * rows_of_tiles s) with false by lia.
    rewrite (mapM_ok (out_size s r) (fun c => (out_w s r c, out_h s r c)) (zseq (Csiz s))) by (intros c Hc; apply out_size_exact; [assumption|assumption|apply zseq_In; assumption]).
    rewrite ret_bindx. cbv zeta. fold size.
    destruct (foldx_inv (decode_line_based raw fin mix size s r nx tiles_in) Upto (nx * rows_of_tiles s) (fun _ _ => None)) as (m & E & U).
    - nia.
    - intros c Hc. split; [intros; lia|reflexivity].
    - intros j m Hj HU. apply tile_step; assumption.
    - rewrite E. rewrite ret_bindx. exists m. split; [reflexivity|assumption].
  Qed.
End Whole.

Section Read.
  Variable raw : Z -> Z -> Z -> Z -> Z.
  Variable fin : Z -> Z -> Z.
  Variable mix : Z -> Z -> Z -> Z -> Z.
  Variable s : siz.
  Variable r : Z.
  Variable tiles_in : Z -> tile_in.
  Hypothesis L : image_legal s.
  Hypothesis Hr : 0 <= r <= 31.
  Let nx := cols_of_tiles s.

  Lemma tile_number p q : 0 <= p < nx -> 0 <= q < rows_of_tiles s ->
    0 <= p + q * nx < nx * rows_of_tiles s /\ (p + q * nx) mod nx = p /\ (p + q * nx) / nx = q.
  Proof using. clear raw fin mix tiles_in r L Hr.
    intros Hp Hq. split; [nia|]. split; [rewrite Z.mod_add, Z.mod_small by lia; reflexivity|].
    rewrite Z.div_add, Z.div_small by lia. lia.
  Qed.
  Lemma tile_of c u v : 0 <= c < Csiz s -> within (columns s r c) u -> within (lines s r c) v ->
    exists i, 0 <= i < nx * rows_of_tiles s /\ in_tile s r i c u v.
  Proof using L Hr. clear raw fin mix tiles_in.
    intros Hc A B. destruct (il_sub _ L c Hc) as [Sx Sy].
    apply (part_found _ _ _ _ (il_x _ L) r _ Hr Sx) in A. apply (part_found _ _ _ _ (il_y _ L) r _ Hr Sy) in B.
    destruct A as (p & Hp & A). destruct B as (q & Hq & B). destruct (tile_number p q Hp Hq) as (N & Em & Ed).
    exists (p + q * nx). split; [exact N|]. unfold in_tile. fold nx. rewrite Em, Ed. split; assumption.
  Qed.
  Lemma in_image i c u v : 0 <= i < nx * rows_of_tiles s -> 0 <= c < Csiz s -> in_tile s r i c u v ->
    within (columns s r c) u /\ within (lines s r c) v.
  Proof using L Hr. clear raw fin mix tiles_in.
    intros Hi Hc [A B]. destruct (place s L i Hi) as [Hp Hq]. destruct (il_sub _ L c Hc) as [Sx Sy]. split.
    - apply (part_found _ _ _ _ (il_x _ L) r _ Hr Sx). exists (i mod nx). split; assumption.
    - apply (part_found _ _ _ _ (il_y _ L) r _ Hr Sy). exists (i / nx). split; assumption.
  Qed.
  Lemma value_decoded i c u v w : 0 <= i < nx * rows_of_tiles s -> 0 <= c < Csiz s -> in_tile s r i c u v ->
    (decoded raw fin mix s r tiles_in c u v w <-> w = value raw fin mix s r tiles_in i c u v).
  Proof using L Hr raw fin mix tiles_in.
    intros Hi Hc H. pose proof (place s L i Hi) as [Hp Hq]. pose proof (proj1 (grid_pos s L)) as G. fold nx in Hp, Hq, G. split.
    - intros (p & q & Hp' & Hq' & A & B & E). cbv zeta in E. fold nx in Hp', E. destruct (tile_number p q Hp' Hq') as (N & Em & Ed).
      assert (X : p + q * nx = i).
      { eapply tile_unique; try eassumption. unfold in_tile. fold nx. rewrite Em, Ed. split; assumption. }
      rewrite X in E, Em, Ed. unfold value. fold nx. rewrite Em, Ed. exact E.
    - intros ->. exists (i mod nx), (i / nx). destruct H as [A B]. split; [exact Hp|]. split; [exact Hq|]. split; [exact A|]. split; [exact B|].
      cbv zeta. fold nx. replace (i mod nx + i / nx * nx) with i by (pose proof (Z.div_mod i nx ltac:(lia)); lia). reflexivity.
  Qed.
End Read.

(** ** C75 *)

(** Decoding a whole image gives, for each component, an array of [W * H]
    elements in which every sample of that component of the image, at the
    resolution asked for, stands at its place (first row first, [W] elements
    per row) and has the value its tile decodes to, and nothing else is
    written.  Missing, and refuted below: the components must not be finer
    vertically than the first one, an array must be smaller than 2^32 elements,
    and positions are at most 2^31. *)
Theorem C75_every_sample_delivered_partial : forall raw fin mix s r maxr tiles,
  image_legal s -> 0 <= r <= 31 -> r <= maxr ->
  (forall i, 0 <= i < cols_of_tiles s * rows_of_tiles s -> tile_fits s r (tiles i)) ->
  (forall c, 0 <= c < Csiz s -> (sub_y s 0 | sub_y s c)) ->
  let extent (ab : Z * Z) := ceil_div (snd ab - fst ab) (2 ^ r) in
  let W c := extent (comp_span (sub_x s c) (XOsiz s, Xsiz s)) in
  let H c := extent (comp_span (sub_y s c) (YOsiz s, Ysiz s)) in
  (forall c, 0 <= c < Csiz s -> W c * H c < 2 ^ 32) ->
  exists n m, invoke_line_based raw fin mix s r maxr tiles = ret (map (fun c => (W c, H c)) (zseq (Csiz s)), n, m) /\
    forall c, 0 <= c < Csiz s ->
      let at_ u v := (u - fst (columns s r c)) + (v - fst (lines s r c)) * W c in
      n c = W c * H c /\
      (forall u v, within (columns s r c) u -> within (lines s r c) v ->
        0 <= at_ u v < n c /\
        exists w, m c (at_ u v) = Some w /\ forall w', decoded raw fin mix s r tiles c u v w' <-> w' = w) /\
      (forall a, (forall u v, within (columns s r c) u -> within (lines s r c) v -> a <> at_ u v) -> m c a = None).
Proof.
  intros raw fin mix s r maxr tiles L Hr Hmax Hfit Hdiv extent W H Hsmall.
  destruct (whole_image raw fin mix s r tiles L Hr Hfit Hdiv Hsmall maxr Hmax) as (m & E & U).
  eexists _, m. split; [exact E|]. intros c Hc at_. pose proof (size_exact s r L Hr Hsmall c Hc) as Sz. cbv beta. rewrite Sz.
  split; [reflexivity|]. destruct (U c Hc) as [U1 U2]. split.
  - intros u v Hu Hv. destruct (tile_of s r L Hr c u v Hc Hu Hv) as (i & Hi & Ht).
    pose proof (in_tile_range s r L Hr i c u v Hi Hc Ht) as [R1 R2]. split; [unfold at_; change (W c) with (out_w s r c); nia|].
    exists (value raw fin mix s r tiles i c u v). split; [apply (U1 i u v Hi Ht)|].
    intros w'. apply value_decoded; assumption.
  - intros a Ha. apply U2. intros i u v Hi Ht. destruct (in_image s r L Hr i c u v Hi Hc Ht) as [A B]. apply (Ha u v A B).
Qed.
Print Assumptions C75_every_sample_delivered_partial.

(** When the component's origin is a multiple of 2^r (always, at full
    resolution) the array holds nothing indeterminate. *)
Lemma ceil_shift a b d : 0 < d -> (d | a) -> ceil_div (b - a) d = ceil_div b d - ceil_div a d.
Proof.
  intros Hd [k ->]. unfold ceil_div. replace (- (b - k * d)) with (- b + k * d) by lia. rewrite Z.div_add by lia.
  replace (- (k * d)) with ((- k) * d) by lia. rewrite Z.div_mul by lia. lia.
Qed.
Theorem C75_nothing_indeterminate_partial : forall raw fin mix s r maxr tiles,
  image_legal s -> 0 <= r <= 31 -> r <= maxr ->
  (forall i, 0 <= i < cols_of_tiles s * rows_of_tiles s -> tile_fits s r (tiles i)) ->
  (forall c, 0 <= c < Csiz s -> (sub_y s 0 | sub_y s c)) ->
  (forall c, 0 <= c < Csiz s -> (2 ^ r | ceil_div (XOsiz s) (sub_x s c)) /\ (2 ^ r | ceil_div (YOsiz s) (sub_y s c))) ->
  let W c := snd (columns s r c) - fst (columns s r c) in
  let H c := snd (lines s r c) - fst (lines s r c) in
  (forall c, 0 <= c < Csiz s -> W c * H c < 2 ^ 32) ->
  exists n m, invoke_line_based raw fin mix s r maxr tiles = ret (map (fun c => (W c, H c)) (zseq (Csiz s)), n, m) /\
    forall c, 0 <= c < Csiz s -> n c = W c * H c /\
      forall x y, 0 <= x < W c -> 0 <= y < H c ->
        exists w, m c (x + y * W c) = Some w /\ decoded raw fin mix s r tiles c (x + fst (columns s r c)) (y + fst (lines s r c)) w.
Proof.
  intros raw fin mix s r maxr tiles L Hr Hmax Hfit Hdiv Ho W H Hsmall. pose proof (pow_r r Hr) as Pr.
  assert (EW : forall c, 0 <= c < Csiz s -> out_w s r c = W c).
  { intros c Hc. unfold out_w, W, columns, res_span, comp_span. cbn [fst snd]. apply ceil_shift; [lia|apply (Ho c Hc)]. }
  assert (EH : forall c, 0 <= c < Csiz s -> out_h s r c = H c).
  { intros c Hc. unfold out_h, H, lines, res_span, comp_span. cbn [fst snd]. apply ceil_shift; [lia|apply (Ho c Hc)]. }
  assert (Hs : forall c, 0 <= c < Csiz s -> out_w s r c * out_h s r c < 2 ^ 32) by (intros c Hc; rewrite (EW c Hc), (EH c Hc); apply (Hsmall c Hc)).
  destruct (C75_every_sample_delivered_partial raw fin mix s r maxr tiles L Hr Hmax Hfit Hdiv Hs) as (n & m & E & A).
  exists n, m. split.
  - rewrite E. do 3 f_equal. apply map_ext_in. intros c Hc. apply zseq_In in Hc. f_equal; [apply (EW c Hc)|apply (EH c Hc)].
  - intros c Hc. destruct (A c Hc) as (N & B & _). change (ceil_div _ _) with (out_w s r c) in N at 1. change (n c = out_w s r c * out_h s r c) in N.
    rewrite (EW c Hc), (EH c Hc) in N. split; [exact N|]. intros x y Hx Hy.
    destruct (B (x + fst (columns s r c)) (y + fst (lines s r c))) as (_ & w & Ew & Dw); [unfold within, W in *; lia|unfold within, H in *; lia|].
    exists w. split; [|apply Dw; reflexivity]. change (ceil_div _ _) with (out_w s r c) in Ew. rewrite (EW c Hc) in Ew. rewrite <- Ew. f_equal. lia.
Qed.
Print Assumptions C75_nothing_indeterminate_partial.

(** A 2x2-tile image of three components, the last two subsampled by two,
    at half resolution. *)
Definition c75_siz : siz := Siz 0 21 13 0 0 12 8 0 0 3 [(7, 1, 1); (7, 2, 2); (7, 2, 2)].
Definition c75_raw (t c k n : Z) : Z := 1000 * t + 100 * c + 10 * k + n.
Example C75_case :
  image_legal c75_siz /\ cols_of_tiles c75_siz * rows_of_tiles c75_siz = 4 /\
  tile_fits c75_siz 1 {| t_mct := false; t_NL := [5; 5; 5] |} /\
  (forall c, 0 <= c < 3 -> (sub_y c75_siz 0 | sub_y c75_siz c)) /\
  match invoke_line_based c75_raw (fun c v => v + 7) (fun _ a _ _ => a) c75_siz 1 5 (fun _ => {| t_mct := false; t_NL := [5; 5; 5] |}) with
  | Ret (Some (l, n, m)) => l = [(11, 7); (6, 4); (6, 4)] /\ n 0 = 77 /\ n 2 = 24 /\
      m 0 0 = Some 7 /\ m 0 (6 + 4 * 11) = Some 3007 /\ m 0 (7 + 5 * 11) = Some 3018 /\ m 2 (5 + 3 * 6) = Some (3000 + 200 + 10 + 2 + 7)
  | _ => False
  end.
Proof.
  split.
  { constructor; cbn [Xsiz Ysiz XOsiz YOsiz XTsiz YTsiz XTOsiz YTOsiz Csiz Comps c75_siz].
    - constructor; lia.
    - constructor; lia.
    - split; [reflexivity|lia].
    - intros c Hc. assert (c = 0 \/ c = 1 \/ c = 2) as [->|[->| ->]] by lia; vm_compute; split; split; discriminate.
    - vm_compute. discriminate. }
  split; [reflexivity|]. split.
  { split; [reflexivity|]. split; [repeat (apply Forall_cons; [lia|]); apply Forall_nil|discriminate]. }
  split; [intros c Hc; assert (c = 0 \/ c = 1 \/ c = 2) as [->|[->| ->]] by lia; [exists 1|exists 2|exists 2]; reflexivity|].
  vm_compute. repeat split.
Qed.

(** A legal image whose first component is the more subsampled one: the lower
    half of the other component is never stored. *)
Theorem C75_finer_component_refuted : exists s tiles,
  image_legal s /\ (forall i, tile_fits s 0 (tiles i)) /\ lines s 0 1 = (0, 4) /\ columns s 0 1 = (0, 4) /\
  match invoke_line_based (fun _ _ _ _ => 0) (fun _ v => v) (fun _ a _ _ => a) s 0 5 tiles with
  | Ret (Some (l, n, m)) => znth (0, 0) l 1 = (4, 4) /\ n 1 = 16 /\ (forall a, 8 <= a < 16 -> m 1 a = None)
  | _ => False
  end.
Proof.
  exists (Siz 0 4 4 0 0 4 4 0 0 2 [(7, 1, 2); (7, 1, 1)]), (fun _ => {| t_mct := false; t_NL := [5; 5] |}).
  split.
  { constructor; cbn [Xsiz Ysiz XOsiz YOsiz XTsiz YTsiz XTOsiz YTOsiz Csiz Comps].
    - constructor; lia.
    - constructor; lia.
    - split; [reflexivity|lia].
    - intros c Hc. assert (c = 0 \/ c = 1) as [->| ->] by lia; vm_compute; split; split; discriminate.
    - vm_compute. discriminate. }
  split; [intros _; split; [reflexivity|]; split; [repeat (apply Forall_cons; [lia|]); apply Forall_nil|discriminate]|].
  split; [reflexivity|]. split; [reflexivity|].
  assert (F : forallb (fun a => match invoke_line_based (fun _ _ _ _ => 0) (fun _ v => v) (fun _ a _ _ => a) (Siz 0 4 4 0 0 4 4 0 0 2 [(7, 1, 2); (7, 1, 1)]) 0 5
       (fun _ => {| t_mct := false; t_NL := [5; 5] |}) with Ret (Some (l, n, m)) => match m 1 (8 + a) with None => true | _ => false end && (fst (znth (0,0) l 1) =? 4) && (snd (znth (0,0) l 1) =? 4) && (n 1 =? 16) | _ => false end) (zseq 8) = true)
    by (vm_compute; reflexivity).
  destruct (invoke_line_based _ _ _ _ _ _ _) as [[[[l n] m]|]| |]; try discriminate F. rewrite forallb_forall in F. split; [|split].
  - pose proof (F 0 ltac:(apply zseq_In; lia)) as X. rewrite !andb_true_iff in X. destruct (znth (0, 0) l 1) as [w h]. cbn [fst snd] in X. f_equal; lia.
  - pose proof (F 0 ltac:(apply zseq_In; lia)) as X. rewrite !andb_true_iff in X. lia.
  - intros a Ha. pose proof (F (a - 8) ltac:(apply zseq_In; lia)) as X. replace (8 + (a - 8)) with a in X by lia. destruct (m 1 a); [discriminate X|reflexivity].
Qed.
Print Assumptions C75_finer_component_refuted.

(** A legal image whose left edge is odd, at half resolution: rows are one
    element longer than the image's columns, and that element is never
    stored. *)
Theorem C75_extra_column_refuted : exists s tiles,
  image_legal s /\ (forall i, tile_fits s 1 (tiles i)) /\ columns s 1 0 = (1, 2) /\
  match invoke_line_based (fun _ _ _ _ => 0) (fun _ v => v) (fun _ a _ _ => a) s 1 5 tiles with
  | Ret (Some (l, n, m)) => l = [(2, 2)] /\ n 0 = 4 /\ m 0 0 = Some 0 /\ m 0 1 = None /\ m 0 2 = Some 0 /\ m 0 3 = None
  | _ => False
  end.
Proof.
  exists (Siz 0 4 4 1 0 4 4 0 0 1 [(7, 1, 1)]), (fun _ => {| t_mct := false; t_NL := [5] |}).
  split.
  { constructor; cbn [Xsiz Ysiz XOsiz YOsiz XTsiz YTsiz XTOsiz YTOsiz Csiz Comps].
    - constructor; lia.
    - constructor; lia.
    - split; [reflexivity|lia].
    - intros c Hc. assert (c = 0) as -> by lia; vm_compute; split; split; discriminate.
    - vm_compute. discriminate. }
  split; [intros _; split; [reflexivity|]; split; [repeat (apply Forall_cons; [lia|]); apply Forall_nil|discriminate]|].
  split; [reflexivity|]. vm_compute. repeat split.
Qed.
Print Assumptions C75_extra_column_refuted.

(** A legal image of 2^32 samples in 16384 tiles: the array is given no
    element at all, and the first sample is stored outside it. *)
Theorem C75_large_image_refuted : exists s tiles,
  image_legal s /\ (forall i, tile_fits s 0 (tiles i)) /\
  invoke_line_based (fun _ _ _ _ => 0) (fun _ v => v) (fun _ a _ _ => a) s 0 5 tiles = UB.
Proof.
  exists (Siz 0 65536 65536 0 0 512 512 0 0 1 [(7, 1, 1)]), (fun _ => {| t_mct := false; t_NL := [5] |}).
  split.
  { constructor; cbn [Xsiz Ysiz XOsiz YOsiz XTsiz YTsiz XTOsiz YTOsiz Csiz Comps].
    - constructor; lia.
    - constructor; lia.
    - split; [reflexivity|lia].
    - intros c Hc. assert (c = 0) as -> by lia; vm_compute; split; split; discriminate.
    - vm_compute. discriminate. }
  split; [intros _; split; [reflexivity|]; split; [repeat (apply Forall_cons; [lia|]); apply Forall_nil|discriminate]|].
  vm_compute. reflexivity.
Qed.
Print Assumptions C75_large_image_refuted.

(** A file that asks for the colour transform although the second and third
    component have half the size of the first: rows that do not exist are
    read. *)
Theorem C75_colour_transform_refuted : exists s tiles, image_legal s /\
  (forall i, zlen (t_NL (tiles i)) = Csiz s /\ Forall (fun n => 0 <= n <= 32) (t_NL (tiles i))) /\
  (forall c, 0 <= c < Csiz s -> (sub_y s 0 | sub_y s c)) /\
  invoke_line_based (fun _ _ _ _ => 0) (fun _ v => v) (fun _ a _ _ => a) s 0 5 tiles = UB.
Proof.
  exists (Siz 0 4 4 0 0 4 4 0 0 3 [(7, 1, 1); (7, 1, 2); (7, 1, 2)]), (fun _ => {| t_mct := true; t_NL := [5; 5; 5] |}).
  split.
  { constructor; cbn [Xsiz Ysiz XOsiz YOsiz XTsiz YTsiz XTOsiz YTOsiz Csiz Comps].
    - constructor; lia.
    - constructor; lia.
    - split; [reflexivity|lia].
    - intros c Hc. assert (c = 0 \/ c = 1 \/ c = 2) as [->|[->| ->]] by lia; vm_compute; split; split; discriminate.
    - vm_compute. discriminate. }
  split; [intros _; split; [reflexivity|]; repeat (apply Forall_cons; [lia|]); apply Forall_nil|].
  split; [intros c Hc; cbn [Csiz] in Hc; assert (c = 0 \/ c = 1 \/ c = 2) as [->|[->| ->]] by lia; [exists 1|exists 2|exists 2]; reflexivity|].
  vm_compute. reflexivity.
Qed.
Print Assumptions C75_colour_transform_refuted.

(** ** C74 *)

(** The size reported for a component is the one delivered, when the image's
    origin is a multiple of the component's sampling factors. *)
Theorem C74_component_size_partial : forall s c, image_legal s -> 0 <= c < Csiz s ->
  (sub_x s c | XOsiz s) -> (sub_y s c | YOsiz s) ->
  get_component_width s c = ret (snd (columns s 0 c) - fst (columns s 0 c)) /\
  get_component_height s c = ret (snd (lines s 0 c) - fst (lines s 0 c)).
Proof.
  intros s c L Hc Dx Dy. destruct (siz_at_exact s L c Hc) as (g & E). unfold get_component_width, get_component_height. rewrite E. cbn [bind].
  destruct (il_sub _ L c Hc) as [Sx Sy].
  assert (A : forall size origin tsize torigin sub, axis_legal size origin tsize torigin -> 1 <= sub <= 255 -> (sub | origin) ->
     cdiv (sub32 size origin) sub = ret (snd (res_span 0 (comp_span sub (origin, size))) - fst (res_span 0 (comp_span sub (origin, size))))).
  { intros size origin tsize torigin sub La Hs D. destruct La as [L1 L2 L3 L4]. change (2 ^ 31) with 2147483648 in *. unfold sub32.
    rewrite wrap32_small by (rewrite two32_val; lia). unfold res_span, comp_span. cbn [fst snd]. change (2 ^ 0) with 1.
    rewrite cdiv_exact by (rewrite ?two32_val; lia). change (- (- (size - origin) / sub)) with (ceil_div (size - origin) sub). rewrite ceil_shift by (lia || assumption). unfold ceil_div. rewrite !Z.div_1_r. do 2 f_equal; lia. }
  split; eapply A; [apply (il_x _ L)|assumption|assumption|apply (il_y _ L)|assumption|assumption].
Qed.
Print Assumptions C74_component_size_partial.
Example C74_size_case : get_component_width c75_siz 1 = ret 11 /\ get_component_height c75_siz 2 = ret 7 /\
  snd (columns c75_siz 0 1) - fst (columns c75_siz 0 1) = 11.
Proof. repeat split. Qed.

(** Otherwise it may not be: two columns reported, one delivered. *)
Theorem C74_component_size_refuted : exists s, image_legal s /\ get_component_width s 0 = ret 2 /\ columns s 0 0 = (1, 2).
Proof.
  exists (Siz 0 4 4 1 0 4 4 0 0 1 [(7, 2, 1)]). split; [|split; reflexivity].
  constructor; cbn [Xsiz Ysiz XOsiz YOsiz XTsiz YTsiz XTOsiz YTOsiz Csiz Comps].
  - constructor; lia.
  - constructor; lia.
  - split; [reflexivity|lia].
  - intros c Hc. assert (c = 0) as -> by lia; vm_compute; split; split; discriminate.
  - vm_compute. discriminate.
Qed.
Print Assumptions C74_component_size_refuted.

Definition coc_n (k : coc) : Z := znth 0 (SPcoc k) 0 &b 31.
Lemma min_loop_exact : forall cs k l pre n,
  cs = map (fun i => k + i) (zseq (zlen cs)) ->
  StronglySorted Z.lt (map Ccoc l) -> Forall (fun x => k <= Ccoc x < k + zlen cs) l ->
  Forall (fun x => SPcoc x <> [] /\ is_dfs_defined (znth 0 (SPcoc x) 0) = false) l ->
  (cs <> [] -> exists x, In x l /\ Ccoc x = k + zlen cs - 1) ->
  min_loop (pre ++ l) cs (zlen pre) n = Ret (fold_left (fun n x => Z.min n (coc_n x)) l n).
Proof.
  induction cs as [|c cs IH]; intros k l pre n Ec Hs Hr Hd Hl.
  - destruct l as [|x l]; [reflexivity|]. inversion Hr; subst. change (zlen (@nil Z)) with 0 in *. lia.
  - rewrite zlen_cons in *. pose proof (zlen_nonneg cs) as Nn.
    assert (E0 : c = k /\ cs = map (fun i => (k + 1) + i) (zseq (zlen cs))).
    { rewrite zseq_cons in Ec by lia. replace (1 + zlen cs - 1) with (zlen cs) in Ec by lia. cbn [map] in Ec.
      pose proof (f_equal (hd 0) Ec) as E1. pose proof (f_equal (@tl Z) Ec) as E2. cbn [hd tl] in E1, E2. split; [lia|].
      rewrite E2 at 1. rewrite map_map. apply map_ext. intros; lia. }
    destruct E0 as [-> E2]. destruct (Hl ltac:(discriminate)) as (last & Hin & Elast).
    destruct l as [|x l]; [destruct Hin|]. cbn [min_loop].
    pose proof (zlen_nonneg pre) as Np. pose proof (zlen_nonneg l) as Nl.
    replace (negb ((0 <=? zlen pre) && (zlen pre <? zlen (pre ++ x :: l)))) with false by (rewrite zlen_app, zlen_cons; lia).
    replace (znth (Coc 0 0 []) (pre ++ x :: l) (zlen pre)) with x by (rewrite znth_app_r by lia; rewrite Z.sub_diag; reflexivity).
    inversion Hr as [|? ? Hx Hr']; subst. inversion Hd as [|? ? [Hd1 Hd2] Hd']; subst. cbn [map] in Hs. apply StronglySorted_inv in Hs. destruct Hs as [Hs Hlt].
    rewrite Forall_forall in Hlt, Hr'.
    destruct (Z.eqb_spec (Ccoc x) k) as [Ek|Nk].
    + destruct (SPcoc x) as [|b sp] eqn:Esp; [contradiction Hd1; reflexivity|]. rewrite rd_in by (rewrite zlen_cons; pose proof (zlen_nonneg sp); lia). cbn [bind].
      rewrite Hd2. replace (pre ++ x :: l) with ((pre ++ [x]) ++ l) by (rewrite <- app_assoc; reflexivity).
      replace (zlen pre + 1) with (zlen (pre ++ [x])) by (rewrite zlen_app; change (zlen [x]) with 1; lia).
      cbn [fold_left]. replace (if coc_levels (znth 0 (b :: sp) 0) <? n then coc_levels (znth 0 (b :: sp) 0) else n) with (Z.min n (coc_n x))
        by (unfold coc_n, coc_levels; rewrite Esp; destruct (Z.ltb_spec (znth 0 (b :: sp) 0 &b 31) n); lia).
      apply (IH (k + 1)); [exact E2|exact Hs| |exact Hd'|].
      * apply Forall_forall. intros y Hy. pose proof (Hr' y Hy). pose proof (Hlt (Ccoc y) (in_map _ _ _ Hy)). lia.
      * intros Ncs. destruct cs as [|c' cs]; [contradiction Ncs; reflexivity|]. rewrite zlen_cons in *. pose proof (zlen_nonneg cs).
        exists last. destruct Hin as [->|Hin]; [exfalso; lia|]. split; [exact Hin|lia].
    + apply (IH (k + 1)); [exact E2| | | |].
      * cbn [map]. constructor; [exact Hs|]. apply Forall_forall. exact Hlt.
      * apply Forall_forall. intros y [<-|Hy]; [lia|]. pose proof (Hr' y Hy). pose proof (Hlt (Ccoc y) (in_map _ _ _ Hy)). lia.
      * constructor; [split; assumption|exact Hd'].
      * intros _. exists last. split; [exact Hin|lia].
Qed.

(** The number of levels reported is the least any component has, and is what
    [get_max_safe_reduce_NL] allows to be dropped: with no DFS segment in use,
    the COC segments in order of their component, the last component having
    one (or none at all), and some component without. *)
Theorem C74_minimum_levels_partial : forall s k cocs nl ds,
  0 <= Csiz s -> get_dwt_levels k = Ret nl ->
  StronglySorted Z.lt (map Ccoc cocs) ->
  Forall (fun x => 0 <= Ccoc x < Csiz s /\ exists b l, SPcoc x = b :: l /\ b &b 128 = 0) cocs ->
  (cocs = [] \/ exists x, In x cocs /\ Ccoc x = Csiz s - 1) ->
  (exists c, 0 <= c < Csiz s /\ levels_for nl cocs c nl) ->
  exists n, get_minimum_DWT_levels s k cocs = Ret n /\ get_max_safe_reduce_NL s k cocs ds = Ret n /\
    (forall c l, 0 <= c < Csiz s -> levels_for nl cocs c l -> n <= l) /\
    (exists c, 0 <= c < Csiz s /\ levels_for nl cocs c n).
Proof.
  intros s k cocs nl ds HC Hk Hs Hf Hl Hno.
  assert (R : forall cs i n, 0 <= i -> reduce_loop cocs ds cs i n = Ret n).
  { induction cs as [|c cs IH]; intros i n Hi; [reflexivity|]. cbn [reduce_loop].
    destruct ((i <? zlen cocs) && (Ccoc (znth (Coc 0 0 []) cocs i) =? c)) eqn:B; [|apply IH; lia]. apply andb_true_iff in B. destruct B as [B1 B2].
    rewrite Forall_forall in Hf. destruct (Hf (znth (Coc 0 0 []) cocs i) ltac:(apply znth_In; lia)) as (_ & b & l & E & D). rewrite E.
    rewrite rd_in by (rewrite zlen_cons; pose proof (zlen_nonneg l); lia). cbn [bind]. unfold is_dfs_defined. change (znth 0 (b :: l) 0) with b. rewrite D. apply IH; lia. }
  set (n := fold_left (fun n x => Z.min n (coc_n x)) cocs nl).
  assert (G : get_minimum_DWT_levels s k cocs = Ret n).
  { unfold get_minimum_DWT_levels. rewrite Hk. cbn [bind]. destruct (Z.eqb_spec (zlen cocs) 0) as [Z0|N0].
    - destruct cocs; [reflexivity|]. rewrite zlen_cons in Z0. pose proof (zlen_nonneg cocs). lia.
    - destruct Hl as [->|(x & Hx & Ex)]; [contradiction N0; reflexivity|].
      apply (min_loop_exact (zseq (Csiz s)) 0 cocs []).
      + rewrite zseq_len by lia. rewrite map_ext with (g := fun i => i) by (intros; lia). rewrite map_id. reflexivity.
      + exact Hs.
      + rewrite zseq_len by lia. eapply Forall_impl; [|exact Hf]. intros y [Hy _]. lia.
      + eapply Forall_impl; [|exact Hf]. intros y (_ & b & l & E & D). rewrite E. split; [discriminate|]. unfold is_dfs_defined. change (znth 0 (b :: l) 0) with b. rewrite D. reflexivity.
      + intros _. exists x. rewrite zseq_len by lia. split; [exact Hx|lia]. }
  exists n. split; [exact G|]. split.
  { unfold get_max_safe_reduce_NL. rewrite G. cbn [bind]. destruct (zlen cocs =? 0); [reflexivity|apply R; lia]. }
  assert (A : forall l m, fold_left (fun n x => Z.min n (coc_n x)) l m <= m /\ (forall x, In x l -> fold_left (fun n x => Z.min n (coc_n x)) l m <= coc_n x) /\
      (fold_left (fun n x => Z.min n (coc_n x)) l m = m \/ exists x, In x l /\ fold_left (fun n x => Z.min n (coc_n x)) l m = coc_n x)).
  { induction l as [|y l IH]; intros m; cbn [fold_left]; [split; [lia|split; [intros _ []|left; reflexivity]]|].
    destruct (IH (Z.min m (coc_n y))) as (I1 & I2 & I3). split; [lia|]. split.
    - intros x [<-|Hx]; [lia|apply I2; exact Hx].
    - destruct I3 as [I3|(x & Hx & I3)]; [|right; exists x; split; [right; exact Hx|exact I3]].
      rewrite I3. destruct (Z.min_spec m (coc_n y)) as [[_ ->]|[_ ->]]; [left; reflexivity|right; exists y; split; [left; reflexivity|reflexivity]]. }
  destruct (A cocs nl) as (A1 & A2 & A3). fold n in A1, A2, A3. split.
  - intros c l Hc [(x & b & Hx & Ec & Eb & ->)|[_ ->]]; [|exact A1].
    specialize (A2 x Hx). unfold coc_n in A2. destruct (SPcoc x) as [|b' sp]; [discriminate Eb|]. cbn in Eb. replace b' with b in A2 by congruence. exact A2.
  - destruct A3 as [->|(x & Hx & ->)]; [exact Hno|]. rewrite Forall_forall in Hf. destruct (Hf x Hx) as (Hc & b & l & E & _). exists (Ccoc x). split; [exact Hc|].
    left. exists x, b. split; [exact Hx|]. split; [reflexivity|]. rewrite E. split; [reflexivity|]. unfold coc_n. rewrite E. reflexivity.
Qed.
Print Assumptions C74_minimum_levels_partial.
Definition c74_cod : cod := Cod 0 0 [5; 4; 4; 0; 1].
Example C74_levels_case : get_dwt_levels c74_cod = Ret 5 /\
  get_minimum_DWT_levels c75_siz c74_cod [Coc 1 0 [3; 4; 4; 0; 1]; Coc 2 0 [6; 4; 4; 0; 1]] = Ret 3.
Proof. split; reflexivity. Qed.

(** A single COC segment for the first of three components, as the standard
    allows: the list of segments is read past its end. *)
Theorem C74_coc_for_first_refuted : exists cocs, Forall (fun x => 0 <= Ccoc x < Csiz c75_siz /\ zlen (SPcoc x) = 5) cocs /\
  get_minimum_DWT_levels c75_siz c74_cod cocs = UB.
Proof. exists [Coc 0 0 [3; 4; 4; 0; 1]]. split; [repeat (apply Forall_cons; [cbn; split; [lia|reflexivity]|]); apply Forall_nil|reflexivity]. Qed.
Print Assumptions C74_coc_for_first_refuted.

(** The same two segments as in the case above in the other order: a component
    has three levels, five are reported. *)
Theorem C74_coc_order_refuted : exists cocs, Forall (fun x => 0 <= Ccoc x < Csiz c75_siz /\ zlen (SPcoc x) = 5) cocs /\
  levels_for 5 cocs 1 3 /\ get_minimum_DWT_levels c75_siz c74_cod cocs = Ret 5.
Proof.
  exists [Coc 2 0 [6; 4; 4; 0; 1]; Coc 1 0 [3; 4; 4; 0; 1]]. split; [repeat (apply Forall_cons; [cbn; split; [lia|reflexivity]|]); apply Forall_nil|]. split; [|reflexivity].
  left. exists (Coc 1 0 [3; 4; 4; 0; 1]), 3. split; [right; left; reflexivity|]. repeat split.
Qed.
Print Assumptions C74_coc_order_refuted.

(** Every component with its own segment and more levels than COD says: COD's
    number, which no component has, is reported. *)
Theorem C74_unused_cod_refuted : exists cocs, StronglySorted Z.lt (map Ccoc cocs) /\
  (forall c n, 0 <= c < Csiz c75_siz -> levels_for 5 cocs c n -> n = 6) /\
  get_minimum_DWT_levels c75_siz c74_cod cocs = Ret 5.
Proof.
  exists [Coc 0 0 [6; 4; 4; 0; 1]; Coc 1 0 [6; 4; 4; 0; 1]; Coc 2 0 [6; 4; 4; 0; 1]]. split; [repeat constructor|]. split; [|reflexivity].
  intros c n Hc [(x & b & Hx & _ & Eb & ->)|[N _]].
  - destruct Hx as [<-|[<-|[<-|[]]]]; cbn in Eb; replace b with 6 by congruence; reflexivity.
  - exfalso. change (Csiz c75_siz) with 3 in Hc. assert (c = 0 \/ c = 1 \/ c = 2) as [->|[->| ->]] by lia;
      [apply (N (Coc 0 0 [6; 4; 4; 0; 1]))|apply (N (Coc 1 0 [6; 4; 4; 0; 1]))|apply (N (Coc 2 0 [6; 4; 4; 0; 1]))]; cbn; tauto.
Qed.
Print Assumptions C74_unused_cod_refuted.
