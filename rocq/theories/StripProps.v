(** C76: rows are handed to the callback in order, each component's with them. *)
From Verif Require Import Base BaseLemmas PrecinctModel PrecinctSpec PrecinctProofs GeoModel MarkerModel OutModel OutSpec OutProofs
  StripModel StripSpec StripProofs.

(** ** Copying a tile's rows into a band *)
Section Scatter.
  Lemma scatter_one n ci width band geo e acc : zlen ci = n -> zlen (snd e) = n ->
    (forall c, 0 <= c < n -> let '(off, w, _) := znth (0, 0, 0) geo c in 0 <= w /\ off + w <= width c /\ w <= s_w (znth si0 ci c) /\ fst e < band c) ->
    exists acc', foldo (scatter ci width band geo e) acc (zseq (zlen ci)) = Ret acc' /\
      (forall c, 0 <= c < n -> forall x, acc' c (fst e) x =
         let '(off, w, _) := znth (0, 0, 0) geo c in if (off <=? x) && (x <? off + w) then znth blank (snd e) c (x - off) else acc c (fst e) x) /\
      (forall c y, y <> fst e -> acc' c y = acc c y).
  Proof.
    intros Hl He Hg. destruct (foldo_inv (scatter ci width band geo e) (fun i acc' =>
        (forall c, 0 <= c < i -> forall x, acc' c (fst e) x = let '(off, w, _) := znth (0, 0, 0) geo c in if (off <=? x) && (x <? off + w) then znth blank (snd e) c (x - off) else acc c (fst e) x) /\
        (forall c, i <= c -> acc' c = acc c) /\ (forall c y, y <> fst e -> acc' c y = acc c y)) (zlen ci) acc) as (acc' & E & A & _ & B).
    - apply zlen_nonneg.
    - split; [intros; lia|]. split; reflexivity.
    - intros i a Hi (A & B & C). unfold scatter. pose proof (Hg i ltac:(lia)) as G. destruct (znth (0, 0, 0) geo i) as [[off w] hh] eqn:Eg. destruct G as (G1 & G2 & G3 & G4).
      replace (band i <=? fst e) with false by lia. rewrite orb_false_r. destruct (Z.eqb_spec w 0) as [W0|W0].
      + exists a. split; [reflexivity|]. split; [|split; [intros c Hc; apply B; lia|exact C]]. intros c Hc x. destruct (Z.eq_dec c i) as [->|N]; [|apply A; lia].
        rewrite Eg. replace ((off <=? x) && (x <? off + w)) with false by lia. rewrite (B i) by lia. reflexivity.
      + replace ((width i <? off + w) || (s_w (znth si0 ci i) <? w)) with false by lia. eexists. split; [reflexivity|]. split; [|split].
        * intros c Hc x. destruct (Z.eq_dec c i) as [->|N]; [|rewrite upd_other by assumption; apply A; lia]. rewrite Eg. rewrite !upd_same. rewrite (B i) by lia. reflexivity.
        * intros c Hc. rewrite upd_other by lia. apply B. lia.
        * intros c y Hy. destruct (Z.eq_dec c i) as [->|N]; [rewrite upd_same, upd_other by assumption; apply C; assumption|rewrite upd_other by assumption; apply C; assumption].
    - exists acc'. split; [exact E|]. rewrite Hl in A. split; assumption.
  Qed.
  Lemma scatter_all n ci width band geo : zlen ci = n -> forall evs acc, NoDup (map fst evs) ->
    (forall e, In e evs -> zlen (snd e) = n /\
      forall c, 0 <= c < n -> let '(off, w, _) := znth (0, 0, 0) geo c in 0 <= w /\ off + w <= width c /\ w <= s_w (znth si0 ci c) /\ fst e < band c) ->
    exists acc', foldo (fun acc e => foldo (scatter ci width band geo e) acc (zseq (zlen ci))) acc evs = Ret acc' /\
      (forall e c x, In e evs -> 0 <= c < n -> let '(off, w, _) := znth (0, 0, 0) geo c in off <= x < off + w -> acc' c (fst e) x = znth blank (snd e) c (x - off)) /\
      (forall c y x, 0 <= c < n -> let '(off, w, _) := znth (0, 0, 0) geo c in ~ (off <= x < off + w) -> acc' c y x = acc c y x).
  Proof.
    intros Hl. induction evs as [|e evs IH]; intros acc Nd Hin.
    - exists acc. split; [reflexivity|]. split; [intros ? ? ? []|]. intros c y x Hc. destruct (znth (0, 0, 0) geo c) as [[off w] hh]. reflexivity.
    - cbn [map] in Nd. apply NoDup_cons_iff in Nd. destruct Nd as [Ne Nd]. destruct (Hin e (or_introl eq_refl)) as [He Hg].
      destruct (scatter_one n ci width band geo e acc Hl He Hg) as (a1 & E1 & A1 & B1). cbn [foldo]. rewrite E1. cbn [bind].
      destruct (IH a1 Nd (fun e' H' => Hin e' (or_intror H'))) as (a2 & E2 & A2 & B2). exists a2. split; [exact E2|]. split.
      + (* later events have other row numbers *)
        assert (Keep : forall y, ~ In y (map fst evs) -> forall a a', foldo (fun acc e => foldo (scatter ci width band geo e) acc (zseq (zlen ci))) a evs = Ret a' -> forall c x, 0 <= c < n -> a' c y x = a c y x).
        { clear - Hl Hin. assert (Hin' := fun e' H' => Hin e' (or_intror H')). clear Hin. intros y. induction evs as [|e' evs IH]; intros Hy a a' E c x Hc.
          - cbn [foldo] in E. assert (a = a') by congruence. subst a'. reflexivity.
          - cbn [foldo] in E. destruct (Hin' e' (or_introl eq_refl)) as [He' Hg']. destruct (scatter_one n ci width band geo e' a Hl He' Hg') as (b & Eb & _ & Kb). rewrite Eb in E. cbn [bind] in E.
            rewrite (IH (fun e'' H'' => Hin' e'' (or_intror H'')) ltac:(intros X; apply Hy; right; exact X) b a' E c x Hc).
            rewrite Kb by (intros X; apply Hy; left; symmetry; exact X). reflexivity. }
        intros e' c x [<-|He'] Hc.
        * pose proof (A1 c Hc x) as Q. pose proof (Keep (fst e) Ne a1 a2 E2 c x Hc) as R. destruct (znth (0, 0, 0) geo c) as [[off w] hh]. intros Hx. rewrite R, Q.
          replace ((off <=? x) && (x <? off + w)) with true by lia. reflexivity.
        * apply A2; assumption.
      + intros c y x Hc. pose proof (B2 c y x Hc) as Q. pose proof (A1 c Hc x) as R. destruct (znth (0, 0, 0) geo c) as [[off w] hh]. intros Hx. rewrite (Q Hx).
        destruct (Z.eq_dec y (fst e)) as [->|N]; [rewrite R; replace ((off <=? x) && (x <? off + w)) with false by lia; reflexivity|]. rewrite B1 by exact N. reflexivity.
  Qed.
End Scatter.

Section Image.
  Variable raw : Z -> Z -> Z -> Z -> Z.
  Variable fin : Z -> Z -> Z.
  Variable mix : Z -> Z -> Z -> Z -> Z.
  Variable s : siz.
  Variable r : Z.
  Variable tiles : Z -> tile_in.
  Variable cb_h : Z -> Z.
  Variable skip : bool.
  Variables lo hi : Z.
  Hypothesis L : image_legal s.
  Hypothesis Hr : 0 <= r <= 31.
  Let use i := as_decoded skip (tiles i).
  Let nx := cols_of_tiles s.
  Let ny := rows_of_tiles s.
  Hypothesis HC : Csiz s <= 16.
  Hypothesis Hfit : forall i, 0 <= i < nx * ny -> tile_fits s r (use i).
  Hypothesis Hcb : forall i, 0 <= cb_h i <= 1024.
  Hypothesis Hsub : sampling_ok s use.
  Hypothesis Hlo : 0 <= lo < two32.
  Hypothesis Hhi : 0 <= hi.
  Hypothesis Hlod : forall c, 0 <= c < Csiz s -> (ratio s c | lo).

  (** Values a tile gives, and its sizes. *)
  Definition tv (i c k n : Z) : Z :=
    if t_mct (use i) && (3 <=? Csiz s) && (c <? 3) then mix c (raw i 0 k n) (raw i 1 k n) (raw i 2 k n) else fin c (raw i c k n).
  Definition tw (i c : Z) : Z := extent (tile_columns s r c (i mod nx)).
  Definition th (i c : Z) : Z := extent (tile_lines s r c (i / nx)).
  Definition sis (i : Z) : list sinfo := map (fun c => SI (tw i c) (th i c) (sub_y s c)) (zseq (Csiz s)).

  Lemma NC1 : 1 <= Csiz s.
  Proof. destruct L as [_ _ [_ N] _ _]. exact N. Qed.
  Lemma sis_len i : zlen (sis i) = Csiz s.
  Proof. unfold sis. rewrite zlen_map, zseq_len; [reflexivity|pose proof NC1; lia]. Qed.
  Lemma sis_at i c : 0 <= c < Csiz s -> info (sis i) c = SI (tw i c) (th i c) (sub_y s c).
  Proof. intros Hc. unfold info, sis. rewrite (znth_map 0) by (rewrite zseq_len; lia). rewrite zseq_nth by lia. reflexivity. Qed.

  Lemma infos_exact i : 0 <= i < nx * ny -> tile_infos s r nx tiles i = ret (sis i).
  Proof.
    intros Hi. destruct (Hfit i Hi) as (F1 & F2 & _). change (t_NL (use i)) with (t_NL (tiles i)) in F1, F2. unfold tile_infos.
    assert (Ex : existsb (fun n => n <? r) (t_NL (tiles i)) = false).
    { destruct (existsb (fun n => n <? r) (t_NL (tiles i))) eqn:X; [|reflexivity]. apply existsb_exists in X. destruct X as (n & Hn & Hlt).
      rewrite Forall_forall in F2. pose proof (F2 n Hn). lia. }
    rewrite Ex. destruct (tile_region s nx i) as [[g|]| |] eqn:G;
      try (exfalso; unfold tile_region in G; destruct (nx =? 0) eqn:Z0; [unfold nx in *; destruct (grid_pos s L); lia|discriminate G]).
    cbn [bindx]. apply mapM_ok. intros c Hc. apply zseq_In in Hc. rewrite rd_in by lia. cbn [bind].
    destruct (siz_at_exact s L c Hc) as (x & Ex'). rewrite Ex'. cbn [bind].
    pose proof (comp_info_exact s r L Hr i c (znth 0 (t_NL (tiles i)) c) Hi Hc) as E. fold nx in E. rewrite G in E. cbn [bindx] in E. rewrite E.
    - rewrite ret_bindx. reflexivity.
    - rewrite Forall_forall in F2. apply F2. apply znth_In. lia.
  Qed.

  Lemma sizes_ok i c : 0 <= i < nx * ny -> 0 <= c < Csiz s -> 0 <= tw i c /\ 0 <= th i c <= 2147483648.
  Proof.
    intros Hi Hc. destruct (place s L i Hi) as [Hp Hq]. destruct (il_sub _ L c Hc) as [Sx Sy].
    pose proof (part_numbers _ _ _ _ (il_x _ L) r _ Hr Sx _ Hp) as X. pose proof (part_numbers _ _ _ _ (il_y _ L) r _ Hr Sy _ Hq) as Y. cbv zeta in X, Y.
    unfold tw, th, extent, tile_columns, tile_lines, nx. change (2 ^ 31) with 2147483648 in *. lia.
  Qed.

  Let mct i := (3 <=? Csiz s) && t_mct (tiles i) && negb skip.
  Lemma mct_same i c : 0 <= i < nx * ny -> mct i = true -> 0 <= c <= 2 -> 3 <= Csiz s /\ sub_x s c = sub_x s 0 /\ sub_y s c = sub_y s 0.
  Proof.
    intros Hi M Hc. unfold mct in M. rewrite !andb_true_iff in M. destruct M as [[M1 M2] M3]. destruct (Hfit i Hi) as (_ & _ & F3).
    assert (N3 : 3 <= Csiz s) by lia. split; [exact N3|]. assert (c = 0 \/ 1 <= c <= 2) as [->|X] by lia; [split; reflexivity|].
    apply F3; [unfold use, as_decoded; cbn [t_mct]; rewrite M2, M3; reflexivity|exact N3|exact X].
  Qed.
  Lemma rho_ratio i c : 0 <= i < nx * ny -> 0 <= c < Csiz s -> rho (mct i) (sis i) c = ratio s c.
  Proof.
    intros Hi Hc. unfold rho, ratio. rewrite (sis_at i c Hc). cbn [s_yr]. destruct (il_sub _ L 0 ltac:(lia)) as [_ S0].
    destruct (mct i && (c <? 3)) eqn:U.
    - apply andb_true_iff in U. destruct U as [U1 U2]. destruct (mct_same i c Hi U1 ltac:(lia)) as (_ & _ & E). rewrite E. symmetry. apply Z.div_same. lia.
    - destruct Hsub as [[E _]|[E1 E2]]; [rewrite E, Z.div_1_r; reflexivity|]. exfalso. pose proof (E2 i) as T. unfold use, as_decoded in T. cbn [t_mct] in T.
      apply andb_true_iff in T. destruct T as [T1 T2]. unfold mct in U. rewrite T1, T2 in U. rewrite E1 in *. cbn in U. lia.
  Qed.
  Lemma ratio_pos c : 0 <= c < Csiz s -> 1 <= ratio s c.
  Proof.
    intros Hc. assert (P : 0 <= 0 < nx * ny) by (destruct (grid_pos s L); unfold nx, ny; nia). rewrite <- (rho_ratio 0 c P Hc). unfold rho. destruct (mct 0 && (c <? 3)); [lia|].
    rewrite (sis_at 0 c Hc). cbn [s_yr]. apply (il_sub _ L c Hc).
  Qed.

  (** What a tile's calls carry. *)
  Definition tile_event (i : Z) (e : event) : Prop := zlen (snd e) = Csiz s /\
    forall c n, 0 <= c < Csiz s -> lo < th i c * ratio s c -> n < tw i c ->
      znth blank (snd e) c n = tv i c (Z.min (fst e / ratio s c) (th i c - 1)) n.
  Lemma tile_exact i : 0 <= i < nx * ny -> exists evs,
    decode_line_based_stream raw fin mix s r nx tiles cb_h skip hi lo i = ret (sis i, evs) /\
    map fst evs = range lo (Z.min (th i 0) hi) /\ Forall (tile_event i) evs.
  Proof.
    intros Hi. unfold decode_line_based_stream. rewrite (infos_exact i Hi), ret_bindx. rewrite sis_len. fold (mct i). pose proof NC1 as N1.
    destruct (stream_tile_exact raw fin mix i (mct i) (sis i) (cb_h i) hi lo) as (evs & E & A & B).
    - rewrite sis_len. lia.
    - rewrite sis_len. intros c Hc. rewrite (sis_at i c Hc). cbn [s_w s_h s_yr]. pose proof (sizes_ok i c Hi Hc). destruct (il_sub _ L c Hc). lia.
    - rewrite sis_len. intros M. split; [apply (mct_same i 0 Hi M); lia|]. intros c Hc. destruct (mct_same i c Hi M ltac:(lia)) as (N3 & Ex & Ey).
      rewrite !sis_at by lia. cbn [s_w s_h]. unfold tw, th, tile_columns, tile_lines. rewrite Ex, Ey. split; reflexivity.
    - apply Hcb.
    - exact Hhi.
    - exact Hlo.
    - rewrite sis_len. intros c Hc. rewrite (rho_ratio i c Hi Hc). split; [|apply (Hlod c Hc)].
      destruct Hsub as [[E0 Ch]|[E1 E2]].
      + assert (D : (sub_y s c | max_yr (sis i))).
        { destruct (max_yr_spec (sis i)) as (M1 & M2 & M3). rewrite sis_len in M2, M3. pose proof (M2 c Hc) as M4. rewrite (sis_at i c Hc) in M4. cbn [s_yr] in M4.
          destruct M3 as [M3|(c' & Hc' & M3)]; [rewrite M3 in *; destruct (il_sub _ L c Hc); replace (sub_y s c) with 1 by lia; apply Z.divide_refl|].
          rewrite M3 in *. rewrite (sis_at i c' Hc') in *. cbn [s_yr] in *. apply Ch; assumption. }
        unfold ratio. rewrite E0, Z.div_1_r. exact D.
      + assert (X : ratio s c = 1).
        { rewrite <- (rho_ratio i c Hi Hc). unfold rho. pose proof (E2 i) as T. unfold use, as_decoded in T. cbn [t_mct] in T. apply andb_true_iff in T. destruct T as [T1 T2].
          unfold mct. rewrite T1, T2. replace ((3 <=? Csiz s) && true && true && (c <? 3)) with true by lia. reflexivity. }
        rewrite X. apply Z.divide_1_l.
    - rewrite E, ret_bindx. exists evs. split; [reflexivity|]. rewrite (sis_at i 0 ltac:(lia)) in A. cbn [s_h] in A. split; [exact A|].
      eapply Forall_impl; [|exact B]. intros e [B1 B2]. rewrite sis_len in B1. split; [exact B1|]. intros c n Hc K Hn.
      specialize (B2 c). rewrite sis_len in B2. specialize (B2 Hc). unfold kept, shown, val in B2. rewrite (rho_ratio i c Hi Hc) in B2. rewrite (sis_at i c Hc) in B2. cbn [s_h s_w] in B2.
      rewrite (B2 K n Hn). unfold tv, mct, use, as_decoded. cbn [t_mct].
      replace (t_mct (tiles i) && negb skip && (3 <=? Csiz s) && (c <? 3)) with ((3 <=? Csiz s) && t_mct (tiles i) && negb skip && (c <? 3)); [reflexivity|].
      destruct (3 <=? Csiz s), (t_mct (tiles i)), (negb skip), (c <? 3); reflexivity.
  Qed.

  (** Edges of the rows and columns of tiles in component [c]. *)
  Definition ye (c q : Z) : Z := ceil_div (ceil_div (mark (Ysiz s) (YOsiz s) (YTsiz s) (YTOsiz s) q) (sub_y s c)) (2 ^ r).
  Definition xe (c p : Z) : Z := ceil_div (ceil_div (mark (Xsiz s) (XOsiz s) (XTsiz s) (XTOsiz s) p) (sub_x s c)) (2 ^ r).
  Lemma lines_edges c q : 0 <= q < ny -> tile_lines s r c q = (ye c q, ye c (q + 1)).
  Proof. intros Hq. unfold tile_lines. rewrite (tile_marks _ _ _ _ (il_y _ L)) by exact Hq. reflexivity. Qed.
  Lemma columns_edges c p : 0 <= p < nx -> tile_columns s r c p = (xe c p, xe c (p + 1)).
  Proof. intros Hp. unfold tile_columns. rewrite (tile_marks _ _ _ _ (il_x _ L)) by exact Hp. reflexivity. Qed.
  Lemma lines_ends c : lines s r c = (ye c 0, ye c ny).
  Proof. unfold lines, ye, ny, rows_of_tiles. rewrite (mark_last _ _ _ _ (il_y _ L)). reflexivity. Qed.
  Lemma columns_ends c : columns s r c = (xe c 0, xe c nx).
  Proof. unfold columns, xe, nx, cols_of_tiles. rewrite (mark_last _ _ _ _ (il_x _ L)). reflexivity. Qed.
  Lemma ye_mono c q q' : 0 <= c < Csiz s -> 0 <= q <= q' -> ye c q <= ye c q'.
  Proof.
    intros Hc Hq. pose proof (pow_r r Hr). destruct (il_sub _ L c Hc). unfold ye. apply ceil_mono; [lia|]. apply ceil_mono; [lia|]. apply (mark_mono _ _ _ _ (il_y _ L)). exact Hq.
  Qed.
  Lemma xe_mono c q q' : 0 <= c < Csiz s -> 0 <= q <= q' -> xe c q <= xe c q'.
  Proof.
    intros Hc Hq. pose proof (pow_r r Hr). destruct (il_sub _ L c Hc). unfold xe. apply ceil_mono; [lia|]. apply ceil_mono; [lia|]. apply (mark_mono _ _ _ _ (il_x _ L)). exact Hq.
  Qed.
  Lemma ye_small c : 0 <= c < Csiz s -> 0 <= ye c ny - ye c 0 <= 2147483648.
  Proof.
    intros Hc. destruct (il_sub _ L c Hc) as [_ Sy]. pose proof (whole_ok _ _ _ _ (il_y _ L) _ Sy) as W. pose proof (res_span_ok r _ ltac:(lia) W) as [A B].
    change (res_span r (comp_span (sub_y s c) (YOsiz s, Ysiz s))) with (lines s r c) in A, B. rewrite lines_ends in A, B. cbn [fst snd] in A, B. change (2 ^ 31) with 2147483648 in *. lia.
  Qed.

  Lemma geom_exact p q c : 0 <= p < nx -> 0 <= q < ny -> 0 <= c < Csiz s ->
    tile_geom s r p q c = ret (xe c p - xe c 0, xe c (p + 1) - xe c p, ye c (q + 1) - ye c q).
  Proof.
    intros Hp Hq Hc. destruct (siz_at_exact s L c Hc) as (g & E). unfold tile_geom. rewrite E. cbn [bind]. destruct (il_sub _ L c Hc) as [Sx Sy].
    destruct (whole_exact _ _ _ _ (il_x _ L) _ Sx) as [-> _]. rewrite ret_bindx. unfold tcomp_region. cbn [x0 y0 x1 y1].
    destruct (part_exact _ _ _ _ (il_x _ L) _ Sx p Hp) as [-> ->]. destruct (part_exact _ _ _ _ (il_y _ L) _ Sy q Hq) as [-> ->]. rewrite !ret_bindx.
    rewrite shl1_exact by lia. rewrite !ret_bindx. cbn [x0 y0 x1 y1].
    destruct (res_part _ _ _ _ (il_x _ L) r _ Hr Sx p Hp) as [-> ->]. destruct (res_part _ _ _ _ (il_y _ L) r _ Hr Sy q Hq) as [-> ->]. rewrite !ret_bindx.
    rewrite (first_exact _ _ _ _ (il_x _ L) r _ Hr Sx). rewrite ret_bindx.
    pose proof (part_numbers _ _ _ _ (il_x _ L) r _ Hr Sx p Hp) as (-> & -> & _). pose proof (part_numbers _ _ _ _ (il_y _ L) r _ Hr Sy q Hq) as (-> & _).
    fold (tile_columns s r c p) (tile_lines s r c q) (columns s r c). rewrite (columns_edges c p Hp), (lines_edges c q Hq), columns_ends. reflexivity.
  Qed.

  (** ** One column of tiles *)
  Hypothesis Hwin : (nx = 1 /\ ny = 1) \/ (lo = 0 /\ 2147483648 <= hi).

  Definition whole_event (e : event) : Prop := zlen (snd e) = Csiz s /\
    forall c u v, 0 <= c < Csiz s -> within (columns s r c) u -> goes_with s r c (fst e) v -> lo < extent (lines s r c) * ratio s c ->
      decoded raw fin mix s r use c u v (znth blank (snd e) c (u - fst (columns s r c))).

  Lemma decoded_at p q c u v : 0 <= p < nx -> 0 <= q < ny -> within (tile_columns s r c p) u -> within (tile_lines s r c q) v ->
    decoded raw fin mix s r use c u v (tv (p + q * nx) c (v - fst (tile_lines s r c q)) (u - fst (tile_columns s r c p))).
  Proof. intros Hp Hq A B. exists p, q. repeat split; try assumption; try (apply A); try (apply B); lia. Qed.
  Lemma number p q : 0 <= p < nx -> 0 <= q < ny -> 0 <= p + q * nx < nx * ny /\ (p + q * nx) mod nx = p /\ (p + q * nx) / nx = q.
  Proof.
    intros Hp Hq. split; [nia|]. split; [rewrite Z.mod_add, Z.mod_small by lia; reflexivity|]. rewrite Z.div_add, Z.div_small by lia. lia.
  Qed.
  Lemma goes_tile c q y v : 0 <= q < ny -> within (tile_lines s r 0 q) (fst (lines s r 0) + y) -> goes_with s r c y v ->
    within (tile_lines s r c q) v /\ v = fst (tile_lines s r c q) + Z.min ((fst (lines s r 0) + y - fst (tile_lines s r 0 q)) / ratio s c) (extent (tile_lines s r c q) - 1).
  Proof.
    intros Hq A (q' & Hq' & A' & B & C). pose proof NC1. destruct (il_sub _ L 0 ltac:(lia)) as [_ S0].
    assert (E : q' = q) by (apply (part_unique _ _ _ _ (il_y _ L) r _ Hr S0 q' q (fst (lines s r 0) + y)); [apply Hq'|apply Hq|exact A'|exact A]). rewrite E in B, C. split; assumption.
  Qed.
  (** The window leaves out nothing of a tile that has a row to show. *)
  Lemma kept_tile c q v : 0 <= c < Csiz s -> 0 <= q < ny -> within (tile_lines s r c q) v -> lo < extent (lines s r c) * ratio s c ->
    lo < extent (tile_lines s r c q) * ratio s c.
  Proof.
    intros Hc Hq B K. destruct Hwin as [[E1 E2]|[E1 _]].
    - rewrite (lines_edges c q Hq). rewrite lines_ends in K. replace q with 0 by lia. rewrite E2 in K. exact K.
    - pose proof (ratio_pos c Hc). unfold within, extent in *. nia.
  Qed.

  Lemma range_shift g a b : map (fun y => g + y) (range a b) = range (g + a) (g + b).
  Proof. unfold range. rewrite map_map. replace (g + b - (g + a)) with (b - a) by lia. apply map_ext. intros; lia. Qed.
  Lemma range_In a b y : In y (range a b) <-> a <= y < b.
  Proof.
    unfold range. rewrite in_map_iff. split; [intros (i & <- & Hi); apply zseq_In in Hi; lia|]. intros H. exists (y - a). split; [lia|apply zseq_In; lia].
  Qed.

  Definition col_inv (q : Z) (st : Z * list event) : Prop :=
    fst st = ye 0 q - ye 0 0 /\ map fst (snd st) = range lo (Z.min (ye 0 q - ye 0 0) hi) /\ Forall whole_event (snd st).
  Lemma next_range q : 0 <= q < ny ->
    range lo (Z.min (ye 0 q - ye 0 0) hi) ++ map (fun y => wrap32 (ye 0 q - ye 0 0 + y)) (range lo (Z.min (ye 0 (q + 1) - ye 0 q) hi)) =
    range lo (Z.min (ye 0 (q + 1) - ye 0 0) hi).
  Proof.
    intros Hq. pose proof NC1. pose proof (ye_small 0 ltac:(lia)) as S. pose proof (ye_mono 0 0 q ltac:(lia) ltac:(lia)) as M1.
    pose proof (ye_mono 0 q (q + 1) ltac:(lia) ltac:(lia)) as M2. pose proof (ye_mono 0 (q + 1) ny ltac:(lia) ltac:(lia)) as M3.
    rewrite (map_ext_in _ (fun y => (ye 0 q - ye 0 0) + y)) by (intros y Hy; apply range_In in Hy; apply wrap32_small; rewrite two32_val; lia).
    rewrite range_shift. destruct Hwin as [[E1 E2]|[E1 E2]].
    - replace q with 0 by lia. rewrite (range_nil lo (Z.min (ye 0 0 - ye 0 0) hi)) by lia. cbn [app]. f_equal; lia.
    - rewrite E1. rewrite (Z.min_l (ye 0 q - ye 0 0)), (Z.min_l (ye 0 (q + 1) - ye 0 q)), (Z.min_l (ye 0 (q + 1) - ye 0 0)) by lia.
      rewrite Z.add_0_r. replace (ye 0 q - ye 0 0 + (ye 0 (q + 1) - ye 0 q)) with (ye 0 (q + 1) - ye 0 0) by lia. symmetry. apply range_app. lia.
  Qed.

  Lemma only_column c : nx = 1 -> tile_columns s r c 0 = columns s r c.
  Proof. intros E. assert (H : 0 <= 0 < nx) by (rewrite E; lia). rewrite (columns_edges c 0 H), columns_ends, E. reflexivity. Qed.
  Lemma small_row q y : 0 <= q < ny -> 0 <= y < ye 0 (q + 1) - ye 0 q -> wrap32 (ye 0 q - ye 0 0 + y) = ye 0 q - ye 0 0 + y /\
    within (tile_lines s r 0 q) (fst (lines s r 0) + (ye 0 q - ye 0 0 + y)).
  Proof.
    intros Hq Hy. pose proof NC1. pose proof (ye_small 0 ltac:(lia)) as S. pose proof (ye_mono 0 0 q ltac:(lia) ltac:(lia)) as M1.
    pose proof (ye_mono 0 (q + 1) ny ltac:(lia) ltac:(lia)) as M3. split; [apply wrap32_small; rewrite two32_val; lia|].
    rewrite (lines_edges 0 q Hq), lines_ends. unfold within. cbn [fst snd]. lia.
  Qed.
  Lemma next_top q : 0 <= q < ny -> wrap32 (ye 0 q - ye 0 0 + (ye 0 (q + 1) - ye 0 q)) = ye 0 (q + 1) - ye 0 0.
  Proof.
    intros Hq. pose proof NC1. pose proof (ye_small 0 ltac:(lia)) as S. pose proof (ye_mono 0 0 q ltac:(lia) ltac:(lia)) as M1.
    pose proof (ye_mono 0 q (q + 1) ltac:(lia) ltac:(lia)) as M2. pose proof (ye_mono 0 (q + 1) ny ltac:(lia) ltac:(lia)) as M3. rewrite wrap32_small by (rewrite two32_val; lia). lia.
  Qed.
  (** Where the sample shown beside a row of the first component sits in its tile. *)
  Lemma shown_place c q y v : 0 <= q < ny -> v = fst (tile_lines s r c q) + Z.min ((fst (lines s r 0) + (ye 0 q - ye 0 0 + y) - fst (tile_lines s r 0 q)) / ratio s c) (extent (tile_lines s r c q) - 1) ->
    v - fst (tile_lines s r c q) = Z.min (y / ratio s c) (extent (tile_lines s r c q) - 1).
  Proof.
    intros Hq ->. rewrite lines_ends, (lines_edges 0 q Hq). cbn [fst snd]. replace (ye 0 0 + (ye 0 q - ye 0 0 + y) - ye 0 q) with y by lia. lia.
  Qed.

  Lemma column_step q st : nx = 1 -> 0 <= q < ny -> col_inv q st ->
    exists st', one_column raw fin mix s r tiles cb_h skip hi lo st q = ret st' /\ col_inv (q + 1) st'.
  Proof.
    intros E1 Hq (I1 & I2 & I3). pose proof NC1 as N1. unfold one_column. rewrite (geom_exact 0 q 0) by lia. rewrite ret_bindx.
    assert (Hi : 0 <= q < nx * ny) by nia. destruct (tile_exact q Hi) as (evs & E & A & B). rewrite E1 in E. rewrite E, ret_bindx. eexists. split; [reflexivity|].
    assert (Dq : q / nx = q) by (rewrite E1; apply Z.div_1_r). assert (Mq : q mod nx = 0) by (rewrite E1; apply Z.mod_1_r).
    assert (Eth : th q 0 = ye 0 (q + 1) - ye 0 q) by (unfold th; rewrite Dq, (lines_edges 0 q Hq); reflexivity). rewrite Eth in A.
    split; [|split]; cbn [fst snd].
    - rewrite I1. apply next_top. exact Hq.
    - rewrite map_app. transitivity (range lo (Z.min (ye 0 q - ye 0 0) hi) ++ map (fun y => wrap32 (ye 0 q - ye 0 0 + y)) (map fst evs)).
      { apply (f_equal2 (@app Z)); [exact I2|]. rewrite !map_map, <- I1. reflexivity. }
      rewrite A. apply next_range. exact Hq.
    - apply Forall_app. split; [exact I3|]. rewrite Forall_forall in B. apply Forall_forall. intros e' He'. apply in_map_iff in He'. destruct He' as (e & <- & He).
      destruct (B e He) as [B1 B2]. split; [exact B1|]. cbn [fst snd]. intros c u v Hc Hu Hv K.
      assert (Hy : In (fst e) (map fst evs)) by (apply in_map; exact He). rewrite A in Hy. apply range_In in Hy.
      assert (Hy' : 0 <= fst e < ye 0 (q + 1) - ye 0 q) by (clear - Hy Hlo; lia).
      destruct (small_row q (fst e) Hq Hy') as [Sm W]. rewrite I1, Sm in Hv.
      destruct (goes_tile c q _ v Hq W Hv) as [B' C']. pose proof (kept_tile c q v Hc Hq B' K) as K'. apply (shown_place c q (fst e) v Hq) in C'.
      rewrite <- (only_column c E1) in *.
      assert (X : znth blank (snd e) c (u - fst (tile_columns s r c 0)) = tv q c (v - fst (tile_lines s r c q)) (u - fst (tile_columns s r c 0))).
      { rewrite B2; [|exact Hc|unfold th; rewrite Dq; exact K'|unfold tw; rewrite Mq; clear - Hu; unfold within, extent in *; lia].
        f_equal. unfold th. rewrite Dq. symmetry. exact C'. }
      rewrite X. assert (Hz : 0 <= 0 < nx) by (rewrite E1; clear; lia). pose proof (decoded_at 0 q c u v Hz Hq Hu B') as D. replace (0 + q * nx) with q in D by (rewrite E1; clear; lia). exact D.
  Qed.

  (** ** Several columns of tiles, all components with as many rows *)
  Section Wide.
    Hypothesis Hsame : forall c, 0 <= c < Csiz s -> sub_y s c = sub_y s 0.
    Hypothesis Hmany : nx <> 1.
    Lemma ratio_one c : 0 <= c < Csiz s -> ratio s c = 1.
    Proof. intros Hc. unfold ratio. rewrite (Hsame c Hc). destruct (il_sub _ L 0 ltac:(lia)). apply Z.div_same. lia. Qed.
    Lemma ye_one c q : 0 <= c < Csiz s -> ye c q = ye 0 q.
    Proof. intros Hc. unfold ye. rewrite (Hsame c Hc). reflexivity. Qed.
    Lemma full_window : lo = 0 /\ 2147483648 <= hi.
    Proof. destruct Hwin as [[E _]|E]; [contradiction (Hmany E)|exact E]. Qed.

    Lemma xe_fits c p : 0 <= c < Csiz s -> 0 <= p < nx -> 0 <= xe c (p + 1) - xe c p /\ xe c p - xe c 0 + (xe c (p + 1) - xe c p) <= out_w s r c.
    Proof.
      intros Hc Hp. pose proof (xe_mono c p (p + 1) Hc ltac:(lia)). destruct (il_sub _ L c Hc) as [Sx _]. destruct (part_numbers _ _ _ _ (il_x _ L) r _ Hr Sx p Hp) as (_ & _ & _ & _ & P & _).
      change (snd (tile_columns s r c p) - fst (columns s r c) <= out_w s r c) in P. rewrite (columns_edges c p Hp), columns_ends in P. cbn [fst snd] in P. lia.
    Qed.
    Definition widths (c : Z) : Z := out_w s r c.
    Definition acc_inv (q p : Z) (acc : accu) : Prop :=
      forall p' c y x, 0 <= p' < p -> 0 <= c < Csiz s -> 0 <= y < ye 0 (q + 1) - ye 0 q -> xe c p' - xe c 0 <= x < xe c (p' + 1) - xe c 0 ->
        acc c y x = tv (p' + q * nx) c y (x - (xe c p' - xe c 0)).
    Lemma geo_list p q : 0 <= p < nx -> 0 <= q < ny -> mapM (tile_geom s r p q) (zseq (Csiz s)) =
      ret (map (fun c => (xe c p - xe c 0, xe c (p + 1) - xe c p, ye c (q + 1) - ye c q)) (zseq (Csiz s))).
    Proof. intros Hp Hq. apply mapM_ok. intros c Hc. apply zseq_In in Hc. apply geom_exact; assumption. Qed.

    Lemma column_acc width band q p acc : 0 <= p < nx -> 0 <= q < ny -> (forall c, 0 <= c < Csiz s -> width c = widths c /\ band c = ye 0 (q + 1) - ye 0 q) -> acc_inv q p acc ->
      exists acc', column raw fin mix s r tiles cb_h skip hi lo nx q width band acc p = ret acc' /\ acc_inv q (p + 1) acc'.
    Proof.
      intros Hp Hq Hwb I. pose proof NC1 as N1. unfold column. rewrite (geo_list p q Hp Hq), ret_bindx.
      destruct (number p q Hp Hq) as (Ni & Nm & Nd). pose proof (il_tiles _ L) as Gt. fold nx ny in Gt. rewrite wrap32_small by (rewrite two32_val; nia).
      replace (q * nx + p) with (p + q * nx) by lia. set (i := p + q * nx) in *.
      destruct (tile_exact i Ni) as (evs & E & A & B). rewrite E, ret_bindx. destruct full_window as [F1 F2].
      pose proof (ye_small 0 ltac:(lia)) as S. pose proof (ye_mono 0 0 q ltac:(lia) ltac:(lia)) as M1.
      pose proof (ye_mono 0 q (q + 1) ltac:(lia) ltac:(lia)) as M2. pose proof (ye_mono 0 (q + 1) ny ltac:(lia) ltac:(lia)) as M3.
      assert (Eth : forall c, 0 <= c < Csiz s -> th i c = ye 0 (q + 1) - ye 0 q) by (intros c Hc; unfold th; rewrite Nd, (lines_edges c q Hq); cbn; rewrite !(ye_one c) by exact Hc; reflexivity).
      assert (Etw : forall c, 0 <= c < Csiz s -> tw i c = xe c (p + 1) - xe c p) by (intros c Hc; unfold tw; rewrite Nm, (columns_edges c p Hp); reflexivity).
      rewrite (Eth 0 ltac:(lia)) in A. rewrite F1 in A. rewrite Z.min_l in A by lia. rewrite Forall_forall in B.
      assert (Gat : forall c, 0 <= c < Csiz s -> znth (0, 0, 0) (map (fun c => (xe c p - xe c 0, xe c (p + 1) - xe c p, ye c (q + 1) - ye c q)) (zseq (Csiz s))) c =
                    (xe c p - xe c 0, xe c (p + 1) - xe c p, ye c (q + 1) - ye c q)) by (intros c Hc; rewrite (znth_map 0) by (rewrite zseq_len; lia); rewrite zseq_nth by lia; reflexivity).
      destruct (scatter_all (Csiz s) (sis i) width band (map (fun c => (xe c p - xe c 0, xe c (p + 1) - xe c p, ye c (q + 1) - ye c q)) (zseq (Csiz s))) (sis_len i) evs acc) as (acc' & E' & A' & B').
      - rewrite A. unfold range. apply FinFun.Injective_map_NoDup; [intros a b; lia|]. unfold zseq. apply FinFun.Injective_map_NoDup; [intros a b; lia|apply seq_NoDup].
      - intros e He. destruct (B e He) as [B1 _]. split; [exact B1|]. intros c Hc. rewrite (Gat c Hc). pose proof (xe_mono c p (p + 1) Hc ltac:(lia)).
        destruct (Hwb c Hc) as [W1 W2]. rewrite W1, W2. assert (Hy : In (fst e) (map fst evs)) by (apply in_map; exact He). rewrite A in Hy. apply range_In in Hy.
        change (znth si0 (sis i) c) with (info (sis i) c). rewrite (sis_at i c Hc). cbn [s_w]. rewrite (Etw c Hc).
        destruct (xe_fits c p Hc Hp) as [X1 X2]. unfold widths. clear - X1 X2 Hy. repeat split; try assumption; lia.
      - rewrite E'. cbn [bind]. exists acc'. split; [reflexivity|]. intros p' c y x Hp' Hc Hy Hx. destruct (Z.eq_dec p' p) as [->|N].
        + assert (He : exists e, In e evs /\ fst e = y) by (assert (In y (map fst evs)) as X by (rewrite A; apply range_In; lia); apply in_map_iff in X; destruct X as (e & X1 & X2); exists e; split; assumption).
          destruct He as (e & He & <-). pose proof (A' e c x He Hc) as Q. rewrite (Gat c Hc) in Q. rewrite Q by lia. destruct (B e He) as [_ B2].
          rewrite B2; [|exact Hc|rewrite (Eth c Hc), (ratio_one c Hc), F1; clear - Hy; lia|rewrite (Etw c Hc); clear - Hx; lia]. fold i. rewrite (ratio_one c Hc), Z.div_1_r, (Eth c Hc), Z.min_l by (clear - Hy; lia). reflexivity.
        + pose proof (B' c y x Hc) as Q. rewrite (Gat c Hc) in Q. pose proof (xe_mono c (p' + 1) p Hc ltac:(lia)). rewrite Q by lia. apply I; try assumption; lia.
    Qed.

    Lemma band_step q st : 0 <= q < ny -> col_inv q st ->
      exists st', band_row raw fin mix s r tiles cb_h skip hi lo nx (fun c => fst (znth (0, 0) (map (fun c => (out_w s r c, out_h s r c)) (zseq (Csiz s))) c)) st q = ret st' /\ col_inv (q + 1) st'.
    Proof.
      intros Hq (I1 & I2 & I3). pose proof NC1 as N1. pose proof (proj1 (grid_pos s L)) as G1. fold nx in G1. unfold band_row. rewrite (geo_list 0 q) by lia. rewrite ret_bindx. cbv zeta.
      set (band := fun c : Z => let '(_, _, h) := znth (0, 0, 0) (map (fun c => (xe c 0 - xe c 0, xe c (0 + 1) - xe c 0, ye c (q + 1) - ye c q)) (zseq (Csiz s))) c in h).
      assert (Hb : forall c, 0 <= c < Csiz s -> band c = ye 0 (q + 1) - ye 0 q) by (intros c Hc; unfold band; rewrite (znth_map 0) by (rewrite zseq_len; lia); rewrite zseq_nth by lia; rewrite !(ye_one c) by exact Hc; reflexivity).
      destruct (foldx_inv (column raw fin mix s r tiles cb_h skip hi lo nx q (fun c => fst (znth (0, 0) (map (fun c => (out_w s r c, out_h s r c)) (zseq (Csiz s))) c)) band) (acc_inv q) nx (fun _ _ => blank)) as (acc & E & I).
      - lia.
      - intros p' c y x Hp'. lia.
      - intros p a Hp Ia. apply column_acc; [exact Hp|exact Hq| |exact Ia]. intros c Hc. split; [|apply Hb; exact Hc]. rewrite (znth_map 0) by (rewrite zseq_len; lia). rewrite zseq_nth by lia. reflexivity.
      - rewrite E, ret_bindx. exists (wrap32 (fst st + band 0), snd st ++ map (fun y => (wrap32 (fst st + y), map (fun c => acc c (if 0 <? band c then Z.min y (band c - 1) else 0)) (zseq (Csiz s)))) (zseq (band 0))). split; [reflexivity|]. destruct full_window as [F1 F2].
        pose proof (ye_small 0 ltac:(lia)) as S. pose proof (ye_mono 0 0 q ltac:(lia) ltac:(lia)) as M1.
        pose proof (ye_mono 0 q (q + 1) ltac:(lia) ltac:(lia)) as M2. pose proof (ye_mono 0 (q + 1) ny ltac:(lia) ltac:(lia)) as M3.
        rewrite (Hb 0) by lia. split; [|split]; cbn [fst snd].
        + rewrite I1. apply next_top. exact Hq.
        + rewrite map_app, <- (next_range q Hq). apply (f_equal2 (@app Z)); [exact I2|]. rewrite map_map, <- I1. cbn [fst]. rewrite F1. rewrite (Z.min_l (ye 0 (q + 1) - ye 0 q)) by lia.
          unfold range. rewrite map_map. rewrite Z.sub_0_r. apply map_ext. intros; f_equal; lia.
        + apply Forall_app. split; [exact I3|]. apply Forall_forall. intros e' He'. apply in_map_iff in He'. destruct He' as (y & <- & Hy). apply zseq_In in Hy.
          split; cbn [fst snd]; [rewrite zlen_map, zseq_len by lia; reflexivity|]. intros c u v Hc Hu Hv K. destruct (small_row q y Hq Hy) as [Sm W]. rewrite I1, Sm in Hv.
          rewrite (znth_map 0 blank) by (rewrite zseq_len; lia). rewrite zseq_nth by lia. rewrite (Hb c Hc). replace (0 <? ye 0 (q + 1) - ye 0 q) with true by (clear - Hy; lia). rewrite (Z.min_l y) by (clear - Hy; lia).
          destruct (goes_tile c q _ v Hq W Hv) as [B' C']. apply (shown_place c q y v Hq) in C'.
          assert (Pt : exists p, 0 <= p < nx /\ within (tile_columns s r c p) u) by (destruct (il_sub _ L c Hc) as [Sx _]; apply (part_found _ _ _ _ (il_x _ L) r _ Hr Sx); exact Hu).
          destruct Pt as (p & Hp & U). pose proof (decoded_at p q c u v Hp Hq U B') as D.
          assert (X : acc c y (u - fst (columns s r c)) = tv (p + q * nx) c (v - fst (tile_lines s r c q)) (u - fst (tile_columns s r c p))).
          { rewrite (columns_edges c p Hp) in *. rewrite columns_ends in *. unfold within in U. cbn [fst snd] in *. rewrite (I p c y) by (assumption || (clear - U; lia)).
            f_equal; [|clear; lia]. rewrite C'. rewrite (ratio_one c Hc), Z.div_1_r. rewrite (lines_edges c q Hq). unfold extent. cbn [fst snd]. rewrite !(ye_one c) by exact Hc. clear - Hy. lia. }
          rewrite X. exact D.
    Qed.
  End Wide.

  Lemma stream_exact maxr : r <= maxr -> (nx = 1 \/ forall c, 0 <= c < Csiz s -> sub_y s c = sub_y s 0) -> exists evs,
    invoke_line_based_stream raw fin mix s r tiles cb_h skip hi lo maxr = ret (map (fun c => (out_w s r c, out_h s r c)) (zseq (Csiz s)), evs) /\
    map fst evs = range lo (Z.min (extent (lines s r 0)) hi) /\ Forall whole_event evs.
  Proof.
    intros Hmax Hone. unfold invoke_line_based_stream. replace (maxr <? r) with false by lia.
    rewrite (tiles_along_exact _ _ _ _ (il_x _ L)), (tiles_along_exact _ _ _ _ (il_y _ L)). rewrite !ret_bindx. fold (cols_of_tiles s) (rows_of_tiles s). fold nx ny.
    pose proof (grid_pos s L) as [G1 G2]. pose proof (il_tiles _ L) as G3. fold nx in G1, G3. fold ny in G2, G3. rewrite wrap32_small by (rewrite two32_val; nia). replace (65535 <? nx * ny) with false by lia.
    rewrite (mapM_ok (out_size s r) (fun c => (out_w s r c, out_h s r c)) (zseq (Csiz s))) by (intros c Hc; apply out_size_exact; [assumption|assumption|apply zseq_In; assumption]).
    rewrite ret_bindx.
    assert (I0 : col_inv 0 (0, [])) by (split; [cbn [fst]; lia|]; split; [cbn [snd map]; rewrite range_nil by lia; reflexivity|apply Forall_nil]).
    assert (R : exists st, (if nx =? 1 then foldx (one_column raw fin mix s r tiles cb_h skip hi lo) (0, []) (zseq ny)
        else foldx (band_row raw fin mix s r tiles cb_h skip hi lo nx (fun c => fst (znth (0, 0) (map (fun c => (out_w s r c, out_h s r c)) (zseq (Csiz s))) c))) (0, []) (zseq ny)) = ret st /\ col_inv ny st).
    { destruct (Z.eqb_spec nx 1) as [E|N].
      - apply foldx_inv; [lia|exact I0|]. intros q st Hq I. apply column_step; assumption.
      - destruct Hone as [E|Hs]; [contradiction (N E)|]. apply foldx_inv; [lia|exact I0|]. intros q st Hq I. apply band_step; assumption. }
    destruct R as ([g evs] & -> & (_ & A & B)). rewrite ret_bindx. exists evs. split; [reflexivity|]. cbn [snd] in A, B. split; [|exact B]. rewrite A, lines_ends. reflexivity.
  Qed.
End Image.

(** Every row of every component goes with some row of the first. *)
Lemma ceil_div_div a b d : 0 < b -> 0 < d -> ceil_div (ceil_div a b) d = ceil_div a (b * d).
Proof. intros Hb Hd. unfold ceil_div. rewrite Z.opp_involutive, Z.div_div by lia. reflexivity. Qed.
Lemma ratio_exact s r tiles c : image_legal s -> sampling_ok s tiles -> 0 <= c < Csiz s -> tile_fits s r (tiles 0) -> sub_y s c = sub_y s 0 * ratio s c /\ 1 <= ratio s c.
Proof.
  intros L [[E _]|[E T]] Hc (_ & _ & F); destruct (il_sub _ L c Hc) as [_ Sc]; destruct (il_n _ L) as [_ N1]; destruct (il_sub _ L 0 ltac:(lia)) as [_ S0]; unfold ratio.
  - rewrite E, Z.div_1_r. lia.
  - assert (sub_y s c = sub_y s 0) as Ec by (assert (c = 0 \/ 1 <= c <= 2) as [->|H] by lia; [reflexivity|apply (F (T 0) ltac:(lia) c H)]).
    rewrite Ec, Z.div_same by lia. lia.
Qed.
Lemma row_found s r c v : image_legal s -> 0 <= r <= 31 -> 0 <= c < Csiz s -> sub_y s c = sub_y s 0 * ratio s c -> 1 <= ratio s c -> within (lines s r c) v ->
  exists y, 0 <= y < extent (lines s r 0) /\ goes_with s r c y v.
Proof.
  intros L Hr Hc Ec H1 Hv. destruct (il_n _ L) as [_ N1]. destruct (il_sub _ L c Hc) as [_ Sc]. destruct (il_sub _ L 0 ltac:(lia)) as [_ S0]. pose proof (pow_r r Hr) as Pr.
  destruct (proj1 (part_found _ _ _ _ (il_y _ L) r _ Hr Sc v) Hv) as (q & Hq & Hin). change (within (tile_lines s r c q) v) in Hin.
  set (k := v - fst (tile_lines s r c q)). set (y := fst (tile_lines s r 0 q) + k * ratio s c - fst (lines s r 0)).
  assert (E : forall t, ceil_div (ceil_div t (sub_y s c)) (2 ^ r) = ceil_div (ceil_div (ceil_div t (sub_y s 0)) (2 ^ r)) (ratio s c)).
  { intros t. rewrite !ceil_div_div by lia. f_equal. rewrite Ec. ring. }
  assert (Ef : fst (tile_lines s r c q) = ceil_div (fst (tile_lines s r 0 q)) (ratio s c)) by (cbn; apply E).
  assert (Es : snd (tile_lines s r c q) = ceil_div (snd (tile_lines s r 0 q)) (ratio s c)) by (cbn; apply E).
  assert (B : fst (tile_lines s r 0 q) <= ceil_div (fst (tile_lines s r 0 q)) (ratio s c) * ratio s c /\ (ceil_div (snd (tile_lines s r 0 q)) (ratio s c) - 1) * ratio s c < snd (tile_lines s r 0 q)).
  { generalize (fst (tile_lines s r 0 q)) (snd (tile_lines s r 0 q)). intros a b. unfold ceil_div. generalize dependent (ratio s c). intros p _ Hp _ _. split.
    - pose proof (Z.mul_div_le (- a) p ltac:(lia)). nia.
    - pose proof (Z.mod_pos_bound (- b) p ltac:(lia)). pose proof (Z.div_mod (- b) p ltac:(lia)). nia. }
  assert (W : within (tile_lines s r 0 q) (fst (tile_lines s r 0 q) + k * ratio s c)) by (unfold within in *; unfold k in *; nia).
  assert (Z0 : within (lines s r 0) (fst (tile_lines s r 0 q) + k * ratio s c)) by (apply (proj2 (part_found _ _ _ _ (il_y _ L) r _ Hr S0 _)); exists q; split; [exact Hq|exact W]).
  exists y. split; [unfold y, extent, within in *; lia|]. exists q. split; [exact Hq|].
  replace (fst (lines s r 0) + y) with (fst (tile_lines s r 0 q) + k * ratio s c) by (unfold y; lia). split; [exact W|]. split; [exact Hin|].
  replace (fst (tile_lines s r 0 q) + k * ratio s c - fst (tile_lines s r 0 q)) with (k * ratio s c) by lia. rewrite Z.div_mul by lia.
  unfold extent, within, k in *. lia.
Qed.

(** C76.  The callback is called once for each row of the first component in
    the window, in order, with one row per component, and what it is given is
    the image.  Missing: more than one column of tiles together with vertical
    subsampling, and a window on an image of several tiles. *)
Theorem C76_rows_in_order_partial : forall raw fin mix s r tiles cb_h skip lo hi maxr,
  image_legal s -> 0 <= r <= 31 -> r <= maxr -> Csiz s <= 16 ->
  let use i := as_decoded skip (tiles i) in
  (forall i, 0 <= i < cols_of_tiles s * rows_of_tiles s -> tile_fits s r (use i)) ->
  (forall i, 0 <= cb_h i <= 1024) -> sampling_ok s use ->
  0 <= lo < 2 ^ 32 -> 0 <= hi -> (forall c, 0 <= c < Csiz s -> (ratio s c | lo)) ->
  (cols_of_tiles s = 1 /\ rows_of_tiles s = 1 \/ lo = 0 /\ 2 ^ 31 <= hi) ->
  (cols_of_tiles s = 1 \/ forall c, 0 <= c < Csiz s -> sub_y s c = sub_y s 0) ->
  exists sizes evs, invoke_line_based_stream raw fin mix s r tiles cb_h skip hi lo maxr = ret (sizes, evs) /\
    map fst evs = map (fun i => lo + i) (zseq (Z.min (extent (lines s r 0)) hi - lo)) /\
    forall y rows, In (y, rows) evs -> zlen rows = Csiz s /\
      forall c u v, 0 <= c < Csiz s -> within (columns s r c) u -> goes_with s r c y v -> lo < extent (lines s r c) * ratio s c ->
        decoded raw fin mix s r use c u v (znth blank rows c (u - fst (columns s r c))).
Proof.
  intros raw fin mix s r tiles cb_h skip lo hi maxr L Hr Hmax HC use Hfit Hcb Hsub Hlo Hhi Hlod Hwin Hone. change (2 ^ 32) with two32 in Hlo. change (2 ^ 31) with 2147483648 in Hwin.
  destruct (stream_exact raw fin mix s r tiles cb_h skip lo hi L Hr HC Hfit Hcb Hsub Hlo Hhi Hlod Hwin maxr Hmax Hone) as (evs & E & A & B).
  eexists _, evs. split; [exact E|]. split; [exact A|]. intros y rows Hin. rewrite Forall_forall in B. exact (B (y, rows) Hin).
Qed.
Print Assumptions C76_rows_in_order_partial.

(** Without a window no sample is left out: each is in the row given with some
    row of the first component. *)
Theorem C76_every_sample_delivered_partial : forall raw fin mix s r tiles cb_h skip hi maxr,
  image_legal s -> 0 <= r <= 31 -> r <= maxr -> Csiz s <= 16 ->
  let use i := as_decoded skip (tiles i) in
  (forall i, 0 <= i < cols_of_tiles s * rows_of_tiles s -> tile_fits s r (use i)) ->
  (forall i, 0 <= cb_h i <= 1024) -> sampling_ok s use -> 2 ^ 31 <= hi ->
  (cols_of_tiles s = 1 \/ forall c, 0 <= c < Csiz s -> sub_y s c = sub_y s 0) ->
  exists sizes evs, invoke_line_based_stream raw fin mix s r tiles cb_h skip hi 0 maxr = ret (sizes, evs) /\
    forall c u v, 0 <= c < Csiz s -> within (columns s r c) u -> within (lines s r c) v ->
      exists y rows, In (y, rows) evs /\ decoded raw fin mix s r use c u v (znth blank rows c (u - fst (columns s r c))).
Proof.
  intros raw fin mix s r tiles cb_h skip hi maxr L Hr Hmax HC use Hfit Hcb Hsub Hhi Hone.
  destruct (C76_rows_in_order_partial raw fin mix s r tiles cb_h skip 0 hi maxr L Hr Hmax HC Hfit Hcb Hsub ltac:(lia) ltac:(lia) (fun c _ => Z.divide_0_r _) (or_intror (conj eq_refl Hhi)) Hone)
    as (sizes & evs & E & A & B).
  exists sizes, evs. split; [exact E|]. intros c u v Hc Hu Hv.
  destruct (grid_pos s L) as [G1 G2].
  destruct (ratio_exact s r use c L Hsub Hc (Hfit 0 ltac:(nia))) as [R1 R2]. destruct (row_found s r c v L Hr Hc R1 R2 Hv) as (y & Hy & Hg).
  destruct (il_n _ L) as [_ N1]. pose proof (whole_ok _ _ _ _ (il_y _ L) _ (proj2 (il_sub _ L 0 ltac:(lia)))) as W. pose proof (res_span_ok r _ ltac:(lia) W) as [Sa Sb].
  change (res_span r (comp_span (sub_y s 0) (YOsiz s, Ysiz s))) with (lines s r 0) in Sa, Sb.
  assert (X : In y (map fst evs)) by (rewrite A; apply in_map_iff; exists y; split; [lia|apply zseq_In; unfold extent in *; lia]).
  apply in_map_iff in X. destruct X as ([y' rows] & Ey & Hin). cbn [fst] in Ey. subst y'. exists y, rows. split; [exact Hin|].
  destruct (B y rows Hin) as [_ B2]. apply (B2 c u v Hc Hu Hg). unfold within, extent in *. nia.
Qed.
Print Assumptions C76_every_sample_delivered_partial.

(** What the callback sees, each row cut to [w] columns. *)
Definition seen (w : Z) (x : ex (list (Z * Z) * list event)) : option (list (Z * list (list Z))) :=
  match x with
  | Ret (Some (_, evs)) => Some (map (fun e : event => (fst e, map (fun f : row => map f (zseq w)) (snd e))) evs)
  | _ => None
  end.
Ltac legal := constructor;
  [constructor; cbn; lia|constructor; cbn; lia|split; [reflexivity|cbn; lia]
  |let c := fresh "c" in let Hc := fresh "Hc" in intros c Hc; apply zseq_In in Hc; cbn in Hc;
     repeat (destruct Hc as [<-|Hc]; [vm_compute; split; split; discriminate|]); destruct Hc
  |vm_compute; discriminate].
Ltac fits := intros; split; [reflexivity|]; split; [repeat (apply Forall_cons; [lia|]); apply Forall_nil|discriminate].

(** Two tiles one below the other, the third component with half the rows,
    at half resolution; and the last rows of a one-tile image. *)
Definition c76_siz : siz := Siz 0 4 14 0 0 4 8 0 0 3 [(7, 1, 1); (7, 2, 1); (7, 2, 2)].
Definition c76_raw (t c k n : Z) : Z := 1000 * t + 100 * c + 10 * k + n.
Definition c76_tile (n : nat) : tile_in := {| t_mct := false; t_NL := repeat 5 n |}.
Example C76_case :
  image_legal c76_siz /\ cols_of_tiles c76_siz = 1 /\ rows_of_tiles c76_siz = 2 /\
  (forall i : Z, tile_fits c76_siz 1 (as_decoded false (c76_tile 3))) /\ sampling_ok c76_siz (fun _ => as_decoded false (c76_tile 3)) /\
  seen 2 (invoke_line_based_stream c76_raw (fun _ v => v) (fun _ a _ _ => a) c76_siz 1 (fun _ => c76_tile 3) (fun _ => 32) false (2 ^ 32 - 1) 0 5) =
    Some [(0, [[0; 1]; [100; 0]; [200; 0]]); (1, [[10; 11]; [110; 0]; [200; 0]]); (2, [[20; 21]; [120; 0]; [210; 0]]); (3, [[30; 31]; [130; 0]; [210; 0]]);
          (4, [[1000; 1001]; [1100; 0]; [1200; 0]]); (5, [[1010; 1011]; [1110; 0]; [1200; 0]]); (6, [[1020; 1021]; [1120; 0]; [1210; 0]])] /\
  (forall c, 0 <= c < 3 -> (ratio c76_siz c | 4)) /\
  seen 2 (invoke_line_based_stream c76_raw (fun _ v => v) (fun _ a _ _ => a) (Siz 0 4 7 0 0 4 8 0 0 3 [(7, 1, 1); (7, 2, 1); (7, 2, 2)]) 0 (fun _ => c76_tile 3) (fun _ => 32) false 6 4 5) =
    Some [(4, [[40; 41]; [140; 141]; [220; 221]]); (5, [[50; 51]; [150; 151]; [220; 221]])].
Proof.
  split; [legal|]. split; [reflexivity|]. split; [reflexivity|]. split; [fits|]. split.
  { left. split; [reflexivity|]. intros c c' Hc Hc' Hle. cbn in Hc, Hc'.
    assert (c = 0 \/ c = 1 \/ c = 2) as [->|[->| ->]] by lia; assert (c' = 0 \/ c' = 1 \/ c' = 2) as [->|[->| ->]] by lia; vm_compute in Hle |- *; try (exfalso; apply Hle; reflexivity);
      first [exists 1; reflexivity|exists 2; reflexivity]. }
  split; [vm_compute; reflexivity|]. split; [intros c Hc; assert (c = 0 \/ c = 1 \/ c = 2) as [->|[->| ->]] by lia; [exists 4|exists 4|exists 2]; reflexivity|]. vm_compute. reflexivity.
Qed.

(** Seventeen components: the counts of rows are written past their array. *)
Theorem C76_many_components_refuted : exists s tiles, image_legal s /\ (forall i, tile_fits s 0 (tiles i)) /\
  invoke_line_based_stream (fun _ _ _ _ => 0) (fun _ v => v) (fun _ a _ _ => a) s 0 tiles (fun _ => 64) false (2 ^ 32 - 1) 0 5 = UB.
Proof. exists (Siz 0 1 1 0 0 1 1 0 0 17 (repeat (7, 1, 1) 17)), (fun _ => c76_tile 17). split; [legal|]. split; [fits|]. vm_compute. reflexivity. Qed.
Print Assumptions C76_many_components_refuted.

(** One component, subsampled vertically: each row of the upper half is given
    twice, and none of the lower half. *)
Theorem C76_subsampled_first_refuted : exists s tiles, image_legal s /\ (forall i, tile_fits s 0 (tiles i)) /\ lines s 0 0 = (0, 4) /\
  seen 1 (invoke_line_based_stream (fun _ _ k _ => k) (fun _ v => v) (fun _ a _ _ => a) s 0 tiles (fun _ => 64) false (2 ^ 32 - 1) 0 5) =
    Some [(0, [[0]]); (1, [[0]]); (2, [[1]]); (3, [[1]])].
Proof. exists (Siz 0 1 8 0 0 1 8 0 0 1 [(7, 1, 2)]), (fun _ => c76_tile 1). split; [legal|]. split; [fits|]. split; [reflexivity|]. vm_compute. reflexivity. Qed.
Print Assumptions C76_subsampled_first_refuted.

(** Factors 4 and 3: in the third strip row 43 of the last component is
    replaced by zeros. *)
Theorem C76_uneven_factors_refuted : exists s tiles, image_legal s /\ (forall i, tile_fits s 0 (tiles i)) /\ sub_y s 0 = 1 /\ goes_with s 0 2 129 43 /\
  option_map (fun l => znth (0, []) l 129) (seen 1 (invoke_line_based_stream (fun _ _ k _ => k) (fun _ v => v) (fun _ a _ _ => a) s 0 tiles (fun _ => 64) false (2 ^ 32 - 1) 0 5)) =
    Some (129, [[129]; [32]; [0]]).
Proof.
  exists (Siz 0 1 130 0 0 1 130 0 0 3 [(7, 1, 1); (7, 1, 4); (7, 1, 3)]), (fun _ => c76_tile 3). split; [legal|]. split; [fits|]. split; [reflexivity|]. split.
  { exists 0. vm_compute. repeat split; discriminate. }
  vm_compute. reflexivity.
Qed.
Print Assumptions C76_uneven_factors_refuted.

(** A window from an odd row: the subsampled component's first row is given
    as zeros. *)
Theorem C76_odd_window_refuted : exists s tiles, image_legal s /\ (forall i, tile_fits s 0 (tiles i)) /\ sampling_ok s tiles /\ goes_with s 0 1 3 1 /\
  seen 1 (invoke_line_based_stream (fun _ _ k _ => 100 + k) (fun _ v => v) (fun _ a _ _ => a) s 0 tiles (fun _ => 64) false (2 ^ 32 - 1) 3 5) =
    Some [(3, [[103]; [0]]); (4, [[104]; [102]]); (5, [[105]; [102]])].
Proof.
  exists (Siz 0 1 6 0 0 1 6 0 0 2 [(7, 1, 1); (7, 1, 2)]), (fun _ => c76_tile 2). split; [legal|]. split; [fits|]. split.
  { left. split; [reflexivity|]. intros c c' Hc Hc' Hle. cbn in Hc, Hc'.
    assert (c = 0 \/ c = 1) as [->| ->] by lia; assert (c' = 0 \/ c' = 1) as [->| ->] by lia; vm_compute in Hle |- *; try (exfalso; apply Hle; reflexivity);
      first [exists 1; reflexivity|exists 2; reflexivity]. }
  split; [exists 0; vm_compute; repeat split; discriminate|]. vm_compute. reflexivity.
Qed.
Print Assumptions C76_odd_window_refuted.

(** Two columns of tiles and a component with half the rows: from row 4 on its
    rows are one too high, and its last row is never given. *)
Theorem C76_tile_columns_refuted : exists s tiles, image_legal s /\ (forall i, tile_fits s 0 (tiles i)) /\ sampling_ok s tiles /\ goes_with s 0 1 4 2 /\ goes_with s 0 1 6 3 /\
  option_map (map (fun e => znth [] (snd e) 1)) (seen 2 (invoke_line_based_stream (fun t c k _ => 10 * t + k) (fun _ v => v) (fun _ a _ _ => a) s 0 tiles (fun _ => 64) false (2 ^ 32 - 1) 0 5)) =
    Some [[0; 10]; [0; 10]; [1; 11]; [1; 11]; [1; 11]; [1; 11]; [1; 11]; [1; 11]].
Proof.
  exists (Siz 0 2 8 0 0 1 8 0 0 2 [(7, 1, 1); (7, 1, 2)]), (fun _ => c76_tile 2). split; [legal|]. split; [fits|]. split.
  { left. split; [reflexivity|]. intros c c' Hc Hc' Hle. cbn in Hc, Hc'.
    assert (c = 0 \/ c = 1) as [->| ->] by lia; assert (c' = 0 \/ c' = 1) as [->| ->] by lia; vm_compute in Hle |- *; try (exfalso; apply Hle; reflexivity);
      first [exists 1; reflexivity|exists 2; reflexivity]. }
  split; [exists 0; vm_compute; repeat split; discriminate|]. split; [exists 0; vm_compute; repeat split; discriminate|]. vm_compute. reflexivity.
Qed.
Print Assumptions C76_tile_columns_refuted.

(** A limit of two rows on two tiles of four rows: rows 4 and 5 are given too. *)
Theorem C76_window_per_tile_refuted : exists s tiles, image_legal s /\ (forall i, tile_fits s 0 (tiles i)) /\ sampling_ok s tiles /\
  option_map (map fst) (seen 1 (invoke_line_based_stream (fun _ _ k _ => k) (fun _ v => v) (fun _ a _ _ => a) s 0 tiles (fun _ => 64) false 2 0 5)) = Some [0; 1; 4; 5].
Proof.
  exists (Siz 0 1 8 0 0 1 4 0 0 1 [(7, 1, 1)]), (fun _ => c76_tile 1). split; [legal|]. split; [fits|]. split.
  { left. split; [reflexivity|]. intros c c' Hc Hc' Hle. cbn in Hc, Hc'. assert (c = 0) as -> by lia. exists (sub_y (Siz 0 1 8 0 0 1 4 0 0 1 [(7, 1, 1)]) c'). assert (c' = 0) as -> by lia. reflexivity. }
  vm_compute. reflexivity.
Qed.
Print Assumptions C76_window_per_tile_refuted.
