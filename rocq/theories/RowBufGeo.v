(** The row buffer's subbands as the decoder cuts them (C81). *)
From Verif Require Import RowBufModel RowBufSpec Base BaseLemmas PrecinctModel PrecinctSpec PrecinctProofs GeoModel GeoSpec GeoProofs GeoProps.

Section Geo.
  Variables (NL r b : Z) (g : region) (lx ly cx cy : Z).
  Local Notation ax := (x_axis NL r b g lx cx).
  Local Notation ay := (y_axis NL r b g ly cy).
  Hypotheses (Ox : axis_ok ax) (Oy : axis_ok ay) (Hb : band_exists r b).
  Hypothesis Count : precincts ax * precincts ay < 2 ^ 32.
  Hypothesis Nx : fst (band_span ax) < snd (band_span ax).
  Hypothesis Ny : fst (band_span ay) < snd (band_span ay).

  Local Notation nbx := (nbx NL r b g lx cx).
  Local Notation nby := (nby NL r b g lx ly cx cy).
  Local Notation blk_of := (blk_of NL r b g lx ly cx cy).
  Local Notation band_of := (band_of NL r b g lx ly cx cy).
  Local Notation pb_of := (pb_of NL r b g lx ly cx cy).

  Definition prec_at (i : Z) : RowBufModel.pband := PB (pb_of i) (nbx i) (nby i) (map (blk_of i) (zseq (nbx i * nby i))).
  Definition the_band : sband :=
    SB band_of (stride band_of) (2 ^ cy) (map prec_at (zseq (precincts ax * precincts ay))).

  Lemma make_exact : make_band NL r b g lx ly (2 ^ cx) (2 ^ cy) = ret the_band.
  Proof using Ox Oy Hb Count.
    pose proof (lx_ok NL r b g lx ly cx cy Ox Oy) as (L1 & L2 & C1 & C2). unfold make_band.
    rewrite (res_exact NL r b g lx ly cx cy Ox Oy), ret_bindx.
    rewrite !shl1_exact by lia. rewrite !ret_bindx. cbn [res_of x0 y0 x1 y1].
    pose proof (precincts_exact ax Ox) as Px. pose proof (precincts_exact ay Oy) as Py. cbn [x_axis y_axis a_pp] in Px, Py.
    rewrite Px, ret_bindx, Py, ret_bindx, (band_region_exact NL r b g lx ly cx cy Ox Oy Hb), ret_bindx.
    assert (0 <= precincts ax) by (apply cells_nonneg; cbn; lia).
    assert (0 <= precincts ay) by (apply cells_nonneg; cbn; lia).
    rewrite wrap32_small by (rewrite two32_val; change (2 ^ 32) with 4294967296 in Count; nia). unfold the_band.
    destruct (Z.eqb_spec (precincts ax * precincts ay) 0) as [E|E].
    - rewrite E. reflexivity.
    - rewrite (mapM_ok _ prec_at); [reflexivity|].
      intros i Hi. apply zseq_In in Hi. unfold make_pband. fold (res_of NL r b g lx ly cx cy).
      rewrite (precinct_exact NL r b g lx ly cx cy Ox Oy i Hi), ret_bindx.
      rewrite (pband_region_exact NL r b g lx ly cx cy Ox Oy Hb i Hi), ret_bindx.
      assert (0 < precincts ax) by (eapply prod_pos; eassumption).
      destruct (pair_range (precincts ax) (precincts ay) i) as (P1 & P2 & _); [lia..|].
      destruct (pband_okay ax Ox _ P1) as [Kx Wx]. destruct (pband_okay ay Oy _ P2) as [Ky Wy].
      cbn [GeoProps.pb_of x0 y0 x1 y1].
      rewrite (blocks_exact (pband ax (i mod precincts ax)) cx C1 Kx), ret_bindx.
      rewrite (blocks_exact (pband ay (i / precincts ax)) cy C2 Ky), ret_bindx.
      destruct (blocks_list NL r b g lx ly cx cy Ox Oy i Hi) as (E1 & _). cbn [GeoProps.pb_of] in E1.
      rewrite E1, ret_bindx. reflexivity.
  Qed.

  Lemma block_at k : block the_band k -> exists i j, 0 <= i < precincts ax * precincts ay /\ 0 <= j < nbx i * nby i /\ k = blk_of i j.
  Proof.
    intros (p & Hp & Hk). cbn [the_band sb_prec] in Hp. apply in_map_iff in Hp as (i & <- & Hi). cbn [prec_at pb_blocks] in Hk.
    apply in_map_iff in Hk as (j & <- & Hj). apply zseq_In in Hi, Hj. exists i, j. auto.
  Qed.

  (** What C61 says about each code-block. *)
  Lemma block_spec k : block the_band k -> exists i u v, 0 <= i < precincts ax * precincts ay /\ inside (cb_pos k) u v /\
    forall u' v', inside (cb_pos k) u' v' <->
      in_band ax u' /\ in_band ay v' /\ precinct_of ax u' + precinct_of ay v' * precincts ax = i /\
      block_of ax u' = block_of ax u /\ block_of ay v' = block_of ay v.
  Proof using Ox Oy Hb.
    intros H. destruct (block_at k H) as (i & j & Hi & Hj & ->).
    destruct (band_blocks NL r b g lx ly cx cy Ox Oy Hb (Z.to_nat i) (map (blk_of i) (zseq (nbx i * nby i)))) as (_ & S & _).
    { rewrite nth_error_map, zseq_nth_error by exact Hi. cbn [option_map]. reflexivity. }
    destruct (S (blk_of i j)) as (u & v & I1 & I2); [apply in_map, zseq_In; exact Hj|].
    exists i, u, v. rewrite Z2Nat.id in I2 by lia. auto.
  Qed.

  Lemma block_corners k : block the_band k ->
    x0 (cb_pos k) < x1 (cb_pos k) /\ y0 (cb_pos k) < y1 (cb_pos k) /\
    fst (band_span ax) <= x0 (cb_pos k) /\ x1 (cb_pos k) <= snd (band_span ax) /\
    fst (band_span ay) <= y0 (cb_pos k) /\ y1 (cb_pos k) <= snd (band_span ay).
  Proof using Ox Oy Hb.
    intros H. destruct (block_spec k H) as (i & u & v & Hi & Iu & S).
    assert (C1 : inside (cb_pos k) (x0 (cb_pos k)) (y0 (cb_pos k))) by (unfold inside in *; lia).
    assert (C2 : inside (cb_pos k) (x1 (cb_pos k) - 1) (y1 (cb_pos k) - 1)) by (unfold inside in *; lia).
    apply S in C1, C2. unfold in_band, inside in *. lia.
  Qed.

  (** Where code-blocks begin and end inside the subband. *)
  Lemma differ_div v e : 0 < e -> v / e <> (v - 1) / e -> v mod e = 0.
  Proof.
    intros He D. pose proof (Z.mod_pos_bound v e He) as M. destruct (Z.eq_dec (v mod e) 0) as [E|E]; [exact E|exfalso]. apply D.
    pose proof (Z.div_mod v e ltac:(lia)). apply Z.div_unique with (v mod e - 1); lia.
  Qed.
  Lemma cut_at v w : in_band ay v -> in_band ay (v - 1) -> v mod 2 ^ block_log ay <> 0 ->
    precinct_of ay v = precinct_of ay (v - 1) /\ block_of ay v = block_of ay (v - 1) + w - w.
  Proof using Oy.
    intros H1 H2 D. destruct Oy as [_ Hr _ Hp Hc].
    assert (P0 : 0 <= band_pp ay) by (unfold band_pp; destruct (Z.eqb_spec (a_r ay) 0); lia).
    assert (L0 : 0 <= block_log ay <= band_pp ay) by (unfold block_log; lia).
    assert (E1 : 0 < 2 ^ block_log ay) by (apply Z.pow_pos_nonneg; lia).
    assert (E2 : block_of ay v = block_of ay (v - 1)).
    { unfold block_of. destruct (Z.eq_dec (v / 2 ^ block_log ay) ((v - 1) / 2 ^ block_log ay)) as [E|E]; [exact E|].
      destruct (D (differ_div v _ E1 E)). }
    split; [|lia]. unfold precinct_of, block_of in *. f_equal.
    replace (band_pp ay) with (block_log ay + (band_pp ay - block_log ay)) by lia. rewrite Z.pow_add_r by lia.
    rewrite <- !Z.div_div by (try lia; apply Z.pow_pos_nonneg; lia). rewrite E2. reflexivity.
  Qed.

  Lemma block_low k : block the_band k -> y1 (cb_pos k) < snd (band_span ay) -> y1 (cb_pos k) mod 2 ^ block_log ay = 0.
  Proof using Ox Oy Hb.
    intros H L. destruct (Z.eq_dec (y1 (cb_pos k) mod 2 ^ block_log ay) 0) as [E|E]; [exact E|exfalso].
    pose proof (block_corners k H) as (A1 & A2 & A3 & A4 & A5 & A6).
    destruct (block_spec k H) as (i & u & v & Hi & Iu & S).
    destruct (proj1 (S (x0 (cb_pos k)) (y1 (cb_pos k) - 1)) ltac:(unfold inside; lia)) as (B1 & B2 & B3 & B4 & B5).
    destruct (cut_at (y1 (cb_pos k)) 0) as [C1 C2]; [unfold in_band; lia|exact B2|exact E|].
    assert (X : inside (cb_pos k) (x0 (cb_pos k)) (y1 (cb_pos k))); [|unfold inside in X; lia].
    apply S. split; [exact B1|]. split; [unfold in_band; lia|]. rewrite C1. split; [exact B3|]. split; [exact B4|lia].
  Qed.
  Lemma block_high k : block the_band k -> fst (band_span ay) < y0 (cb_pos k) -> y0 (cb_pos k) mod 2 ^ block_log ay = 0.
  Proof using Ox Oy Hb.
    intros H L. destruct (Z.eq_dec (y0 (cb_pos k) mod 2 ^ block_log ay) 0) as [E|E]; [exact E|exfalso].
    pose proof (block_corners k H) as (A1 & A2 & A3 & A4 & A5 & A6).
    destruct (block_spec k H) as (i & u & v & Hi & Iu & S).
    destruct (proj1 (S (x0 (cb_pos k)) (y0 (cb_pos k))) ltac:(unfold inside; lia)) as (B1 & B2 & B3 & B4 & B5).
    destruct (cut_at (y0 (cb_pos k)) 0) as [C1 C2]; [exact B2|unfold in_band; lia|exact E|].
    assert (X : inside (cb_pos k) (x0 (cb_pos k)) (y0 (cb_pos k) - 1)); [|unfold inside in X; lia].
    apply S. split; [exact B1|]. split; [unfold in_band; lia|]. rewrite <- C1. split; [exact B3|]. split; [exact B4|lia].
  Qed.

  (** A code-block does not cross a multiple of the height given. *)
  Lemma block_cell k v v' : block the_band k -> y0 (cb_pos k) <= v < y1 (cb_pos k) -> y0 (cb_pos k) <= v' < y1 (cb_pos k) ->
    v / 2 ^ cy = v' / 2 ^ cy.
  Proof using Ox Oy Hb.
    intros H Hv Hv'. pose proof (block_corners k H) as (A1 & A2 & A3 & A4 & A5 & A6).
    destruct (block_at k H) as (i & j & Hi & Hj & ->). unfold GeoProps.blk_of, blk_pos in Hv, Hv'. cbn [cb_pos y0 y1] in Hv, Hv'.
    apply (blk_in ay Oy _ _ _ (Hy0 NL r b g ly cy Hb)) in Hv. apply (blk_in ay Oy _ _ _ (Hy0 NL r b g ly cy Hb)) in Hv'.
    cbn [a_cb y_axis] in Hv, Hv'. destruct Hv as (_ & _ & E1), Hv' as (_ & _ & E2). congruence.
  Qed.

  Lemma p2 : 0 < 2 ^ cy.
  Proof using Ox Oy. pose proof (lx_ok NL r b g lx ly cx cy Ox Oy). apply Z.pow_pos_nonneg; lia. Qed.

  Lemma grid_at i : 0 <= i < precincts ax * precincts ay -> grid_ok (2 ^ cy) (prec_at i).
  Proof using Ox Oy Hb.
    intros Hi. pose proof (lx_ok NL r b g lx ly cx cy Ox Oy) as (L1 & L2 & C1 & C2).
    destruct (blocks_list NL r b g lx ly cx cy Ox Oy i Hi) as (_ & Bx & By).
    assert (N0 : 0 <= precincts ax) by (apply cells_nonneg; cbn; lia).
    assert (0 < precincts ax) by (eapply prod_pos; eassumption).
    destruct (pair_range (precincts ax) (precincts ay) i) as (P1 & P2 & _); [lia..|].
    destruct (pband_okay ay Oy _ P2) as [[K1 K2] _].
    unfold grid_ok. cbn [prec_at pb_nx pb_ny pb_pos pb_blocks GeoProps.pb_of y0 y1].
    split; [exact Bx|]. split; [exact By|]. split.
    { unfold zlen. rewrite map_length. apply zseq_len. nia. }
    change (nby i) with (cells (pband ay (i / precincts ax)) cy). change (nby i) with (cells (pband ay (i / precincts ax)) cy) in By.
    set (ab := pband ay (i / precincts ax)) in *. set (P := 2 ^ cy). assert (HP : 0 < P) by exact p2.
    set (f := fst ab / P).
    assert (Hf : P * f <= fst ab < P * f + P).
    { unfold f. pose proof (Z.div_mod (fst ab) P ltac:(lia)). pose proof (Z.mod_pos_bound (fst ab) P HP). lia. }
    assert (Cell : forall q, 0 <= q < cells ab cy -> fst ab < snd ab /\ P * (f + q) < snd ab).
    { intros q Hq. pose proof (cell_nonempty ab cy q ltac:(lia) Hq) as W. unfold cell in W. cbn [fst snd] in W. fold P in W. fold f in W. lia. }
    assert (Step : forall q, 0 <= q -> P * (f + (q + 1)) = P * (f + q) + P /\ P * f <= P * (f + q) /\ P * (f + q) = P * f + q * P).
    { clear - HP. intros q Hq. nia. }
    exists (fun q => Z.min (snd ab) (Z.max (fst ab) (P * (f + q)))). split; [nia|]. split; [|split].
    - intros Hn. assert (Hc : 0 < cells ab cy) by nia. unfold cells in Hc |- *. fold P in Hc |- *. fold f in Hc |- *.
      destruct (Z.ltb_spec (fst ab) (snd ab)) as [L|L]; [|lia]. unfold ceil_div.
      pose proof (Z.div_mod (- snd ab) P ltac:(lia)). pose proof (Z.mod_pos_bound (- snd ab) P HP).
      assert (snd ab <= P * (f + (- (- snd ab / P) - f))) by nia. lia.
    - intros q Hq. destruct (Cell q Hq) as [W1 W2]. pose proof (Step q ltac:(lia)) as W3. clear - Hf W1 W2 W3. lia.
    - intros q c k Hq Hc Hk. destruct (Cell q Hq) as [W1 W2].
      apply nth_map_z in Hk as [Rk ->]. rewrite Z2Nat.id by nia. unfold GeoProps.blk_of, blk_pos. cbn [cb_pos y0 y1].
      replace (q * nbx i + c) with (c + q * nbx i) by lia. destruct (div_pair (nbx i) c q) as [_ ->]; [lia|lia|].
      unfold blk, cell. cbn [fst snd a_cb y_axis]. fold ab. fold P. fold f.
      pose proof (Step q ltac:(lia)) as W3. replace (f + q + 1) with (f + (q + 1)) by (clear; lia). clear - Hf W1 W2 W3. lia.
  Qed.

  Lemma the_band_ok : band_ok the_band.
  Proof using Ox Oy Hb Nx Ny.
    pose proof (band_okay ax Ox (Hx0 NL r b g lx cx Hb)) as [X1 X2].
    pose proof (band_okay ay Oy (Hy0 NL r b g ly cy Hb)) as [Y1 Y2].
    constructor.
    - exact p2.
    - cbn [the_band sb_pos GeoProps.band_of y0 y1]. lia.
    - cbn [the_band sb_pos GeoProps.band_of x0 x1]. lia.
    - cbn [the_band sb_pos sb_stride]. apply stride_bounds; cbn [GeoProps.band_of x0 x1]; lia.
    - intros p Hp. cbn [the_band sb_prec sb_cbh] in *. apply in_map_iff in Hp as (i & <- & Hi). apply zseq_In in Hi. apply grid_at, Hi.
    - intros k Hk. pose proof (block_corners k Hk). cbn [the_band sb_pos GeoProps.band_of x0 x1 y0 y1]. lia.
    - intros x y Hi. cbn [the_band sb_pos] in Hi. unfold inside in Hi. cbn [GeoProps.band_of x0 x1 y0 y1] in Hi.
      assert (Ux : in_band ax x) by (unfold in_band; lia). assert (Uy : in_band ay y) by (unfold in_band; lia).
      pose proof (precinct_range ax Ox x (Hx0 NL r b g lx cx Hb) Ux) as Rx. pose proof (precinct_range ay Oy y (Hy0 NL r b g ly cy Hb) Uy) as Ry.
      set (i := precinct_of ax x + precinct_of ay y * precincts ax).
      assert (Hi2 : 0 <= i < precincts ax * precincts ay) by (unfold i; nia).
      destruct (band_blocks NL r b g lx ly cx cy Ox Oy Hb (Z.to_nat i) (map (blk_of i) (zseq (nbx i * nby i)))) as (C & _).
      { rewrite nth_error_map, zseq_nth_error by exact Hi2. reflexivity. }
      destruct (proj1 (C x y)) as (k & Hk & Ik).
      { split; [exact Ux|]. split; [exact Uy|]. rewrite Z2Nat.id by lia. reflexivity. }
      exists k. split; [|exact Ik]. exists (prec_at i). split; [apply in_map, zseq_In; exact Hi2|exact Hk].
    - intros k k' x y Hk Hk' I1 I2. destruct (block_at k Hk) as (i & j & Hi & Hj & ->). destruct (block_at k' Hk') as (i' & j' & Hi' & Hj' & ->).
      assert (N0 : 0 <= precincts ax) by (apply cells_nonneg; pose proof (lx_ok NL r b g lx ly cx cy Ox Oy); cbn; lia).
      assert (Pp : 0 < precincts ax) by (eapply prod_pos; eassumption).
      destruct (pair_range (precincts ax) (precincts ay) i) as (P1 & P2 & P3); [lia..|].
      destruct (pair_range (precincts ax) (precincts ay) i') as (P1' & P2' & P3'); [lia..|].
      destruct (blocks_list NL r b g lx ly cx cy Ox Oy i Hi) as (_ & Bx & By).
      unfold GeoProps.blk_of in I1, I2. cbn [cb_pos] in I1, I2. apply inside_blk in I1, I2.
      destruct I1 as [Iu Iv], I2 as [Iu' Iv'].
      apply (blk_in ax Ox _ _ _ (Hx0 NL r b g lx cx Hb)) in Iu, Iu'. apply (blk_in ay Oy _ _ _ (Hy0 NL r b g ly cy Hb)) in Iv, Iv'.
      destruct Iu as (_ & U1 & U2), Iu' as (_ & U1' & U2'), Iv as (_ & V1 & V2), Iv' as (_ & V1' & V2').
      assert (Em : i mod precincts ax = i' mod precincts ax) by congruence.
      assert (Ed : i / precincts ax = i' / precincts ax) by congruence.
      assert (Ei : i' = i) by (rewrite P3, P3', Em, Ed; reflexivity). subst i'. clear U1' V1' Em Ed.
      assert (0 < nbx i) by (eapply prod_pos; eassumption).
      destruct (pair_range (nbx i) (nby i) j) as (_ & _ & Q); [lia..|]. destruct (pair_range (nbx i) (nby i) j') as (_ & _ & Q'); [lia..|].
      assert (E1 : j mod nbx i = j' mod nbx i) by (rewrite U2 in U2'; exact (Z.add_reg_l _ _ _ U2')).
      assert (E2 : j / nbx i = j' / nbx i) by (rewrite V2 in V2'; exact (Z.add_reg_l _ _ _ V2')).
      f_equal. rewrite Q, Q', E1, E2. reflexivity.
  Qed.

  Lemma the_band_fits : aligned ay -> fits the_band.
  Proof using Ox Oy Hb Ny.
    intros Al k n Hk Hin. pose proof p2 as HP. pose proof (block_corners k Hk) as (A1 & A2 & A3 & A4 & A5 & A6).
    cbn [the_band sb_pos sb_cbh GeoProps.band_of y0] in Hin. unfold aligned in Al. cbn [a_cb y_axis] in Al.
    set (P := 2 ^ cy) in *. set (t := fst (band_span ay)) in *. destruct Al as [Al|Al].
    - pose proof (block_cell k (y0 (cb_pos k)) (t + n * P) Hk ltac:(lia) ltac:(lia)) as E. fold P in E.
      rewrite Z.div_add in E by lia. pose proof (Z.div_mod t P ltac:(lia)). pose proof (Z.mul_succ_div_gt (y0 (cb_pos k)) P HP).
      pose proof (Z.mul_div_le (y0 (cb_pos k)) P HP). nia.
    - assert (n <= 0 \/ 1 <= n) as [N|N] by lia; [nia|].
      pose proof (Z.div_mod t P ltac:(lia)). pose proof (Z.mod_pos_bound t P HP).
      pose proof (Z.div_mod (snd (band_span ay) - 1) P ltac:(lia)). pose proof (Z.mod_pos_bound (snd (band_span ay) - 1) P HP). nia.
  Qed.

  Lemma the_frame_ok F : aligned ay -> no_thin ay -> fails_inside the_band F -> frame_ok the_band F.
  Proof using Ox Oy Hb Ny.
    intros Al Nt Fi. split; [|exact Fi]. intros k f h Hk _ Odd Low.
    pose proof p2 as HP. pose proof (block_corners k Hk) as (A1 & A2 & A3 & A4 & A5 & A6).
    cbn [the_band sb_pos sb_cbh GeoProps.band_of y0 y1] in *. pose proof (block_low k Hk Low) as Lw.
    unfold aligned in Al. unfold no_thin in Nt. cbn [a_cb y_axis] in Al, Nt. set (P := 2 ^ cy) in *. set (t := fst (band_span ay)) in *.
    pose proof (Z.mod_pos_bound t P HP) as Mt. pose proof (Z.div_mod t P ltac:(lia)) as Dt.
    destruct Nt as [Nt|[Nt1 Nt2]].
    - unfold block_log in Lw. cbn [a_cb y_axis] in Lw. rewrite Z.min_l in Lw by exact Nt. fold P in Lw.
      pose proof (Z.div_mod (y1 (cb_pos k)) P ltac:(lia)) as Dy. destruct Al as [Al|Al].
      + exists (y1 (cb_pos k) / P - t / P). nia.
      + pose proof (Z.div_mod (snd (band_span ay) - 1) P ltac:(lia)). pose proof (Z.mod_pos_bound (snd (band_span ay) - 1) P HP).
        assert (y1 (cb_pos k) / P <= t / P) by nia. assert (t / P < y1 (cb_pos k) / P) by nia. lia.
    - exfalso. assert (Ev : forall v, v mod 2 ^ block_log ay = 0 -> Z.even v = true).
      { intros v Hv. pose proof (Z.div_mod v (2 ^ block_log ay) ltac:(pose proof (Z.pow_pos_nonneg 2 (block_log ay)); lia)) as D.
        rewrite D, Hv, Z.add_0_r, Z.even_mul, Z.even_pow by lia. reflexivity. }
      assert (Yt : Z.even (y0 (cb_pos k)) = true).
      { destruct (Z.eq_dec (y0 (cb_pos k)) t) as [E|E]; [|apply Ev, block_high; [exact Hk|fold t; lia]].
        rewrite E. assert (1 <= cy) by (unfold block_log in Nt2; cbn [a_cb y_axis] in Nt2; lia).
        rewrite Dt, Nt1, Z.add_0_r, Z.even_mul. unfold P. rewrite Z.even_pow by lia. reflexivity. }
      unfold hei in Odd. rewrite Z.odd_sub, <- !Z.negb_even, Yt, (Ev _ Lw) in Odd. discriminate.
  Qed.
End Geo.
