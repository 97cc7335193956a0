(** The code-blocks of a subband (C61). *)
From Verif Require Import Base BaseLemmas PrecinctModel PrecinctSpec PrecinctProofs GeoModel GeoSpec GeoProofs.

Lemma div_pair n i j : 0 < n -> 0 <= i < n -> (i + j * n) mod n = i /\ (i + j * n) / n = j.
Proof.
  intros Hn Hi. rewrite Z.mod_add, Z.div_add by lia. rewrite Z.mod_small, Z.div_small by lia. split; [reflexivity|lia].
Qed.
Lemma pair_range n m k : 0 < n -> 0 <= k < n * m -> 0 <= k mod n < n /\ 0 <= k / n < m /\ k = k mod n + k / n * n.
Proof.
  intros Hn Hk. pose proof (Z.mod_pos_bound k n Hn). pose proof (Z.div_mod k n ltac:(lia)).
  assert (k / n < m) by (apply floor_lt; lia). assert (0 <= k / n) by (apply Z.div_pos; lia). lia.
Qed.

Lemma prod_pos a c i : 0 <= a -> 0 <= i < a * c -> 0 < a.
Proof. intros Ha Hi. destruct (Z.eq_dec a 0) as [E|E]; [rewrite E in Hi; lia|lia]. Qed.

Section Band.
  Variables (NL r b : Z) (g : region) (lx ly cx cy : Z).
  Local Notation ax := (x_axis NL r b g lx cx).
  Local Notation ay := (y_axis NL r b g ly cy).
  Hypotheses (Ox : axis_ok ax) (Oy : axis_ok ay) (Hb : band_exists r b).
  Hypothesis Count : precincts ax * precincts ay < 2 ^ 32.

  Lemma Hx0 : a_r ax = 0 -> a_ob ax = 0.
  Proof. cbn. intros E. destruct Hb as [[_ B]|[? _]]; [now rewrite B|lia]. Qed.
  Lemma Hy0 : a_r ay = 0 -> a_ob ay = 0.
  Proof. cbn. intros E. destruct Hb as [[_ B]|[? _]]; [now rewrite B|lia]. Qed.

  Definition res_of : region := Reg (fst (level_span ax)) (fst (level_span ay)) (snd (level_span ax)) (snd (level_span ay)).
  Definition band_of : region := Reg (fst (band_span ax)) (fst (band_span ay)) (snd (band_span ax)) (snd (band_span ay)).

  Lemma res_exact : res_region NL r g = ret res_of.
  Proof.
    destruct (level_exact ax Ox) as (d & E & E1 & E2). destruct (level_exact ay Oy) as (d' & E' & E3 & E4).
    cbn [x_axis y_axis a_NL a_r a_span fst snd] in *. rewrite E in E'. apply ret_inj in E'. subst d'.
    unfold res_region. rewrite E, ret_bindx, E1, ret_bindx, E3, ret_bindx, E2, ret_bindx, E4, ret_bindx. reflexivity.
  Qed.

  Lemma band_region_exact : band_region NL r b g res_of = ret band_of.
  Proof.
    unfold band_region, band_of. destruct Hb as [[Hr B0]|[Hr Hbb]].
    - rewrite B0. cbn [Z.eqb]. unfold res_of, level_span, band_span. cbn [x_axis y_axis a_NL a_r a_span]. rewrite Hr. cbn [Z.eqb].
      now rewrite Z.sub_0_r.
    - replace (b =? 0) with false by lia. replace (r =? 0) with false by lia.
      destruct (ok_span _ Ox) as [X1 X2]. destruct (ok_span _ Oy) as [Y1 Y2]. cbn [x_axis y_axis a_span fst snd] in X1, X2, Y1, Y2.
      change (2 ^ 31) with 2147483648 in *.
      pose proof (fun p => band_exact ax Ox p Hr) as Bx. pose proof (fun p => band_exact ay Oy p Hr) as By.
      cbn [x_axis y_axis a_NL a_r a_ob] in Bx, By. unfold xob, yob.
      rewrite Bx, ret_bindx, By, ret_bindx, Bx, ret_bindx, By, ret_bindx by lia.
      unfold band_span. cbn [x_axis y_axis a_NL a_r a_ob a_span fst snd]. replace (r =? 0) with false by lia.
      cbn [fst snd]. replace (NL - r + 1 - 1) with (NL - r) by lia. reflexivity.
  Qed.

  Definition prec_of (i : Z) : region :=
    let cxs := cell (level_span ax) lx (i mod precincts ax) in
    let cys := cell (level_span ay) ly (i / precincts ax) in
    Reg (fst cxs) (fst cys) (snd cxs) (snd cys).
  Definition pb_of (i : Z) : region :=
    let p := pband ax (i mod precincts ax) in
    let q := pband ay (i / precincts ax) in
    Reg (fst p) (fst q) (snd p) (snd q).

  Lemma lx_ok : 0 <= lx <= 15 /\ 0 <= ly <= 15 /\ 0 <= cx <= 15 /\ 0 <= cy <= 15.
  Proof.
    pose proof (ok_pp _ Ox). pose proof (ok_pp _ Oy). pose proof (ok_cb _ Ox). pose proof (ok_cb _ Oy).
    cbn [x_axis y_axis a_pp a_cb] in *. lia.
  Qed.

  Lemma precinct_exact i : 0 <= i < precincts ax * precincts ay ->
    precinct_region res_of (2 ^ lx) (2 ^ ly) (precincts ax) i = ret (prec_of i).
  Proof.
    intros Hi. pose proof lx_ok as (L1 & L2 & _). unfold precinct_region.
    pose proof (pow2_15 lx L1). pose proof (pow2_15 ly L2). cbn [res_of x0 y0 x1 y1].
    rewrite !udiv_exact by lia. rewrite !ret_bindx.
    assert (0 <= precincts ax) by (apply cells_nonneg; cbn; lia).
    assert (0 < precincts ax) by (eapply prod_pos; eassumption). replace (precincts ax =? 0) with false by lia.
    destruct (pair_range (precincts ax) (precincts ay) i) as (P1 & P2 & _); [lia..|].
    destruct (cell_exact (level_span ax) lx (i mod precincts ax) L1 (level_okay ax Ox) P1) as [E1 E2].
    destruct (cell_exact (level_span ay) ly (i / precincts ax) L2 (level_okay ay Oy) P2) as [E3 E4].
    rewrite E1, E2, E3, E4. reflexivity.
  Qed.

  Lemma pband_region_exact i : 0 <= i < precincts ax * precincts ay ->
    pband_region b (prec_of i) = ret (pb_of i).
  Proof.
    intros Hi. pose proof lx_ok as (L1 & L2 & _).
    assert (0 <= precincts ax) by (apply cells_nonneg; cbn; lia).
    assert (0 < precincts ax) by (eapply prod_pos; eassumption).
    destruct (pair_range (precincts ax) (precincts ay) i) as (P1 & P2 & _); [lia..|].
    pose proof (level_okay ax Ox) as [X1 X2]. pose proof (level_okay ay Oy) as [Y1 Y2]. change (2 ^ 31) with 2147483648 in *.
    pose proof (cell_nonempty (level_span ax) lx _ ltac:(lia) P1) as Nx.
    pose proof (cell_nonempty (level_span ay) ly _ ltac:(lia) P2) as Ny.
    assert (Bx : fst (level_span ax) <= fst (cell (level_span ax) lx (i mod precincts ax)) /\ snd (cell (level_span ax) lx (i mod precincts ax)) <= snd (level_span ax))
      by (unfold cell; cbn [fst snd]; lia).
    assert (By : fst (level_span ay) <= fst (cell (level_span ay) ly (i / precincts ax)) /\ snd (cell (level_span ay) ly (i / precincts ax)) <= snd (level_span ay))
      by (unfold cell; cbn [fst snd]; lia).
    unfold pband_region, prec_of, pb_of, pband. cbn [x0 y0 x1 y1 x_axis y_axis a_r a_ob a_pp].
    set (p := cell (level_span ax) lx _) in *. set (q := cell (level_span ay) ly _) in *. clearbody p q.
    destruct Hb as [[Hr B0]|[Hr Hbb]].
    - rewrite Hr, B0. cbn [Z.eqb]. change (xob 0) with 0. change (yob 0) with 0.
      rewrite !cdiv_sub by lia. rewrite !ret_bindx, !Z.sub_0_r. unfold ceil_div. rewrite !Z.div_1_r, !Z.opp_involutive. reflexivity.
    - replace (b =? 0) with false by lia. replace (r =? 0) with false by lia. unfold xob, yob.
      assert (0 <= b mod 2 < 2) by (apply Z.mod_pos_bound; lia). assert (0 <= b / 2 < 2) by lia.
      rewrite !cdiv_sub by lia. rewrite !ret_bindx. reflexivity.
  Qed.

  Definition nbx (i : Z) : Z := cells (pband ax (i mod precincts ax)) cx.
  Definition nby (i : Z) : Z := cells (pband ay (i / precincts ax)) cy.
  Definition blk_pos (i k : Z) : region :=
    let p := blk ax (i mod precincts ax) (k mod nbx i) in
    let q := blk ay (i / precincts ax) (k / nbx i) in
    Reg (fst p) (fst q) (snd p) (snd q).
  Definition blk_of (i k : Z) : cblk :=
    let p := blk_pos i k in
    Cb p (wrap32 (sub32 (x0 p) (x0 band_of) + wrap32 (sub32 (y0 p) (y0 band_of) * stride band_of))).

  Lemma blocks_list i : 0 <= i < precincts ax * precincts ay ->
    code_blocks band_of (pb_of i) (2 ^ cx) (2 ^ cy) = ret (map (blk_of i) (zseq (nbx i * nby i))) /\
    0 <= nbx i /\ 0 <= nby i.
  Proof.
    intros Hi. pose proof lx_ok as (L1 & L2 & C1 & C2).
    assert (0 <= precincts ax) by (apply cells_nonneg; cbn; lia).
    assert (0 < precincts ax) by (eapply prod_pos; eassumption).
    destruct (pair_range (precincts ax) (precincts ay) i) as (P1 & P2 & _); [lia..|].
    destruct (pband_okay ax Ox _ P1) as [Kx Wx]. destruct (pband_okay ay Oy _ P2) as [Ky Wy].
    pose proof (cells_nonneg (pband ax (i mod precincts ax)) cx ltac:(lia)) as Nx. fold (nbx i) in Nx.
    pose proof (cells_nonneg (pband ay (i / precincts ax)) cy ltac:(lia)) as Ny. fold (nby i) in Ny.
    pose proof (cells_small (pband ax (i mod precincts ax)) cx 32768 ltac:(lia) Kx Wx) as Sx. fold (nbx i) in Sx.
    pose proof (cells_small (pband ay (i / precincts ax)) cy 32768 ltac:(lia) Ky Wy) as Sy. fold (nby i) in Sy.
    split; [|lia].
    unfold code_blocks. cbn [pb_of x0 y0 x1 y1].
    rewrite (blocks_exact (pband ax (i mod precincts ax)) cx C1 Kx), ret_bindx.
    rewrite (blocks_exact (pband ay (i / precincts ax)) cy C2 Ky), ret_bindx. fold (nbx i) (nby i).
    rewrite wrap32_small by (rewrite two32_val; nia).
    apply mapM_ok. intros k Hk. apply zseq_In in Hk.
    assert (0 < nbx i) by (eapply prod_pos; eassumption). unfold code_block. replace (nbx i =? 0) with false by lia.
    destruct (pair_range (nbx i) (nby i) k) as (Q1 & Q2 & _); [lia..|].
    pose proof (pow2_15 cx C1). pose proof (pow2_15 cy C2).
    cbn [pb_of x0 y0 x1 y1]. rewrite !udiv_exact by lia. rewrite !ret_bindx.
    destruct (cell_exact (pband ax (i mod precincts ax)) cx (k mod nbx i) C1 Kx Q1) as [E1 E2].
    destruct (cell_exact (pband ay (i / precincts ax)) cy (k / nbx i) C2 Ky Q2) as [E3 E4].
    rewrite E1, E2, E3, E4. reflexivity.
  Qed.

  Lemma create_exact :
    create_band NL r b g lx ly (2 ^ cx) (2 ^ cy) =
    ret (band_of, map (fun i => map (blk_of i) (zseq (nbx i * nby i))) (zseq (precincts ax * precincts ay))).
  Proof.
    pose proof lx_ok as (L1 & L2 & C1 & C2). unfold create_band. rewrite res_exact, ret_bindx.
    rewrite !shl1_exact by lia. rewrite !ret_bindx. cbn [res_of x0 y0 x1 y1].
    pose proof (precincts_exact ax Ox) as Px. pose proof (precincts_exact ay Oy) as Py. cbn [x_axis y_axis a_pp] in Px, Py.
    rewrite Px, ret_bindx, Py, ret_bindx, band_region_exact, ret_bindx.
    assert (0 <= precincts ax) by (apply cells_nonneg; cbn; lia).
    assert (0 <= precincts ay) by (apply cells_nonneg; cbn; lia).
    rewrite wrap32_small by (rewrite two32_val; change (2 ^ 32) with 4294967296 in Count; nia).
    destruct (Z.eqb_spec (precincts ax * precincts ay) 0) as [E|E].
    - rewrite E. reflexivity.
    - rewrite (mapM_ok _ (fun i => map (blk_of i) (zseq (nbx i * nby i)))); [reflexivity|].
      intros i Hi. apply zseq_In in Hi. fold res_of. rewrite precinct_exact, ret_bindx, pband_region_exact, ret_bindx by assumption.
      apply (blocks_list i Hi).
  Qed.

  Lemma inside_blk i k u v : inside (blk_pos i k) u v <->
    (fst (blk ax (i mod precincts ax) (k mod nbx i)) <= u < snd (blk ax (i mod precincts ax) (k mod nbx i))) /\
    (fst (blk ay (i / precincts ax) (k / nbx i)) <= v < snd (blk ay (i / precincts ax) (k / nbx i))).
  Proof. reflexivity. Qed.

  Lemma nth_map_z {A} (f : Z -> A) n k a : nth_error (map f (zseq n)) k = Some a -> 0 <= Z.of_nat k < n /\ a = f (Z.of_nat k).
  Proof.
    intros H. assert (k < length (zseq n))%nat as L.
    { rewrite <- (map_length f). apply nth_error_Some. congruence. }
    assert (0 <= Z.of_nat k < n) as R.
    { unfold zseq in L. rewrite map_length, seq_length in L. lia. }
    split; [assumption|]. rewrite nth_error_map, <- (Nat2Z.id k), zseq_nth_error in H by assumption.
    cbn in H. now inversion H.
  Qed.

  Lemma band_blocks p bs :
    nth_error (map (fun i => map (blk_of i) (zseq (nbx i * nby i))) (zseq (precincts ax * precincts ay))) p = Some bs ->
    (forall u v, in_band ax u /\ in_band ay v /\ precinct_of ax u + precinct_of ay v * precincts ax = Z.of_nat p <->
       exists k, In k bs /\ inside (cb_pos k) u v) /\
    (forall k, In k bs -> exists u v, inside (cb_pos k) u v /\
       forall u' v', inside (cb_pos k) u' v' <->
         in_band ax u' /\ in_band ay v' /\
         precinct_of ax u' + precinct_of ay v' * precincts ax = Z.of_nat p /\
         block_of ax u' = block_of ax u /\ block_of ay v' = block_of ay v) /\
    raster bs.
  Proof.
    intros Hn. apply nth_map_z in Hn as [Hp ->]. set (i := Z.of_nat p) in *. clearbody i.
    assert (Nx : 0 <= precincts ax) by (apply cells_nonneg; pose proof lx_ok; cbn; lia).
    assert (0 < precincts ax) by (eapply prod_pos; eassumption).
    destruct (pair_range (precincts ax) (precincts ay) i) as (P1 & P2 & P3); [lia..|].
    destruct (blocks_list i Hp) as (_ & Bx & By).
    assert (Split : forall u v, in_band ax u -> in_band ay v ->
      (precinct_of ax u + precinct_of ay v * precincts ax = i <-> precinct_of ax u = i mod precincts ax /\ precinct_of ay v = i / precincts ax)).
    { intros u v Hu Hv. pose proof (precinct_range ax Ox u Hx0 Hu) as R. split.
      - intros <-. destruct (div_pair (precincts ax) (precinct_of ax u) (precinct_of ay v)) as [-> ->]; auto.
      - intros [-> ->]. lia. }
    split; [|split].
    - intros u v. split.
      + intros (Hu & Hv & E). apply (Split u v Hu Hv) in E as [E1 E2].
        destruct (blk_cover ax Ox _ u Hx0 Hu E1) as (j & Hj & Ij). destruct (blk_cover ay Oy _ v Hy0 Hv E2) as (m & Hm & Im).
        change (cells (pband ax (i mod precincts ax)) (a_cb ax)) with (nbx i) in Hj.
        change (cells (pband ay (i / precincts ax)) (a_cb ay)) with (nby i) in Hm.
        exists (blk_of i (j + m * nbx i)). split; [apply in_map, zseq_In; nia|].
        destruct (div_pair (nbx i) j m) as [D1 D2]; [lia|lia|].
        unfold blk_of. cbn [cb_pos]. apply inside_blk. rewrite D1, D2. split; assumption.
      + intros (k & Hk & I). apply in_map_iff in Hk as (j & <- & Hj). unfold blk_of in I. cbn [cb_pos] in I.
        apply inside_blk in I as [Iu Iv]. apply (blk_in ax Ox _ _ _ Hx0) in Iu as (U1 & U2 & _).
        apply (blk_in ay Oy _ _ _ Hy0) in Iv as (V1 & V2 & _). split; [assumption|]. split; [assumption|].
        apply (Split u v U1 V1). split; assumption.
    - intros k Hk. apply in_map_iff in Hk as (j & <- & Hj). apply zseq_In in Hj.
      assert (0 < nbx i) by (eapply prod_pos; eassumption). destruct (pair_range (nbx i) (nby i) j) as (Q1 & Q2 & _); [lia..|].
      destruct (blk_some ax Ox _ _ Hx0 Q1) as (u & U1 & U2). destruct (blk_some ay Oy _ _ Hy0 Q2) as (v & V1 & V2).
      exists u, v. unfold blk_of. cbn [cb_pos]. split; [apply inside_blk; split; assumption|].
      intros u' v'. rewrite inside_blk, U2, V2. split.
      + intros ((A1 & A2 & A3) & (B1 & B2 & B3)). split; [assumption|]. split; [assumption|].
        split; [apply (Split u' v' A1 B1); split; assumption|]. split; assumption.
      + intros (A1 & B1 & E & A3 & B3). apply (Split u' v' A1 B1) in E as [A2 B2].
        split; (split; [assumption|split; assumption]).
    - intros j j' a c Hlt Ha Hc. apply nth_map_z in Ha as [Rj ->]. apply nth_map_z in Hc as [Rj' ->].
      assert (0 < nbx i) by (eapply prod_pos; eassumption). unfold blk_of. cbn [cb_pos blk_pos x0 y0].
      destruct (pair_range (nbx i) (nby i) (Z.of_nat j)) as (Q1 & Q2 & Q3); [lia..|].
      destruct (pair_range (nbx i) (nby i) (Z.of_nat j')) as (Q1' & Q2' & Q3'); [lia..|].
      pose proof lx_ok as (_ & _ & C1 & C2).
      assert (Z.of_nat j / nbx i < Z.of_nat j' / nbx i \/
              Z.of_nat j / nbx i = Z.of_nat j' / nbx i /\ Z.of_nat j mod nbx i < Z.of_nat j' mod nbx i) as [D|[D1 D2]] by nia.
      + left. unfold blk. apply cell_mono; [cbn; lia|lia|]. exact (proj2 Q2').
      + right. rewrite D1. split; [reflexivity|]. unfold blk. apply cell_mono; [cbn; lia|lia|]. exact (proj2 Q1').
  Qed.
End Band.

(** Each subband is cut into the precincts and code-blocks of the standard:
    precinct by precinct, every coefficient of the precinct is in a code-block,
    a code-block holds exactly the coefficients of one code-block of the
    standard, none is empty, and they come in raster order. *)
Theorem C61_code_blocks : forall NL r b g lx ly cx cy,
  let ax := x_axis NL r b g lx cx in
  let ay := y_axis NL r b g ly cy in
  axis_ok ax -> axis_ok ay -> band_exists r b -> precincts ax * precincts ay < 2 ^ 32 ->
  exists band blocks, create_band NL r b g lx ly (2 ^ cx) (2 ^ cy) = ret (band, blocks) /\
    (forall u v, inside band u v <-> in_band ax u /\ in_band ay v) /\
    zlen blocks = precincts ax * precincts ay /\
    forall p bs, nth_error blocks p = Some bs ->
      (forall u v, in_band ax u /\ in_band ay v /\ precinct_of ax u + precinct_of ay v * precincts ax = Z.of_nat p <->
         exists k, In k bs /\ inside (cb_pos k) u v) /\
      (forall k, In k bs -> exists u v, inside (cb_pos k) u v /\
         forall u' v', inside (cb_pos k) u' v' <->
           in_band ax u' /\ in_band ay v' /\
           precinct_of ax u' + precinct_of ay v' * precincts ax = Z.of_nat p /\
           block_of ax u' = block_of ax u /\ block_of ay v' = block_of ay v) /\
      raster bs.
Proof.
  intros NL r b g lx ly cx cy ax ay Ox Oy Hb Hc. eexists. eexists.
  split; [apply create_exact; assumption|]. split; [intros u v; reflexivity|].
  split; [|intros p bs Hp; apply (band_blocks NL r b g lx ly cx cy Ox Oy Hb p bs Hp)].
  unfold zlen at 1. rewrite map_length. apply zseq_len.
  apply Z.mul_nonneg_nonneg; apply cells_nonneg; [pose proof (ok_pp _ Ox)|pose proof (ok_pp _ Oy)]; lia.
Qed.
Print Assumptions C61_code_blocks.

Definition demo : region := Reg 5 3 45 35.
Example C61_case :
  axis_ok (x_axis 2 1 3 demo 2 4) /\ axis_ok (y_axis 2 1 3 demo 3 2) /\ band_exists 1 3 /\
  precincts (x_axis 2 1 3 demo 2 4) = 6 /\ precincts (y_axis 2 1 3 demo 3 2) = 3 /\
  band_span (x_axis 2 1 3 demo 2 4) = (1, 11) /\ band_span (y_axis 2 1 3 demo 3 2) = (1, 9) /\
  (exists band l, create_band 2 1 3 demo 2 3 16 4 = ret (band, l) /\
     map (fun bs => zlen bs) l = repeat 1 18 /\
     nth_error l 7 = Some [Cb (Reg 2 4 4 8) (1 + 3 * 32)]).
Proof.
  split; [constructor; cbn; lia|]. split; [constructor; cbn; lia|]. split; [right; lia|].
  split; [reflexivity|]. split; [reflexivity|]. split; [reflexivity|]. split; [reflexivity|].
  eexists. eexists. split; [vm_compute; reflexivity|]. split; reflexivity.
Qed.

(** ** Where the coefficients of a code-block are stored *)

Lemma stride_bounds g : 0 <= x0 g <= x1 g -> x1 g <= 2 ^ 31 -> x1 g - x0 g <= stride g < x1 g - x0 g + 32.
Proof.
  intros H1 H2. change (2 ^ 31) with 2147483648 in *. unfold stride, sub32.
  rewrite (wrap32_small (x1 g - x0 g)) by (rewrite two32_val; lia). rewrite wrap32_small by (rewrite two32_val; lia). lia.
Qed.

(** Every code-block's coefficient is stored at the place in the subband's
    buffer that its position in the subband says, inside the buffer. *)
Theorem C61_addresses : forall NL r b g lx ly cx cy band blocks,
  let ax := x_axis NL r b g lx cx in
  let ay := y_axis NL r b g ly cy in
  axis_ok ax -> axis_ok ay -> band_exists r b -> precincts ax * precincts ay < 2 ^ 32 ->
  create_band NL r b g lx ly (2 ^ cx) (2 ^ cy) = ret (band, blocks) ->
  stride band * (y1 band - y0 band) < 2 ^ 32 ->
  x1 band - x0 band <= stride band /\
  forall bs k u v, In bs blocks -> In k bs -> inside (cb_pos k) u v ->
    cb_off k + (u - x0 (cb_pos k)) + (v - y0 (cb_pos k)) * stride band
      = (u - x0 band) + (v - y0 band) * stride band /\
    0 <= (u - x0 band) + (v - y0 band) * stride band < band_samples band.
Proof.
  intros NL r b g lx ly cx cy band blocks ax ay Ox Oy Hb Hc E Hs.
  pose proof (create_exact NL r b g lx ly cx cy Ox Oy Hb Hc) as E'. rewrite E in E'. apply ret_inj in E'.
  pose proof (f_equal fst E') as Eb. pose proof (f_equal snd E') as El. cbn [fst snd] in Eb, El. clear E E'.
  pose proof (band_okay ax Ox (Hx0 NL r b g lx cx Hb)) as [X1 X2].
  pose proof (band_okay ay Oy (Hy0 NL r b g ly cy Hb)) as [Y1 Y2].
  assert (Bx : x0 band = fst (band_span ax) /\ x1 band = snd (band_span ax)) by (subst band; split; reflexivity).
  assert (By : y0 band = fst (band_span ay) /\ y1 band = snd (band_span ay)) by (subst band; split; reflexivity).
  pose proof (stride_bounds band ltac:(lia) ltac:(lia)) as S.
  split; [lia|]. intros bs k u v Hbs Hk Hi.
  rewrite El in Hbs. apply In_nth_error in Hbs as (p & Hp).
  destruct (band_blocks NL r b g lx ly cx cy Ox Oy Hb p bs Hp) as (Cov & _ & _).
  assert (Hcorner : inside (cb_pos k) (x0 (cb_pos k)) (y0 (cb_pos k))) by (unfold inside in *; lia).
  pose proof (proj2 (Cov _ _) (ex_intro _ k (conj Hk Hcorner))) as (C1 & C2 & _).
  pose proof (proj2 (Cov u v) (ex_intro _ k (conj Hk Hi))) as (I1 & I2 & _).
  unfold in_band in *. fold ax in C1, I1. fold ay in C2, I2. unfold inside in Hi. change (2 ^ 31) with 2147483648 in *. change (2 ^ 32) with 4294967296 in *.
  apply nth_map_z in Hp as [Hp ->]. apply in_map_iff in Hk as (j & <- & Hj).
  unfold blk_of in *. cbn [cb_pos cb_off] in *. set (q := blk_pos _ _ _ _ _ _ _ _ _ _) in *. rewrite <- Eb.
  clearbody q. unfold sub32.
  assert (R : (y0 q - y0 band) * stride band + stride band <= stride band * (y1 band - y0 band)) by nia.
  rewrite (wrap32_small (x0 q - x0 band)), (wrap32_small (y0 q - y0 band)) by (rewrite two32_val; lia).
  rewrite (wrap32_small ((y0 q - y0 band) * stride band)) by (rewrite two32_val; nia).
  rewrite wrap32_small by (rewrite two32_val; nia).
  unfold band_samples. split; [lia|nia].
Qed.
Print Assumptions C61_addresses.

(** ** Resolutions and subbands *)

(** The samples of a resolution are those of the next lower one, at the even
    positions, and those of its three subbands: each belongs to exactly the
    one its parities say. *)
Theorem C61_interleave : forall NL r g x y,
  let b := x mod 2 + 2 * (y mod 2) in
  axis_ok (x_axis NL r b g 1 0) -> axis_ok (y_axis NL r b g 1 0) -> 0 < r ->
  exists res low band, res_region NL r g = ret res /\ res_region NL (r - 1) g = ret low /\
    band_region NL r b g res = ret band /\
    (inside res x y <-> inside (if b =? 0 then low else band) (x / 2) (y / 2)).
Proof.
  intros NL r g x y b Ox Oy Hr.
  assert (Hm : 0 <= x mod 2 < 2 /\ 0 <= y mod 2 < 2) by (split; apply Z.mod_pos_bound; lia).
  assert (Eb : b mod 2 = x mod 2 /\ b / 2 = y mod 2) by (unfold b; lia).
  exists (res_of NL r b g 1 1 0 0).
  assert (Lx : axis_ok (x_axis NL (r - 1) b g 1 0)).
  { destruct Ox as [A1 A2 A3 A4 A5]. cbn [x_axis a_span a_NL a_r a_ob a_pp a_cb] in *. constructor; cbn [x_axis a_span a_NL a_r a_ob a_pp a_cb]; auto; lia. }
  assert (Ly : axis_ok (y_axis NL (r - 1) b g 1 0)).
  { destruct Oy as [A1 A2 A3 A4 A5]. cbn [y_axis a_span a_NL a_r a_ob a_pp a_cb] in *. constructor; cbn [y_axis a_span a_NL a_r a_ob a_pp a_cb]; auto; lia. }
  exists (res_of NL (r - 1) b g 1 1 0 0).
  destruct (Z.eqb_spec b 0) as [Z0|N0].
  - exists (res_of NL r b g 1 1 0 0).
    split; [apply res_exact; assumption|]. split; [apply res_exact; assumption|].
    split; [unfold band_region; now rewrite (proj2 (Z.eqb_eq b 0) Z0)|].
    unfold inside, res_of, level_span. cbn [x0 y0 x1 y1 x_axis y_axis a_span a_NL a_r].
    assert (G : forall t0 t1 z, z mod 2 = 0 ->
      (fst (res_span (NL - r) (t0, t1)) <= z < snd (res_span (NL - r) (t0, t1)) <->
       fst (res_span (NL - (r - 1)) (t0, t1)) <= z / 2 < snd (res_span (NL - (r - 1)) (t0, t1)))).
    { intros t0 t1 z Hz. unfold res_span. cbn [fst snd]. pose proof (ok_r _ Ox) as Hr2. cbn in Hr2.
      replace (NL - (r - 1)) with (NL - r + 1) by lia.
      pose proof (band_nested t0 (NL - r) 0 ltac:(lia)) as B0. pose proof (band_nested t1 (NL - r) 0 ltac:(lia)) as B1.
      rewrite Z.mul_0_r, (Z.sub_0_r t0) in B0. rewrite Z.mul_0_r, (Z.sub_0_r t1) in B1. rewrite <- B0, <- B1.
      rewrite half_in. replace (2 * (z / 2) + 0) with z by lia. reflexivity. }
    rewrite (G (x0 g) (x1 g) x) by lia. rewrite (G (y0 g) (y1 g) y) by lia. reflexivity.
  - exists (band_of NL r b g 1 1 0 0).
    assert (Hb : band_exists r b) by (right; unfold b in *; lia).
    split; [apply res_exact; assumption|]. split; [apply res_exact; assumption|].
    split; [apply band_region_exact; assumption|].
    pose proof (in_band_lift _ Ox (x / 2) (Hx0 NL r b g 1 0 Hb)) as Ix.
    pose proof (in_band_lift _ Oy (y / 2) (Hy0 NL r b g 1 0 Hb)) as Iy.
    unfold lift in Ix, Iy. cbn [x_axis y_axis a_r a_ob] in Ix, Iy. rewrite (proj2 (Z.eqb_neq r 0)) in Ix, Iy by lia.
    replace (2 * (x / 2) + b mod 2) with x in Ix by lia. replace (2 * (y / 2) + b / 2) with y in Iy by lia.
    unfold inside, res_of, band_of. cbn [x0 y0 x1 y1]. unfold in_band in Ix, Iy. rewrite Ix, Iy. reflexivity.
Qed.
Print Assumptions C61_interleave.
Example C61_interleave_case : axis_ok (x_axis 2 1 3 demo 1 0) /\ axis_ok (y_axis 2 1 3 demo 1 0) /\
  res_region 2 1 demo = ret (Reg 3 2 23 18) /\ band_region 2 1 3 demo (Reg 3 2 23 18) = ret (Reg 1 1 11 9) /\
  inside (Reg 3 2 23 18) 7 9 /\ inside (Reg 1 1 11 9) 3 4.
Proof.
  split; [constructor; cbn; lia|]. split; [constructor; cbn; lia|]. split; [reflexivity|]. split; [reflexivity|].
  unfold inside; cbn; lia.
Qed.

(** ** Tiles *)

(** Every sample of a component of the image belongs to exactly one tile, and
    tiles hold no other samples. *)
Theorem C61_tiles : forall size origin tsize torigin sub n,
  axis_legal size origin tsize torigin -> 1 <= sub <= 255 ->
  let holds t := exists lo hi, cdiv (tile_lo torigin tsize origin t) sub = ret lo /\
                   cdiv (tile_hi torigin tsize size t) sub = ret hi /\ lo <= n < hi in
  (ceil_div origin sub <= n < ceil_div size sub <->
   exists t, 0 <= t < tiles size torigin tsize /\ holds t) /\
  (forall t t', 0 <= t < tiles size torigin tsize -> 0 <= t' < tiles size torigin tsize ->
    holds t -> holds t' -> t = t').
Proof.
  intros size origin tsize torigin sub n L Hsub holds.
  assert (H : forall t, 0 <= t < tiles size torigin tsize ->
    (holds t <-> (torigin + t * tsize <= n * sub < torigin + (t + 1) * tsize /\ origin <= n * sub < size))).
  { intros t Ht. pose proof (tile_span_ok size origin tsize torigin t L Ht) as S. cbv zeta in S.
    unfold holds. rewrite (tile_lo_exact size origin tsize torigin t L Ht), (tile_hi_exact size origin tsize torigin t L Ht).
    unfold tile_span in *. cbn [fst snd] in *. change (2 ^ 31) with 2147483648 in *.
    rewrite !cdiv_exact by (rewrite ?two32_val; lia). split.
    - intros (lo & hi & E1 & E2 & B). apply ret_inj in E1, E2. subst lo hi. destruct B as [B1 B2].
      apply ceil_le in B1; [|lia]. apply ceil_lt in B2; [|lia]. lia.
    - intros B. eexists. eexists. split; [reflexivity|]. split; [reflexivity|].
      split; [apply ceil_le; lia|apply ceil_lt; lia]. }
  destruct L as [L1 L2 L3 L4]. split; [split|].
  - intros [B1 B2]. apply ceil_le in B1; [|lia]. apply ceil_lt in B2; [|lia].
    set (t := (n * sub - torigin) / tsize).
    assert (torigin + t * tsize <= n * sub < torigin + (t + 1) * tsize).
    { unfold t. pose proof (Z.div_mod (n * sub - torigin) tsize ltac:(lia)). pose proof (Z.mod_pos_bound (n * sub - torigin) tsize ltac:(lia)). nia. }
    assert (Ht : 0 <= t < tiles size torigin tsize).
    { split; [unfold t; apply Z.div_pos; lia|]. unfold tiles. apply ceil_lt; lia. }
    exists t. split; [assumption|]. apply H; [assumption|]. lia.
  - intros (t & Ht & Hh). apply (H t Ht) in Hh. split; [apply ceil_le; lia|apply ceil_lt; lia].
  - intros t t' Ht Ht' A B. apply (H t Ht) in A. apply (H t' Ht') in B. nia.
Qed.
Print Assumptions C61_tiles.
Example C61_tiles_case : axis_legal 100 5 40 2 /\ tiles 100 2 40 = 3 /\
  cdiv (tile_lo 2 40 5 1) 2 = ret 21 /\ cdiv (tile_hi 2 40 100 1) 2 = ret 41.
Proof. split; [constructor; lia|]. repeat split. Qed.

(** Beyond 2^31 the counts wrap: an interval of nine samples, all in one
    precinct, just below 2^32 is given over four thousand million precincts. *)
Theorem C61_far_refuted : exists a, a_span a = (2 ^ 32 - 10, 2 ^ 32 - 1) /\ precincts a = 1 /\
  precincts_along (fst (level_span a)) (snd (level_span a)) (2 ^ a_pp a) = ret 4294836225.
Proof.
  exists {| a_span := (2 ^ 32 - 10, 2 ^ 32 - 1); a_NL := 0; a_r := 0; a_ob := 0; a_pp := 15; a_cb := 6 |}. repeat split.
Qed.
Print Assumptions C61_far_refuted.

(** ** The encoder's samples (C62) *)

(** The caller passes each component as a row-major array holding the samples
    of the image area: columns ceil(XOsiz/XRsiz) to ceil(Xsiz/XRsiz), and rows
    likewise.  The index of sample (x, y) in it. *)
Definition sample_index (xsiz xosiz yosiz xr yr x y : Z) : Z :=
  (y - ceil_div yosiz yr) * (ceil_div xsiz xr - ceil_div xosiz xr) + (x - ceil_div xosiz xr).

(** Without subsampling, or with the image at the origin and a width that the
    subsampling divides, the encoder takes every sample of a tile-component
    from its place. *)
Theorem C62_sample_source_partial : forall xsiz ysiz xosiz yosiz xr yr g i,
  0 <= xosiz < xsiz -> xsiz < 2 ^ 31 -> 0 <= yosiz < ysiz -> ysiz < 2 ^ 31 -> 1 <= xr <= 255 -> 1 <= yr <= 255 ->
  (xr = 1 /\ yr = 1 \/ xosiz = 0 /\ yosiz = 0 /\ (xr | xsiz)) ->
  ceil_div xosiz xr <= x0 g <= x1 g -> x1 g <= ceil_div xsiz xr ->
  ceil_div yosiz yr <= y0 g -> y0 g + i < y1 g -> y1 g <= ceil_div ysiz yr -> 0 <= i ->
  (ceil_div ysiz yr - ceil_div yosiz yr) * (ceil_div xsiz xr - ceil_div xosiz xr) < 2 ^ 32 ->
  row_source xsiz xosiz yosiz xr g i =
    ret (sample_index xsiz xosiz yosiz xr yr (x0 g) (y0 g + i), x1 g - x0 g).
Proof.
  intros xsiz ysiz xosiz yosiz xr yr g i HX HX2 HY HY2 Hxr Hyr Hc Hx Hx1 Hy Hi Hy1 Hi0 Hn.
  unfold row_source, component_stride. rewrite udiv_exact by lia. rewrite !ret_bindx.
  change (2 ^ 31) with 2147483648 in *. change (2 ^ 32) with 4294967296 in *.
  assert (E : xsiz / xr - xosiz = ceil_div xsiz xr - ceil_div xosiz xr /\ ceil_div xosiz xr = xosiz /\ ceil_div yosiz yr = yosiz).
  { destruct Hc as [[-> ->]|(-> & -> & (q & ->))].
    - unfold ceil_div. rewrite !Z.div_1_r. lia.
    - unfold ceil_div. replace (- (q * xr)) with (- q * xr) by lia. rewrite !Z.div_mul by lia.
      change (- 0) with 0. rewrite !Z.div_0_l by lia. lia. }
  destruct E as (E1 & E2 & E3). unfold sub32. unfold sample_index. rewrite E2, E3 in *.
  assert (0 <= xsiz / xr) by (apply Z.div_pos; lia).
  assert (xsiz / xr <= xsiz) by (apply Z.div_le_upper_bound; nia).
  set (w := ceil_div xsiz xr - xosiz) in *.
  pose proof (ceil_le_self xsiz xr ltac:(lia) ltac:(lia)). pose proof (ceil_le_self ysiz yr ltac:(lia) ltac:(lia)).
  rewrite (wrap32_small (xsiz / xr - xosiz)) by (rewrite two32_val; lia). rewrite E1.
  rewrite (wrap32_small (y0 g - yosiz)), (wrap32_small (x1 g - x0 g)) by (rewrite two32_val; lia).
  assert (0 <= w) by lia.
  assert ((y0 g - yosiz) * w < 4294967296).
  { eapply Z.le_lt_trans; [|exact Hn]. apply Z.mul_le_mono_nonneg_r; lia. }
  rewrite wrap32_small by (rewrite two32_val; nia).
  match goal with |- ret (?a, _) = ret (?c, _) => replace a with c by ring end. reflexivity.
Qed.
Print Assumptions C62_sample_source_partial.
Example C62_case : exists g, g = Reg 44 7 60 9 /\ row_source 60 4 3 1 g 1 = ret (5 * 56 + 40, 16) /\
  sample_index 60 4 3 1 1 44 8 = 5 * 56 + 40.
Proof. eexists. split; [reflexivity|]. split; reflexivity. Qed.

(** An odd width halved: three samples a row, but the rows are taken two
    apart; the second row starts with the last sample of the first. *)
Theorem C62_odd_width_refuted : exists g, g = Reg 0 0 3 2 /\
  row_source 5 0 0 2 g 1 = ret (2, 3) /\ sample_index 5 0 0 2 2 0 1 = 3.
Proof. eexists. split; [reflexivity|]. split; reflexivity. Qed.
Print Assumptions C62_odd_width_refuted.

(** Subsampling with an image away from the origin: the first sample is taken
    from before the start of the array. *)
Theorem C62_origin_refuted : exists g, g = Reg 1 0 4 3 /\
  row_source 8 2 0 2 g 0 = ret (-1, 3) /\ sample_index 8 2 0 2 2 1 0 = 0.
Proof. eexists. split; [reflexivity|]. split; reflexivity. Qed.
Print Assumptions C62_origin_refuted.
