(** Lemmas for GeoProps.v. *)
From Verif Require Import Base BaseLemmas PrecinctModel PrecinctSpec PrecinctProofs GeoModel GeoSpec.

(** ** Cells of an interval *)

(** Cell [q] as an interval. *)
Definition cell (ab : Z * Z) (pp q : Z) : Z * Z :=
  (Z.max (fst ab) (2 ^ pp * (q + fst ab / 2 ^ pp)), Z.min (snd ab) (2 ^ pp * (q + 1 + fst ab / 2 ^ pp))).

Lemma cell_in ab pp q n : 0 <= pp -> fst (cell ab pp q) <= n < snd (cell ab pp q) <-> in_cell ab pp q n.
Proof.
  intros Hp. unfold in_cell, cell. cbn [fst snd]. destruct ab as [a b]. cbn [fst snd].
  pose proof (Z.pow_pos_nonneg 2 pp ltac:(lia) Hp) as HP. set (P := 2 ^ pp) in *. clearbody P.
  set (o := a / P). clearbody o.
  assert (K : n / P = o + q <-> P * (q + o) <= n < P * (q + 1 + o)).
  { split; intros H.
    - assert (o + q <= n / P) as A by lia. assert (n / P < o + q + 1) as B by lia.
      apply floor_ge in A; [|lia]. apply floor_lt in B; [|lia]. nia.
    - assert (o + q <= n / P) by (apply floor_ge; nia). assert (n / P < o + q + 1) by (apply floor_lt; nia). lia. }
  rewrite K. lia.
Qed.
Lemma cell_nonempty ab pp q : 0 <= pp -> 0 <= q < cells ab pp -> fst (cell ab pp q) < snd (cell ab pp q).
Proof.
  intros Hp Hq. apply (cells_iff ab pp q Hp) in Hq as (n & Hn). apply (cell_in ab pp q n Hp) in Hn. lia.
Qed.
Lemma cell_mono ab pp q q' : 0 <= pp -> 0 <= q < q' -> q' < cells ab pp -> fst (cell ab pp q) < fst (cell ab pp q').
Proof.
  intros Hp Hq Hq'. pose proof (cell_nonempty ab pp q Hp ltac:(lia)) as N. unfold cell in *. cbn [fst snd] in *.
  pose proof (Z.pow_pos_nonneg 2 pp ltac:(lia) Hp). nia.
Qed.

(** The code's expressions for a cell do not wrap. *)
Lemma cell_exact ab pp q : 0 <= pp <= 15 -> span_ok ab -> 0 <= q < cells ab pp ->
  wrap32 (2 ^ pp * wrap32 (q + fst ab / 2 ^ pp)) = 2 ^ pp * (q + fst ab / 2 ^ pp) /\
  wrap32 (2 ^ pp * wrap32 (q + 1 + fst ab / 2 ^ pp)) = 2 ^ pp * (q + 1 + fst ab / 2 ^ pp).
Proof.
  intros Hp [S1 S2] Hq. pose proof (pow2_15 pp Hp) as HP. pose proof (cell_nonempty ab pp q ltac:(lia) Hq) as N.
  unfold cell in N. cbn [fst snd] in N. change (2 ^ 31) with 2147483648 in *.
  assert (0 <= fst ab / 2 ^ pp) by (apply Z.div_pos; lia).
  set (P := 2 ^ pp) in *. set (o := fst ab / P) in *. clearbody P o.
  assert (P * (q + o) < 2147483648) by lia. assert (P * (q + 1 + o) = P * (q + o) + P) by lia.
  assert (q + 1 + o <= P * (q + 1 + o)) by nia.
  rewrite (wrap32_small (q + o)), (wrap32_small (q + 1 + o)) by (rewrite two32_val; nia).
  rewrite !wrap32_small by (rewrite two32_val; nia). split; reflexivity.
Qed.

(** ** Subband intervals *)

(** A coefficient and the position of its sample in the resolution. *)
Definition lift (a : axis_geo) (u : Z) : Z := if a_r a =? 0 then u else 2 * u + a_ob a.

Lemma half_in lo hi ob u : ceil_div (lo - ob) 2 <= u < ceil_div (hi - ob) 2 <-> lo <= 2 * u + ob < hi.
Proof.
  rewrite (ceil_le (lo - ob) 2 u) by lia. rewrite (ceil_lt (hi - ob) 2 u) by lia. lia.
Qed.

Lemma band_nested p n ob : 0 <= n -> ceil_div (ceil_div p (2 ^ n) - ob) 2 = ceil_div (p - 2 ^ n * ob) (2 ^ (n + 1)).
Proof.
  intros Hn. pose proof (Z.pow_pos_nonneg 2 n ltac:(lia) Hn) as HP.
  replace (ceil_div p (2 ^ n) - ob) with (ceil_div (p - 2 ^ n * ob) (2 ^ n)).
  - rewrite ceil_ceil by lia. f_equal. rewrite Z.pow_add_r by lia. reflexivity.
  - unfold ceil_div. replace (- (p - 2 ^ n * ob)) with (- p + ob * 2 ^ n) by lia. rewrite Z.div_add by lia. lia.
Qed.

Section Axis.
  Variable a : axis_geo.
  Hypothesis Ok : axis_ok a.

  Lemma span_okay : span_ok (a_span a).
  Proof. destruct Ok. unfold span_ok. lia. Qed.
  Lemma level_okay : span_ok (level_span a).
  Proof. destruct Ok. apply res_span_ok; [lia|exact span_okay]. Qed.

  (** The subband's coefficients are those whose samples lie in the resolution. *)
  Lemma in_band_lift u : (a_r a = 0 -> a_ob a = 0) -> in_band a u <-> fst (level_span a) <= lift a u < snd (level_span a).
  Proof.
    intros H0. unfold in_band, band_span, level_span, lift. destruct Ok as [Hs Hr Ho _ _].
    destruct (Z.eqb_spec (a_r a) 0) as [E|E].
    - rewrite E, Z.sub_0_r. reflexivity.
    - cbn [fst snd]. replace (a_NL a - a_r a + 1 - 1) with (a_NL a - a_r a) by lia.
      unfold res_span. cbn [fst snd]. rewrite <- !band_nested by lia. apply half_in.
  Qed.

  Lemma band_okay : (a_r a = 0 -> a_ob a = 0) -> span_ok (band_span a).
  Proof.
    intros H0. unfold band_span. destruct (Z.eqb_spec (a_r a) 0) as [E|E].
    - destruct Ok. apply res_span_ok; [lia|exact span_okay].
    - pose proof level_okay as [L1 L2]. unfold level_span, res_span in *. cbn [fst snd] in *. destruct Ok as [Hs Hr Ho _ _].
      replace (a_NL a - a_r a + 1 - 1) with (a_NL a - a_r a) by lia.
      rewrite <- !band_nested by lia. set (p := ceil_div (fst (a_span a)) _) in *. set (q := ceil_div (snd (a_span a)) _) in *.
      unfold span_ok. cbn [fst snd]. unfold ceil_div. change (2 ^ 31) with 2147483648 in *.
      clearbody p q. destruct Ho as [-> | ->]; lia.
  Qed.

  (** Precinct of a coefficient, read off its sample. *)
  Lemma lift_precinct u : lift a u / 2 ^ a_pp a = u / 2 ^ band_pp a.
  Proof.
    unfold lift, band_pp. destruct Ok as [Hs Hr Ho Hp _]. destruct (Z.eqb_spec (a_r a) 0) as [E|E]; [reflexivity|].
    replace (2 ^ a_pp a) with (2 * 2 ^ (a_pp a - 1)) by (rewrite <- Z.pow_succ_r by lia; f_equal; lia).
    pose proof (Z.pow_pos_nonneg 2 (a_pp a - 1) ltac:(lia) ltac:(lia)).
    rewrite <- Z.div_div by lia. f_equal. destruct Ho as [-> | ->]; lia.
  Qed.

  (** The part of a precinct in the subband. *)
  Definition pband (i : Z) : Z * Z :=
    let c := cell (level_span a) (a_pp a) i in
    if a_r a =? 0 then c else (ceil_div (fst c - a_ob a) 2, ceil_div (snd c - a_ob a) 2).

  Lemma pband_in i u : (a_r a = 0 -> a_ob a = 0) ->
    fst (pband i) <= u < snd (pband i) <-> in_band a u /\ precinct_of a u = i.
  Proof.
    intros H0. rewrite in_band_lift by assumption.
    assert (precinct_of a u = i <-> lift a u / 2 ^ a_pp a = fst (level_span a) / 2 ^ a_pp a + i) as ->.
    { unfold precinct_of. rewrite lift_precinct. lia. }
    change (fst (level_span a) <= lift a u < snd (level_span a) /\ lift a u / 2 ^ a_pp a = fst (level_span a) / 2 ^ a_pp a + i)
      with (in_cell (level_span a) (a_pp a) i (lift a u)).
    rewrite <- cell_in by (destruct Ok; lia). unfold pband, lift. destruct (a_r a =? 0); [reflexivity|]. cbn [fst snd]. apply half_in.
  Qed.

  Lemma pband_okay i : 0 <= i < precincts a -> span_ok (pband i) /\ snd (pband i) - fst (pband i) <= 32768.
  Proof.
    intros Hi. pose proof level_okay as [L1 L2]. destruct Ok as [Hs Hr Ho Hp _].
    pose proof (cell_nonempty (level_span a) (a_pp a) i ltac:(lia) Hi) as N.
    pose proof (pow2_15 (a_pp a) ltac:(lia)) as P15.
    assert (W : snd (cell (level_span a) (a_pp a) i) - fst (cell (level_span a) (a_pp a) i) <= 32768).
    { unfold cell. cbn [fst snd]. nia. }
    assert (B : fst (level_span a) <= fst (cell (level_span a) (a_pp a) i) /\ snd (cell (level_span a) (a_pp a) i) <= snd (level_span a)).
    { unfold cell. cbn [fst snd]. lia. }
    unfold pband. set (c := cell _ _ _) in *. clearbody c. change (2 ^ 31) with 2147483648 in *.
    destruct (a_r a =? 0); unfold span_ok; cbn [fst snd]; change (2 ^ 31) with 2147483648; [lia|].
    unfold ceil_div. destruct Ho as [-> | ->]; lia.
  Qed.

  (** Code-block [j] of precinct [i]. *)
  Definition blk (i j : Z) : Z * Z := cell (pband i) (a_cb a) j.

  (** Two coefficients of one precinct are in the same cell of the code-block
      size as signalled exactly when they are in the same code-block. *)
  Lemma same_block u u' : precinct_of a u = precinct_of a u' ->
    (u / 2 ^ a_cb a = u' / 2 ^ a_cb a <-> block_of a u = block_of a u').
  Proof.
    unfold precinct_of, block_of, block_log. intros H. destruct Ok as [_ Hr _ Hp Hc].
    assert (0 <= band_pp a) by (unfold band_pp; destruct (Z.eqb_spec (a_r a) 0); lia).
    destruct (Z.min_spec (a_cb a) (band_pp a)) as [[L ->]|[L ->]]; [reflexivity|].
    assert (E : u / 2 ^ band_pp a = u' / 2 ^ band_pp a) by lia.
    split; [intros _; exact E|intros _].
    replace (a_cb a) with (band_pp a + (a_cb a - band_pp a)) by lia.
    rewrite Z.pow_add_r by lia. rewrite <- !Z.div_div by (try lia; apply Z.pow_pos_nonneg; lia). now rewrite E.
  Qed.

  Lemma blk_in i j u : (a_r a = 0 -> a_ob a = 0) ->
    fst (blk i j) <= u < snd (blk i j) <->
    in_band a u /\ precinct_of a u = i /\ u / 2 ^ a_cb a = fst (pband i) / 2 ^ a_cb a + j.
  Proof.
    intros H0. unfold blk. rewrite cell_in by (destruct Ok; lia). unfold in_cell. rewrite pband_in by assumption. tauto.
  Qed.
  Lemma blk_some i j : (a_r a = 0 -> a_ob a = 0) -> 0 <= j < cells (pband i) (a_cb a) ->
    exists u, fst (blk i j) <= u < snd (blk i j) /\
      forall u', fst (blk i j) <= u' < snd (blk i j) <-> in_band a u' /\ precinct_of a u' = i /\ block_of a u' = block_of a u.
  Proof.
    intros H0 Hj. exists (fst (blk i j)).
    pose proof (cell_nonempty (pband i) (a_cb a) j ltac:(destruct Ok; lia) Hj) as N. fold (blk i j) in N. split; [lia|].
    pose proof (proj1 (blk_in i j (fst (blk i j)) H0) ltac:(lia)) as (B1 & B2 & B3).
    intros u'. rewrite blk_in by assumption. rewrite <- B3. split; intros (A1 & A2 & A3); (split; [exact A1|split; [exact A2|]]).
    - apply same_block; [congruence|exact A3].
    - apply same_block; [congruence|exact A3].
  Qed.
  Lemma blk_cover i u : (a_r a = 0 -> a_ob a = 0) -> in_band a u -> precinct_of a u = i ->
    exists j, 0 <= j < cells (pband i) (a_cb a) /\ fst (blk i j) <= u < snd (blk i j).
  Proof.
    intros H0 H1 H2. exists (u / 2 ^ a_cb a - fst (pband i) / 2 ^ a_cb a).
    assert (C : in_cell (pband i) (a_cb a) (u / 2 ^ a_cb a - fst (pband i) / 2 ^ a_cb a) u).
    { split; [apply pband_in; auto|lia]. }
    split; [eapply in_cell_range; [|exact C]; destruct Ok; lia|]. unfold blk. apply cell_in; [destruct Ok; lia|exact C].
  Qed.
  Lemma precinct_range u : (a_r a = 0 -> a_ob a = 0) -> in_band a u -> 0 <= precinct_of a u < precincts a.
  Proof.
    intros H0 H1. apply (in_cell_range (level_span a) (a_pp a) _ (lift a u)); [destruct Ok; lia|].
    split; [now apply in_band_lift|]. rewrite lift_precinct. unfold precinct_of. lia.
  Qed.

  Lemma cells_small ab k w : 0 <= k -> span_ok ab -> snd ab - fst ab <= w -> cells ab k <= w.
  Proof.
    intros Hk [S1 S2] Hw. unfold cells. destruct (Z.ltb_spec (fst ab) (snd ab)) as [L|L]; [|lia].
    pose proof (Z.pow_pos_nonneg 2 k ltac:(lia) Hk). set (P := 2 ^ k) in *. clearbody P.
    assert (ceil_div (snd ab) P <= fst ab / P + (snd ab - fst ab)); [|lia].
    apply ceil_le; [lia|]. pose proof (Z.mul_succ_div_gt (fst ab) P ltac:(lia)). nia.
  Qed.

  (** The code's expressions. *)
  Lemma precincts_exact : precincts_along (fst (level_span a)) (snd (level_span a)) (2 ^ a_pp a) = ret (precincts a).
  Proof.
    pose proof level_okay as [L1 L2]. destruct Ok as [Hs Hr _ Hp _]. pose proof (pow2_15 (a_pp a) ltac:(lia)).
    change (2 ^ 31) with 2147483648 in *. unfold precincts_along.
    rewrite cdiv_exact by (rewrite ?two32_val; lia). rewrite ret_bindx, udiv_exact by lia. rewrite ret_bindx.
    unfold precincts, cells. destruct (Z.ltb_spec (fst (level_span a)) (snd (level_span a))) as [L|L]; [|reflexivity].
    f_equal. f_equal. apply wrap32_small. rewrite two32_val.
    pose proof (cells_nonneg (level_span a) (a_pp a) ltac:(lia)) as N. unfold cells in N.
    rewrite (proj2 (Z.ltb_lt _ _) L) in N.
    pose proof (ceil_le_self (snd (level_span a)) (2 ^ a_pp a) ltac:(lia) ltac:(lia)).
    assert (0 <= fst (level_span a) / 2 ^ a_pp a) by (apply Z.div_pos; lia). lia.
  Qed.
  Lemma blocks_exact ab k : 0 <= k <= 15 -> span_ok ab -> blocks_along (fst ab) (snd ab) (2 ^ k) = ret (cells ab k).
  Proof.
    intros Hk [L1 L2]. pose proof (pow2_15 k Hk). change (2 ^ 31) with 2147483648 in *. unfold blocks_along.
    unfold cells. destruct (Z.ltb_spec (fst ab) (snd ab)) as [L|L]; [|reflexivity].
    rewrite cdiv_exact by (rewrite ?two32_val; lia). rewrite ret_bindx, udiv_exact by lia. rewrite ret_bindx.
    f_equal. f_equal. apply wrap32_small. rewrite two32_val.
    pose proof (cells_nonneg ab k ltac:(lia)) as N. unfold cells in N. rewrite (proj2 (Z.ltb_lt _ _) L) in N.
    pose proof (ceil_le_self (snd ab) (2 ^ k) ltac:(lia) ltac:(lia)).
    assert (0 <= fst ab / 2 ^ k) by (apply Z.div_pos; lia). lia.
  Qed.

  Lemma level_exact : exists d, shl1 (a_NL a - a_r a) = ret d /\
    cdiv (fst (a_span a)) d = ret (fst (level_span a)) /\ cdiv (snd (a_span a)) d = ret (snd (level_span a)).
  Proof.
    destruct Ok as [Hs Hr _ _ _]. exists (2 ^ (a_NL a - a_r a)). split; [apply shl1_exact; lia|].
    pose proof (pow2_bounds (a_NL a - a_r a) ltac:(lia)). change (2 ^ 31) with 2147483648 in *.
    split; apply cdiv_exact; rewrite ?two32_val; lia.
  Qed.

  (** A sum that goes below zero and comes back. *)
  Lemma cdiv_sub p s d : 0 <= p <= 2147483648 -> 0 <= s < d -> d <= 2147483648 ->
    cdiv (sub32 p s) d = ret (ceil_div (p - s) d).
  Proof.
    intros Hp Hs Hd. unfold cdiv, sub32. rewrite (proj2 (Z.eqb_neq d 0)) by lia.
    enough (X : wrap32 (wrap32 (p - s) + (d - 1)) / d = ceil_div (p - s) d) by (rewrite X; reflexivity).
    assert (E : wrap32 (wrap32 (p - s) + (d - 1)) = p - s + (d - 1)).
    { unfold wrap32. rewrite Z.add_mod_idemp_l by (vm_compute; discriminate). apply Z.mod_small. rewrite two32_val. lia. }
    rewrite E. unfold ceil_div. replace (- (p - s)) with (- (p - s + (d - 1)) + (d - 1)) by lia.
    set (n := p - s + (d - 1)). symmetry.
    assert (K : n / d = - ((- n + (d - 1)) / d)); [|lia].
    pose proof (Z.div_mod n d ltac:(lia)). pose proof (Z.mod_pos_bound n d ltac:(lia)).
    assert ((- n + (d - 1)) / d = - (n / d)); [|lia].
    symmetry. apply (Z.div_unique_pos _ d _ (d - 1 - n mod d)); lia.
  Qed.

  Lemma band_exact p : 0 < a_r a -> 0 <= p <= 2147483648 ->
    band_pos p (a_NL a - a_r a + 1) (a_ob a) =
    ret (ceil_div (p - 2 ^ (a_NL a - a_r a) * a_ob a) (2 ^ (a_NL a - a_r a + 1))).
  Proof.
    intros Hr0 Hp. destruct Ok as [_ Hr Ho _ _]. unfold band_pos.
    replace (a_NL a - a_r a + 1 - 1) with (a_NL a - a_r a) by lia.
    rewrite !shl1_exact by lia. rewrite !ret_bindx.
    pose proof (pow2_bounds (a_NL a - a_r a + 1) ltac:(lia)) as B1. pose proof (pow2_bounds (a_NL a - a_r a) ltac:(lia)) as B2.
    change (2 ^ 31) with 2147483648 in *.
    assert (E : 2 ^ (a_NL a - a_r a + 1) = 2 * 2 ^ (a_NL a - a_r a)) by (rewrite Z.pow_add_r by lia; lia).
    rewrite wrap32_small by (rewrite two32_val; destruct Ho as [-> | ->]; lia).
    apply cdiv_sub; [lia| |lia]. destruct Ho as [-> | ->]; lia.
  Qed.
End Axis.
