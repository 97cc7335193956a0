(** The invariant of a row buffer's histories (C81). *)
From Verif Require Import Base GeoModel GeoSpec OutModel RowBufModel RowBufSpec RowBufProofs.

Section Inv.
  Variable B : sband.
  Variable many : bool.
  Hypothesis OK : band_ok B.
  Hypothesis FIT : fits B.

  Definition cache_ok (c : list (option (list cblk))) : Prop :=
    forall i l, nth i c None = Some l -> forall ye, is_strip B (top B + Z.of_nat i * sb_cbh B) ye ->
      forall k, In k l <-> in_strip B (top B + Z.of_nat i * sb_cbh B) ye k.

  Definition halves (s : rowbuf) : Prop := ring s = 0 /\ pre s = half B \/ ring s = half B /\ pre s = 0.

  Definition strip_held (F : frame) (s : rowbuf) : Prop :=
    is_strip B (strip0 s) (strip1 s) /\ ring0 s = strip0 s /\ ~ strip_bad B F (strip0 s) (strip1 s) /\
    forall x y v, x0 (sb_pos B) <= x < x1 (sb_pos B) -> strip0 s <= y < strip1 s -> coefficient B F x y v ->
      cells s (cell B (ring s) (strip0 s) x y) = v.

  Record inv (F : frame) (s : rowbuf) : Prop := {
    i_halves : halves s;
    i_strip : strip0 s = -1 /\ strip1 s = -1 \/ strip_held F s;
    i_pend : forall w, In w (pend s) -> pre s <= fst w < pre s + half B;
    i_pref : pref0 s = -1 \/
      is_strip B (pref0 s) (pref1 s) /\ (strip_bad B F (pref0 s) (pref1 s) -> flags s = true) /\
      (~ strip_bad B F (pref0 s) (pref1 s) ->
       forall x y v, x0 (sb_pos B) <= x < x1 (sb_pos B) -> pref0 s <= y < pref1 s -> coefficient B F x y v ->
         good (cell B (pre s) (pref0 s) x y) v (cells s) (pend s));
    i_cache : cache_ok (cache s) }.

  Lemma half_pos : 0 < half B.
  Proof using OK. unfold half. pose proof (bo_cbh B OK). pose proof (bo_stride B OK). pose proof (bo_x B OK). nia. Qed.

  Lemma pre_lo s : halves s -> 0 <= pre s /\ pre s + half B <= 2 * half B.
  Proof using OK. pose proof half_pos. intros [[? ?]|[? ?]]; lia. Qed.
  Lemma ring_lo s : halves s -> 0 <= ring s /\ ring s + half B <= 2 * half B.
  Proof using OK. pose proof half_pos. intros [[? ?]|[? ?]]; lia. Qed.

  Lemma cell_in base ys ye x y : is_strip B ys ye -> x0 (sb_pos B) <= x < x1 (sb_pos B) -> ys <= y < ye ->
    base <= cell B base ys x y < base + half B.
  Proof using OK.
    intros (n & Hn & Ey & Hb & Ee) Hx Hy. unfold cell. pose proof (bo_stride B OK). apply addr_in; unfold bx; lia.
  Qed.

  (** The invariant survives the pool. *)
  Lemma inv_worked F s s' : inv F s -> worked B (pre s) s s' -> inv F s'.
  Proof using OK.
    intros [H1 H2 H3 H4 H5] [(S0 & S1 & R0 & Rg & Pr & P0 & P1 & Ca) Pd Ce Gd Fl].
    constructor.
    - unfold halves. rewrite Rg, Pr. exact H1.
    - unfold strip_held. rewrite S0, S1, R0, Rg. destruct H2 as [H2|(A1 & A2 & A3 & A4)]; [left; exact H2|right].
      split; [exact A1|]. split; [exact A2|]. split; [exact A3|]. intros x y v Hx Hy Cv. rewrite Ce; [apply A4; assumption|].
      pose proof (cell_in (ring s) _ _ x y A1 Hx Hy). destruct H1 as [[? ?]|[? ?]]; lia.
    - intros w Hw. rewrite Pr. apply H3, Pd, Hw.
    - rewrite P0, P1, Pr, Fl. destruct H4 as [H4|(A1 & A2 & A3)]; [left; exact H4|right]. split; [exact A1|]. split; [exact A2|].
      intros Nb x y v Hx Hy Cv. apply Gd, A3; assumption.
    - rewrite Ca. exact H5.
  Qed.

  Lemma inv_pool F s r : inv F s -> pool1 B s r -> exists s', r = Ret s' /\ inv F s' /\ worked B (pre s) s s'.
  Proof using OK.
    intros Hi P. destruct (pool1_works B (pre s) (pre_lo s (i_halves _ _ Hi)) s r (i_pend _ _ Hi) P) as (s' & -> & W & _).
    exists s'. split; [reflexivity|]. split; [exact (inv_worked F s s' Hi W)|exact W].
  Qed.
  Lemma inv_wait F s r : inv F s -> wait B s r ->
    exists s', r = Ret s' /\ inv F s' /\ worked B (pre s) s s' /\ tasks s' = [].
  Proof using OK.
    intros Hi P. destruct (wait_works B (pre s) (pre_lo s (i_halves _ _ Hi)) s r (i_pend _ _ Hi) P) as (s' & -> & W & T).
    exists s'. split; [reflexivity|]. split; [exact (inv_worked F s s' Hi W)|auto].
  Qed.
  Lemma inv_star F s s' : inv F s -> pool_star B s s' -> inv F s' /\ worked B (pre s) s s'.
  Proof using OK.
    intros Hi P. pose proof (star_works B (pre s) (pre_lo s (i_halves _ _ Hi)) s s' (i_pend _ _ Hi) P) as W.
    split; [exact (inv_worked F s s' Hi W)|exact W].
  Qed.

  (** A strip starts at one number of strips. *)
  Lemma strip_index ys ye : is_strip B ys ye -> exists i : nat,
    Z.quot (ys - top B) (sb_cbh B) = Z.of_nat i /\ ys = top B + Z.of_nat i * sb_cbh B.
  Proof using OK.
    intros (n & Hn & Ey & _). pose proof (bo_cbh B OK). exists (Z.to_nat n). rewrite Z2Nat.id by lia. split; [|exact Ey].
    rewrite Ey. replace (top B + n * sb_cbh B - top B) with (n * sb_cbh B) by lia. apply Z.quot_mul. lia.
  Qed.

  Lemma lookup_spec c ys ye : cache_ok c -> is_strip B ys ye -> exists l c',
    lookup B c ys ye = Ret (l, c') /\ (forall k, In k l <-> in_strip B ys ye k) /\ cache_ok c'.
  Proof using OK.
    intros Hc Hs. destruct (strip_index ys ye Hs) as (i & Ei & Ey).
    assert (Hlt : ys < ye) by (destruct Hs as (n & Hn & E1 & E2 & E3); pose proof (bo_cbh B OK); lia).
    destruct (walk_spec B OK ys ye Hlt) as (l & El & Sl).
    assert (Sl' : forall k, In k l <-> in_strip B ys ye k) by (intros k; rewrite Sl; unfold in_strip; tauto).
    unfold lookup. pose proof (bo_cbh B OK). destruct (Z.eqb_spec (sb_cbh B) 0); [lia|]. rewrite Ei.
    destruct (Z.leb_spec 0 (Z.of_nat i)); [|lia]. cbn [andb].
    destruct (Z.ltb_spec (Z.of_nat i) (zlen c)) as [L|L]; cbn [andb].
    - rewrite Nat2Z.id. destruct (nth i c None) as [l0|] eqn:N.
      + exists l0, c. split; [reflexivity|]. split; [|exact Hc]. rewrite Ey in *. exact (Hc i l0 N ye Hs).
      + rewrite El. cbn [bind]. eexists. eexists. split; [reflexivity|]. split; [exact Sl'|].
        intros j l1 Hj ye1 Hs1 k. unfold ztake, zskip, zlen in *. rewrite Nat2Z.id in Hj.
        destruct (Nat.lt_trichotomy j i) as [J|[J|J]].
        * rewrite app_nth1 in Hj by (rewrite firstn_length; lia). apply (Hc j l1); [|exact Hs1].
          rewrite <- Hj. rewrite <- (firstn_skipn i c) at 1. rewrite app_nth1 by (rewrite firstn_length; lia). reflexivity.
        * subst j. rewrite app_nth2 in Hj by (rewrite firstn_length; lia).
          replace (i - length (firstn i c))%nat with 0%nat in Hj by (rewrite firstn_length; lia). cbn [nth] in Hj.
          injection Hj as <-. rewrite <- Ey in *.
          assert (Eye : ye1 = ye) by (destruct Hs as (n1 & _ & _ & _ & E1), Hs1 as (n2 & _ & _ & _ & E2); congruence).
          subst ye1. apply Sl'.
        * rewrite app_nth2 in Hj by (rewrite firstn_length; lia).
          replace (j - length (firstn i c))%nat with (S (j - i - 1)) in Hj by (rewrite firstn_length; lia). cbn [nth] in Hj.
          apply (Hc j l1); [|exact Hs1]. rewrite <- Hj. replace (Z.to_nat (Z.of_nat i + 1)) with (S i) by lia.
          rewrite <- (firstn_skipn (S i) c) at 1. rewrite app_nth2 by (rewrite firstn_length; lia). f_equal. rewrite firstn_length. lia.
    - rewrite El. cbn [bind]. exists l, c. auto.
  Qed.

  Definition flags_kept (F : frame) (s s' : rowbuf) : Prop := clean B F -> flags s = false -> flags s' = false.

  Lemma clean_strip F ys ye : clean B F -> ~ strip_bad B F ys ye.
  Proof. intros C (k & (Hk & _) & E). rewrite (C k Hk) in E. discriminate. Qed.

  Lemma trigger_spec F s : frame_ok B F -> inv F s -> tasks s = [] -> pref0 s = -1 -> strip_held F s ->
    exists s', trigger B many F s (strip1 s) = Ret s' /\ inv F s' /\ strip_held F s' /\
      strip0 s' = strip0 s /\ strip1 s' = strip1 s /\ flags_kept F s s'.
  Proof using OK FIT.
    intros FOK Hi Ht Hp Held. unfold trigger. rewrite Hp. cbn [negb]. change (-1 =? -1) with true. cbn [negb].
    assert (Stay : exists s', Ret s = Ret s' /\ inv F s' /\ strip_held F s' /\ strip0 s' = strip0 s /\ strip1 s' = strip1 s /\ flags_kept F s s').
    { exists s. split; [reflexivity|]. split; [exact Hi|]. split; [exact Held|]. split; [reflexivity|]. split; [reflexivity|]. intros _ H; exact H. }
    destruct (Z.leb_spec (bot B) (strip1 s)) as [Lb|Lb]; [exact Stay|].
    destruct many; cbn [negb]; [|exact Stay]. clear Stay.
    pose proof Held as (Hs & Hr & Nb & Hv). set (ys := strip1 s) in *. set (ye := Z.min (ys + sb_cbh B) (bot B)).
    assert (Hs' : is_strip B ys ye).
    { destruct Hs as (n & Hn & E1 & E2 & E3). exists (n + 1). split; [lia|]. split; [lia|]. split; [lia|reflexivity]. }
    destruct (lookup_spec (cache s) ys ye (i_cache _ _ Hi) Hs') as (l & c' & El & Sl & Hc').
    rewrite El. cbn [bind].
    destruct (pre_lo s (i_halves _ _ Hi)) as [L0 L1].
    destruct (strip_good B F OK FIT FOK (pre s) ys ye l (cells s) Hs' Sl L0 L1) as (Rg & m' & Em & Out & Gd).
    rewrite Em. cbn [bind]. eexists. split; [reflexivity|].
    set (j := jobs B F (pre s) ys l) in *.
    set (s' := RB _ _ _ _ _ _ _ _ _ _ _).
    assert (Held' : strip_held F s').
    { unfold strip_held. cbn [s' strip0 strip1 ring0 ring cells]. split; [exact Hs|]. split; [exact Hr|]. split; [exact Nb|].
      intros x y v Hx Hy Cv. rewrite Out; [apply Hv; assumption|].
      pose proof (cell_in (ring s) _ _ x y Hs Hx Hy). destruct (i_halves _ _ Hi) as [[? ?]|[? ?]]; lia. }
    split; [|split; [exact Held'|split; [reflexivity|split; [reflexivity|]]]].
    - constructor.
      + exact (i_halves _ _ Hi).
      + right. exact Held'.
      + intros w Hw. cbn [s' pre]. apply Rg. unfold strip_writes. apply in_app_iff. right. exact Hw.
      + right. cbn [s' pref0 pref1 pre cells]. split; [exact Hs'|]. split.
        * intros Hb. apply (jobs_flag B F (pre s) ys ye l Sl) in Hb. fold j in Hb. unfold flags. cbn [s' err tasks]. rewrite Hb. apply orb_true_r.
        * intros Nb' x y v Hx Hy Cv. exact (Gd Nb' x y v Hx Hy Cv).
      + exact Hc'.
    - intros Cl Fl. unfold flags in *. cbn [s' err tasks]. rewrite Ht in Fl. cbn [existsb] in Fl. rewrite orb_false_r in Fl.
      assert (Ej : existsb snd j = false).
      { destruct (existsb snd j) eqn:E; [|reflexivity]. exfalso. apply (jobs_flag B F (pre s) ys ye l Sl) in E.
        exact (clean_strip F ys ye Cl E). }
      rewrite Ej. destruct j; rewrite ?Fl; reflexivity.
  Qed.

  (** decode_strip_core. *)
  Lemma core_spec F s ys ye d : frame_ok B F -> halves s -> tasks s = [] -> is_strip B ys ye ->
    core B many F s (ring s) ys ye d -> exists t s', d = Ret (t, s') /\ tasks s' = [] /\
      same_but_pool s s' /\ (t = true <-> strip_bad B F ys ye) /\
      (clean B F -> flags s = false -> flags s' = false) /\
      (t = false -> forall x y v, x0 (sb_pos B) <= x < x1 (sb_pos B) -> ys <= y < ye -> coefficient B F x y v ->
         cells s' (cell B (ring s) ys x y) = v).
  Proof using OK FIT.
    intros FOK Hh Ht Hs H.
    assert (Hlt : ys < ye) by (destruct Hs as (n & Hn & E1 & E2 & E3); pose proof (bo_cbh B OK); lia).
    destruct (walk_spec B OK ys ye Hlt) as (l & El & Sl').
    assert (Sl : forall k, In k l <-> in_strip B ys ye k) by (intros k; rewrite Sl'; unfold in_strip; tauto). clear Sl'.
    destruct (ring_lo s Hh) as [L0 L1].
    destruct (strip_good B F OK FIT FOK (ring s) ys ye l (cells s) Hs Sl L0 L1) as (Rg & m' & Em & Out & Gd).
    assert (Cov : forall x y v, coefficient B F x y v -> ys <= y < ye -> exists k, In k l /\ inside (cb_pos k) x y).
    { intros x y v (k & Hk & Ik & _) Hy. exists k. split; [|exact Ik]. apply Sl. unfold in_strip, inside in *. split; [exact Hk|lia]. }
    destruct H as [E|l0 M E|l0 M E E1|l0 m M E E1 E2|l0 m r M E E1 E2 W]; rewrite El in E; try discriminate; injection E as <-.
    - destruct (serial_good B F OK FIT FOK (ring s) ys ye l Hs (fun k => proj1 (Sl k)) L0 L1 (cells s)) as (t & m1 & E & O & T & G).
      rewrite E. cbn [bind]. eexists. eexists. split; [reflexivity|]. cbn [tasks set_pool]. split; [exact Ht|]. split; [repeat split|].
      split; [|split].
      + rewrite T. split; intros (k & H1 & H2); exists k; (split; [apply Sl, H1|exact H2]).
      + intros _ Fl. exact Fl.
      + intros Et x y v Hx Hy Cv. cbn [cells set_pool]. apply (G Et x y v Hx Hy Cv). right. exact (Cov x y v Cv Hy).
    - congruence.
    - rewrite Em in E1. injection E1 as <-. eexists. eexists. split; [reflexivity|]. split; [exact Ht|]. split; [repeat split|].
      assert (Nb : ~ strip_bad B F ys ye).
      { intros Hb. apply (jobs_flag B F (ring s) ys ye l Sl) in Hb. rewrite E2 in Hb. discriminate. }
      split; [split; [discriminate|intros Hb; destruct (Nb Hb)]|]. split; [intros _ Fl; exact Fl|].
      intros _ x y v Hx Hy Cv. cbn [cells set_pool]. destruct (Gd Nb x y v Hx Hy Cv) as [_ [G|G]]; [exact G|]. rewrite E2 in G. destruct G.
    - rewrite Em in E1. injection E1 as <-.
      set (s1 := set_pool s m' (jobs B F (ring s) ys l) false) in *.
      assert (Rp : forall w, In w (pend s1) -> ring s <= fst w < ring s + half B).
      { intros w Hw. apply Rg. unfold strip_writes. apply in_app_iff. right. exact Hw. }
      destruct (wait_works B (ring s) (ring_lo s Hh) s1 r Rp W) as (s' & -> & [Sb Pd Ce G Fl] & T).
      cbn [bind]. eexists. eexists. split; [reflexivity|]. split; [exact T|]. split; [exact Sb|].
      assert (Fe : err s' = existsb snd (jobs B F (ring s) ys l)).
      { unfold flags in Fl. rewrite T in Fl. cbn [existsb s1 set_pool err tasks] in Fl. rewrite orb_false_r in Fl. exact Fl. }
      split; [rewrite Fe; exact (jobs_flag B F (ring s) ys ye l Sl)|]. split.
      + intros Cl _. unfold flags. rewrite T, Fe. cbn [existsb]. rewrite orb_false_r.
        destruct (existsb snd (jobs B F (ring s) ys l)) eqn:Ej; [|reflexivity]. apply (jobs_flag B F (ring s) ys ye l Sl) in Ej.
        destruct (clean_strip F ys ye Cl Ej).
      + intros Et x y v Hx Hy Cv.
        assert (Nb : ~ strip_bad B F ys ye).
        { intros Hb. apply (jobs_flag B F (ring s) ys ye l Sl) in Hb. congruence. }
        pose proof (G _ v (Gd Nb x y v Hx Hy Cv)) as [_ [Q|Q]]; [exact Q|]. unfold pend in Q. rewrite T in Q. destruct Q.
  Qed.

  (** *** row_ptr *)
  Lemma row_spec F s y r : frame_ok B F -> inv F s -> top B <= y < bot B -> row_ptr B many F s y r ->
    exists o s', r = Ret (o, s') /\
      match o with
      | Some p => inv F s' /\ strip_held F s' /\ strip0 s' <= y < strip1 s' /\ p = address B s' y
      | None => tasks s' = [] /\ cache_ok (cache s')
      end /\
      (clean B F -> flags s = false -> flags s' = false /\ o <> None).
  Proof using OK FIT.
    intros FOK Hi Hy H. unfold row_ptr in H. pose proof (bo_cbh B OK) as Pc. pose proof (bo_y B OK) as Py.
    destruct ((strip0 s <=? y) && (y <? strip1 s)) eqn:Es.
    { subst r. exists (Some (address B s y)), s. split; [reflexivity|]. split.
      - destruct (i_strip _ _ Hi) as [[S0 S1]|S]; [lia|]. split; [exact Hi|]. split; [exact S|]. split; [lia|reflexivity].
      - intros _ Fl. split; [exact Fl|discriminate]. }
    destruct H as (w & W & H). destruct (inv_wait F s w Hi W) as (s1 & -> & Hi1 & Wk & T1).
    assert (Fl1 : flags s1 = flags s) by exact (wk_flags _ _ _ _ Wk).
    destruct (negb (pref0 s1 =? -1) && (pref0 s1 <=? y) && (y <? pref1 s1)) eqn:Ep.
    - subst r. unfold hit. destruct (err s1) eqn:Ee.
      + exists None, s1. split; [reflexivity|]. split; [split; [exact T1|exact (i_cache _ _ Hi1)]|].
        intros _ Fl. rewrite <- Fl1 in Fl. unfold flags in Fl. rewrite Ee in Fl. discriminate.
      + set (s2 := RB _ _ _ _ _ _ _ _ _ _ _).
        destruct (i_pref _ _ Hi1) as [P|(P1 & P2 & P3)]; [lia|].
        assert (Nb : ~ strip_bad B F (pref0 s1) (pref1 s1)).
        { intros Hb. specialize (P2 Hb). unfold flags in P2. rewrite Ee, T1 in P2. discriminate. }
        assert (Held : strip_held F s2).
        { unfold strip_held. cbn [s2 strip0 strip1 ring0 ring cells]. split; [exact P1|]. split; [reflexivity|]. split; [exact Nb|].
          intros x y' v Hx Hy' Cv. destruct (P3 Nb x y' v Hx Hy' Cv) as [_ [G|G]]; [exact G|]. unfold pend in G. rewrite T1 in G. destruct G. }
        assert (Hi2 : inv F s2).
        { constructor.
          - cbn. unfold halves. cbn [s2 ring pre]. destruct (i_halves _ _ Hi1) as [[? ?]|[? ?]]; [right|left]; auto.
          - right. exact Held.
          - intros w Hw. unfold pend in Hw. cbn [s2 tasks] in Hw. rewrite T1 in Hw. destruct Hw.
          - left. reflexivity.
          - exact (i_cache _ _ Hi1). }
        destruct (trigger_spec F s2 FOK Hi2 T1 eq_refl Held) as (s3 & E3 & Hi3 & Held3 & S0 & S1 & Fk).
        cbn [s2 strip1] in E3. rewrite E3. cbn [bind].
        exists (Some (address B s3 y)), s3. split; [reflexivity|]. split.
        * split; [exact Hi3|]. split; [exact Held3|]. split; [|reflexivity]. rewrite S0, S1. cbn [s2 strip0 strip1]. lia.
        * intros Cl Fl. split; [|discriminate]. apply Fk; [exact Cl|]. unfold flags in *. cbn [s2 err tasks]. congruence.
    - destruct (Z.eqb_spec (sb_cbh B) 0); [lia|].
      set (ys := top B + Z.quot (y - top B) (sb_cbh B) * sb_cbh B) in *. set (ye := Z.min (ys + sb_cbh B) (bot B)) in *.
      destruct H as (d & C & ->).
      assert (Q : 0 <= Z.quot (y - top B) (sb_cbh B) /\ ys <= y < ys + sb_cbh B).
      { unfold ys. rewrite Z.quot_div_nonneg by lia. split; [apply Z.div_pos; lia|].
        pose proof (Z.div_mod (y - top B) (sb_cbh B) ltac:(lia)). pose proof (Z.mod_pos_bound (y - top B) (sb_cbh B) ltac:(lia)). lia. }
      assert (Hs : is_strip B ys ye).
      { exists (Z.quot (y - top B) (sb_cbh B)). split; [lia|]. split; [reflexivity|]. split; [lia|reflexivity]. }
      assert (Hh : halves (enter s1 ys ye)) by exact (i_halves _ _ Hi1).
      destruct (core_spec F (enter s1 ys ye) ys ye d FOK Hh T1 Hs C) as (t & s2 & -> & T2 & (S0 & S1 & R0 & Rg & Pr & P0 & P1 & Ca) & Tb & Fk & G).
      cbn [enter strip0 strip1 ring0 ring pre pref0 pref1 cache] in *.
      unfold leave. cbn [bind]. destruct t.
      + exists None, s2. split; [reflexivity|]. split; [split; [exact T2|rewrite Ca; exact (i_cache _ _ Hi1)]|].
        intros Cl _. destruct (clean_strip F ys ye Cl (proj1 Tb eq_refl)).
      + assert (Nb : ~ strip_bad B F ys ye) by (intros Hb; apply Tb in Hb; discriminate).
        assert (Held : strip_held F s2).
        { unfold strip_held. rewrite S0, S1, R0, Rg. split; [exact Hs|]. split; [reflexivity|]. split; [exact Nb|]. exact (G eq_refl). }
        assert (Hi2 : inv F s2).
        { constructor.
          - unfold halves. rewrite Rg, Pr. exact (i_halves _ _ Hi1).
          - right. exact Held.
          - intros w Hw. unfold pend in Hw. rewrite T2 in Hw. destruct Hw.
          - left. exact P0.
          - rewrite Ca. exact (i_cache _ _ Hi1). }
        destruct (trigger_spec F s2 FOK Hi2 T2 P0 Held) as (s3 & E3 & Hi3 & Held3 & S0' & S1' & Fk').
        rewrite E3. cbn [bind]. exists (Some (address B s3 y)), s3. split; [reflexivity|]. split.
        * split; [exact Hi3|]. split; [exact Held3|]. split; [|reflexivity]. rewrite S0', S1', S0, S1. lia.
        * intros Cl Fl. split; [|discriminate]. apply Fk'; [exact Cl|]. apply (Fk Cl). change (flags s1 = false). congruence.
  Qed.

  Lemma core_can F s ys ye : frame_ok B F -> halves s -> is_strip B ys ye -> exists d, core B many F s (ring s) ys ye d.
  Proof using OK FIT.
    intros FOK Hh Hs.
    assert (Hlt : ys < ye) by (destruct Hs as (n & Hn & E1 & E2 & E3); pose proof (bo_cbh B OK); lia).
    destruct (walk_spec B OK ys ye Hlt) as (l & El & Sl').
    assert (Sl : forall k, In k l <-> in_strip B ys ye k) by (intros k; rewrite Sl'; unfold in_strip; tauto). clear Sl'.
    destruct many eqn:M.
    - destruct (ring_lo s Hh) as [L0 L1].
      destruct (strip_good B F OK FIT FOK (ring s) ys ye l (cells s) Hs Sl L0 L1) as (Rg & m' & Em & Out & Gd).
      destruct (jobs B F (ring s) ys l) as [|t j] eqn:Ej.
      + eexists. eapply core_none; [reflexivity|exact El|exact Em|exact Ej].
      + destruct (wait_ends B (ring s) (ring_lo s Hh) (set_pool s m' (jobs B F (ring s) ys l) false)) as (r & W).
        { intros w Hw. apply Rg. unfold strip_writes. apply in_app_iff. right. exact Hw. }
        eexists. eapply core_tasks; [reflexivity|exact El|exact Em|congruence|exact W].
    - eexists. eapply core_serial; [reflexivity|exact El].
  Qed.

  Lemma row_can F s y : frame_ok B F -> inv F s -> top B <= y < bot B -> exists r, row_ptr B many F s y r.
  Proof using OK FIT.
    intros FOK Hi Hy. unfold row_ptr. pose proof (bo_cbh B OK) as Pc.
    destruct ((strip0 s <=? y) && (y <? strip1 s)) eqn:Es; [eexists; reflexivity|].
    destruct (wait_ends B (pre s) (pre_lo s (i_halves _ _ Hi)) s (i_pend _ _ Hi)) as (w & W).
    destruct (inv_wait F s w Hi W) as (s1 & -> & Hi1 & Wk & T1).
    destruct (negb (pref0 s1 =? -1) && (pref0 s1 <=? y) && (y <? pref1 s1)) eqn:Ep.
    { eexists. exists (Ret s1). split; [exact W|]. rewrite Ep. reflexivity. }
    destruct (Z.eqb_spec (sb_cbh B) 0) as [E0|E0]; [lia|].
    set (ys := top B + Z.quot (y - top B) (sb_cbh B) * sb_cbh B) in *. set (ye := Z.min (ys + sb_cbh B) (bot B)) in *.
    destruct (core_can F (enter s1 ys ye) ys ye FOK (i_halves _ _ Hi1)) as (d & C).
    { exists (Z.quot (y - top B) (sb_cbh B)). unfold ye, ys. rewrite Z.quot_div_nonneg by lia.
      pose proof (Z.mul_div_le (y - top B) (sb_cbh B) ltac:(lia)). split; [apply Z.div_pos; lia|]. split; [reflexivity|]. split; [lia|reflexivity]. }
    eexists. exists (Ret s1). split; [exact W|]. rewrite Ep. replace (sb_cbh B =? 0) with false by lia.
    exists d. split; [exact C|reflexivity].
  Qed.

  Lemma fresh_inv F m e c : cache_ok c -> inv F (RB (-1) (-1) (-1) 0 (half B) (-1) (-1) e [] m c).
  Proof.
    intros Hc. constructor; cbn [ring pre strip0 strip1 tasks pref0 cache].
    - left. split; reflexivity.
    - left. split; reflexivity.
    - intros w [].
    - left. reflexivity.
    - exact Hc.
  Qed.

  Lemma next_spec s r lo : 0 <= lo /\ lo + half B <= 2 * half B ->
    (forall w, In w (pend s) -> lo <= fst w < lo + half B) -> cache_ok (cache s) -> next_frame B s r ->
    exists s', r = Ret s' /\ (forall F, inv F s') /\ flags s' = flags s.
  Proof using OK.
    intros Lo R Hc (w & W & ->). destruct (wait_works B lo Lo s w R W) as (s1 & -> & Wk & T). cbn [bind].
    eexists. split; [reflexivity|]. split.
    - intros F. apply fresh_inv. destruct (wk_same _ _ _ _ Wk) as (_ & _ & _ & _ & _ & _ & _ & Ca). rewrite Ca. exact Hc.
    - rewrite <- (wk_flags _ _ _ _ Wk). unfold flags. cbn [err tasks]. rewrite T. reflexivity.
  Qed.

  Lemma history_inv (ok : frame -> Prop) F s : (forall G, ok G -> frame_ok B G) -> history B many ok F s -> ok F /\ inv F s.
  Proof using OK FIT.
    intros Hok H. induction H as [F m O|F s s' H [IO IH] P|F s y p s' H [IO IH] Hy R|F F' s s' H [IO IH] O N|F F' s y s1 s' H [IO IH] Hy R O N].
    - split; [exact O|]. apply fresh_inv. intros i l E. rewrite nth_repeat in E. discriminate.
    - split; [exact IO|]. destruct (inv_pool F s _ IH P) as (s1 & E & I1 & _). injection E as <-. exact I1.
    - split; [exact IO|]. destruct (row_spec F s y _ (Hok F IO) IH Hy R) as (o & s1 & E & Q & _).
      injection E as <- <-. exact (proj1 Q).
    - split; [exact O|]. destruct (next_spec s _ (pre s) (pre_lo s (i_halves _ _ IH)) (i_pend _ _ IH) (i_cache _ _ IH) N) as (s1 & E & I1 & _).
      injection E as <-. apply I1.
    - split; [exact O|]. destruct (row_spec F s y _ (Hok F IO) IH Hy R) as (o & s2 & E & Q & _).
      injection E as <- <-. destruct Q as [T Hc].
      destruct (next_spec s1 _ 0 ltac:(pose proof half_pos; lia) ltac:(unfold pend; rewrite T; intros w []) Hc N) as (s3 & E & I1 & _).
      injection E as <-. apply I1.
  Qed.

  Lemma history_flags (ok : frame -> Prop) F s : (forall G, ok G -> frame_ok B G /\ clean B G) -> history B many ok F s -> flags s = false.
  Proof using OK FIT.
    intros Hok H. assert (Hok' : forall G, ok G -> frame_ok B G) by (intros G HG; exact (proj1 (Hok G HG))).
    induction H as [F m O|F s s' H IH P|F s y p s' H IH Hy R|F F' s s' H IH O N|F F' s y s1 s' H IH Hy R O N].
    - reflexivity.
    - destruct (history_inv ok F s Hok' H) as [IO Hi]. destruct (inv_pool F s _ Hi P) as (s1 & E & _ & W). injection E as <-.
      rewrite (wk_flags _ _ _ _ W). exact IH.
    - destruct (history_inv ok F s Hok' H) as [IO Hi]. destruct (row_spec F s y _ (Hok' F IO) Hi Hy R) as (o & s1 & E & _ & Q).
      injection E as <- <-. exact (proj1 (Q (proj2 (Hok F IO)) IH)).
    - destruct (history_inv ok F s Hok' H) as [IO Hi].
      destruct (next_spec s _ (pre s) (pre_lo s (i_halves _ _ Hi)) (i_pend _ _ Hi) (i_cache _ _ Hi) N) as (s1 & E & _ & Q).
      injection E as <-. congruence.
    - destruct (history_inv ok F s Hok' H) as [IO Hi]. destruct (row_spec F s y _ (Hok' F IO) Hi Hy R) as (o & s2 & E & _ & Q).
      injection E as <- <-. destruct (Q (proj2 (Hok F IO)) IH) as [_ X]. congruence.
  Qed.

  Lemma held_row F s y : strip_held F s -> strip0 s <= y < strip1 s -> row_is B F s (address B s y) y.
  Proof using OK.
    intros (Hs & Hr & Nb & Hv) Hy x Hx.
    assert (Iy : inside (sb_pos B) x y).
    { destruct Hs as (n & Hn & E1 & E2 & E3). pose proof (bo_cbh B OK). unfold inside, top, bot in *. nia. }
    destruct (bo_cover B OK x y Iy) as (k & Hk & Ik).
    assert (Hin : in_strip B (strip0 s) (strip1 s) k) by (unfold in_strip, inside in *; split; [exact Hk|lia]).
    assert (Ex : exists v, coefficient B F x y v).
    { destruct (F k) as [|f low|l] eqn:E.
      - exists 0, k. rewrite E. auto.
      - eexists. exists k. rewrite E. split; [exact Hk|]. split; [exact Ik|reflexivity].
      - exfalso. apply Nb. exists k. rewrite E. auto. }
    destruct Ex as (v & Cv). exists v. split; [exact Cv|]. rewrite <- (Hv x y v Hx Hy Cv). f_equal. unfold address, cell, bx. rewrite Hr. ring.
  Qed.
End Inv.
