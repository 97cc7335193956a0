(** Lemmas for OrderProps.v: the precincts of a resolution along one axis, and
    the loops as folds over flat lists. *)
From Coq Require Import Sorted.
From Verif Require Import Base BaseLemmas PrecinctModel PrecinctSpec PrecinctProofs
  OrderModel OrderSpec.

(** * Sorted lists of integers *)

Lemma sorted_eq l1 : forall l2, StronglySorted Z.lt l1 -> StronglySorted Z.lt l2 ->
  (forall k, In k l1 <-> In k l2) -> l1 = l2.
Proof.
  induction l1 as [|a l1 IH]; intros [|b l2] H1 H2 H.
  - reflexivity.
  - destruct (proj2 (H b)). left; reflexivity.
  - destruct (proj1 (H a)). left; reflexivity.
  - inversion H1 as [|? ? H1' F1]; inversion H2 as [|? ? H2' F2]; subst.
    rewrite Forall_forall in F1, F2.
    assert (a = b).
    { destruct (proj1 (H a) (or_introl eq_refl)) as [|Ha]; [congruence|].
      destruct (proj2 (H b) (or_introl eq_refl)) as [|Hb]; [congruence|].
      specialize (F1 b Hb). specialize (F2 a Ha). lia. }
    subst b. f_equal. apply IH; try assumption.
    intros k. split; intros Hk.
    + destruct (proj1 (H k) (or_intror Hk)) as [E|]; [|assumption].
      subst. specialize (F1 k Hk). lia.
    + destruct (proj2 (H k) (or_intror Hk)) as [E|]; [|assumption].
      subst. specialize (F2 k Hk). lia.
Qed.

Lemma sorted_map {A} (f : A -> Z) (R : A -> A -> Prop) l :
  StronglySorted R l ->
  (forall a b, In a l -> In b l -> R a b -> f a < f b) ->
  StronglySorted Z.lt (map f l).
Proof.
  induction 1 as [|a l Hl IH Ha]; intros H; cbn [map]; constructor.
  - apply IH. intros; apply H; try assumption; right; assumption.
  - rewrite Forall_forall in *. intros z Hz. apply in_map_iff in Hz.
    destruct Hz as (b & <- & Hb). apply H; auto; [left; reflexivity|right; assumption].
Qed.

Lemma sorted_filter {A} (R : A -> A -> Prop) p l :
  StronglySorted R l -> StronglySorted R (filter p l).
Proof.
  induction 1 as [|a l Hl IH Ha]; cbn [filter]; [constructor|].
  destruct (p a); [|assumption]. constructor; [assumption|].
  rewrite Forall_forall in *. intros z Hz. apply filter_In in Hz. apply Ha, Hz.
Qed.

Lemma sorted_NoDup l : StronglySorted Z.lt l -> NoDup l.
Proof.
  induction 1 as [|a l Hl IH Ha]; constructor; [|assumption].
  rewrite Forall_forall in Ha. intros Hin. specialize (Ha a Hin). lia.
Qed.

Lemma zrange_In a b k : In k (zrange a b) <-> a <= k < b.
Proof.
  unfold zrange. rewrite in_map_iff. split.
  - intros (x & <- & Hx). apply zseq_In in Hx. lia.
  - intros H. exists (k - a). split; [lia|]. apply zseq_In. lia.
Qed.

Lemma seq_sorted n : forall s, StronglySorted Z.lt (map Z.of_nat (seq s n)).
Proof.
  induction n as [|n IH]; intros s; cbn [seq map]; constructor; [apply IH|].
  apply Forall_forall. intros z Hz. apply in_map_iff in Hz.
  destruct Hz as (k & <- & Hk). apply in_seq in Hk. lia.
Qed.

Lemma zseq_sorted n : StronglySorted Z.lt (zseq n).
Proof. apply seq_sorted. Qed.

Lemma zrange_sorted a b : StronglySorted Z.lt (zrange a b).
Proof. apply (sorted_map _ Z.lt); [apply zseq_sorted|]. intros; lia. Qed.

Lemma zrange_zseq n : zrange 0 n = zseq n.
Proof.
  apply sorted_eq; try apply zrange_sorted; try apply zseq_sorted.
  intros k. rewrite zrange_In, zseq_In. reflexivity.
Qed.

Lemma zrange_cons a b : a < b -> zrange a b = a :: zrange (a + 1) b.
Proof.
  intros H. apply sorted_eq; [apply zrange_sorted| |].
  - constructor; [apply zrange_sorted|]. apply Forall_forall.
    intros k Hk. apply zrange_In in Hk. lia.
  - intros k. cbn [In]. rewrite !zrange_In. lia.
Qed.

Lemma zrange_nil a b : b <= a -> zrange a b = [].
Proof.
  intros H. apply sorted_eq; [apply zrange_sorted|constructor|].
  intros k. cbn [In]. rewrite zrange_In. lia.
Qed.

(** * One axis *)

Section Axis.
  Variables t0 t1 sub pp n : Z.
  Hypothesis Hsub : 1 <= sub.
  Hypothesis Hpp : 0 <= pp.
  Hypothesis Hn : 0 <= n.
  Hypothesis Ht : 0 <= t0 < t1.

  Let ab := res_span n (comp_span sub (t0, t1)).
  Let U := sub * 2 ^ n.
  Let P := 2 ^ pp.

  Lemma U_pos : 1 <= U.
  Proof.
    clear ab.
    pose proof (Z.pow_pos_nonneg 2 n ltac:(lia) Hn). unfold U. nia.
  Qed.
  Lemma P_pos : 1 <= P.
  Proof. clear ab. pose proof (Z.pow_pos_nonneg 2 pp ltac:(lia) Hpp). unfold P. lia. Qed.

  Lemma ab_eq : ab = (ceil_div t0 U, ceil_div t1 U).
  Proof.
    pose proof (Z.pow_pos_nonneg 2 n ltac:(lia) Hn).
    unfold ab, res_span, comp_span, U. cbn [fst snd]. rewrite !ceil_ceil by lia. reflexivity.
  Qed.

  Definition hit (v : Z) : bool := begins v t0 sub pp n (fst ab).
  Definition cell (v : Z) : Z := cell_at ab sub pp n v.

  Lemma hit_iff v : hit v = true <->
    (exists k, v = k * (U * P)) \/ (v = t0 /\ ceil_div t0 U mod P <> 0).
  Proof.
    unfold hit, begins. rewrite ab_eq. cbn [fst].
    pose proof U_pos as HU. pose proof P_pos as HP.
    pose proof (Z.pow_pos_nonneg 2 n ltac:(lia) Hn) as H2n.
    rewrite Z.pow_add_r by lia. fold P.
    replace (sub * (P * 2 ^ n)) with (U * P) by (unfold U; ring).
    rewrite (Z.mul_comm P (2 ^ n)), (Z.mul_comm (ceil_div t0 U)).
    rewrite Zmult_mod_distr_l.
    rewrite orb_true_iff, andb_true_iff, negb_true_iff, !Z.eqb_eq, Z.eqb_neq.
    split.
    - intros [H|[H1 H2]].
      + left. exists (v / (U * P)). pose proof (Z.div_mod v (U * P) ltac:(nia)). nia.
      + right. split; [assumption|]. intros E. apply H2. rewrite E. ring.
    - intros [[k ->]|[H1 H2]].
      + left. apply Z.mod_mul. nia.
      + right. split; [assumption|]. intros E. apply H2. nia.
  Qed.

  Lemma ceil_mul k : ceil_div (k * (U * P)) U = k * P.
  Proof.
    pose proof U_pos. unfold ceil_div.
    replace (- (k * (U * P))) with (- (k * P) * U) by ring.
    rewrite Z.div_mul by lia. ring.
  Qed.

  Lemma cell_mul k : cell (k * (U * P)) = k - ceil_div t0 U / P.
  Proof.
    pose proof P_pos. unfold cell, cell_at. rewrite ab_eq. cbn [fst]. fold U P.
    rewrite ceil_mul, Z.div_mul by lia. reflexivity.
  Qed.

  Lemma cell_t0 : cell t0 = 0.
  Proof. unfold cell, cell_at. rewrite ab_eq. cbn [fst]. fold U P. lia. Qed.

  (** A multiple of the precinct size at or after [t0] is numbered at least 0,
      and only [t0] itself, if it is one, or the first cell when it starts
      after [t0], is number 0. *)
  Lemma mul_ge k : t0 <= k * (U * P) -> ceil_div t0 U / P <= k.
  Proof.
    intros H. pose proof U_pos. pose proof P_pos.
    assert (ceil_div t0 U <= k * P) by (apply ceil_le; [lia|nia]).
    apply (Z.div_le_mono _ _ P) in H2; [|lia]. rewrite Z.div_mul in H2 by lia. lia.
  Qed.

  Lemma mul_gt k : t0 <= k * (U * P) -> ceil_div t0 U mod P <> 0 -> ceil_div t0 U / P < k.
  Proof.
    intros H Hm. pose proof (mul_ge k H). pose proof U_pos. pose proof P_pos.
    assert (ceil_div t0 U <= k * P) by (apply ceil_le; [lia|nia]).
    assert (k <> ceil_div t0 U / P); [|lia].
    intros E. apply Hm.
    pose proof (Z.div_mod (ceil_div t0 U) P ltac:(lia)).
    pose proof (Z.mod_pos_bound (ceil_div t0 U) P ltac:(lia)). nia.
  Qed.

  Lemma hit_mono v w : t0 <= v -> v < w -> hit v = true -> hit w = true ->
    cell v < cell w.
  Proof.
    intros Hv Hvw H1 H2. apply hit_iff in H1, H2. pose proof U_pos. pose proof P_pos.
    destruct H2 as [[k2 E2]|[E2 _]]; [|lia].
    destruct H1 as [[k1 E1]|[E1 Hm]].
    - subst. rewrite !cell_mul. apply Z.mul_lt_mono_pos_r in Hvw; [lia|nia].
    - subst v w. rewrite cell_t0, cell_mul.
      pose proof (mul_gt k2 ltac:(lia) Hm). lia.
  Qed.

  Lemma hit_range v : t0 <= v < t1 -> hit v = true -> 0 < cells ab pp ->
    0 <= cell v < cells ab pp.
  Proof.
    intros Hv H1 Hc. apply hit_iff in H1. pose proof U_pos. pose proof P_pos.
    unfold cells in Hc |- *. rewrite ab_eq in Hc |- *. cbn [fst snd] in Hc |- *.
    fold P in Hc |- *.
    destruct (Z.ltb_spec (ceil_div t0 U) (ceil_div t1 U)) as [Hlt|]; [|lia].
    destruct H1 as [[k E]|[E _]].
    - subst v. rewrite cell_mul. pose proof (mul_ge k ltac:(lia)).
      assert (k < ceil_div (ceil_div t1 U) P); [|lia].
      apply ceil_lt; [lia|]. apply ceil_lt; [lia|]. nia.
    - subst v. rewrite cell_t0. lia.
  Qed.

  Lemma hit_exists k : 0 <= k < cells ab pp ->
    exists v, t0 <= v < t1 /\ hit v = true /\ cell v = k.
  Proof.
    intros Hk. pose proof U_pos. pose proof P_pos.
    unfold cells in Hk. rewrite ab_eq in Hk. cbn [fst snd] in Hk. fold P in Hk.
    destruct (Z.ltb_spec (ceil_div t0 U) (ceil_div t1 U)) as [Hlt|]; [|lia].
    assert (Hm : (k + ceil_div t0 U / P) * (U * P) < t1).
    { assert (Hq : k + ceil_div t0 U / P < ceil_div (ceil_div t1 U) P) by lia.
      apply (proj1 (ceil_lt _ P _ ltac:(lia))) in Hq.
      apply (proj1 (ceil_lt _ U _ ltac:(lia))) in Hq.
      rewrite (Z.mul_comm U P), Z.mul_assoc. exact Hq. }
    pose proof (proj1 (ceil_le t0 U _ ltac:(lia)) (Z.le_refl _)) as Hu.
    pose proof (Z.div_mod (ceil_div t0 U) P ltac:(lia)) as Hdm.
    pose proof (Z.mod_pos_bound (ceil_div t0 U) P ltac:(lia)) as Hmb.
    destruct (Z.eq_dec (ceil_div t0 U mod P) 0) as [E|E].
    - exists ((k + ceil_div t0 U / P) * (U * P)). split; [|split].
      + split; [|assumption].
        assert (Ha : ceil_div t0 U = P * (ceil_div t0 U / P)) by lia.
        generalize dependent (ceil_div t0 U / P). intros f. intros.
        rewrite Ha in Hu. replace ((k + f) * (U * P)) with (k * (U * P) + P * f * U) by ring.
        assert (0 <= k * (U * P)) by (apply Z.mul_nonneg_nonneg; nia). lia.
      + apply hit_iff. left. eexists. reflexivity.
      + rewrite cell_mul. lia.
    - destruct (Z.eq_dec k 0) as [->|Hk0].
      + exists t0. split; [lia|]. split; [apply hit_iff; auto|apply cell_t0].
      + exists ((k + ceil_div t0 U / P) * (U * P)). split; [|split].
        * split; [|assumption].
          assert (Ha : ceil_div t0 U <= P * (ceil_div t0 U / P) + P) by lia.
          generalize dependent (ceil_div t0 U / P). intros f. intros.
          apply (Z.mul_le_mono_nonneg_r _ _ U) in Ha; [|lia].
          replace ((k + f) * (U * P)) with ((k - 1) * (U * P) + (P * f + P) * U) by ring.
          assert (0 <= (k - 1) * (U * P)) by (apply Z.mul_nonneg_nonneg; nia). lia.
        * apply hit_iff. left. eexists. reflexivity.
        * rewrite cell_mul. lia.
  Qed.

  (** Any increasing list of grid positions of the tile that contains those
      where a precinct begins meets the precincts in order. *)
  Lemma axis_enum L : StronglySorted Z.lt L ->
    (forall v, In v L -> t0 <= v < t1) ->
    (forall v, t0 <= v < t1 -> hit v = true -> In v L) ->
    0 < cells ab pp ->
    map cell (filter hit L) = zseq (cells ab pp).
  Proof.
    intros HL Hin Hall Hc. apply sorted_eq.
    - apply (sorted_map _ Z.lt); [apply sorted_filter; assumption|].
      intros a b Ha Hb Hab. apply filter_In in Ha, Hb.
      apply hit_mono; try tauto. apply Hin; tauto.
    - apply zseq_sorted.
    - intros k. rewrite zseq_In, in_map_iff. split.
      + intros (v & <- & Hv). apply filter_In in Hv. apply hit_range; try tauto.
        apply Hin; tauto.
      + intros Hk. destruct (hit_exists k Hk) as (v & Hv & Hh & E).
        exists v. split; [assumption|]. apply filter_In. split; [|assumption].
        apply Hall; assumption.
  Qed.
End Axis.

(** * The grid positions the code examines *)

Lemma multiples_ok step lo hi : forall fuel v,
  1 <= step -> 0 <= v -> hi + step <= two32 -> hi - v <= Z.of_nat fuel * step - step ->
  (1 <= fuel)%nat ->
  exists l, multiples fuel step lo hi v = ret l /\ StronglySorted Z.lt l /\
    (forall w, In w l <-> lo < w < hi /\ exists k, 0 <= k /\ w = v + k * step).
Proof.
  induction fuel as [|fuel IH]; intros v Hs Hv Hhi Hf Hf1; [lia|].
  cbn [multiples]. destruct (Z.ltb_spec v hi) as [Hlt|Hge].
  - rewrite wrap32_small by lia.
    destruct (IH (v + step)) as (l & El & Sl & Il); [lia|lia|lia|nia| |].
    { destruct fuel; [|lia]. exfalso. nia. }
    rewrite El, ret_bindx. eexists. split; [reflexivity|].
    assert (Hgt : forall w, In w l -> v < w).
    { intros w Hw. apply Il in Hw. destruct Hw as (_ & k & Hk & ->). nia. }
    assert (Htail : forall w, (exists k, 0 <= k /\ w = v + k * step) <->
        w = v \/ exists k, 0 <= k /\ w = v + step + k * step).
    { intros w. split.
      - intros (k & Hk & ->). destruct (Z.eq_dec k 0); [left; lia|].
        right. exists (k - 1). lia.
      - intros [->|(k & Hk & ->)]; [exists 0; lia|exists (k + 1); lia]. }
    destruct (Z.ltb_spec lo v).
    + split.
      * constructor; [assumption|]. apply Forall_forall. assumption.
      * intros w. cbn [In]. rewrite Il, Htail. intuition lia.
    + split; [assumption|]. intros w. rewrite Il, Htail. intuition lia.
  - eexists. split; [reflexivity|]. split; [constructor|].
    intros w. cbn [In]. split; [tauto|]. intros (? & k & ? & ->). nia.
Qed.

Lemma examined_ok pp lo hi : 0 <= pp <= 16 -> 0 <= lo < hi -> hi <= 2 ^ 31 ->
  examined pp lo hi =
  ret (filter (fun v => (v =? lo) || (v mod 2 ^ pp =? 0)) (zrange lo hi)).
Proof.
  intros Hp Hlo Hhi. unfold examined. rewrite shl1_exact, ret_bindx by lia.
  assert (Hs : 1 <= 2 ^ pp <= 65536).
  { split.
    - change 1 with (2 ^ 0). apply Z.pow_le_mono_r; lia.
    - change 65536 with (2 ^ 16). apply Z.pow_le_mono_r; lia. }
  change (2 ^ 31) with 2147483648 in *.
  destruct (multiples_ok (2 ^ pp) lo hi (S (S (Z.to_nat (hi / 2 ^ pp)))) 0)
    as (l & El & Sl & Il).
  - lia.
  - lia.
  - rewrite two32_val. lia.
  - assert (0 <= hi / 2 ^ pp) by (apply Z.div_pos; lia).
    rewrite !Nat2Z.inj_succ, Z2Nat.id by assumption.
    pose proof (Z.div_mod hi (2 ^ pp) ltac:(lia)).
    pose proof (Z.mod_pos_bound hi (2 ^ pp) ltac:(lia)).
    set (q := hi / 2 ^ pp) in *. clearbody q. nia.
  - lia.
  - rewrite El, ret_bindx. f_equal. f_equal. apply sorted_eq.
    + constructor; [assumption|]. apply Forall_forall. intros w Hw. apply Il in Hw. lia.
    + apply sorted_filter, zrange_sorted.
    + intros w. cbn [In]. rewrite Il, filter_In, zrange_In, orb_true_iff, !Z.eqb_eq.
      split.
      * intros [<-|(H1 & k & Hk & ->)]; [lia|].
        split; [lia|]. right. rewrite Z.add_0_l. apply Z.mod_mul. lia.
      * intros (H1 & [->|H2]); [left; reflexivity|].
        destruct (Z.eq_dec w lo); [left; lia|]. right. split; [lia|].
        exists (w / 2 ^ pp). split; [apply Z.div_pos; lia|].
        pose proof (Z.div_mod w (2 ^ pp) ltac:(lia)). lia.
Qed.
