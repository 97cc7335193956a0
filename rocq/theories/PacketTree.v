(** The shape of the tag trees the constructor builds. *)
From Coq Require Import Permutation.
From Verif Require Import Base BaseLemmas ChainModel PacketModel.

Notation nd := (znth node0).

(** ** Node arrays *)
Lemma nget_in t i : 0 <= i < zlen t -> nget t i = Ret (nd t i).
Proof. intros H. unfold nget. replace ((0 <=? i) && (i <? zlen t)) with true by lia. reflexivity. Qed.
Lemma zlen_nput t i n : 0 <= i < zlen t -> zlen (nput t i n) = zlen t.
Proof. intros H. unfold nput. rewrite !zlen_app, zlen_cons, zlen_nil, zlen_ztake, zlen_zskip by lia. lia. Qed.
Lemma nput_same t i n : 0 <= i < zlen t -> nd (nput t i n) i = n.
Proof. intros H. unfold nput. rewrite znth_app_r by (rewrite zlen_ztake; lia). rewrite zlen_ztake by lia. replace (i - i) with 0 by lia. reflexivity. Qed.
Lemma nput_other t i j n : 0 <= i < zlen t -> 0 <= j -> i <> j -> nd (nput t i n) j = nd t j.
Proof.
  intros H Hj D. unfold nput. destruct (Z_lt_le_dec j i) as [L|L].
  - rewrite znth_app_l by (rewrite zlen_ztake; lia). apply znth_ztake. lia.
  - rewrite znth_app_r by (rewrite zlen_ztake; lia). rewrite zlen_ztake by lia. cbn [app]. rewrite znth_cons by lia. rewrite znth_zskip by lia. f_equal. lia.
Qed.
Lemma nput_nd t i n j : 0 <= i < zlen t -> 0 <= j -> nd (nput t i n) j = if i =? j then n else nd t j.
Proof. intros H Hj. destruct (Z.eqb_spec i j) as [<-|D]; [now apply nput_same|now apply nput_other]. Qed.
Lemma nupd_in t i f : 0 <= i < zlen t -> nupd t i f = let* n := f (nd t i) in Ret (nput t i n).
Proof. intros H. unfold nupd. rewrite nget_in by lia. reflexivity. Qed.

(** ** The constructor *)
Record topo (nleaf : Z) (t : tree) : Prop := {
  tp_len : 0 < nleaf <= zlen t;
  tp_idx : forall i, 0 <= i < zlen t -> idx (nd t i) = i;
  tp_par : forall i, 0 <= i < zlen t - 1 -> i < par (nd t i) < zlen t /\ nleaf <= par (nd t i) /\ 0 < lev (nd t i);
  tp_root : par (nd t (zlen t - 1)) = -1 /\ lev (nd t (zlen t - 1)) = 0;
  tp_mem : forall i, 0 <= i < zlen t - 1 -> In i (kids (nd t (par (nd t i))));
  tp_kid : forall p c, 0 <= p < zlen t -> In c (kids (nd t p)) -> 0 <= c < p /\ par (nd t c) = p;
  tp_inner : forall p, nleaf <= p < zlen t -> kids (nd t p) <> [] }.
Definition blank (n : node) : Prop := st n = 0 /\ cur n = 0 /\ val n = 0 /\ isset n = false.

Record LInv (nleaf base w h N m : Z) (t : tree) : Prop := {
  li_len : zlen t = N;
  li_blank : forall i, 0 <= i < N -> blank (nd t i);
  li_done : forall i, 0 <= i < m -> idx (nd t i) = i /\ i < par (nd t i) < N /\ nleaf <= par (nd t i) /\ 0 < lev (nd t i) /\ In i (kids (nd t (par (nd t i))));
  li_kid : forall p c, 0 <= p < N -> In c (kids (nd t p)) -> 0 <= c < m /\ c < p /\ par (nd t c) = p;
  li_nodup : forall p, 0 <= p < N -> NoDup (kids (nd t p));
  li_geo : forall i j, 0 <= i -> 0 <= j < w -> base + i * w + j < m -> par (nd t (base + i * w + j)) = base + w * h + i / 2 * ceil_int w 2 + j / 2;
  li_inner : forall p, nleaf <= p < base + w * h -> kids (nd t p) <> [];
  li_old : forall c, 0 <= c < base -> par (nd t c) < base + w * h }.

Lemma ceil2 w : ceil_int w 2 = (w + 1) / 2.
Proof. reflexivity. Qed.
Lemma half_lt j w : 0 <= j < w -> 0 <= j / 2 < ceil_int w 2.
Proof. intros H. rewrite ceil2. lia. Qed.
Lemma divmod_unique cw a b a' b' : 0 <= b < cw -> 0 <= b' < cw -> a * cw + b = a' * cw + b' -> a = a' /\ b = b'.
Proof.
  intros H H' E. assert (a = a').
  { pose proof (Z.div_unique_pos (a * cw + b) cw a b H). pose proof (Z.div_unique_pos (a' * cw + b') cw a' b' H'). rewrite (H0 ltac:(ring)), (H1 ltac:(ring)), E. reflexivity. }
  subst. lia.
Qed.

Lemma li_step nleaf base w h N i j t depth :
  let m := base + i * w + j in
  let pi := base + w * h + i / 2 * ceil_int w 2 + j / 2 in
  0 < nleaf -> 0 <= base -> 1 <= w -> 1 <= h -> 0 <= i < h -> 0 <= j < w -> nleaf <= base + w * h -> base + w * h + ceil_int w 2 * ceil_int h 2 <= N -> 0 < depth ->
  LInv nleaf base w h N m t ->
  exists t', (let* t := nupd t m (set_node depth m pi) in nupd t pi (add_child m)) = Ret t' /\ LInv nleaf base w h N (m + 1) t'.
Proof.
  intros m pi Hn Hb Hw Hh Hi Hj Hl HN Hd I.
  assert (m < base + w * h) as Hm by (unfold m; nia).
  assert (base <= m) as Hm0 by (unfold m; nia).
  assert (base + w * h <= pi < base + w * h + ceil_int w 2 * ceil_int h 2) as Hp.
  { pose proof (half_lt j w Hj). pose proof (half_lt i h Hi). unfold pi. nia. }
  pose proof (li_len _ _ _ _ _ _ _ I) as L. pose proof (li_kid _ _ _ _ _ _ _ I) as K.
  assert (zlen (kids (nd t pi)) < 4) as B.
  { set (I2 := i / 2). set (J2 := j / 2).
    assert (NoDup (m :: kids (nd t pi))) as ND.
    { constructor; [|apply (li_nodup _ _ _ _ _ _ _ I); lia]. intros Hin. apply K in Hin; lia. }
    assert (incl (m :: kids (nd t pi)) [base + 2 * I2 * w + 2 * J2; base + 2 * I2 * w + (2 * J2 + 1); base + (2 * I2 + 1) * w + 2 * J2; base + (2 * I2 + 1) * w + (2 * J2 + 1)]) as IN.
    { assert (forall i' j', i' / 2 = I2 -> j' / 2 = J2 -> In (base + i' * w + j') [base + 2 * I2 * w + 2 * J2; base + 2 * I2 * w + (2 * J2 + 1); base + (2 * I2 + 1) * w + 2 * J2; base + (2 * I2 + 1) * w + (2 * J2 + 1)]) as G.
      { intros i' j' E1 E2. assert (i' = 2 * I2 \/ i' = 2 * I2 + 1) as [-> | ->] by lia; assert (j' = 2 * J2 \/ j' = 2 * J2 + 1) as [-> | ->] by lia; cbn [In]; auto. }
      intros c [<-|Hc]; [apply G; reflexivity|]. pose proof Hc as Hc'. apply K in Hc; [|lia]. destruct Hc as (C1 & C2 & C3).
      assert (base <= c) as C4 by (destruct (Z_lt_le_dec c base) as [X|X]; [pose proof (li_old _ _ _ _ _ _ _ I c ltac:(lia)); lia|exact X]).
      set (i' := (c - base) / w). set (j' := (c - base) mod w).
      assert (0 <= j' < w) as Hj' by (apply Z.mod_pos_bound; lia).
      assert (c = base + i' * w + j') as Ec by (unfold i', j'; pose proof (Z.div_mod (c - base) w ltac:(lia)); lia).
      assert (0 <= i') as Hi' by (unfold i'; apply Z.div_pos; lia).
      pose proof (li_geo _ _ _ _ _ _ _ I i' j' Hi' Hj' ltac:(lia)) as Gp. rewrite <- Ec, C3 in Gp. unfold pi in Gp.
      destruct (divmod_unique (ceil_int w 2) (i / 2) (j / 2) (i' / 2) (j' / 2)) as [E1 E2]; [apply half_lt; lia|apply half_lt; lia|lia|].
      rewrite Ec. apply G; unfold I2, J2; lia. }
    pose proof (NoDup_incl_length ND IN) as X. cbn [length] in X. unfold zlen. lia. }
  rewrite nupd_in by lia. unfold set_node at 1. cbn [bind].
  set (n1 := Node depth m pi (kids (nd t m)) (st (nd t m)) (cur (nd t m)) (val (nd t m)) (isset (nd t m))).
  rewrite nupd_in by (rewrite zlen_nput; lia). rewrite nput_other by lia. unfold add_child. replace (zlen (kids (nd t pi)) <? 4) with true by lia. cbn [bind].
  eexists. split; [reflexivity|]. set (n2 := Node _ _ _ (_ ++ _) _ _ _ _).
  assert (forall x, 0 <= x -> nd (nput (nput t m n1) pi n2) x = if pi =? x then n2 else if m =? x then n1 else nd t x) as R.
  { intros x Hx. rewrite nput_nd by (rewrite ?zlen_nput; lia). destruct (pi =? x); [reflexivity|]. apply nput_nd; lia. }
  assert (forall x, 0 <= x -> kids (nd (nput (nput t m n1) pi n2) x) = if pi =? x then kids (nd t pi) ++ [m] else kids (nd t x)) as Rk.
  { intros x Hx. rewrite R by lia. destruct (pi =? x); [reflexivity|]. destruct (Z.eqb_spec m x) as [<-|]; reflexivity. }
  assert (forall x, 0 <= x -> par (nd (nput (nput t m n1) pi n2) x) = if m =? x then pi else par (nd t x)) as Rp.
  { intros x Hx. rewrite R by lia. destruct (Z.eqb_spec pi x) as [<-|]; [|destruct (m =? x); reflexivity]. replace (m =? pi) with false by lia. reflexivity. }
  constructor.
  - rewrite !zlen_nput; try lia. rewrite zlen_nput; lia.
  - intros x Hx. rewrite R by lia. pose proof (li_blank _ _ _ _ _ _ _ I) as Bl. destruct (pi =? x) eqn:E1; [exact (Bl pi ltac:(lia))|]. destruct (m =? x) eqn:E2; [exact (Bl m ltac:(lia))|]. apply Bl; lia.
  - intros x Hx. destruct (Z.eqb_spec m x) as [<-|D].
    + rewrite Rp by lia. rewrite Z.eqb_refl. rewrite R by lia. replace (pi =? m) with false by lia. rewrite Z.eqb_refl. rewrite Rk by lia. rewrite Z.eqb_refl. cbn [idx lev n1]. repeat split; try lia. apply in_or_app. right. left. reflexivity.
    + pose proof (li_done _ _ _ _ _ _ _ I x ltac:(lia)) as (D1 & D2 & D3 & D4 & D5). rewrite Rp by lia. replace (m =? x) with false by lia. rewrite R by lia. replace (pi =? x) with false by lia. replace (m =? x) with false by lia.
      repeat split; try lia. rewrite Rk by lia. destruct (Z.eqb_spec pi (par (nd t x))) as [Ep|]; [|exact D5]. rewrite Ep. apply in_or_app. left. exact D5.
  - intros p c Hp0 Hin. rewrite Rk in Hin by lia. destruct (Z.eqb_spec pi p) as [<-|D].
    + apply in_app_or in Hin. destruct Hin as [Hin|[<-|[]]].
      * pose proof (K _ _ Hp0 Hin) as (K1 & K2 & K3). rewrite Rp by lia. replace (m =? c) with false by lia. lia.
      * rewrite Rp by lia. rewrite Z.eqb_refl. lia.
    + pose proof (K _ _ Hp0 Hin) as (K1 & K2 & K3). rewrite Rp by lia. replace (m =? c) with false by lia. lia.
  - intros p Hp0. rewrite Rk by lia. destruct (Z.eqb_spec pi p) as [<-|D]; [|now apply (li_nodup _ _ _ _ _ _ _ I)].
    assert (NoDup ([m] ++ kids (nd t pi))) as ND.
    { cbn [app]. constructor; [|now apply (li_nodup _ _ _ _ _ _ _ I)]. intros Hin. apply K in Hin; lia. }
    apply (Permutation_NoDup (Permutation_app_comm [m] _)). exact ND.
  - intros i' j' Hi' Hj' Hlt. rewrite Rp by nia. destruct (Z.eqb_spec m (base + i' * w + j')) as [E|E].
    + unfold m in E. destruct (divmod_unique w i j i' j' Hj Hj' ltac:(lia)) as [<- <-]. reflexivity.
    + apply (li_geo _ _ _ _ _ _ _ I); lia.
  - intros p Hp0. rewrite Rk by lia. replace (pi =? p) with false by lia. now apply (li_inner _ _ _ _ _ _ _ I).
  - intros c Hc. rewrite Rp by lia. replace (m =? c) with false by lia. now apply (li_old _ _ _ _ _ _ _ I).
Qed.

Section Level.
Variables nleaf base w h N depth : Z.
Hypothesis Hn : 0 < nleaf.
Hypothesis Hb : 0 <= base.
Hypothesis Hw : 1 <= w.
Hypothesis Hh : 1 <= h.
Hypothesis Hl : nleaf <= base + w * h.
Hypothesis HN : base + w * h + ceil_int w 2 * ceil_int h 2 <= N.
Hypothesis Hd : 0 < depth.
Notation Inv := (LInv nleaf base w h N).

Lemma cols_ok i n : forall j pi t, 0 <= i < h -> 0 <= j -> Z.of_nat n = w - j -> (j < w -> pi = base + w * h + i / 2 * ceil_int w 2 + j / 2) ->
  Inv (base + i * w + j) t -> exists t', cols n j w depth (base + i * w + j) pi t = Ret (t', base + (i + 1) * w) /\ Inv (base + (i + 1) * w) t'.
Proof.
  induction n as [|n IH]; intros j pi t Hi Hj En Hpi I; cbn [cols].
  - replace (base + i * w + j) with (base + (i + 1) * w) in * by lia. eauto.
  - rewrite (Hpi ltac:(lia)). destruct (li_step nleaf base w h N i j t depth Hn Hb Hw Hh Hi ltac:(lia) Hl HN Hd I) as (t' & E & I').
    cbv zeta in E. destruct (nupd t (base + i * w + j) _) as [t1| |] eqn:E1; try discriminate. cbn [bind] in E |- *. rewrite E. cbn [bind].
    replace (base + i * w + j + 1) with (base + i * w + (j + 1)) in * by lia.
    apply IH; auto; try lia. intros Hj1. replace (j =? w - 1) with false by lia. cbn [negb]. rewrite andb_true_r.
    destruct (Z.eqb_spec (j mod 2) 1); replace ((j + 1) / 2) with (j / 2 + j mod 2) by lia; lia.
Qed.
Lemma rows_ok n : forall i t, 0 <= i -> Z.of_nat n = h - i -> Inv (base + i * w) t ->
  exists t', rows n i w depth (base + i * w) (base + w * h + i / 2 * ceil_int w 2) t = Ret (t', base + w * h) /\ Inv (base + w * h) t'.
Proof.
  induction n as [|n IH]; intros i t Hi En I; cbn [rows].
  - assert (base + i * w = base + w * h) as E by nia. rewrite E in *. eauto.
  - destruct (cols_ok i (Z.to_nat w) 0 (base + w * h + i / 2 * ceil_int w 2) t ltac:(lia) ltac:(lia) ltac:(lia) ltac:(intros _; change (0 / 2) with 0; lia)) as (t' & E & I').
    { rewrite Z.add_0_r. exact I. }
    rewrite Z.add_0_r in E. rewrite E. cbn [bind].
    replace (if i mod 2 =? 1 then base + w * h + i / 2 * ceil_int w 2 + ceil_int w 2 else base + w * h + i / 2 * ceil_int w 2) with (base + w * h + (i + 1) / 2 * ceil_int w 2).
    { apply IH; [lia|lia|exact I']. }
    replace ((i + 1) / 2) with (i / 2 + i mod 2) by lia. generalize (ceil_int w 2) as cw. intros cw. destruct (Z.eqb_spec (i mod 2) 1) as [->|D]; [ring|]. replace (i mod 2) with 0 by lia. ring.
Qed.
Lemma next_level t : Inv (base + w * h) t -> LInv nleaf (base + w * h) (ceil_int w 2) (ceil_int h 2) N (base + w * h) t.
Proof.
  intros I. destruct I as [L B D K ND G In0 O]. constructor; auto.
  - intros i j Hi Hj Hlt. assert (0 <= ceil_int w 2) by lia. nia.
  - intros p Hp. destruct (Z_lt_le_dec p (base + w * h)) as [X|X]; [apply In0; lia|].
    set (q := p - (base + w * h)). set (cw := ceil_int w 2) in *. assert (0 < cw) as Hcw by (pose proof (half_lt 0 w ltac:(lia)); unfold cw; lia).
    set (I := q / cw). set (J := q mod cw). assert (0 <= J < cw) as HJ by (apply Z.mod_pos_bound; lia). assert (q = I * cw + J) as Eq by (unfold I, J; pose proof (Z.div_mod q cw ltac:(lia)); lia).
    assert (0 <= I < ceil_int h 2) as HI by (split; [apply Z.div_pos; unfold q; lia|apply Z.div_lt_upper_bound; unfold q; lia]).
    assert (2 * J < w) as HJ2 by (unfold cw in HJ; rewrite ceil2 in HJ; lia). assert (2 * I < h) as HI2 by (rewrite ceil2 in HI; lia).
    pose proof (G (2 * I) (2 * J) ltac:(lia) ltac:(lia) ltac:(nia)) as Gp. replace (2 * I / 2) with I in Gp by lia. replace (2 * J / 2) with J in Gp by lia.
    assert (0 <= base + 2 * I * w + 2 * J < base + w * h) as Hc by nia.
    pose proof (D _ Hc) as (_ & _ & _ & _ & M). rewrite Gp in M. replace (base + w * h + I * cw + J) with p in M by lia.
    intros E. rewrite E in M. destruct M.
  - intros c Hc. pose proof (half_lt 0 w ltac:(lia)). destruct (Z_lt_le_dec c base) as [X|X]; [pose proof (O c ltac:(lia)); pose proof (half_lt 0 h ltac:(lia)); nia|].
    set (i := (c - base) / w). set (j := (c - base) mod w). assert (0 <= j < w) as Hj by (apply Z.mod_pos_bound; lia).
    assert (c = base + i * w + j) as Ec by (unfold i, j; pose proof (Z.div_mod (c - base) w ltac:(lia)); lia).
    assert (0 <= i < h) as Hi by (split; [apply Z.div_pos; lia|apply Z.div_lt_upper_bound; lia]).
    rewrite Ec. rewrite G by lia. pose proof (half_lt j w Hj). pose proof (half_lt i h Hi). nia.
Qed.
End Level.

Lemma ceil_shrinks w h : 1 <= w -> 1 <= h -> 1 < w * h -> 3 * (ceil_int w 2 * ceil_int h 2) <= 2 * (w * h) /\ 1 <= ceil_int w 2 * ceil_int h 2.
Proof.
  intros Hw Hh H. rewrite !ceil2. set (a := (w + 1) / 2). set (b := (h + 1) / 2). assert (2 * a <= w + 1 /\ 1 <= a /\ a <= w) as (A1 & A2 & A3) by lia. assert (2 * b <= h + 1 /\ 1 <= b /\ b <= h) as (B1 & B2 & B3) by lia.
  split; [|nia]. destruct (Z_le_gt_dec w 1) as [W|W].
  - assert (w = 1) by lia. subst w. assert (a = 1) by lia. rewrite H0. assert (2 <= h) by lia. lia.
  - destruct (Z_le_gt_dec h 1) as [G|G]; [assert (h = 1) by lia; subst h; assert (b = 1) as -> by lia; lia|].
    assert (3 * a <= 2 * w) by lia. assert (3 * b <= 2 * h) by lia. nia.
Qed.
Lemma count_S fuel w h num level : count_nodes (S fuel) w h num level =
  if 2 ^ 31 <=? w * h then UB else if w * h <=? 1 then Ret (wrap32 (num + w * h), level)
  else count_nodes fuel (ceil_int w 2) (ceil_int h 2) (wrap32 (num + w * h)) (level + 1).
Proof. reflexivity. Qed.
Lemma count_ok k : forall w h num level, 1 <= w <= 2 ^ Z.of_nat k -> 1 <= h <= 2 ^ Z.of_nat k -> w * h < 2 ^ 31 -> 0 <= num -> num + 3 * (w * h) < 2 ^ 32 ->
  exists N L, count_nodes (S k) w h num level = Ret (N, L) /\ num + w * h <= N <= num + 3 * (w * h) /\ level <= L.
Proof.
  induction k as [|k IH]; intros w h num level Hw Hh Hx Hn Hs.
  - change (2 ^ Z.of_nat 0) with 1 in *. assert (w = 1) by lia. assert (h = 1) by lia. subst. cbn [count_nodes]. change (1 * 1) with 1. change (2 ^ 31 <=? 1) with false. change (1 <=? 1) with true.
    cbv iota. rewrite wrap32_small by (unfold two32; lia). eexists _, _. split; [reflexivity|]. lia.
  - rewrite count_S. replace (2 ^ 31 <=? w * h) with false by lia. destruct (Z.leb_spec (w * h) 1) as [L|L].
    + rewrite wrap32_small by (unfold two32; lia). eexists _, _. split; [reflexivity|]. lia.
    + assert (2 ^ Z.of_nat (S k) = 2 * 2 ^ Z.of_nat k) as P by (rewrite Nat2Z.inj_succ, Z.pow_succ_r by lia; reflexivity). rewrite P in *. clear P.
      pose proof (ceil_shrinks w h ltac:(lia) ltac:(lia) L) as [C1 C2]. rewrite wrap32_small by (unfold two32; lia).
      destruct (IH (ceil_int w 2) (ceil_int h 2) (num + w * h) (level + 1)) as (N & L' & E & B & Hl'); [rewrite ceil2; lia|rewrite ceil2; lia|lia|lia|lia|].
      exists N, L'. split; [exact E|]. lia.
Qed.
Lemma levels_ok fuel : forall w h num level N L t nleaf, count_nodes fuel w h num level = Ret (N, L) -> 1 <= w -> 1 <= h -> 0 <= num -> num + 3 * (w * h) < 2 ^ 32 -> 0 < nleaf -> nleaf <= num + w * h ->
  LInv nleaf num w h N num t ->
  level <= L /\ N >= num + w * h /\ exists t' b, levels fuel w h (L - level) num num t = Ret (t', N - 1, 0) /\ LInv nleaf b 1 1 N (N - 1) t' /\ b = N - 1.
Proof.
  induction fuel as [|fuel IH]; intros w h num level N L t nleaf C Hw Hh Hn Hs Hl Hlf I; [discriminate|]. cbn [count_nodes levels] in *.
  destruct (2 ^ 31 <=? w * h); [discriminate|]. destruct (Z.leb_spec (w * h) 1) as [G|G].
  - apply Ret_inj, pair_inj in C. destruct C as [C1 C2]. assert (w = 1) by nia. assert (h = 1) by nia. subst w h. rewrite wrap32_small in C1 by (unfold two32; lia). subst N L.
    split; [lia|]. split; [lia|]. exists t, num. replace (level - level) with 0 by lia. replace (num + 1 * 1 - 1) with num by lia. split; [reflexivity|]. split; [exact I|reflexivity].
  - pose proof (ceil_shrinks w h Hw Hh G) as [C1 C2]. rewrite wrap32_small in C by (unfold two32; lia).
    assert (1 <= ceil_int w 2) as W1 by (rewrite ceil2; lia). assert (1 <= ceil_int h 2) as H1 by (rewrite ceil2; lia).
    assert (level + 1 <= L /\ N >= num + w * h + ceil_int w 2 * ceil_int h 2) as [Lv Nv].
    { clear - C W1 H1 Hn Hs C1 C2 G. revert C. generalize (num + w * h) (level + 1) (ceil_int w 2) (ceil_int h 2) W1 H1 (ltac:(nia) : num + w * h + 3 * (ceil_int w 2 * ceil_int h 2) < 2 ^ 32) (ltac:(nia) : 0 <= num + w * h). clear.
      induction fuel as [|fuel IH]; intros num level w h Hw Hh Hs Hn C; [discriminate|]. cbn [count_nodes] in C. destruct (2 ^ 31 <=? w * h); [discriminate|]. rewrite wrap32_small in C by (unfold two32; lia). destruct (Z.leb_spec (w * h) 1) as [G|G].
      - apply Ret_inj, pair_inj in C. lia.
      - pose proof (ceil_shrinks w h Hw Hh G) as [C1 C2]. apply IH in C; [lia|rewrite ceil2; lia|rewrite ceil2; lia|lia|lia]. }
    destruct (rows_ok nleaf num w h N (L - level) Hl Hn Hw Hh Hlf ltac:(lia) ltac:(lia) (Z.to_nat h) 0 t ltac:(lia) ltac:(lia)) as (t1 & E1 & I1); [replace (num + 0 * w) with num by lia; exact I|].
    replace (num + 0 * w) with num in E1 by lia. change (0 / 2) with 0 in E1. replace (num + w * h + 0 * ceil_int w 2) with (num + w * h) in E1 by lia.
    rewrite E1. cbn [bind]. apply (next_level nleaf num w h N (L - level)) in I1; try assumption; try lia.
    destruct (IH _ _ _ _ _ _ _ nleaf C W1 H1 ltac:(lia) ltac:(nia) Hl ltac:(nia) I1) as (_ & _ & t' & b & E2 & I2 & Eb).
    split; [lia|]. split; [lia|]. exists t', b. replace (L - level - 1) with (L - (level + 1)) by lia. auto.
Qed.
Lemma start_inv N w h : 0 <= N -> LInv (w * h) 0 w h N 0 (repeat node0 (Z.to_nat N)).
Proof.
  intros HN. assert (forall i, nd (repeat node0 (Z.to_nat N)) i = node0) as R by (intros i; unfold znth; apply nth_repeat).
  constructor; intros.
  - rewrite zlen_repeat. lia.
  - rewrite R. repeat split.
  - lia.
  - rewrite R in *. contradiction.
  - rewrite R. constructor.
  - exfalso; nia.
  - lia.
  - lia.
Qed.
(** Every grid of code-blocks of less than 2^26 gets a tree. *)
Lemma tagtree_ok nx ny : 1 <= nx -> 1 <= ny -> nx * ny <= 2 ^ 26 ->
  exists t, tagtree nx ny = Ret t /\ topo (nx * ny) t /\ forall i, 0 <= i < zlen t -> blank (nd t i).
Proof.
  intros Hx Hy Hs. unfold tagtree.
  assert (nx <= 2 ^ Z.of_nat 32 /\ ny <= 2 ^ Z.of_nat 32) as [Bx By] by (change (2 ^ Z.of_nat 32) with 4294967296; change (2 ^ 26) with 67108864 in Hs; nia).
  change (2 ^ 26) with 67108864 in Hs. change 33%nat with (S 32).
  destruct (count_ok 32 nx ny 0 1) as (N & L & E & B & HL); [lia|lia|change (2 ^ 31) with 2147483648; lia|lia|change (2 ^ 32) with 4294967296; lia|]. rewrite E. cbn [bind].
  destruct (levels_ok (S 32) nx ny 0 1 N L (repeat node0 (Z.to_nat N)) (nx * ny) E Hx Hy ltac:(lia) ltac:(change (2 ^ 32) with 4294967296; lia) ltac:(nia) ltac:(lia) (start_inv N nx ny ltac:(lia))) as (_ & _ & t & b & E2 & I & Eb).
  rewrite E2. cbn [bind]. subst b. destruct I as [L0 Bl D K ND G In0 O].
  rewrite nupd_in by (nia). cbn [bind set_node]. eexists. split; [reflexivity|]. set (n1 := Node _ _ _ _ _ _ _ _).
  assert (0 <= N - 1 < zlen t) as HN by nia.
  assert (forall i, 0 <= i < N - 1 -> nd (nput t (N - 1) n1) i = nd t i) as R by (intros i Hi; apply nput_other; lia).
  assert (nd (nput t (N - 1) n1) (N - 1) = n1) as R1 by (apply nput_same; lia).
  assert (forall p, 0 <= p < N -> kids (nd (nput t (N - 1) n1) p) = kids (nd t p)) as Rk.
  { intros p Hp. destruct (Z.eq_dec p (N - 1)) as [->|]; [rewrite R1; reflexivity|rewrite R by lia; reflexivity]. }
  split.
  - constructor; rewrite ?zlen_nput by lia; rewrite L0.
    + nia.
    + intros i Hi. destruct (Z.eq_dec i (N - 1)) as [->|]; [rewrite R1; reflexivity|]. rewrite R by lia. apply D. lia.
    + intros i Hi. rewrite R by lia. pose proof (D i Hi). lia.
    + rewrite R1. split; reflexivity.
    + intros i Hi. rewrite (R i) by lia. pose proof (D i Hi) as (_ & D2 & _ & _ & D5). rewrite Rk by lia. exact D5.
    + intros p c Hp Hc. rewrite Rk in Hc by lia. pose proof (K p c Hp Hc). rewrite R by lia. lia.
    + intros p Hp. assert (0 < nx * ny) by nia. rewrite Rk by lia. apply In0. lia.
  - intros i Hi. rewrite zlen_nput in Hi by lia. destruct (Z.eq_dec i (N - 1)) as [->|]; [rewrite R1; exact (Bl (N - 1) ltac:(lia))|]. rewrite R by lia. apply Bl. lia.
Qed.
