(** Lemmas for StripProps.v: which rows the strip driver hands out. *)
From Coq Require Import FinFun.
From Verif Require Import Base BaseLemmas PrecinctModel PrecinctSpec PrecinctProofs GeoModel MarkerModel OutModel OutSpec OutProofs StripModel.

Lemma ret_eq {A} (a b : A) : a = b -> ret a = ret b.
Proof. congruence. Qed.
Definition range (a b : Z) : list Z := map (fun i => a + i) (zseq (b - a)).
Lemma range_nil a b : b <= a -> range a b = [].
Proof. intros. unfold range. rewrite zseq_0 by lia. reflexivity. Qed.
Lemma range_snoc a b : a <= b -> range a (b + 1) = range a b ++ [b].
Proof. intros. unfold range. replace (b + 1 - a) with (b - a + 1) by lia. rewrite zseq_snoc by lia. rewrite map_app. cbn [map]. do 2 f_equal. lia. Qed.
Lemma range_app a b c : a <= b <= c -> range a c = range a b ++ range b c.
Proof.
  intros [H1 H2]. apply (Zlt_lower_bound_ind (fun c => range a c = range a b ++ range b c) b); [|exact H2]. intros x IH Hx. destruct (Z.eq_dec x b) as [->|N].
  - rewrite (range_nil b b) by lia. rewrite app_nil_r. reflexivity.
  - replace x with (x - 1 + 1) by lia. rewrite !range_snoc by lia. rewrite (IH (x - 1)) by lia. rewrite app_assoc. reflexivity.
Qed.
Lemma foldo_map {A B C} (f : A -> C -> out A) (g : B -> C) l : forall a, foldo f a (map g l) = foldo (fun a b => f a (g b)) a l.
Proof. induction l as [|b l IH]; intros a; [reflexivity|]. cbn [map foldo]. destruct (f a (g b)); cbn [bind]; [apply IH|reflexivity|reflexivity]. Qed.
Lemma upd_same {A} (f : Z -> A) i v : upd f i v i = v.
Proof. unfold upd. rewrite Z.eqb_refl. reflexivity. Qed.
Lemma upd_other {A} (f : Z -> A) i v j : j <> i -> upd f i v j = f j.
Proof. intros. unfold upd. replace (j =? i) with false by lia. reflexivity. Qed.

Lemma pull_strip_exact n : forall h cur, cur <= h ->
  pull_strip n h cur = (map (fun i => if cur + i <? h then Some (cur + i) else None) (zseq (Z.of_nat n)), Z.min (cur + Z.of_nat n) h).
Proof.
  induction n as [|n IH]; intros h cur Hc; [change (Z.of_nat 0) with 0; cbn [pull_strip]; rewrite (zseq_0 0) by lia; cbn [map]; f_equal; lia|]. cbn [pull_strip]. destruct (Z.ltb_spec cur h) as [Hlt|Hge].
  - rewrite IH by lia. rewrite (zseq_cons (Z.of_nat (S n))) by lia. cbn [map]. rewrite Z.add_0_r. replace (cur <? h) with true by lia. f_equal; [|lia].
    f_equal. replace (Z.of_nat (S n) - 1) with (Z.of_nat n) by lia. rewrite map_map. apply map_ext. intros i. replace (cur + (1 + i)) with (cur + 1 + i) by lia. reflexivity.
  - f_equal; [|lia]. transitivity (map (fun _ : Z => @None Z) (zseq (Z.of_nat (S n)))).
    + unfold zseq. rewrite Nat2Z.id, map_map. generalize 0%nat at 1. generalize (S n). clear. induction n as [|n IH]; intros k; [reflexivity|]. cbn. f_equal. apply IH.
    + apply map_ext_in. intros i Hi. apply zseq_In in Hi. replace (cur + i <? h) with false by lia. reflexivity.
Qed.
Lemma pull_advance_exact n : forall h cur, cur <= h -> pull_advance n h cur = Z.min (cur + Z.of_nat n) h.
Proof.
  induction n as [|n IH]; intros h cur Hc; [change (Z.of_nat 0) with 0; cbn [pull_advance]; lia|]. cbn [pull_advance]. destruct (Z.ltb_spec cur h); rewrite IH by lia; lia.
Qed.

Section Rows.
  Variable raw : Z -> Z -> Z -> Z -> Z.
  Variable fin : Z -> Z -> Z.
  Variable mix : Z -> Z -> Z -> Z -> Z.
  Variable t : Z.
  Variable mct : bool.
  Variable ci : list sinfo.
  Let NC := zlen ci.
  Let inf := info ci.
  Hypothesis HN : 1 <= NC <= 16.
  Hypothesis Hci : forall c, 0 <= c < NC -> 0 <= s_w (inf c) /\ 0 <= s_h (inf c) <= 2147483648 /\ 1 <= s_yr (inf c) <= 255.
  Hypothesis Hmct : mct = true -> 3 <= NC /\ forall c, 1 <= c <= 2 -> s_w (inf c) = s_w (inf 0) /\ s_h (inf c) = s_h (inf 0).

  (** Rows of component 0 to one row of component [c]. *)
  Definition rho (c : Z) : Z := if mct && (c <? 3) then 1 else s_yr (inf c).
  Lemma rho_pos c : 0 <= c < NC -> 1 <= rho c <= 255.
  Proof. intros Hc. unfold rho. destruct (mct && (c <? 3)); [lia|]. apply (Hci c Hc). Qed.

  Variables h eff row_lo : Z.
  Hypothesis Hh : 1 <= h <= 1000000.
  Hypothesis Hdiv : forall c, 0 <= c < NC -> (rho c | h) /\ (rho c | row_lo).
  Hypothesis Heff : 0 <= eff <= s_h (inf 0).
  Hypothesis Hlo : 0 <= row_lo.

  Definition val (c k n : Z) : Z :=
    if mct && (c <? 3) then mix c (raw t 0 k n) (raw t 1 k n) (raw t 2 k n) else fin c (raw t c k n).
  Definition kept (c : Z) : Prop := row_lo < s_h (inf c) * rho c.
  Definition shown (c y : Z) : Z := Z.min (y / rho c) (s_h (inf c) - 1).

  Definition at_strip (y0 : Z) (cur : Z -> Z) : Prop := forall c, 0 <= c < NC -> cur c = Z.min (y0 / rho c) (s_h (inf c)).
  Definition rows_wanted (y0 y1 c : Z) : Z := Z.max 0 (Z.min (ceil_div y1 (rho c)) (s_h (inf c)) - y0 / rho c).
  Definition loaded (y0 y1 : Z) (bufs : Z -> list (option Z)) : Prop := forall c, 0 <= c < NC ->
    bufs c = map (fun i => if Z.min (y0 / rho c) (s_h (inf c)) + i <? s_h (inf c) then Some (Z.min (y0 / rho c) (s_h (inf c)) + i) else None)
                 (zseq (rows_wanted y0 y1 c)).

  Lemma count_exact y0 y1 c : 0 <= c < NC -> 0 <= y0 <= y1 -> y1 <= eff -> count_for mct ci y0 y1 c = ret (rows_wanted y0 y1 c).
  Proof.
    intros Hc Hy H1. unfold count_for. replace (16 <=? c) with false by lia. destruct (Hci c Hc) as (_ & Hs & Hyr). destruct (Hci 0 ltac:(lia)) as (_ & Hs0 & _).
    unfold rows_wanted, rho. destruct (mct && (c <? 3)) eqn:U.
    - apply andb_true_iff in U. destruct U as [U1 U2]. destruct (Hmct U1) as [_ Hm].
      assert (s_h (inf c) = s_h (inf 0)) by (assert (c = 0 \/ 1 <= c <= 2) as [->|X] by lia; [reflexivity|apply (Hm c X)]).
      unfold sub32. rewrite wrap32_small by (rewrite two32_val; lia). apply ret_eq. unfold ceil_div. rewrite !Z.div_1_r. lia.
    - unfold udiv. fold inf. replace (s_yr (inf c) =? 0) with false by lia. rewrite ret_bindx.
      rewrite cdiv_exact by (rewrite ?two32_val; lia). rewrite ret_bindx. cbv zeta. apply ret_eq.
      destruct (Z.ltb_spec (y0 / s_yr (inf c)) (Z.min (ceil_div y1 (s_yr (inf c))) (s_h (inf c)))); lia.
  Qed.

  Lemma fetch_exact y0 y1 cur b0 : 0 <= y0 <= y1 -> y1 <= eff -> at_strip y0 cur ->
    exists cur' bufs, foldx (fetch mct ci y0 y1) (cur, b0) (zseq NC) = ret (cur', bufs) /\ loaded y0 y1 bufs /\
      forall c, 0 <= c < NC -> cur' c = Z.min (Z.min (y0 / rho c) (s_h (inf c)) + rows_wanted y0 y1 c) (s_h (inf c)).
  Proof.
    intros Hy H1 Hcur.
    destruct (foldx_inv (fetch mct ci y0 y1) (fun i st =>
      (forall c, 0 <= c < i -> snd st c = map (fun i => if Z.min (y0 / rho c) (s_h (inf c)) + i <? s_h (inf c) then Some (Z.min (y0 / rho c) (s_h (inf c)) + i) else None)
                 (zseq (rows_wanted y0 y1 c)) /\ fst st c = Z.min (Z.min (y0 / rho c) (s_h (inf c)) + rows_wanted y0 y1 c) (s_h (inf c))) /\
      (forall c, i <= c < NC -> fst st c = Z.min (y0 / rho c) (s_h (inf c)))) NC (cur, b0)) as ((cur' & bufs) & E & A & _).
    - lia.
    - split; [intros; lia|]. intros c Hc. apply Hcur. lia.
    - intros i [cu bu] Hi [A B]. cbn [fst snd] in A, B. unfold fetch. rewrite count_exact by assumption. rewrite ret_bindx. cbn [fst snd].
      rewrite (B i) by lia. rewrite pull_strip_exact by (fold inf; lia). fold inf. assert (0 <= rows_wanted y0 y1 i) by apply Z.le_max_l. rewrite Z2Nat.id by assumption.
      eexists. split; [reflexivity|]. cbn [fst snd]. split.
      + intros c Hc. destruct (Z.eq_dec c i) as [->|N]; [rewrite !upd_same; split; reflexivity|]. rewrite !upd_other by assumption. apply A. lia.
      + intros c Hc. rewrite upd_other by lia. apply B. lia.
    - exists cur', bufs. split; [exact E|]. split; [intros c Hc; apply (A c Hc)|intros c Hc; apply (A c Hc)].
  Qed.

  (** The scratch row that holds row [y] of component 0's numbering. *)
  Lemma scratch_exact y0 y1 bufs y c : loaded y0 y1 bufs -> 0 <= c < NC -> 0 <= y0 <= y -> y < y1 -> (rho c | y0) -> (rho c | y) -> y / rho c < s_h (inf c) ->
    scratch bufs c ((y - y0) / rho c) = Ret (Some (y / rho c)).
  Proof.
    intros Hl Hc Hy H1 [a Ha] [b Hb] Hlt. pose proof (rho_pos c Hc) as R. unfold scratch. rewrite (Hl c Hc). rewrite zlen_map.
    assert (Ea : y0 / rho c = a) by (rewrite Ha; apply Z.div_mul; lia). assert (Eb : y / rho c = b) by (rewrite Hb; apply Z.div_mul; lia).
    assert (Ed : (y - y0) / rho c = b - a) by (rewrite Ha, Hb; replace (b * rho c - a * rho c) with ((b - a) * rho c) by lia; apply Z.div_mul; lia).
    rewrite Ed. assert (W : b - a < rows_wanted y0 y1 c).
    { unfold rows_wanted. rewrite Ea. rewrite Eb in Hlt. assert (b < ceil_div y1 (rho c)) by (apply ceil_lt; lia). lia. }
    assert (0 <= b - a) by nia. rewrite zseq_len by lia. replace ((0 <=? b - a) && (b - a <? rows_wanted y0 y1 c)) with true by lia.
    rewrite (znth_map 0) by (rewrite zseq_len; lia). rewrite zseq_nth by lia. rewrite Ea, Eb in *. rewrite Z.min_l by lia.
    replace (a + (b - a)) with b by lia. replace (b <? s_h (inf c)) with true by lia. reflexivity.
  Qed.

  Definition fresh (y c : Z) : Prop := (rho c | y) /\ y / rho c < s_h (inf c).
  Definition stepped (y : Z) (o o' : Z -> row) (c : Z) : Prop :=
    (fresh y c -> forall n, n < s_w (inf c) -> o' c n = val c (y / rho c) n) /\ (~ fresh y c -> o' c = o c).

  Lemma plain_exact y0 y1 bufs y o c : loaded y0 y1 bufs -> 0 <= c < NC -> 0 <= y0 <= y -> y < y1 -> (rho c | y0) -> mct && (c <? 3) = false ->
    exists o', plain raw fin t ci bufs y0 y o c = Ret o' /\ stepped y o o' c /\ forall c', c' <> c -> o' c' = o c'.
  Proof.
    intros Hl Hc Hy H1 Hd U. destruct (Hci c Hc) as (_ & Hs & Hyr). unfold plain. fold inf.
    assert (Er : rho c = s_yr (inf c)) by (unfold rho; rewrite U; reflexivity). rewrite <- Er. rewrite <- Er in Hyr. replace (rho c =? 0) with false by lia.
    destruct (Z.eqb_spec (y mod rho c) 0) as [M|M]; cbn [negb].
    - apply Z.mod_divide in M; [|lia]. destruct (Z.leb_spec (s_h (inf c)) (y / rho c)) as [G|G].
      + exists o. split; [reflexivity|]. split; [|reflexivity]. split; [intros [_ F]; lia|reflexivity].
      + rewrite (scratch_exact y0 y1 bufs y c Hl Hc Hy H1 Hd M G). cbn [bind]. eexists. split; [reflexivity|]. split.
        * split; [|intros F; exfalso; apply F; split; assumption]. intros _ n Hn. rewrite upd_same. replace (n <? s_w (inf c)) with true by lia. unfold val. rewrite U. reflexivity.
        * intros c' N. apply upd_other. assumption.
    - exists o. split; [reflexivity|]. split; [|reflexivity]. split; [intros [F _]; exfalso; apply M; apply Z.mod_divide; [lia|assumption]|reflexivity].
  Qed.
  Lemma plain_all y0 y1 bufs y : loaded y0 y1 bufs -> 0 <= y0 <= y -> y < y1 -> (forall c, 0 <= c < NC -> (rho c | y0)) ->
    forall l o, NoDup l -> (forall c, In c l -> 0 <= c < NC /\ mct && (c <? 3) = false) ->
    exists o', foldo (plain raw fin t ci bufs y0 y) o l = Ret o' /\ (forall c, In c l -> stepped y o o' c) /\ (forall c, ~ In c l -> o' c = o c).
  Proof.
    intros Hl Hy H1 Hd. induction l as [|c l IH]; intros o Nd Hin; [exists o; split; [reflexivity|]; split; [intros _ []|reflexivity]|].
    apply NoDup_cons_iff in Nd. destruct Nd as [Nc Nd]. destruct (Hin c (or_introl eq_refl)) as [Hc U].
    destruct (plain_exact y0 y1 bufs y o c Hl Hc Hy H1 (Hd c Hc) U) as (o1 & E1 & S1 & K1). cbn [foldo]. rewrite E1. cbn [bind].
    destruct (IH o1 Nd (fun c' Hc' => Hin c' (or_intror Hc'))) as (o2 & E2 & S2 & K2). exists o2. split; [exact E2|]. split.
    - intros c' [<-|Hc'].
      + destruct S1 as [A B]. split; [intros F n Hn; rewrite (K2 c Nc); apply A; assumption|intros F; rewrite (K2 c Nc); apply B; assumption].
      + destruct (S2 c' Hc') as [A B]. split; [exact A|]. intros F. rewrite (B F). apply K1. intros ->. contradiction.
    - intros c' Hc'. rewrite K2 by (intros X; apply Hc'; right; exact X). apply K1. intros ->. apply Hc'. left. reflexivity.
  Qed.

  Lemma emit_exact y0 y1 bufs y o evs : loaded y0 y1 bufs -> 0 <= y0 <= y -> y < y1 -> y1 <= eff -> (forall c, 0 <= c < NC -> (rho c | y0)) ->
    exists o', emit raw fin mix t mct ci bufs y0 (o, evs) y = Ret (o', evs ++ [(y, map o' (zseq NC))]) /\ forall c, 0 <= c < NC -> stepped y o o' c.
  Proof.
    intros Hl Hy H1 H2 Hd. unfold emit. cbn [fst snd]. fold NC. assert (mct = true \/ mct = false) as [M|M] by (destruct mct; tauto); rewrite M.
    - destruct (Hmct M) as [N3 Hm]. unfold colour.
      assert (Sc : forall c, 0 <= c <= 2 -> scratch bufs c (y - y0) = Ret (Some y)).
      { intros c Hc. assert (R : rho c = 1) by (unfold rho; rewrite M; replace (c <? 3) with true by lia; reflexivity).
        assert (Sh : s_h (inf c) = s_h (inf 0)) by (assert (c = 0 \/ 1 <= c <= 2) as [->|X] by lia; [reflexivity|apply (Hm c X)]).
        pose proof (scratch_exact y0 y1 bufs y c Hl ltac:(lia) Hy H1) as X. rewrite R in X. rewrite !Z.div_1_r in X. apply X; [apply Z.divide_1_l|apply Z.divide_1_l|lia]. }
      rewrite !Sc by lia. cbn [bind]. fold inf. rewrite (proj1 (Hm 1 ltac:(lia))), (proj1 (Hm 2 ltac:(lia))), Z.ltb_irrefl. cbn [orb bind].
      match goal with |- context [foldo _ ?f (map _ _)] => set (o1 := f) end.
      destruct (plain_all y0 y1 bufs y Hl Hy H1 Hd (map (fun c => 3 + c) (zseq (NC - 3))) o1) as (o2 & E2 & S2 & K2).
      + apply FinFun.Injective_map_NoDup; [intros a b; lia|]. unfold zseq. apply FinFun.Injective_map_NoDup; [intros a b; lia|apply seq_NoDup].
      + intros c Hc. apply in_map_iff in Hc. destruct Hc as (i & <- & Hi). apply zseq_In in Hi. split; [lia|]. rewrite M. replace (3 + i <? 3) with false by lia. reflexivity.
      + rewrite E2. cbn [bind]. exists o2. split; [reflexivity|]. intros c Hc. destruct (Z_lt_le_dec c 3) as [L3|G3].
        * assert (K : o2 c = o1 c) by (apply K2; intros X; apply in_map_iff in X; destruct X as (i & <- & Hi); apply zseq_In in Hi; lia).
          assert (R : rho c = 1) by (unfold rho; rewrite M; replace (c <? 3) with true by lia; reflexivity).
          assert (Sh : s_h (inf c) = s_h (inf 0) /\ s_w (inf c) = s_w (inf 0)) by (assert (c = 0 \/ 1 <= c <= 2) as [->|X] by lia; [split; reflexivity|split; apply (Hm c X)]).
          destruct Sh as [Sh Sw]. split.
          -- intros _ n Hn. rewrite K. unfold o1. replace ((0 <=? c) && (c <? 3)) with true by lia. rewrite <- Sw. replace (n <? s_w (inf c)) with true by lia.
             unfold val. rewrite M. replace (c <? 3) with true by lia. cbn [andb smp]. rewrite R, Z.div_1_r. reflexivity.
          -- intros F. exfalso. apply F. split; [rewrite R; apply Z.divide_1_l|rewrite R, Z.div_1_r; lia].
        * destruct (S2 c) as [A B]; [apply in_map_iff; exists (c - 3); split; [lia|apply zseq_In; lia]|]. split; [exact A|]. intros F. rewrite (B F). unfold o1.
          replace ((0 <=? c) && (c <? 3)) with false by lia. reflexivity.
    - destruct (plain_all y0 y1 bufs y Hl Hy H1 Hd (zseq NC) o) as (o2 & E2 & S2 & K2).
      + unfold zseq. apply FinFun.Injective_map_NoDup; [intros a b; lia|apply seq_NoDup].
      + intros c Hc. apply zseq_In in Hc. split; [lia|]. rewrite M. reflexivity.
      + rewrite E2. cbn [bind]. exists o2. split; [reflexivity|]. intros c Hc. apply S2. apply zseq_In. lia.
  Qed.

  Definition good_row (y : Z) (o : Z -> row) : Prop := forall c, 0 <= c < NC -> kept c -> forall n, n < s_w (inf c) -> o c n = val c (shown c y) n.
  Definition good_event (e : event) : Prop := zlen (snd e) = NC /\ good_row (fst e) (fun c => znth blank (snd e) c).
  Definition told (y : Z) (st : (Z -> row) * list event) : Prop :=
    (row_lo < y -> good_row (y - 1) (fst st)) /\ map fst (snd st) = range row_lo y /\ Forall good_event (snd st).

  Lemma step_good y o o' : row_lo <= y -> (row_lo < y -> good_row (y - 1) o) -> (forall c, 0 <= c < NC -> stepped y o o' c) -> good_row y o'.
  Proof.
    intros Hy Ho St c Hc K n Hn. destruct (St c Hc) as [A B]. pose proof (rho_pos c Hc) as R. destruct (proj2 (Hdiv c Hc)) as [k Hk].
    pose proof (Z.div_mod y (rho c) ltac:(lia)) as D1. pose proof (Z.mod_pos_bound y (rho c) ltac:(lia)) as B1.
    unfold shown in *. unfold kept in K. destruct (Z.eq_dec (y mod rho c) 0) as [M|M].
    - destruct (Z_lt_le_dec (y / rho c) (s_h (inf c))) as [G|G].
      + rewrite Z.min_l by lia. apply A; [|assumption]. split; [apply Z.mod_divide; [lia|assumption]|assumption].
      + rewrite (B ltac:(intros [_ F]; lia)). assert (row_lo < y) by nia. specialize (Ho H c Hc K n Hn). rewrite Ho. unfold shown. f_equal.
        rewrite !Z.min_r; [reflexivity|lia|]. apply Z.sub_le_mono_r with (p := 0) in G. assert (s_h (inf c) - 1 <= (y - 1) / rho c) by (apply Z.div_le_lower_bound; nia). lia.
    - rewrite (B ltac:(intros [F _]; apply M; apply Z.mod_divide; [lia|assumption])).
      assert (row_lo < y). { destruct (Z.eq_dec row_lo y) as [E|E]; [|lia]. exfalso. apply M. rewrite <- E, Hk. apply Z.mod_mul. lia. }
      rewrite (Ho H c Hc K n Hn). unfold shown. f_equal. f_equal. symmetry. apply (Z.div_unique_pos _ _ _ (y mod rho c - 1)); lia.
  Qed.

  Lemma strip_exact y0 y1 bufs o evs : loaded y0 y1 bufs -> 0 <= y0 < y1 -> y1 <= eff -> (forall c, 0 <= c < NC -> (rho c | y0)) ->
    told (Z.max row_lo y0) (o, evs) ->
    exists st, foldo (emit raw fin mix t mct ci bufs y0) (o, evs) (range (Z.max y0 row_lo) y1) = Ret st /\ told (Z.max row_lo y1) st.
  Proof.
    intros Hl Hy H1 Hd T. rewrite (Z.max_comm y0). set (e := Z.max row_lo y0) in *.
    destruct (Z_le_gt_dec y1 e) as [G|G].
    - rewrite range_nil by lia. exists (o, evs). split; [reflexivity|]. replace (Z.max row_lo y1) with e by lia. exact T.
    - replace (Z.max row_lo y1) with y1 by lia. unfold range. rewrite foldo_map.
      destruct (foldo_inv (fun a b => emit raw fin mix t mct ci bufs y0 a (e + b)) (fun i st => told (e + i) st) (y1 - e) (o, evs)) as (st & E & T').
      + lia.
      + rewrite Z.add_0_r. exact T.
      + intros i [o1 ev1] Hi [T1 [T2 T3]]. cbn [fst snd] in T1, T2, T3.
        destruct (emit_exact y0 y1 bufs (e + i) o1 ev1 Hl ltac:(lia) ltac:(lia) H1 Hd) as (o2 & E2 & S2). rewrite E2. eexists. split; [reflexivity|].
        assert (Gd : good_row (e + i) o2) by (apply (step_good (e + i) o1 o2); [lia|exact T1|exact S2]).
        unfold told. cbn [fst snd]. split; [intros _; replace (e + (i + 1) - 1) with (e + i) by lia; exact Gd|]. split.
        * rewrite map_app. etransitivity; [apply (f_equal2 (@app Z)); [exact T2|reflexivity]|]. cbn [map fst]. replace (e + (i + 1)) with (e + i + 1) by lia. rewrite range_snoc by lia. reflexivity.
        * apply Forall_app. split; [exact T3|]. apply Forall_cons; [|apply Forall_nil]. split; cbn [fst snd]; [rewrite zlen_map, zseq_len by lia; reflexivity|].
          intros c Hc K n Hn. rewrite (znth_map 0 blank) by (rewrite zseq_len; lia). rewrite zseq_nth by lia. apply Gd; assumption.
      + exists st. split; [exact E|]. replace (e + (y1 - e)) with y1 in T' by lia. exact T'.
  Qed.

  Lemma strips_exact : forall fuel y0 cur o evs, 0 <= y0 -> Z.max 0 (eff - y0) < Z.of_nat fuel ->
    (y0 < eff -> (forall c, 0 <= c < NC -> (rho c | y0)) /\ at_strip y0 cur) ->
    told (Z.max row_lo (Z.min y0 eff)) (o, evs) ->
    exists evs', strips raw fin mix t mct ci fuel h eff row_lo y0 cur o evs = ret evs' /\ map fst evs' = range row_lo eff /\ Forall good_event evs'.
  Proof.
    induction fuel as [|fuel IH]; intros y0 cur o evs Hy Hf Hst T; [lia|]. cbn [strips]. destruct (Z.leb_spec eff y0) as [G|G].
    - exists evs. split; [reflexivity|]. destruct T as (_ & T2 & T3). cbn [snd] in *. split; [|exact T3]. rewrite T2.
      destruct (Z_le_gt_dec eff row_lo); [rewrite !range_nil by lia; reflexivity|f_equal; lia].
    - destruct (Hst G) as [Hd Hc]. pose proof (proj1 (proj2 (Hci 0 ltac:(lia)))) as Hs0. rewrite wrap32_small by (rewrite two32_val; lia).
      set (y1 := Z.min (y0 + h) eff).
      destruct (fetch_exact y0 y1 cur (fun _ => []) ltac:(lia) ltac:(lia) Hc) as (cur' & bufs & E & Ld & Hc'). fold NC. rewrite E. rewrite ret_bindx.
      replace (Z.max row_lo (Z.min y0 eff)) with (Z.max row_lo y0) in T by lia.
      destruct (strip_exact y0 y1 bufs o evs Ld ltac:(lia) ltac:(lia) Hd T) as ([o2 ev2] & E2 & T2). fold (range (Z.max y0 row_lo) y1). rewrite E2. cbn [bind].
      apply IH; [lia|lia| |exact T2].
      intros G2. assert (E1 : y1 = y0 + h) by lia. split.
      + intros c Hcc. apply Z.divide_add_r; [apply (Hd c Hcc)|apply (Hdiv c Hcc)].
      + intros c Hcc. rewrite (Hc' c Hcc). pose proof (rho_pos c Hcc) as R. destruct (Hd c Hcc) as [a Ha]. destruct (proj1 (Hdiv c Hcc)) as [b Hb].
        unfold rows_wanted. rewrite E1. rewrite Ha, Hb. replace (a * rho c + b * rho c) with ((a + b) * rho c) by lia. rewrite !Z.div_mul by lia.
        unfold ceil_div. replace (- ((a + b) * rho c)) with (- (a + b) * rho c) by lia. rewrite Z.div_mul by lia. assert (0 <= b) by nia. lia.
  Qed.
End Rows.

(** The strip height is a multiple of the largest sampling factor. *)
Lemma max_yr_spec ci : let M := max_yr ci in
  1 <= M /\ (forall c, 0 <= c < zlen ci -> s_yr (info ci c) <= M) /\ (M = 1 \/ exists c, 0 <= c < zlen ci /\ M = s_yr (info ci c)).
Proof.
  unfold max_yr. assert (A : forall l m, m <= fold_left (fun m I => if m <? s_yr I then s_yr I else m) l m /\
     (forall x, In x l -> s_yr x <= fold_left (fun m I => if m <? s_yr I then s_yr I else m) l m) /\
     (fold_left (fun m I => if m <? s_yr I then s_yr I else m) l m = m \/ exists x, In x l /\ fold_left (fun m I => if m <? s_yr I then s_yr I else m) l m = s_yr x)).
  { induction l as [|x l IH]; intros m; cbn [fold_left]; [split; [lia|split; [intros _ []|left; reflexivity]]|].
    destruct (IH (if m <? s_yr x then s_yr x else m)) as (A & B & C). destruct (Z.ltb_spec m (s_yr x)) as [G|G].
    - split; [lia|]. split; [intros y [<-|Hy]; [lia|apply B; exact Hy]|]. right. destruct C as [C|(y & Hy & C)]; [exists x; split; [left; reflexivity|exact C]|exists y; split; [right; exact Hy|exact C]].
    - split; [lia|]. split; [intros y [<-|Hy]; [lia|apply B; exact Hy]|]. destruct C as [C|(y & Hy & C)]; [left; exact C|right; exists y; split; [right; exact Hy|exact C]]. }
  destruct (A ci 1) as (B & C & D). split; [exact B|]. split.
  - intros c Hc. apply C. apply znth_In. exact Hc.
  - destruct D as [D|(x & Hx & D)]; [left; exact D|right]. apply In_nth with (d := si0) in Hx. destruct Hx as (n & Hn & E). exists (Z.of_nat n). unfold zlen.
    split; [lia|]. rewrite D. unfold info, znth. rewrite Nat2Z.id, E. reflexivity.
Qed.
Lemma strip_height_spec ci cb : 0 <= cb <= 1024 -> (forall c, 0 <= c < zlen ci -> s_yr (info ci c) <= 255) ->
  64 <= strip_height ci cb <= 1000000 /\ (max_yr ci | strip_height ci cb).
Proof.
  intros Hc Hy. destruct (max_yr_spec ci) as (A & _ & D). assert (M : max_yr ci <= 255) by (destruct D as [->|(c & Hcc & ->)]; [lia|apply Hy; exact Hcc]).
  unfold strip_height. set (M0 := max_yr ci) in *. set (a := if cb =? 0 then 64 else cb). set (b := if a <? 64 then 64 else a).
  assert (Hb : 64 <= b <= 1024) by (unfold b, a; destruct (Z.eqb_spec cb 0); [cbn; lia|]; destruct (Z.ltb_spec cb 64); lia).
  rewrite (wrap32_small (b + M0 - 1)) by (rewrite two32_val; lia). pose proof (Z.div_mod (b + M0 - 1) M0 ltac:(lia)). pose proof (Z.mod_pos_bound (b + M0 - 1) M0 ltac:(lia)).
  set (q := (b + M0 - 1) / M0) in *. rewrite wrap32_small by (rewrite two32_val; nia). split; [nia|]. exists q. reflexivity.
Qed.

Section Tile.
  Variable raw : Z -> Z -> Z -> Z -> Z.
  Variable fin : Z -> Z -> Z.
  Variable mix : Z -> Z -> Z -> Z -> Z.
  Variable t : Z.
  Variable mct : bool.
  Variable ci : list sinfo.
  Lemma stream_tile_exact cb_h row_limit row_lo : 1 <= zlen ci <= 16 ->
    (forall c, 0 <= c < zlen ci -> 0 <= s_w (info ci c) /\ 0 <= s_h (info ci c) <= 2147483648 /\ 1 <= s_yr (info ci c) <= 255) ->
    (mct = true -> 3 <= zlen ci /\ forall c, 1 <= c <= 2 -> s_w (info ci c) = s_w (info ci 0) /\ s_h (info ci c) = s_h (info ci 0)) ->
    0 <= cb_h <= 1024 -> 0 <= row_limit -> 0 <= row_lo < two32 ->
    (forall c, 0 <= c < zlen ci -> (rho mct ci c | max_yr ci) /\ (rho mct ci c | row_lo)) ->
    exists evs, stream_tile raw fin mix t mct ci cb_h row_limit row_lo = ret evs /\
      map fst evs = range row_lo (Z.min (s_h (info ci 0)) row_limit) /\ Forall (good_event raw fin mix t mct ci row_lo) evs.
  Proof.
    intros HN Hci Hmct Hcb Hrl Hlo Hd. destruct (strip_height_spec ci cb_h Hcb ltac:(intros c Hc; apply (Hci c Hc))) as [Hh Hhd].
    unfold stream_tile. set (h := strip_height ci cb_h) in *. set (eff := Z.min (s_h (info ci 0)) row_limit). pose proof (proj1 (proj2 (Hci 0 ltac:(lia)))) as Hs0.
    assert (Hdh : forall c, 0 <= c < zlen ci -> (rho mct ci c | h) /\ (rho mct ci c | row_lo)).
    { intros c Hc. split; [|apply (Hd c Hc)]. apply Z.divide_trans with (max_yr ci); [apply (Hd c Hc)|exact Hhd]. }
    set (y0 := if 0 <? row_lo then Z.min (row_lo / h * h) eff else 0).
    assert (Dm : row_lo / h * h <= row_lo) by (pose proof (Z.mul_div_le row_lo h ltac:(lia)); lia). assert (Dp : 0 <= row_lo / h) by (apply Z.div_pos; lia).
    assert (E0 : (if 0 <? row_lo then let? q := udiv row_lo h in ret (Z.min (wrap32 (q * h)) eff) else ret 0) = ret y0).
    { unfold y0. destruct (0 <? row_lo); [|reflexivity]. unfold udiv. replace (h =? 0) with false by lia. rewrite ret_bindx.
      rewrite wrap32_small by lia. reflexivity. }
    rewrite E0. rewrite ret_bindx.
    assert (Hy0 : 0 <= y0 <= row_lo /\ y0 <= eff /\ (y0 < eff -> (h | y0))).
    { unfold y0. destruct (Z.ltb_spec 0 row_lo) as [P|P].
      - split; [split; [|lia]; assert (0 <= eff) by lia; nia|]. split; [lia|]. intros G. rewrite Z.min_l by lia. exists (row_lo / h). reflexivity.
      - split; [lia|]. split; [lia|]. intros _. apply Z.divide_0_r. }
    destruct Hy0 as (Y1 & Y2 & Y3).
    assert (Adv : exists cur, (if 0 <? y0 then foldx (advance mct ci y0) (fun _ => 0) (zseq (zlen ci)) else ret (fun _ => 0)) = ret cur /\
       (y0 < eff -> at_strip mct ci y0 cur)).
    { assert (Hrp : forall c, 0 <= c < zlen ci -> 1 <= rho mct ci c <= 255) by (intros c Hc; unfold rho; destruct (mct && (c <? 3)); [lia|apply (Hci c Hc)]).
      destruct (Z.ltb_spec 0 y0) as [P|P].
      - destruct (foldx_inv (advance mct ci y0) (fun i cur => (forall c, 0 <= c < i -> cur c = Z.min (y0 / rho mct ci c) (s_h (info ci c))) /\ (forall c, i <= c -> cur c = 0)) (zlen ci) (fun _ => 0)) as (cur & E & A & _).
        + lia.
        + split; [intros; lia|reflexivity].
        + intros i cur Hi [A B]. unfold advance. pose proof (Hrp i Hi) as R.
          assert (En : (if mct && (i <? 3) then ret y0 else udiv y0 (s_yr (info ci i))) = ret (y0 / rho mct ci i)).
          { unfold rho. destruct (mct && (i <? 3)); [rewrite Z.div_1_r; reflexivity|]. unfold udiv. destruct (Hci i Hi) as (_ & _ & Hyr). replace (s_yr (info ci i) =? 0) with false by lia. reflexivity. }
          rewrite En, ret_bindx. eexists. split; [reflexivity|]. rewrite (B i) by lia. assert (0 <= y0 / rho mct ci i) by (apply Z.div_pos; lia).
          destruct (Hci i Hi) as (_ & Hs & _). rewrite pull_advance_exact by lia. rewrite Z2Nat.id by assumption. split.
          * intros c Hc. destruct (Z.eq_dec c i) as [->|N]; [rewrite upd_same; f_equal; lia|]. rewrite upd_other by assumption. apply A. lia.
          * intros c Hc. rewrite upd_other by lia. apply B. lia.
        + exists cur. split; [exact E|]. intros _ c Hc. apply A. exact Hc.
      - exists (fun _ => 0). split; [reflexivity|]. intros _ c Hc. replace y0 with 0 by lia. rewrite Z.div_0_l by (pose proof (Hrp c Hc); lia). destruct (Hci c Hc). lia. }
    destruct Adv as (cur & -> & Hcur). rewrite ret_bindx.
    apply (strips_exact raw fin mix t mct ci HN Hci Hmct h eff row_lo ltac:(lia) Hdh ltac:(lia) ltac:(lia)).
    - lia.
    - rewrite Nat2Z.inj_add, Z2Nat.id by lia. lia.
    - intros G. split; [|apply Hcur; exact G]. intros c Hc. apply Z.divide_trans with h; [apply (Hdh c Hc)|apply Y3; exact G].
    - replace (Z.max row_lo (Z.min y0 eff)) with row_lo by lia. unfold told. cbn [fst snd map]. split; [lia|]. split; [rewrite range_nil by lia; reflexivity|apply Forall_nil].
  Qed.
End Tile.

(** Tile boundaries along an axis: tile [q] is between edges [q] and [q + 1]. *)
Section Edges.
  Variables size origin tsize torigin : Z.
  Hypothesis L : axis_legal size origin tsize torigin.
  Definition mark (q : Z) : Z := if q =? 0 then origin else Z.min (torigin + q * tsize) size.
  Lemma tile_marks q : 0 <= q < tiles size torigin tsize -> tile_span size origin tsize torigin q = (mark q, mark (q + 1)).
  Proof.
    intros Hq. destruct L as [L1 L2 L3 L4]. unfold tile_span, mark. replace (q + 1 =? 0) with false by lia. f_equal. destruct (Z.eqb_spec q 0) as [->|N]; [lia|].
    assert (torigin + q * tsize < size) by (assert (q < tiles size torigin tsize) as X by lia; unfold tiles in X; apply ceil_lt in X; lia). nia.
  Qed.
  Lemma mark_last : mark (tiles size torigin tsize) = size.
  Proof.
    destruct L as [L1 L2 L3 L4]. pose proof (tiles_pos _ _ _ _ L). unfold mark. replace (tiles size torigin tsize =? 0) with false by lia.
    assert (size - torigin <= tiles size torigin tsize * tsize) by (apply ceil_le; [lia|]; unfold tiles; lia). lia.
  Qed.
  Lemma mark_mono q q' : 0 <= q <= q' -> mark q <= mark q'.
  Proof. intros H. destruct L as [L1 L2 L3 L4]. unfold mark. destruct (Z.eqb_spec q 0), (Z.eqb_spec q' 0); nia. Qed.
End Edges.
