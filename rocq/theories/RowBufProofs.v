(** Proofs about the row buffer (C81): the walk over code-blocks, the stores
    of a strip, the pool, and the invariant of histories. *)
From Coq Require Import Permutation.
From Verif Require Import Base GeoModel GeoSpec OutModel RowBufModel RowBufSpec.

Lemma mapo_ret {A C} (f : A -> out C) (P : A -> C -> Prop) l :
  (forall a, In a l -> exists c, f a = Ret c /\ P a c) ->
  exists cs, mapo f l = Ret cs /\ Forall2 P l cs.
Proof.
  induction l as [|a l IH]; intros H; cbn [mapo]; [exists []; split; constructor|].
  destruct (H a (or_introl eq_refl)) as (c & E & Pc). rewrite E. cbn [bind].
  destruct IH as (cs & E' & F); [intros; apply H; right; assumption|]. rewrite E'. cbn [bind].
  exists (c :: cs). split; [reflexivity|constructor; assumption].
Qed.

Lemma Forall2_In_l {A C} (P : A -> C -> Prop) l m a : Forall2 P l m -> In a l -> exists c, In c m /\ P a c.
Proof. induction 1; intros H'; [destruct H'|]. destruct H' as [<-|H']; [exists y; split; [left; reflexivity|assumption]|].
  destruct (IHForall2 H') as (c & ? & ?). exists c. split; [right; assumption|assumption]. Qed.
Lemma Forall2_In_r {A C} (P : A -> C -> Prop) l m c : Forall2 P l m -> In c m -> exists a, In a l /\ P a c.
Proof. induction 1; intros H'; [destruct H'|]. destruct H' as [<-|H']; [exists x; split; [left; reflexivity|assumption]|].
  destruct (IHForall2 H') as (a & ? & ?). exists a. split; [right; assumption|assumption]. Qed.

Lemma in_zseq n i : In i (zseq n) <-> 0 <= i < n.
Proof.
  unfold zseq. rewrite in_map_iff. split.
  - intros (k & <- & Hk). apply in_seq in Hk. lia.
  - intros H. exists (Z.to_nat i). split; [lia|]. apply in_seq. lia.
Qed.

Section Walk.
  Variable B : sband.
  Hypothesis OK : band_ok B.

  Lemma blk_ret p i : 0 <= i < zlen (pb_blocks p) -> exists k, blk p i = Ret k /\ nth_error (pb_blocks p) (Z.to_nat i) = Some k.
  Proof.
    intros H. unfold blk, zlen in *. destruct (Z.leb_spec 0 i); [|lia].
    destruct (nth_error (pb_blocks p) (Z.to_nat i)) eqn:E; [eexists; split; reflexivity|].
    apply nth_error_None in E. lia.
  Qed.

  (** One row of code-blocks. *)
  Lemma one_row p r : 0 <= pb_nx p -> 0 <= r -> (r + 1) * pb_nx p <= zlen (pb_blocks p) ->
    exists l, mapo (fun c => blk p (r * pb_nx p + c)) (zseq (pb_nx p)) = Ret l /\
      forall k, In k l <-> exists c, 0 <= c < pb_nx p /\ nth_error (pb_blocks p) (Z.to_nat (r * pb_nx p + c)) = Some k.
  Proof.
    intros Hx Hr Hl.
    destruct (mapo_ret (fun c => blk p (r * pb_nx p + c))
      (fun c k => nth_error (pb_blocks p) (Z.to_nat (r * pb_nx p + c)) = Some k) (zseq (pb_nx p))) as (l & E & F2).
    - intros c Hc. apply in_zseq in Hc. apply blk_ret. nia.
    - exists l. split; [exact E|]. intros k. split.
      + intros Hk. destruct (Forall2_In_r _ _ _ _ F2 Hk) as (c & Hc & N). exists c. apply in_zseq in Hc. split; assumption.
      + intros (c & Hc & N). apply in_zseq in Hc. destruct (Forall2_In_l _ _ _ _ F2 Hc) as (k' & Hk' & N').
        rewrite N in N'. injection N' as <-. exact Hk'.
  Qed.

  Lemma rows_spec p ys ye edge n : grid_ok (sb_cbh B) p -> 0 < pb_nx p ->
    (forall r, 0 <= r < pb_ny p -> edge r < edge (r + 1)) ->
    (forall r c k, 0 <= r < pb_ny p -> 0 <= c < pb_nx p ->
      nth_error (pb_blocks p) (Z.to_nat (r * pb_nx p + c)) = Some k ->
      y0 (cb_pos k) = edge r /\ y1 (cb_pos k) = edge (r + 1)) ->
    forall r, 0 <= r -> r + Z.of_nat n = pb_ny p ->
    exists l, rows_from n p ys ye r = Ret l /\
      forall k, In k l <-> exists r' c, r <= r' < pb_ny p /\ 0 <= c < pb_nx p /\
        nth_error (pb_blocks p) (Z.to_nat (r' * pb_nx p + c)) = Some k /\ y0 (cb_pos k) < ye /\ ys < y1 (cb_pos k).
  Proof.
    intros (Hx & Hy & Hl & _) Px Inc Pos. induction n as [|n IH]; intros r Hr Hn; cbn [rows_from].
    - exists []. split; [reflexivity|]. intros k. split; [intros []|]. intros (r' & c & H & _). lia.
    - destruct (blk_ret p (r * pb_nx p)) as (f & E & N); [nia|]. rewrite E. cbn [bind].
      replace (r * pb_nx p) with (r * pb_nx p + 0) in N by lia.
      destruct (Pos r 0 f ltac:(lia) ltac:(lia) N) as [P0 P1].
      destruct (IH (r + 1) ltac:(lia) ltac:(lia)) as (l' & E' & S').
      destruct (Z.leb_spec (y1 (cb_pos f)) ys) as [C1|C1].
      + exists l'. split; [exact E'|]. intros k. rewrite S'. split; intros (r' & c & H1 & H2 & H3 & H4).
        * exists r', c. split; [lia|]. auto.
        * exists r', c. destruct (Z.eq_dec r' r) as [->|]; [|split; [lia|auto]].
          destruct (Pos r c k ltac:(lia) ltac:(lia) H3) as [Q0 Q1]. lia.
      + destruct (Z.leb_spec ye (y0 (cb_pos f))) as [C2|C2].
        * exists []. split; [reflexivity|]. intros k. split; [intros []|]. intros (r' & c & H1 & H2 & H3 & H4).
          destruct (Pos r' c k ltac:(lia) ltac:(lia) H3) as [Q0 Q1].
          assert (M : edge r <= edge r').
          { assert (G : forall q, 0 <= q -> r + q <= r' -> edge r <= edge (r + q)).
            { intros q Hq. revert q Hq. apply (natlike_ind (fun q => r + q <= r' -> edge r <= edge (r + q))).
              - intros _. replace (r + 0) with r by lia. lia.
              - intros q Hq IHq Hle. specialize (IHq ltac:(lia)). specialize (Inc (r + q) ltac:(lia)).
                replace (r + Z.succ q) with (r + q + 1) by lia. lia. }
            specialize (G (r' - r) ltac:(lia) ltac:(lia)). replace (r + (r' - r)) with r' in G by lia. exact G. }
          lia.
        * destruct (one_row p r Hx Hr) as (l & E1 & S1); [nia|]. rewrite E1. cbn [bind]. rewrite E'. cbn [bind].
          exists (l ++ l'). split; [reflexivity|]. intros k. rewrite in_app_iff, S1, S'. split.
          -- intros [(c & Hc & Nk)|(r' & c & H1 & H2 & H3 & H4)].
             ++ destruct (Pos r c k ltac:(lia) Hc Nk) as [Q0 Q1]. exists r, c. split; [lia|]. split; [exact Hc|]. split; [exact Nk|]. lia.
             ++ exists r', c. split; [lia|]. auto.
          -- intros (r' & c & H1 & H2 & H3 & H4). destruct (Z.eq_dec r' r) as [->|].
             ++ left. exists c. auto.
             ++ right. exists r', c. split; [lia|]. auto.
  Qed.

  Lemma pband_spec p ys ye : In p (sb_prec B) -> ys < ye ->
    exists l, walk_pband B ys ye p = Ret l /\
      forall k, In k l <-> In k (pb_blocks p) /\ y0 (cb_pos k) < ye /\ ys < y1 (cb_pos k).
  Proof using OK.
    intros Hp Hs. pose proof (bo_grid B OK p Hp) as G. pose proof G as (Hx & Hy & Hl & edge & E0 & En & Inc & Pos).
    pose proof (bo_cbh B OK) as Hc.
    assert (Idx : forall k, In k (pb_blocks p) <-> exists r c, 0 <= r < pb_ny p /\ 0 <= c < pb_nx p /\
              nth_error (pb_blocks p) (Z.to_nat (r * pb_nx p + c)) = Some k).
    { intros k. split.
      - intros Hk. apply In_nth_error in Hk as (i & Hi).
        assert (Li : Z.of_nat i < zlen (pb_blocks p)) by (unfold zlen; pose proof (proj1 (nth_error_Some (pb_blocks p) i) ltac:(congruence)); lia).
        assert (0 < pb_nx p) by nia.
        exists (Z.of_nat i / pb_nx p), (Z.of_nat i mod pb_nx p).
        assert (Q := Z.div_mod (Z.of_nat i) (pb_nx p) ltac:(lia)). pose proof (Z.mod_pos_bound (Z.of_nat i) (pb_nx p) ltac:(lia)).
        split; [split; [apply Z.div_pos; lia|apply Z.div_lt_upper_bound; lia]|]. split; [lia|].
        replace (Z.to_nat _) with i by lia. exact Hi.
      - intros (r & c & _ & _ & N). apply nth_error_In in N. exact N. }
    assert (Emp : forall l : list cblk, (forall k, In k (pb_blocks p) -> ~ (y0 (cb_pos k) < ye /\ ys < y1 (cb_pos k))) ->
       exists l0, Ret (A := list cblk) [] = Ret l0 /\
       forall k, In k l0 <-> In k (pb_blocks p) /\ y0 (cb_pos k) < ye /\ ys < y1 (cb_pos k)).
    { intros _ H. exists []. split; [reflexivity|]. intros k. split; [intros []|]. intros (H1 & H2). exact (H k H1 H2). }
    unfold walk_pband. destruct (Z.eqb_spec (pb_nx p) 0) as [X0|X0]; cbn [orb].
    { apply (Emp []). intros k Hk. apply Idx in Hk as (r & c & ? & ? & _). lia. }
    destruct (Z.eqb_spec (pb_ny p) 0) as [Y0|Y0]; cbn [orb].
    { apply (Emp []). intros k Hk. apply Idx in Hk as (r & c & ? & ? & _). lia. }
    specialize (En ltac:(nia)).
    assert (Mono : forall r r', 0 <= r -> r <= r' -> r' <= pb_ny p -> edge r <= edge r').
    { intros r r' H1 H2 H3. assert (Gd : forall q, 0 <= q -> r + q <= pb_ny p -> edge r <= edge (r + q)).
      { intros q Hq. revert q Hq. apply (natlike_ind (fun q => r + q <= pb_ny p -> edge r <= edge (r + q))).
        - intros _. replace (r + 0) with r by lia. lia.
        - intros q Hq IHq Hle. specialize (IHq ltac:(lia)). specialize (Inc (r + q) ltac:(lia)).
          replace (r + Z.succ q) with (r + q + 1) by lia. lia. }
      specialize (Gd (r' - r) ltac:(lia) ltac:(lia)). replace (r + (r' - r)) with r' in Gd by lia. exact Gd. }
    assert (Cut : (y1 (pb_pos p) <=? ys) || (ye <=? y0 (pb_pos p)) = true ->
       forall k, In k (pb_blocks p) -> ~ (y0 (cb_pos k) < ye /\ ys < y1 (cb_pos k))).
    { intros C k Hk (H1 & H2). apply Idx in Hk as (r & c & Hr & Hc' & N). destruct (Pos r c k Hr Hc' N) as [P0 P1].
      pose proof (Mono 0 r ltac:(lia) ltac:(lia) ltac:(lia)). pose proof (Mono (r + 1) (pb_ny p) ltac:(lia) ltac:(lia) ltac:(lia)). lia. }
    destruct ((y1 (pb_pos p) <=? ys) || (ye <=? y0 (pb_pos p))) eqn:C; [exact (Emp [] (Cut eq_refl))|]. clear Cut.
    assert (R0 : exists r0, (if y0 (pb_pos p) <? ys
                 then if sb_cbh B =? 0 then UB else Ret (Z.quot (ys - y0 (pb_pos p)) (sb_cbh B))
                 else Ret 0) = Ret r0 /\ 0 <= r0 /\ y0 (pb_pos p) + r0 * sb_cbh B <= Z.max ys (y0 (pb_pos p))).
    { destruct (Z.ltb_spec (y0 (pb_pos p)) ys).
      - destruct (Z.eqb_spec (sb_cbh B) 0); [lia|]. eexists. split; [reflexivity|].
        rewrite Z.quot_div_nonneg by lia. split; [apply Z.div_pos; lia|].
        pose proof (Z.mul_div_le (ys - y0 (pb_pos p)) (sb_cbh B) ltac:(lia)). lia.
      - exists 0. repeat split; lia. }
    destruct R0 as (r0 & -> & R1 & R2). cbn [bind].
    assert (R3 : forall r, 0 <= r < r0 -> r < pb_ny p -> edge (r + 1) <= ys).
    { intros r H1 H2. specialize (Inc r ltac:(lia)). nia. }
    assert (R4 : r0 <= pb_ny p).
    { destruct (Z.le_gt_cases r0 (pb_ny p)) as [|L]; [assumption|]. exfalso.
      specialize (R3 (pb_ny p - 1) ltac:(lia) ltac:(lia)). replace (pb_ny p - 1 + 1) with (pb_ny p) in R3 by lia. lia. }
    destruct (rows_spec p ys ye edge (Z.to_nat (pb_ny p - r0)) G ltac:(lia) ltac:(intros; apply Inc; assumption) Pos r0 R1 ltac:(lia))
      as (l & E & S). exists l. split; [exact E|]. intros k. rewrite S, Idx. split.
    - intros (r & c & H1 & H2 & H3 & H4). split; [|exact H4]. exists r, c. split; [lia|]. auto.
    - intros ((r & c & H1 & H2 & H3) & H4). exists r, c.
      destruct (Pos r c k H1 H2 H3) as [P0 P1].
      destruct (Z.lt_ge_cases r r0) as [L|L]; [specialize (R3 r ltac:(lia) ltac:(lia)); lia|].
      split; [lia|]. auto.
  Qed.

  Lemma walk_spec ys ye : ys < ye -> exists l, walk B ys ye = Ret l /\
    forall k, In k l <-> block B k /\ y0 (cb_pos k) < ye /\ ys < y1 (cb_pos k).
  Proof using OK.
    intros Hs. unfold walk.
    destruct (mapo_ret (walk_pband B ys ye) (fun p l =>
      forall k, In k l <-> In k (pb_blocks p) /\ y0 (cb_pos k) < ye /\ ys < y1 (cb_pos k)) (sb_prec B)) as (ls & E & F2).
    { intros p Hp. apply pband_spec; assumption. }
    rewrite E. cbn [bind]. exists (concat ls). split; [reflexivity|]. intros k. rewrite in_concat. split.
    - intros (l & Hl & Hk). destruct (Forall2_In_r _ _ _ _ F2 Hl) as (p & Hp & S). apply (proj1 (S k)) in Hk; destruct Hk as [Q1 Q2].
      split; [exists p; split; assumption|exact Q2].
    - intros ((p & Hp & Hk) & H). destruct (Forall2_In_l _ _ _ _ F2 Hp) as (l & Hl & S). exists l. split; [exact Hl|].
      apply S. split; assumption.
  Qed.
End Walk.

(** ** Stores *)

Lemma puts_spec B m l : (forall w, In w l -> 0 <= fst w < 2 * half B) ->
  exists m', puts B m l = Ret m' /\
    (forall a, ~ In a (map fst l) -> m' a = m a) /\
    (forall a v, (forall w, In w l -> fst w = a -> snd w = v) -> In a (map fst l) -> m' a = v).
Proof.
  revert m. unfold puts. induction l as [|w l IH]; intros m H; cbn [foldo].
  { exists m. split; [reflexivity|]. split; [reflexivity|]. intros a v _ []. }
  assert (Hw := H w (or_introl eq_refl)). unfold put at 1.
  replace ((0 <=? fst w) && (fst w <? 2 * half B)) with true by lia. cbn [bind].
  destruct (IH (fun a => if a =? fst w then snd w else m a)) as (m' & E & N & V); [intros; apply H; right; assumption|].
  exists m'. split; [exact E|]. cbn [map In]. split.
  - intros a Ha. rewrite N by tauto. destruct (Z.eqb_spec a (fst w)); [subst; tauto|reflexivity].
  - intros a v Hv [Ha|Ha].
    + destruct (in_dec Z.eq_dec a (map fst l)) as [I'|I'].
      * apply V; [intros w' Hw' E'; apply Hv; [right|]; assumption|exact I'].
      * rewrite N by exact I'. rewrite <- Ha, Z.eqb_refl. apply Hv; [left; reflexivity|exact Ha].
    + apply V; [intros w' Hw' E'; apply Hv; [right|]; assumption|exact Ha].
Qed.

(** [a] holds [v], or will hold it when the pending stores are done. *)
Definition good (a v : Z) (m : mem) (W : list wr) : Prop :=
  (forall w, In w W -> fst w = a -> snd w = v) /\ (m a = v \/ In a (map fst W)).

Definition pend (s : rowbuf) : list wr := concat (map fst (tasks s)).
Definition flags (s : rowbuf) : bool := err s || existsb snd (tasks s).

Definition same_but_pool (s s' : rowbuf) : Prop :=
  strip0 s' = strip0 s /\ strip1 s' = strip1 s /\ ring0 s' = ring0 s /\ ring s' = ring s /\ pre s' = pre s /\
  pref0 s' = pref0 s /\ pref1 s' = pref1 s /\ cache s' = cache s.

Definition task_size (s : rowbuf) : nat := length (pend s) + length (tasks s).

Section Pool.
  Variable B : sband.
  Variable lo : Z.
  Hypothesis Lo : 0 <= lo /\ lo + half B <= 2 * half B.

  (** What a step of the pool, or many, changes when every pending store goes
      to [lo, lo + half). *)
  Record worked (s s' : rowbuf) : Prop := {
    wk_same : same_but_pool s s';
    wk_pend : incl (pend s') (pend s);
    wk_cells : forall a, ~ (lo <= a < lo + half B) -> cells s' a = cells s a;
    wk_good : forall a v, good a v (cells s) (pend s) -> good a v (cells s') (pend s');
    wk_flags : flags s' = flags s }.

  Lemma worked_refl s : worked s s.
  Proof. constructor; [repeat split|apply incl_refl|reflexivity|tauto|reflexivity]. Qed.
  Lemma worked_trans a b c : worked a b -> worked b c -> worked a c.
  Proof.
    intros [S1 P1 C1 G1 F1] [S2 P2 C2 G2 F2]. constructor.
    - unfold same_but_pool in *. intuition congruence.
    - eapply incl_tran; eassumption.
    - intros x Hx. rewrite C2, C1 by assumption. reflexivity.
    - intros x v Hg. apply G2, G1, Hg.
    - congruence.
  Qed.

  Lemma pool1_works s r : (forall w, In w (pend s) -> lo <= fst w < lo + half B) -> pool1 B s r ->
    exists s', r = Ret s' /\ worked s s' /\ (task_size s' < task_size s)%nat.
  Proof using Lo.
    intros R H. destruct H as [s a w l f b m E P|s a w l f b E P|s a f b E].
    - assert (Ps : pend s = concat (map fst a) ++ w :: l ++ concat (map fst b)).
      { unfold pend. rewrite E, map_app, concat_app. reflexivity. }
      eexists. split; [reflexivity|].
      assert (Ps' : pend (set_pool s m (a ++ (l, f) :: b) (err s)) = concat (map fst a) ++ l ++ concat (map fst b)).
      { unfold pend. cbn [tasks set_pool]. rewrite map_app, concat_app. reflexivity. }
      assert (Hw : lo <= fst w < lo + half B) by (apply R; rewrite Ps; apply in_app_iff; right; left; reflexivity).
      unfold put in P. replace ((0 <=? fst w) && (fst w <? 2 * half B)) with true in P by lia.
      injection P as <-. split.
      + constructor.
        * repeat split.
        * rewrite Ps, Ps'. intros x Hx. apply in_app_iff in Hx. apply in_app_iff. cbn [In]. tauto.
        * intros x Hx. cbn [cells set_pool]. destruct (Z.eqb_spec x (fst w)); [lia|reflexivity].
        * intros x v [G1 G2]. rewrite Ps in G1, G2. split; rewrite Ps'.
          -- intros w' Hw'. apply G1. apply in_app_iff in Hw'. apply in_app_iff. cbn [In]. tauto.
          -- cbn [cells set_pool]. destruct (Z.eqb_spec x (fst w)) as [Ex|Ex].
             ++ left. apply G1; [apply in_app_iff; right; left; reflexivity|symmetry; exact Ex].
             ++ destruct G2 as [G2|G2]; [left; exact G2|right].
                rewrite map_app, in_app_iff in *. cbn [map In] in G2. rewrite map_app, in_app_iff in *.
                destruct G2 as [G2|[G2|G2]]; [tauto|congruence|tauto].
        * unfold flags. cbn [tasks err set_pool]. rewrite E, !existsb_app. reflexivity.
      + unfold task_size. rewrite Ps, Ps'. cbn [tasks set_pool]. rewrite E, !app_length. cbn [length]. rewrite !app_length. lia.
    - exfalso. assert (Hw : lo <= fst w < lo + half B).
      { apply R. unfold pend. rewrite E, map_app, concat_app. apply in_app_iff. right. left. reflexivity. }
      unfold put in P. replace ((0 <=? fst w) && (fst w <? 2 * half B)) with true in P by lia. discriminate.
    - assert (Ps : pend (set_pool s (cells s) (a ++ b) (err s || f)) = pend s).
      { unfold pend. cbn [tasks set_pool]. rewrite E, !map_app, !concat_app. reflexivity. }
      eexists. split; [reflexivity|]. split.
      + constructor.
        * repeat split.
        * rewrite Ps. apply incl_refl.
        * reflexivity.
        * intros x v Hg. rewrite Ps. exact Hg.
        * unfold flags. cbn [tasks err set_pool]. rewrite E, !existsb_app. cbn [existsb snd].
          destruct (err s), f, (existsb snd a), (existsb snd b); reflexivity.
      + unfold task_size. rewrite Ps. cbn [tasks set_pool]. rewrite E, !app_length. cbn [length]. lia.
  Qed.

  Lemma wait_works s r : (forall w, In w (pend s) -> lo <= fst w < lo + half B) -> wait B s r ->
    exists s', r = Ret s' /\ worked s s' /\ tasks s' = [].
  Proof using Lo.
    intros R H. induction H as [s E|s s' r P W IH|s P].
    - exists s. split; [reflexivity|]. split; [apply worked_refl|exact E].
    - destruct (pool1_works s (Ret s') R P) as (s1 & E1 & W1 & _). injection E1 as <-.
      destruct IH as (s2 & -> & W2 & E2); [intros w Hw; apply R, (wk_pend _ _ W1), Hw|].
      exists s2. split; [reflexivity|]. split; [eapply worked_trans; eassumption|exact E2].
    - destruct (pool1_works s UB R P) as (s1 & E1 & _). discriminate.
  Qed.

  Lemma pool_can s : (forall w, In w (pend s) -> lo <= fst w < lo + half B) -> tasks s <> [] ->
    exists s', pool1 B s (Ret s').
  Proof using Lo.
    intros R H. destruct (tasks s) as [|[[|w l] f] t] eqn:E; [congruence| |].
    - eexists. exact (pool_end B s [] f t E).
    - assert (Hw : lo <= fst w < lo + half B) by (apply R; unfold pend; rewrite E; left; reflexivity).
      eexists. eapply (pool_store B s [] w l f t); [exact E|]. unfold put.
      replace ((0 <=? fst w) && (fst w <? 2 * half B)) with true by lia. reflexivity.
  Qed.

  (** Waiting ends. *)
  Lemma wait_ends s : (forall w, In w (pend s) -> lo <= fst w < lo + half B) -> exists r, wait B s r.
  Proof using Lo.
    remember (task_size s) as n eqn:En. revert s En. induction n as [n IH] using lt_wf_ind. intros s -> R.
    destruct (tasks s) as [|t l] eqn:E; [eexists; apply wait_done, E|].
    destruct (pool_can s R ltac:(congruence)) as (s' & P).
    destruct (pool1_works s (Ret s') R P) as (s1 & E1 & W1 & L). injection E1 as <-.
    destruct (IH _ L s' eq_refl) as (r & W); [intros w Hw; apply R, (wk_pend _ _ W1), Hw|].
    exists r. eapply wait_step; eassumption.
  Qed.

  Lemma star_works s s' : (forall w, In w (pend s) -> lo <= fst w < lo + half B) -> pool_star B s s' -> worked s s'.
  Proof using Lo.
    intros R H. induction H as [s|s s1 s2 P S IH]; [apply worked_refl|].
    destruct (pool1_works s (Ret s1) R P) as (t & E1 & W1 & _). injection E1 as <-.
    eapply worked_trans; [exact W1|]. apply IH. intros w Hw; apply R, (wk_pend _ _ W1), Hw.
  Qed.
End Pool.

(** ** The stores of a strip *)

Section Strip.
  Variable B : sband.
  Variable F : frame.
  Hypothesis OK : band_ok B.
  Hypothesis FIT : fits B.
  Hypothesis FOK : frame_ok B F.

  Definition is_strip (ys ye : Z) : Prop :=
    exists n, 0 <= n /\ ys = top B + n * sb_cbh B /\ ys < bot B /\ ye = Z.min (ys + sb_cbh B) (bot B).

  Definition in_strip (ys ye : Z) (k : cblk) : Prop := block B k /\ y0 (cb_pos k) < ye /\ ys < y1 (cb_pos k).
  Definition strip_bad (ys ye : Z) : Prop := exists k, in_strip ys ye k /\ is_bad (F k) = true.
  Definition cell (base ys x y : Z) : Z := base + (y - ys) * sb_stride B + (x - bx B).

  Lemma strip_in ys ye k : is_strip ys ye -> in_strip ys ye k ->
    ys <= y0 (cb_pos k) /\ y1 (cb_pos k) <= ye /\ ye <= ys + sb_cbh B.
  Proof using OK FIT.
    intros (n & Hn & Ey & Hb & Ee) (Hk & H1 & H2). pose proof (bo_block B OK k Hk) as Q.
    pose proof (FIT k n Hk). pose proof (FIT k (n + 1) Hk). unfold top, bot in *. lia.
  Qed.

  Lemma addr_in base R C : 0 <= R <= sb_cbh B -> 0 <= C < sb_stride B -> base <= base + R * sb_stride B + C < base + half B.
  Proof. intros. unfold half. nia. Qed.

  Lemma addr_inj S R R' C C' : 0 <= C < S -> 0 <= C' < S -> R * S + C = R' * S + C' -> R = R' /\ C = C'.
  Proof. intros. assert (R = R') by nia. split; [assumption|]. subst. lia. Qed.

  Lemma row_stores_in o w f a v : In (a, v) (row_stores o w f) <-> exists j, 0 <= j < w /\ a = o + j /\ v = f j.
  Proof.
    unfold row_stores. rewrite in_map_iff. split.
    - intros (j & E & Hj). injection E as <- <-. exists j. apply in_zseq in Hj. auto.
    - intros (j & Hj & -> & ->). exists j. split; [reflexivity|apply in_zseq; exact Hj].
  Qed.

  Lemma rect_in o w h f a v : In (a, v) (rect B o w h f) <->
    exists i j, 0 <= i < h /\ 0 <= j < w /\ a = o + i * sb_stride B + j /\ v = f i j.
  Proof.
    unfold rect. rewrite in_flat_map. split.
    - intros (i & Hi & H). apply row_stores_in in H as (j & Hj & -> & ->). apply in_zseq in Hi. exists i, j. auto.
    - intros (i & j & Hi & Hj & -> & ->). exists i. split; [apply in_zseq; exact Hi|]. apply row_stores_in. exists j. auto.
  Qed.

  (** All that is stored for a code-block. *)
  Definition writes (base ys : Z) (k : cblk) : list wr :=
    if is_empty (F k) then zeros B base ys k else stores B base ys k (F k).

  Lemma writes_at base ys ye k a v : is_strip ys ye -> in_strip ys ye k -> In (a, v) (writes base ys k) ->
    exists i j, 0 <= i <= hei k /\ 0 <= j < wid k /\
      a = base + (y0 (cb_pos k) - ys + i) * sb_stride B + (x0 (cb_pos k) - bx B + j) /\
      (is_bad (F k) = true \/
       i < hei k /\ match F k with Good f _ => v = f i j | _ => v = 0 end \/
       i = hei k /\ (ye <= y1 (cb_pos k) \/ False)).
  Proof using OK FIT FOK.
    intros Hs Hk. pose proof (strip_in _ _ _ Hs Hk) as Q. unfold writes.
    pose proof (bo_block B OK k (proj1 Hk)) as Bk.
    assert (P0 : 0 < hei k) by (unfold hei; lia).
    destruct (F k) as [|f low|l] eqn:E; cbn [is_empty is_bad].
    - unfold zeros. intros H. apply rect_in in H as (i & j & Hi & Hj & -> & ->). exists i, j.
      split; [lia|]. split; [exact Hj|]. split; [unfold place; ring|]. right. left. split; [lia|reflexivity].
    - unfold stores. rewrite in_app_iff. intros [H|H].
      + apply rect_in in H as (i & j & Hi & Hj & -> & ->). exists i, j.
        split; [lia|]. split; [exact Hj|]. split; [unfold place; ring|]. right. left. split; [lia|reflexivity].
      + destruct low as [g|]; [|destruct H]. destruct (Z.odd (hei k)) eqn:O; [|destruct H].
        apply row_stores_in in H as (j & Hj & -> & ->). exists (hei k), j.
        split; [lia|]. split; [exact Hj|]. split; [unfold place; ring|]. right. right. split; [reflexivity|]. left.
        destruct (Z.lt_ge_cases (y1 (cb_pos k)) ye) as [L|L]; [|exact L]. exfalso.
        destruct Hs as (n & Hn & Ey & Hb & Ee). unfold top, bot in *.
        destruct (proj1 FOK k f g (proj1 Hk) E O ltac:(lia)) as (n' & En).
        pose proof (bo_cbh B OK). assert (n < n') by nia. assert (n' < n + 1) by nia. lia.
    - unfold stores. rewrite in_map_iff. intros ([[i j] v'] & Ew & H). injection Ew as <- <-.
      destruct (proj2 FOK k l i j v' (proj1 Hk) E H) as [Hi Hj]. exists i, j. split; [exact Hi|]. split; [exact Hj|].
      split; [unfold place; ring|]. left. reflexivity.
  Qed.

  Lemma writes_range base ys ye k w : is_strip ys ye -> in_strip ys ye k -> In w (writes base ys k) ->
    base <= fst w < base + half B.
  Proof using OK FIT FOK.
    intros Hs Hk Hw. destruct w as [a v]. destruct (writes_at base ys ye k a v Hs Hk Hw) as (i & j & Hi & Hj & -> & _).
    pose proof (strip_in _ _ _ Hs Hk) as Q. pose proof (bo_block B OK k (proj1 Hk)) as Bk. pose proof (bo_stride B OK).
    cbn [fst]. apply addr_in; unfold hei, wid, bx in *; lia.
  Qed.

  Lemma coefficient_block x y v k : coefficient B F x y v -> block B k -> inside (cb_pos k) x y ->
    match F k with Empty => v = 0 | Good f _ => v = f (y - y0 (cb_pos k)) (x - x0 (cb_pos k)) | Bad _ => False end.
  Proof using OK.
    intros (k' & Hk' & I' & V) Hk Hi. pose proof (bo_disjoint B OK k' k x y Hk' Hk I' Hi) as E. subst k'. exact V.
  Qed.

  Lemma writes_value base ys ye k x y v a u : is_strip ys ye -> in_strip ys ye k -> is_bad (F k) = false ->
    x0 (sb_pos B) <= x < x1 (sb_pos B) -> ys <= y < ye -> coefficient B F x y v ->
    In (a, u) (writes base ys k) -> a = cell base ys x y -> u = v.
  Proof using OK FIT FOK.
    intros Hs Hk Nb Hx Hy Cv Hw Ea. destruct (writes_at base ys ye k a u Hs Hk Hw) as (i & j & Hi & Hj & Ea' & V).
    pose proof (strip_in _ _ _ Hs Hk) as Q. pose proof (bo_block B OK k (proj1 Hk)) as Bk. pose proof (bo_stride B OK) as St.
    rewrite Ea in Ea'. unfold cell in Ea'.
    assert (A : y - ys = y0 (cb_pos k) - ys + i /\ x - bx B = x0 (cb_pos k) - bx B + j).
    { apply (addr_inj (sb_stride B)); [unfold bx; lia|unfold bx, wid in *; lia|lia]. }
    destruct A as [A1 A2]. destruct V as [V|[[Hi' V]|[Hi' [V|[]]]]]; [congruence| |unfold hei in *; lia].
    assert (Ik : inside (cb_pos k) x y) by (unfold inside, hei, wid in *; lia).
    pose proof (coefficient_block x y v k Cv (proj1 Hk) Ik) as Cb.
    destruct (F k) as [|f low|l]; [congruence| |destruct Cb].
    rewrite V, Cb. f_equal; lia.
  Qed.

  Lemma writes_some base ys ye k x y : is_strip ys ye -> in_strip ys ye k -> is_bad (F k) = false ->
    inside (cb_pos k) x y -> In (cell base ys x y) (map fst (writes base ys k)).
  Proof using OK.
    intros Hs Hk Nb Ik. unfold inside in Ik. apply in_map_iff.
    assert (G : forall f, In (cell base ys x y, f (y - y0 (cb_pos k)) (x - x0 (cb_pos k)))
              (rect B (place B base ys k) (wid k) (hei k) f)).
    { intros f. apply rect_in. exists (y - y0 (cb_pos k)), (x - x0 (cb_pos k)). unfold hei, wid, cell, place, bx.
      split; [lia|]. split; [lia|]. split; [ring|reflexivity]. }
    unfold writes. destruct (F k) as [|f low|l]; cbn [is_empty is_bad] in *.
    - eexists. split; [|exact (G (fun _ _ => 0))]. reflexivity.
    - eexists. split; [|unfold stores; apply in_app_iff; left; exact (G f)]. reflexivity.
    - discriminate.
  Qed.

  (** All stores of a strip: the zeroes and those of the tasks. *)
  Lemma jobs_in base ys l t f : In (t, f) (jobs B F base ys l) <->
    exists k, In k l /\ is_empty (F k) = false /\ t = stores B base ys k (F k) /\ f = is_bad (F k).
  Proof.
    unfold jobs. rewrite in_map_iff. split.
    - intros (k & E & Hk). apply filter_In in Hk as [Hk N]. injection E as <- <-. exists k.
      split; [exact Hk|]. split; [destruct (is_empty (F k)); [discriminate|reflexivity]|]. auto.
    - intros (k & Hk & N & -> & ->). exists k. split; [reflexivity|]. apply filter_In. rewrite N. auto.
  Qed.

  Definition strip_writes (base ys : Z) (l : list cblk) : list wr :=
    blanks B F base ys l ++ concat (map fst (jobs B F base ys l)).

  Lemma strip_writes_in base ys l w : In w (strip_writes base ys l) <-> exists k, In k l /\ In w (writes base ys k).
  Proof.
    unfold strip_writes. rewrite in_app_iff. unfold blanks. rewrite in_flat_map, in_concat. unfold writes. split.
    - intros [(k & Hk & H)|(t & Ht & H)].
      + exists k. split; [exact Hk|]. destruct (is_empty (F k)); [exact H|destruct H].
      + apply in_map_iff in Ht as ([t' f] & E & Ht). cbn [fst] in E. subst t'. apply jobs_in in Ht as (k & Hk & N & -> & _).
        exists k. rewrite N. auto.
    - intros (k & Hk & H). destruct (is_empty (F k)) eqn:E.
      + left. exists k. rewrite E. auto.
      + right. exists (stores B base ys k (F k)). split; [|exact H]. apply in_map_iff.
        exists (stores B base ys k (F k), is_bad (F k)). split; [reflexivity|]. apply jobs_in. exists k. auto.
  Qed.

  Lemma jobs_flag base ys ye l : (forall k, In k l <-> in_strip ys ye k) ->
    existsb snd (jobs B F base ys l) = true <-> strip_bad ys ye.
  Proof.
    intros S. rewrite existsb_exists. split.
    - intros ([t f] & H & Ef). cbn [snd] in Ef. subst f. apply jobs_in in H as (k & Hk & _ & _ & E). exists k. split; [apply S, Hk|congruence].
    - intros (k & Hk & E). exists (stores B base ys k (F k), true). split; [|reflexivity]. apply jobs_in. exists k.
      split; [apply S, Hk|]. split; [destruct (F k); [discriminate|discriminate|reflexivity]|]. rewrite E. auto.
  Qed.

  (** A strip's stores are right. *)
  Lemma strip_good base ys ye l m : is_strip ys ye -> (forall k, In k l <-> in_strip ys ye k) ->
    0 <= base -> base + half B <= 2 * half B ->
    (forall w, In w (strip_writes base ys l) -> base <= fst w < base + half B) /\
    exists m', puts B m (blanks B F base ys l) = Ret m' /\
      (forall a, ~ (base <= a < base + half B) -> m' a = m a) /\
      (~ strip_bad ys ye -> forall x y v, x0 (sb_pos B) <= x < x1 (sb_pos B) -> ys <= y < ye -> coefficient B F x y v ->
         good (cell base ys x y) v m' (concat (map fst (jobs B F base ys l)))).
  Proof using OK FIT FOK.
    intros Hs S B0 B1.
    assert (R : forall w, In w (strip_writes base ys l) -> base <= fst w < base + half B).
    { intros w Hw. apply strip_writes_in in Hw as (k & Hk & Hw). apply S in Hk. exact (writes_range base ys ye k w Hs Hk Hw). }
    split; [exact R|].
    destruct (puts_spec B m (blanks B F base ys l)) as (m' & E & N & V).
    { intros w Hw. specialize (R w). unfold strip_writes in R. rewrite in_app_iff in R. specialize (R (or_introl Hw)). lia. }
    exists m'. split; [exact E|]. split.
    { intros a Ha. apply N. intros Hin. apply in_map_iff in Hin as (w & <- & Hw). apply Ha, R.
      unfold strip_writes. apply in_app_iff. left. exact Hw. }
    intros Nb x y v Hx Hy Cv.
    assert (Val : forall w, In w (strip_writes base ys l) -> fst w = cell base ys x y -> snd w = v).
    { intros [a u] Hw Ea. cbn [fst snd] in *. apply strip_writes_in in Hw as (k & Hk & Hw). apply S in Hk.
      assert (Nk : is_bad (F k) = false) by (destruct (is_bad (F k)) eqn:Eb; [exfalso; apply Nb; exists k; auto|reflexivity]).
      exact (writes_value base ys ye k x y v a u Hs Hk Nk Hx Hy Cv Hw Ea). }
    assert (Some : In (cell base ys x y) (map fst (strip_writes base ys l))).
    { destruct Cv as (k & Hk & Ik & Vk). assert (Hi : in_strip ys ye k) by (unfold in_strip, inside in *; split; [exact Hk|lia]).
      assert (Nk : is_bad (F k) = false) by (destruct (F k); [reflexivity|reflexivity|destruct Vk]).
      pose proof (writes_some base ys ye k x y Hs Hi Nk Ik) as H. apply in_map_iff in H as (w & Ew & Hw). apply in_map_iff.
      exists w. split; [exact Ew|]. apply strip_writes_in. exists k. split; [apply S, Hi|exact Hw]. }
    unfold strip_writes in Val, Some. split.
    - intros w Hw. apply Val. apply in_app_iff. right. exact Hw.
    - rewrite map_app, in_app_iff in Some. destruct Some as [H|H]; [left|right; exact H].
      apply V; [|exact H]. intros w Hw. apply Val. apply in_app_iff. left. exact Hw.
  Qed.

  (** The serial path. *)
  Lemma serial_good base ys ye l : is_strip ys ye -> (forall k, In k l -> in_strip ys ye k) ->
    0 <= base -> base + half B <= 2 * half B -> forall m,
    exists t m', serial B F base ys m l = Ret (t, m') /\
      (forall a, ~ (base <= a < base + half B) -> m' a = m a) /\
      (t = true <-> exists k, In k l /\ is_bad (F k) = true) /\
      (t = false -> forall x y v, x0 (sb_pos B) <= x < x1 (sb_pos B) -> ys <= y < ye -> coefficient B F x y v ->
         (m (cell base ys x y) = v \/ exists k, In k l /\ inside (cb_pos k) x y) -> m' (cell base ys x y) = v).
  Proof using OK FIT FOK.
    intros Hs S B0 B1. induction l as [|k l IH]; intros m; cbn [serial].
    { exists false, m. split; [reflexivity|]. split; [reflexivity|]. split; [split; [discriminate|intros (k & [] & _)]|].
      intros _ x y v _ _ _ [E|(k & [] & _)]. exact E. }
    assert (Hk := S k (or_introl eq_refl)).
    assert (R : forall w, In w (writes base ys k) -> base <= fst w < base + half B).
    { intros w Hw. exact (writes_range base ys ye k w Hs Hk Hw). }
    fold (writes base ys k).
    destruct (puts_spec B m (writes base ys k)) as (m1 & E & N & V).
    { intros w Hw. specialize (R w Hw). lia. }
    rewrite E. cbn [bind].
    assert (Out : forall a, ~ (base <= a < base + half B) -> m1 a = m a).
    { intros a Ha. apply N. intros Hin. apply in_map_iff in Hin as (w & <- & Hw). apply Ha, R, Hw. }
    destruct (is_bad (F k)) eqn:Eb.
    { exists true, m1. split; [reflexivity|]. split; [exact Out|]. split; [split; [intros _; exists k; split; [left; reflexivity|exact Eb]|reflexivity]|].
      discriminate. }
    destruct (IH (fun k' H => S k' (or_intror H)) m1) as (t & m' & E' & O' & T' & G'). exists t, m'.
    split; [exact E'|]. split; [intros a Ha; rewrite O', Out by exact Ha; reflexivity|]. split.
    - rewrite T'. split; [intros (k' & H1 & H2); exists k'; split; [right|]; assumption|].
      intros (k' & [<-|H1] & H2); [congruence|exists k'; auto].
    - intros Et x y v Hx Hy Cv H. apply (G' Et x y v Hx Hy Cv).
      destruct (in_dec Z.eq_dec (cell base ys x y) (map fst (writes base ys k))) as [I1|I1].
      + left. apply V; [|exact I1]. intros [a u] Hw Ea. cbn [fst snd] in *.
        exact (writes_value base ys ye k x y v a u Hs Hk Eb Hx Hy Cv Hw Ea).
      + destruct H as [H|(k' & [<-|H1] & H2)].
        * left. rewrite N by exact I1. exact H.
        * exfalso. apply I1. exact (writes_some base ys ye k x y Hs Hk Eb H2).
        * right. exists k'. auto.
  Qed.
End Strip.
