(** Both streaming machines deliver the rows of the whole-image lifting. *)
From Coq Require FinFun.
From Verif Require Import Base BaseLemmas DwtModel DwtSpec LiftProofs DwtProofs StreamModel.

Lemma addr_eqb_spec a b : reflect (a = b) (addr_eqb a b).
Proof.
  destruct a, b; cbn [addr_eqb]; try (constructor; congruence);
    destruct (Z.eqb_spec i i0); constructor; congruence.
Qed.
Lemma addr_eqb_refl a : addr_eqb a a = true.
Proof. destruct a; cbn [addr_eqb]; apply Z.eqb_refl. Qed.

Section Proofs.
  Context {T : Type} (G : geom) (first : Z -> bool) (step : Z -> nat -> T -> T -> T -> T) (x : Z -> T).
  Notation L := (lifted first step x).
  Notation m := (mxdl G).
  Notation a0 := (v0 G).
  Notation a1 := (v1 G).

  Hypothesis Gv0 : 0 <= a0.
  Hypothesis Gh : a0 + 2 <= a1.
  Hypothesis Gm : 1 <= m.
  Hypothesis Gd0 : 1 <= depth G.
  Hypothesis first_alt : forall q, first (q + 1) = negb (first q).
  Hypothesis Gtop : (if first a0 then 2 * m - 1 else 2 * m) <= top_pse G.
  Hypothesis Gbot : (if first (a1 - 1) then 2 * m - 1 else 2 * m) <= bot_pse G.
  Hypothesis x_mirror : forall j, x (mirror a0 a1 j) = x j.

  Definition need (r k : Z) : Z := if first r then k else k + 1.
  Definition is_top (r : Z) : Prop := a0 - top_pse G <= r < a0.
  Definition is_bot (r : Z) : Prop := a1 <= r < a1 + bot_pse G.

  Lemma top_pos : 1 <= top_pse G.
  Proof. clear - Gtop Gm. destruct (first a0); lia. Qed.
  Lemma bot_pos : 1 <= bot_pse G.
  Proof. clear - Gbot Gm. destruct (first (a1 - 1)); lia. Qed.

  (** Where a row lives, by cases. *)
  Lemma rptr_real r : a0 <= r < a1 -> rptr G r = Some (Ring (r mod depth G)).
  Proof.
    intros H. unfold rptr. destruct (Z.leb_spec a0 r); [| lia]. destruct (Z.ltb_spec r a1); [| lia]. reflexivity.
  Qed.
  Lemma rptr_top r : is_top r -> rptr G r = Some (Top (a0 - 1 - r)).
  Proof.
    unfold is_top. intros H. unfold rptr. destruct (Z.leb_spec a0 r); [lia |]. cbn [andb].
    destruct (Z.leb_spec (a0 - top_pse G) r); [| lia]. destruct (Z.ltb_spec r a0); [| lia]. reflexivity.
  Qed.
  Lemma rptr_bot r : is_bot r -> rptr G r = Some (Bot (r - a1)).
  Proof.
    unfold is_bot. intros H. unfold rptr. destruct (Z.ltb_spec r a1); [lia |]. rewrite andb_false_r.
    destruct (Z.ltb_spec r a0); [lia |]. rewrite andb_false_r.
    destruct (Z.leb_spec a1 r); [| lia]. destruct (Z.ltb_spec r (a1 + bot_pse G)); [| lia]. reflexivity.
  Qed.
  Lemma dl_real (s : st T) r : a0 <= r < a1 ->
    get_dl G s r = if (r <? origin s) || (origin s + depth G <=? r) then -1 else dls s (Ring (r mod depth G)).
  Proof.
    intros H. unfold get_dl. destruct (Z.leb_spec a0 r); [| lia]. destruct (Z.ltb_spec r a1); [| lia]. reflexivity.
  Qed.
  Lemma dl_top (s : st T) r : is_top r -> get_dl G s r = dls s (Top (a0 - 1 - r)).
  Proof.
    unfold is_top. intros H. unfold get_dl. destruct (Z.leb_spec a0 r); [lia |]. cbn [andb].
    destruct (Z.leb_spec (a0 - top_pse G) r); [| lia]. destruct (Z.ltb_spec r a0); [| lia]. reflexivity.
  Qed.
  Lemma dl_bot (s : st T) r : is_bot r -> get_dl G s r = dls s (Bot (r - a1)).
  Proof.
    unfold is_bot. intros H. unfold get_dl. destruct (Z.ltb_spec r a1); [lia |]. rewrite andb_false_r.
    destruct (Z.ltb_spec r a0); [lia |]. rewrite andb_false_r.
    destruct (Z.leb_spec a1 r); [| lia]. destruct (Z.ltb_spec r (a1 + bot_pse G)); [| lia]. reflexivity.
  Qed.
  Lemma dl_none (s : st T) r : ~ (a0 <= r < a1) -> ~ is_top r -> ~ is_bot r -> get_dl G s r = -1.
  Proof.
    unfold is_top, is_bot. intros H1 H2 H3. unfold get_dl.
    destruct ((a0 <=? r) && (r <? a1)) eqn:C; b2p; [lia |].
    destruct ((a0 - top_pse G <=? r) && (r <? a0)) eqn:C'; b2p; [lia |].
    destruct ((a1 <=? r) && (r <? a1 + bot_pse G)) eqn:C''; b2p; [lia |]. reflexivity.
  Qed.
  Lemma row_cases r : a0 <= r < a1 \/ is_top r \/ is_bot r \/ (~ (a0 <= r < a1) /\ ~ is_top r /\ ~ is_bot r).
  Proof. unfold is_top, is_bot. lia. Qed.

  (** Rows visible to the level table have distinct addresses. *)
  Definition in_window (s : st T) (r : Z) : Prop :=
    (a0 <= r < a1 /\ origin s <= r < origin s + depth G) \/ is_top r \/ is_bot r.

  Lemma dl_window (s : st T) r : 0 <= get_dl G s r -> in_window s r.
  Proof.
    intros H. unfold in_window. destruct (row_cases r) as [C | [C | [C | [C1 [C2 C3]]]]]; auto.
    - rewrite dl_real in H by assumption. left. split; [assumption |].
      destruct ((r <? origin s) || (origin s + depth G <=? r)) eqn:E; [lia |].
      apply orb_false_iff in E as [E1 E2]. b2p. lia.
    - rewrite dl_none in H by assumption. lia.
  Qed.

  Lemma window_addr s r : in_window s r -> exists a, rptr G r = Some a.
  Proof.
    intros [[C _] | [C | C]]; eexists; [now apply rptr_real | now apply rptr_top | now apply rptr_bot].
  Qed.

  Lemma mod_inj a b d : 0 < d -> a mod d = b mod d -> -d < a - b < d -> a = b.
  Proof.
    intros Hd E H. pose proof (Z.div_mod a d ltac:(lia)). pose proof (Z.div_mod b d ltac:(lia)).
    rewrite E in *. assert (d * (a / d - b / d) = a - b) by lia.
    assert (a / d - b / d = 0) by nia. lia.
  Qed.

  Lemma window_inj s r q a : in_window s r -> in_window s q ->
    rptr G r = Some a -> rptr G q = Some a -> r = q.
  Proof.
    intros Hr Hq Er Eq.
    destruct Hr as [[C W] | [C | C]]; destruct Hq as [[C' W'] | [C' | C']];
      rewrite ?rptr_real, ?rptr_top, ?rptr_bot in Er by assumption;
      rewrite ?rptr_real, ?rptr_top, ?rptr_bot in Eq by assumption;
      try congruence.
    - apply Some_inj in Er, Eq. subst a. injection Eq as E. apply (mod_inj _ _ (depth G)); lia.
    - apply Some_inj in Er, Eq. subst a. injection Eq as E. lia.
    - apply Some_inj in Er, Eq. subst a. injection Eq as E. lia.
  Qed.

  (** Levels after writing one table entry. *)
  Lemma dl_set (s : st T) r a lv q : in_window s r -> rptr G r = Some a ->
    get_dl G (set_lv s a lv) q = if q =? r then lv else get_dl G s q.
  Proof.
    intros Hr Ha.
    assert (D : forall q, get_dl G (set_lv s a lv) q =
             match rptr G q with
             | Some b => if addr_eqb a b then (if (a0 <=? q) && (q <? a1) && ((q <? origin s) || (origin s + depth G <=? q))
                                              then -1 else lv) else get_dl G s q
             | None => -1 end).
    { clear q. intros q. unfold get_dl, rptr, set_lv, upd. cbn [dls origin].
      destruct ((a0 <=? q) && (q <? a1)) eqn:C1; cbn [andb].
      - destruct ((q <? origin s) || (origin s + depth G <=? q)); [now destruct (addr_eqb a _) | reflexivity].
      - destruct ((a0 - top_pse G <=? q) && (q <? a0)); [reflexivity |].
        destruct ((a1 <=? q) && (q <? a1 + bot_pse G)); reflexivity. }
    rewrite D. destruct (Z.eqb_spec q r) as [-> | N].
    - rewrite Ha, addr_eqb_refl. destruct Hr as [[C W] | [C | C]]; unfold is_top, is_bot in *.
      + replace ((r <? origin s) || (origin s + depth G <=? r)) with false by lia. now rewrite andb_false_r.
      + replace ((a0 <=? r) && (r <? a1)) with false by lia. reflexivity.
      + replace ((a0 <=? r) && (r <? a1)) with false by lia. reflexivity.
    - destruct (rptr G q) as [b |] eqn:Eq.
      + destruct (addr_eqb_spec a b) as [<- | Nab]; [| reflexivity].
        destruct ((a0 <=? q) && (q <? a1)) eqn:C1; cbn [andb].
        * destruct ((q <? origin s) || (origin s + depth G <=? q)) eqn:C2.
          -- unfold get_dl. now rewrite C1, C2.
          -- exfalso. apply N. apply (window_inj s q r a); auto.
             left. b2p. apply orb_false_iff in C2 as [C2 C2']. b2p. lia.
        * exfalso. apply N. apply (window_inj s q r a); auto.
          destruct (row_cases q) as [C | [C | [C | [C2 [C3 C4]]]]]; unfold in_window; auto.
          { unfold is_top, is_bot in *. lia. }
          { unfold rptr in Eq. unfold is_top, is_bot in *.
            rewrite C1 in Eq.
            replace ((a0 - top_pse G <=? q) && (q <? a0)) with false in Eq by lia.
            replace ((a1 <=? q) && (q <? a1 + bot_pse G)) with false in Eq by lia. discriminate. }
      + unfold rptr in Eq. unfold get_dl.
        destruct ((a0 <=? q) && (q <? a1)); [discriminate |].
        destruct ((a0 - top_pse G <=? q) && (q <? a0)); [discriminate |].
        destruct ((a1 <=? q) && (q <? a1 + bot_pse G)); [discriminate |]. reflexivity.
  Qed.

  Lemma row_set (s : st T) r a v q : in_window s r -> in_window s q -> rptr G r = Some a ->
    get_row G (set_row s a v) q = if q =? r then Ret v else get_row G s q.
  Proof.
    intros Hr Hq Ha. unfold get_row, set_row, upd. cbn [rows].
    destruct (Z.eqb_spec q r) as [-> | N].
    - rewrite Ha, addr_eqb_refl. reflexivity.
    - destruct (rptr G q) as [b |] eqn:Eq; [| reflexivity].
      destruct (addr_eqb_spec a b) as [<- | Nab]; [| reflexivity].
      exfalso. apply N. now apply (window_inj s q r a).
  Qed.

  (** The invariant. *)
  Definition retired (s : st T) (q : Z) : Prop := a0 <= q < origin s.
  Record Inv (s : st T) : Prop := {
    i_bounds : a0 <= origin s <= nout s /\ nout s <= nin s <= a1 /\ nin s <= origin s + depth G;
    i_content : forall r, 0 <= get_dl G s r ->
       get_dl G s r <= m /\ get_row G s r = Ret (L (Z.to_nat (get_dl G s r)) r);
    i_neg : forall r, -1 <= get_dl G s r;
    i_adj : forall r b, first r = true -> (b = r - 1 \/ b = r + 1) -> ~ retired s r -> ~ retired s b ->
       get_dl G s b <= Z.max 0 (get_dl G s r) /\ get_dl G s r <= get_dl G s b + 1;
    i_real : forall r, origin s <= r < a1 -> (0 <= get_dl G s r <-> r < nin s);
    i_pse : forall r, is_top r \/ is_bot r -> (0 <= get_dl G s r <-> mirror a0 a1 r < nin s);
    i_done : forall r, origin s <= r < nout s -> get_dl G s r = m;
    i_org : origin s = a0 \/ origin s < nout s }.

  Definition same_cursors (s s' : st T) : Prop :=
    origin s' = origin s /\ nin s' = nin s /\ nout s' = nout s.

  Definition can (s : st T) (r k : Z) : Prop :=
    get_dl G s r = k /\ 0 <= k < m /\ need r k <= get_dl G s (r - 1) /\ need r k <= get_dl G s (r + 1).


  Lemma not_retired s r : origin s <= a1 -> 0 <= get_dl G s r -> ~ retired s r.
  Proof.
    intros Ho H [H1 H2]. pose proof (dl_window s r H) as [[C W] | [C | C]]; unfold is_top, is_bot in *; lia.
  Qed.

  Lemma first_pred' q : first (q - 1) = negb (first q).
  Proof. apply first_pred. exact first_alt. Qed.

  Lemma adv_inv s r k : Inv s -> can s r k ->
    exists s', adv_step G step s r k = Ret s' /\ Inv s' /\ same_cursors s s'
            /\ forall q, get_dl G s' q = if q =? r then k + 1 else get_dl G s q.
  Proof.
    intros I [Ek [Hk [Np Nn]]].
    pose proof (i_bounds s I) as Bd.
    assert (N0 : 0 <= need r k) by (unfold need; destruct (first r); lia).
    assert (Wr : in_window s r) by (apply dl_window; lia).
    assert (Wp : in_window s (r - 1)) by (apply dl_window; lia).
    assert (Wn : in_window s (r + 1)) by (apply dl_window; lia).
    assert (Rr : ~ retired s r) by (apply not_retired; lia).
    assert (Rp : ~ retired s (r - 1)) by (apply not_retired; lia).
    assert (Rn : ~ retired s (r + 1)) by (apply not_retired; lia).
    destruct (window_addr s r Wr) as [a Ha].
    destruct (i_content s I r ltac:(lia)) as [_ Cr]. rewrite Ek in Cr.
    (* neighbours are exactly at the level needed *)
    assert (Ep : get_dl G s (r - 1) = need r k /\ get_dl G s (r + 1) = need r k).
    { unfold need in *. destruct (first r) eqn:Fr.
      - destruct (i_adj s I r (r - 1) Fr ltac:(auto) Rr Rp). destruct (i_adj s I r (r + 1) Fr ltac:(auto) Rr Rn). lia.
      - assert (F1 : first (r - 1) = true) by (rewrite first_pred', Fr; reflexivity).
        assert (F2 : first (r + 1) = true) by (rewrite first_alt, Fr; reflexivity).
        destruct (i_adj s I (r - 1) r F1 ltac:(lia) Rp Rr). destruct (i_adj s I (r + 1) r F2 ltac:(lia) Rn Rr). lia. }
    destruct Ep as [Ep En].
    destruct (i_content s I (r - 1) ltac:(lia)) as [_ Cp]. rewrite Ep in Cp.
    destruct (i_content s I (r + 1) ltac:(lia)) as [_ Cn]. rewrite En in Cn.
    set (v := step r (Z.to_nat k) (L (Z.to_nat k) r) (L (Z.to_nat (need r k)) (r - 1)) (L (Z.to_nat (need r k)) (r + 1))).
    assert (Ev : v = L (Z.to_nat (k + 1)) r).
    { replace (Z.to_nat (k + 1)) with (S (Z.to_nat k)) by lia. unfold v, need.
      destruct (first r) eqn:Fr.
      - symmetry. now apply lifted_first.
      - replace (Z.to_nat (k + 1)) with (S (Z.to_nat k)) by lia. symmetry. now apply lifted_second. }
    set (s1 := set_row s a v). set (s' := set_lv s1 a (k + 1)).
    exists s'.
    assert (D : forall q, get_dl G s' q = if q =? r then k + 1 else get_dl G s q).
    { intros q. unfold s'. rewrite (dl_set s1 r a (k + 1) q Wr Ha). reflexivity. }
    split; [| split; [| split; [repeat split |]]].
    - unfold adv_step. rewrite Cr, Cp, Cn. cbn [bind]. rewrite Ha. unfold set_dl. rewrite Ha. reflexivity.
    - constructor.
      + exact Bd.
      + intros q. rewrite D. intros Hq.
        assert (Wq : in_window s q).
        { revert Hq. destruct (Z.eqb_spec q r) as [Eq | Nq]; intros Hq; [subst q; assumption | now apply dl_window]. }
        change (get_row G s' q) with (get_row G s1 q). unfold s1. rewrite (row_set s r a v q Wr Wq Ha).
        revert Hq. destruct (Z.eqb_spec q r) as [Eq | Nq]; intros Hq.
        * split; [lia |]. subst q. now rewrite Ev.
        * now apply (i_content s I).
      + intros q. rewrite D. destruct (q =? r); [lia | apply (i_neg s I)].
      + intros q b Fq Hb Rq Rb. rewrite !D.
        assert (Rq' : ~ retired s q) by exact Rq. assert (Rb' : ~ retired s b) by exact Rb.
        pose proof (i_adj s I q b Fq Hb Rq' Rb') as A.
        destruct (Z.eqb_spec q r) as [-> | Nq]; destruct (Z.eqb_spec b r) as [-> | Nb]; try lia.
        * (* r is first *)
          unfold need in *. rewrite Fq in *. destruct Hb as [-> | ->]; lia.
        * (* r is second *)
          assert (Fr : first r = false).
          { destruct Hb as [-> | ->]; [rewrite first_pred' | rewrite first_alt]; now rewrite Fq. }
          unfold need in *. rewrite Fr in *.
          destruct Hb as [E | E]; [assert (q = r + 1) by lia | assert (q = r - 1) by lia]; subst q; lia.
      + intros q Hq. change (nin s') with (nin s). rewrite D. pose proof (i_real s I q Hq).
        destruct (Z.eqb_spec q r) as [-> |]; [| assumption]. lia.
      + intros q Hq. change (nin s') with (nin s). rewrite D. pose proof (i_pse s I q Hq).
        destruct (Z.eqb_spec q r) as [-> |]; [| assumption]. lia.
      + intros q Hq. rewrite D. pose proof (i_done s I q Hq).
        destruct (Z.eqb_spec q r) as [-> |]; [lia | assumption].
      + exact (i_org s I).
    - exact D.
  Qed.

  Ltac inv_of H := match type of H with Inv ?s => pose proof (i_bounds s H) end.

  Lemma same_refl s : same_cursors s s.
  Proof. repeat split. Qed.
  Lemma same_trans s1 s2 s3 : same_cursors s1 s2 -> same_cursors s2 s3 -> same_cursors s1 s3.
  Proof. unfold same_cursors. intros [? [? ?]] [? [? ?]]. repeat split; congruence. Qed.

  (** One phase: exactly the rows that may advance do. *)
  Definition phase_hit (s : st T) (count : nat) (r lv nd q : Z) : bool :=
    (r <=? q) && (q <? r + 2 * Z.of_nat count) && ((q - r) mod 2 =? 0)
    && (get_dl G s q =? lv) && (nd <=? get_dl G s (q - 1)) && (nd <=? get_dl G s (q + 1)).

  Lemma phase_inv count : forall r lv nd s, Inv s -> 0 <= lv < m -> nd = need r lv ->
    exists s', phase G step count r lv nd s = Ret s' /\ Inv s' /\ same_cursors s s'
      /\ forall q, get_dl G s' q = if phase_hit s count r lv nd q then lv + 1 else get_dl G s q.
  Proof.
    induction count as [| c IH]; intros r lv nd s I Hlv End_.
    - exists s. cbn [phase]. split; [reflexivity |]. split; [assumption |]. split; [apply same_refl |].
      intros q. unfold phase_hit. destruct ((r <=? q) && (q <? r + 2 * Z.of_nat 0)) eqn:C; b2p; [lia | reflexivity].
    - cbn [phase].
      destruct ((get_dl G s r =? lv) && (nd <=? get_dl G s (r - 1)) && (nd <=? get_dl G s (r + 1))) eqn:C.
      + b2p. assert (Hc : can s r lv) by (unfold can; lia).
        destruct (adv_inv s r lv I Hc) as [s1 [E1 [I1 [S1 D1]]]]. rewrite E1. cbn [bind].
        assert (Nd2 : nd = need (r + 2) lv).
        { unfold need in *. replace (r + 2) with (r + 1 + 1) by lia. now rewrite !first_alt, negb_involutive. }
        destruct (IH (r + 2) lv nd s1 I1 Hlv Nd2) as [s2 [E2 [I2 [S2 D2]]]].
        exists s2. split; [assumption |]. split; [assumption |]. split; [now apply (same_trans _ s1) |].
        intros q. rewrite D2. unfold phase_hit. rewrite !D1.
        destruct (Z.eqb_spec q r) as [-> | Nq].
        * replace (r + 2 <=? r) with false by lia. cbn [andb].
          replace (r <=? r) with true by lia. replace (r <? r + 2 * Z.of_nat (S c)) with true by lia.
          replace ((r - r) mod 2 =? 0) with true by (rewrite Z.sub_diag; reflexivity).
          replace (get_dl G s r =? lv) with true by lia. replace (nd <=? get_dl G s (r - 1)) with true by lia.
          replace (nd <=? get_dl G s (r + 1)) with true by lia. reflexivity.
        * destruct (Z.eq_dec ((q - r) mod 2) 0) as [Ev | Od].
          -- replace ((q - (r + 2)) mod 2) with ((q - r) mod 2) by lia. rewrite Ev.
             destruct (Z.eqb_spec (q - 1) r); [lia |]. destruct (Z.eqb_spec (q + 1) r); [lia |].
             replace (r + 2 + 2 * Z.of_nat c) with (r + 2 * Z.of_nat (S c)) by lia.
             destruct (Z.leb_spec (r + 2) q); destruct (Z.leb_spec r q); try lia; reflexivity.
          -- replace ((q - (r + 2)) mod 2 =? 0) with false by lia. replace ((q - r) mod 2 =? 0) with false by lia.
             rewrite !andb_false_r. reflexivity.
      + cbn [bind].
        assert (Nd2 : nd = need (r + 2) lv).
        { unfold need in *. replace (r + 2) with (r + 1 + 1) by lia. now rewrite !first_alt, negb_involutive. }
        destruct (IH (r + 2) lv nd s I Hlv Nd2) as [s2 [E2 [I2 [S2 D2]]]].
        exists s2. split; [assumption |]. split; [assumption |]. split; [assumption |].
        intros q. rewrite D2. unfold phase_hit.
        destruct (Z.eqb_spec q r) as [-> | Nq].
        * replace (r + 2 <=? r) with false by lia. cbn [andb].
          destruct (get_dl G s r =? lv); [| now rewrite ?andb_false_r].
          destruct (nd <=? get_dl G s (r - 1)); [| now rewrite ?andb_false_r].
          cbn [andb] in C. rewrite C. now rewrite ?andb_false_r.
        * destruct (Z.eq_dec ((q - r) mod 2) 0) as [Ev | Od].
          -- replace ((q - (r + 2)) mod 2) with ((q - r) mod 2) by lia. rewrite Ev.
             replace (r + 2 + 2 * Z.of_nat c) with (r + 2 * Z.of_nat (S c)) by lia.
             destruct (Z.leb_spec (r + 2) q); destruct (Z.leb_spec r q); try lia; reflexivity.
          -- replace ((q - (r + 2)) mod 2 =? 0) with false by lia. replace ((q - r) mod 2 =? 0) with false by lia.
             rewrite !andb_false_r. reflexivity.
  Qed.

  (** After the phases, no row of the window may advance. *)
  Definition closed_below (s : st T) (lo hi j : Z) : Prop :=
    forall r k, lo <= r < hi -> k < j -> ~ can s r k.

  Lemma first_parity_eq q r : (q - r) mod 2 = 0 -> first q = first r.
  Proof.
    intros H. assert (Hn : forall n, first (r + 2 * Z.of_nat n) = first r).
    { induction n as [| n IHn]; [f_equal; lia |].
      replace (r + 2 * Z.of_nat (S n)) with (r + 2 * Z.of_nat n + 1 + 1) by lia.
      now rewrite !first_alt, negb_involutive. }
    assert (Hn' : forall n, first (r - 2 * Z.of_nat n) = first r).
    { intros n. induction n as [| n IHn]; [f_equal; lia |].
      replace (r - 2 * Z.of_nat (S n)) with (r - 2 * Z.of_nat n - 1 - 1) by lia.
      now rewrite !first_pred', negb_involutive. }
    destruct (Z_le_gt_dec r q).
    - replace q with (r + 2 * Z.of_nat (Z.to_nat ((q - r) / 2))) by lia. apply Hn.
    - replace q with (r - 2 * Z.of_nat (Z.to_nat ((r - q) / 2))) by lia. apply Hn'.
  Qed.
  Lemma first_parity_neq q r : (q - r) mod 2 = 1 -> first q = negb (first r).
  Proof. intros H. rewrite <- first_alt. apply first_parity_eq. lia. Qed.

  Lemma phases_inv levels : forall lv ra rb lo hi s, Inv s -> 0 <= lv -> lv + Z.of_nat levels <= m ->
    first ra = true -> first rb = false -> lo <= ra <= lo + 1 -> lo <= rb <= lo + 1 ->
    closed_below s lo hi lv ->
    exists s', phases G step levels lv ra rb hi s = Ret s' /\ Inv s' /\ same_cursors s s'
            /\ closed_below s' lo hi (lv + Z.of_nat levels).
  Proof.
    induction levels as [| n IH]; intros lv ra rb lo hi s I Hlv Hm Fa Fb Ha Hb Cl.
    - exists s. cbn [phases]. split; [reflexivity |]. split; [assumption |]. split; [apply same_refl |].
      now replace (lv + Z.of_nat 0) with lv by lia.
    - cbn [phases].
      destruct (phase_inv (steps2 ra hi) ra lv lv s I ltac:(lia) ltac:(unfold need; now rewrite Fa))
        as [s1 [E1 [I1 [S1 D1]]]].
      rewrite E1. cbn [bind].
      destruct (phase_inv (steps2 rb hi) rb lv (lv + 1) s1 I1 ltac:(lia) ltac:(unfold need; now rewrite Fb))
        as [s2 [E2 [I2 [S2 D2]]]].
      rewrite E2. cbn [bind].
      assert (Hab : (ra - rb) mod 2 = 1).
      { assert (ra <> rb) by congruence. lia. }
      assert (Cl2 : closed_below s2 lo hi (lv + 1)).
      { (* rows of phase a keep their level in phase b and conversely *)
        assert (Da : forall q, (q - ra) mod 2 = 0 -> get_dl G s2 q = get_dl G s1 q).
        { intros q Hq. rewrite D2. unfold phase_hit.
          replace ((q - rb) mod 2 =? 0) with false by lia. now rewrite andb_false_r. }
        assert (Db : forall q, (q - rb) mod 2 = 0 -> get_dl G s1 q = get_dl G s q).
        { intros q Hq. rewrite D1. unfold phase_hit.
          replace ((q - ra) mod 2 =? 0) with false by lia. now rewrite andb_false_r. }
        assert (Up1 : forall q, get_dl G s q <= get_dl G s1 q /\ (get_dl G s1 q <> get_dl G s q -> get_dl G s1 q = lv + 1 /\ get_dl G s q = lv)).
        { intros q. rewrite D1. destruct (phase_hit s (steps2 ra hi) ra lv lv q) eqn:C; [| lia].
          unfold phase_hit in C. b2p. lia. }
        assert (Up2 : forall q, get_dl G s1 q <= get_dl G s2 q /\ (get_dl G s2 q <> get_dl G s1 q -> get_dl G s2 q = lv + 1 /\ get_dl G s1 q = lv)).
        { intros q. rewrite D2. destruct (phase_hit s1 (steps2 rb hi) rb lv (lv + 1) q) eqn:C; [| lia].
          unfold phase_hit in C. b2p. lia. }
        intros r k Hr Hk [Ek [Hkm [N1 N2]]].
        destruct (Z_lt_ge_dec k lv) as [Hlt | Hge].
        - (* lower levels were already closed; neighbours changed only above lv *)
          assert (get_dl G s2 r = get_dl G s r).
          { destruct (Z.eq_dec (get_dl G s2 r) (get_dl G s1 r)) as [E | E];
              [| destruct (Up2 r) as [_ X]; specialize (X E); lia].
            destruct (Z.eq_dec (get_dl G s1 r) (get_dl G s r)) as [E' | E']; [congruence |].
            destruct (Up1 r) as [_ X]; specialize (X E'); lia. }
          apply (Cl r k Hr Hlt). split; [congruence |]. split; [assumption |].
          assert (Nb : forall q, need r k <= get_dl G s2 q -> need r k <= get_dl G s q).
          { intros q Hq. assert (need r k <= lv) by (unfold need; destruct (first r); lia).
            destruct (Z.eq_dec (get_dl G s2 q) (get_dl G s1 q)) as [E | E].
            - destruct (Z.eq_dec (get_dl G s1 q) (get_dl G s q)) as [E' | E']; [lia |].
              destruct (Up1 q) as [_ X]; specialize (X E'); lia.
            - destruct (Up2 q) as [_ X]; specialize (X E). pose proof (Up1 q) as [U X'].
              destruct (Z.eq_dec (get_dl G s1 q) (get_dl G s q)) as [E' | E']; [lia |].
              specialize (X' E'). lia. }
          split; now apply Nb.
        - assert (Ekl : k = lv) by lia. rewrite Ekl in Ek, N1, N2. clear Hk Hge.
          destruct (Z.eq_dec ((r - ra) mod 2) 0) as [Er | Er].
          + (* a row of phase a still at lv: it was not hit, so a neighbour was below lv; neighbours
               only move from lv to lv+1 in phase b *)
            assert (Fr : first r = true) by (rewrite <- Fa; now apply first_parity_eq).
            unfold need in N1, N2. rewrite Fr in N1, N2.
            rewrite Da in Ek by assumption.
            rewrite D1 in Ek. destruct (phase_hit s (steps2 ra hi) ra lv lv r) eqn:C; [lia |].
            assert (Nb : forall q, (q - rb) mod 2 = 0 -> lv <= get_dl G s2 q -> lv <= get_dl G s q).
            { intros q Hq Hge2. rewrite <- Db by assumption.
              destruct (Z.eq_dec (get_dl G s2 q) (get_dl G s1 q)) as [E | E]; [lia |].
              destruct (Up2 q) as [_ X]; specialize (X E). lia. }
            apply Nb in N1; [| lia]. apply Nb in N2; [| lia].
            enough (phase_hit s (steps2 ra hi) ra lv lv r = true) by congruence.
            unfold phase_hit, steps2. rewrite Ek.
            rewrite !andb_true_iff, !Z.leb_le, Z.ltb_lt, !Z.eqb_eq. lia.
          + assert (Fr : first r = false).
            { rewrite (first_parity_neq r ra) by lia. now rewrite Fa. }
            unfold need in N1, N2. rewrite Fr in N1, N2.
            rewrite Da in N1, N2 by lia.
            rewrite D2 in Ek. destruct (phase_hit s1 (steps2 rb hi) rb lv (lv + 1) r) eqn:C; [lia |].
            enough (phase_hit s1 (steps2 rb hi) rb lv (lv + 1) r = true) by congruence.
            unfold phase_hit, steps2. rewrite Ek.
            rewrite !andb_true_iff, !Z.leb_le, Z.ltb_lt, !Z.eqb_eq. lia. }
      destruct (IH (lv + 1) ra rb lo hi s2 I2 ltac:(lia) ltac:(lia) Fa Fb Ha Hb Cl2) as [s3 [E3 [I3 [S3 C3]]]].
      exists s3. split; [assumption |]. split; [assumption |].
      split; [apply (same_trans _ s1); [assumption | now apply (same_trans _ s2)] |].
      now replace (lv + Z.of_nat (S n)) with (lv + 1 + Z.of_nat n) by lia.
  Qed.

  (** Liveness. *)
  Definition closed (s : st T) : Prop := forall r k, scan_lo G s <= r < scan_hi G s -> ~ can s r k.

  Lemma closed_from s : closed_below s (scan_lo G s) (scan_hi G s) m -> closed s.
  Proof.
    intros C r k Hr Hc. destruct (Z_lt_ge_dec k m); [now apply (C r k) |].
    destruct Hc as [_ [H _]]. lia.
  Qed.

  Definition passed (s : st T) (r : Z) : Prop := a0 < nout s /\ r < nout s.
  Definition rad (k : nat) (r : Z) : Z :=
    match k with O => 0 | S _ => if first r then 2 * Z.of_nat k - 1 else 2 * Z.of_nat k end.

  Lemma live s : Inv s -> closed s -> forall k r, Z.of_nat k <= m ->
    (forall q, r - rad k r <= q <= r + rad k r -> passed s q \/ 0 <= get_dl G s q) ->
    (nin s = a1 \/ r + rad k r < a1) ->
    passed s r \/ Z.of_nat k <= get_dl G s r.
  Proof.
    intros I Cl. pose proof top_pos as Tp. pose proof bot_pos as Bp. pose proof (i_bounds s I) as Bd.
    induction k as [| k IH]; intros r Hk Hq Hu.
    - destruct (Hq r) as [P | P]; [unfold rad; lia | now left | right; lia].
    - (* a row at level k with advanced neighbours would be allowed to advance *)
      assert (Step : forall r, (nin s = a1 \/ r < a1) ->
                (passed s r \/ Z.of_nat k <= get_dl G s r) ->
                (passed s (r - 1) \/ need r (Z.of_nat k) <= get_dl G s (r - 1)) ->
                (passed s (r + 1) \/ need r (Z.of_nat k) <= get_dl G s (r + 1)) ->
                passed s r \/ Z.of_nat (S k) <= get_dl G s r).
      { clear r Hq Hu. intros r Hu [P | Pk] Hp Hn; [now left |].
        destruct (Z_le_gt_dec (Z.of_nat (S k)) (get_dl G s r)) as [| Hlt]; [now right |].
        destruct (Z_lt_ge_dec a0 (nout s)) as [Ho | Ho];
          [destruct (Z_lt_ge_dec r (nout s)) as [Hr | Hr]; [left; now split |] |].
        - exfalso. assert (Nn : need r (Z.of_nat k) <= get_dl G s (r + 1)).
          { destruct Hn as [[? ?] | Hn]; [lia | assumption]. }
          assert (Np : need r (Z.of_nat k) <= get_dl G s (r - 1)).
          { destruct Hp as [[? ?] | Hp]; [| assumption].
            assert (r = nout s) by lia. pose proof (i_org s I).
            rewrite (i_done s I (r - 1)) by lia. unfold need. destruct (first r); lia. }
          apply (Cl r (Z.of_nat k)).
          + pose proof (dl_window s r ltac:(lia)) as [[? ?] | [? | ?]]; unfold is_top, is_bot in *; try lia.
            * pose proof (i_real s I r ltac:(lia)) as [X _]. specialize (X ltac:(lia)).
              unfold scan_lo, scan_hi. destruct (Z.ltb_spec (a0 - top_pse G) (origin s - (top_pse G + m * 2 + 2)));
                destruct (Z.ltb_spec (nin s) a1); lia.
            * unfold scan_lo, scan_hi. destruct (Z.ltb_spec (a0 - top_pse G) (origin s - (top_pse G + m * 2 + 2)));
                destruct (Z.ltb_spec (nin s) a1); lia.
          + unfold can. lia.
        - exfalso. assert (Nn : need r (Z.of_nat k) <= get_dl G s (r + 1)).
          { destruct Hn as [[? ?] | Hn]; [lia | assumption]. }
          assert (Np : need r (Z.of_nat k) <= get_dl G s (r - 1)).
          { destruct Hp as [[? ?] | Hp]; [lia | assumption]. }
          apply (Cl r (Z.of_nat k)).
          + pose proof (dl_window s r ltac:(lia)) as [[? ?] | [? | ?]]; unfold is_top, is_bot in *.
            * pose proof (i_real s I r ltac:(lia)) as [X _]. specialize (X ltac:(lia)).
              unfold scan_lo, scan_hi. destruct (Z.ltb_spec (a0 - top_pse G) (origin s - (top_pse G + m * 2 + 2)));
                destruct (Z.ltb_spec (nin s) a1); lia.
            * unfold scan_lo, scan_hi. destruct (Z.ltb_spec (a0 - top_pse G) (origin s - (top_pse G + m * 2 + 2)));
                destruct (Z.ltb_spec (nin s) a1); lia.
            * unfold scan_lo, scan_hi. destruct (Z.ltb_spec (a0 - top_pse G) (origin s - (top_pse G + m * 2 + 2)));
                destruct (Z.ltb_spec (nin s) a1); lia.
          + unfold can. lia. }
      assert (Rk : forall q, rad k q <= 2 * Z.of_nat k /\ (first q = true -> rad k q <= 2 * Z.of_nat k)).
      { intros q. unfold rad. destruct k; [lia |]. destruct (first q); lia. }
      assert (FirstCase : forall r, first r = true ->
                (forall q, r - (2 * Z.of_nat k + 1) <= q <= r + (2 * Z.of_nat k + 1) -> passed s q \/ 0 <= get_dl G s q) ->
                (nin s = a1 \/ r + (2 * Z.of_nat k + 1) < a1) ->
                passed s r \/ Z.of_nat (S k) <= get_dl G s r).
      { clear r Hq Hu. intros r Fr Hq Hu. apply Step; [lia | | |].
        - apply IH; [lia | | pose proof (Rk r); lia]. intros q Hq'. apply Hq. pose proof (Rk r). lia.
        - unfold need. rewrite Fr. apply IH; [lia | | pose proof (Rk (r - 1)); lia].
          intros q Hq'. apply Hq. pose proof (Rk (r - 1)). lia.
        - unfold need. rewrite Fr. apply IH; [lia | | pose proof (Rk (r + 1)); lia].
          intros q Hq'. apply Hq. pose proof (Rk (r + 1)). lia. }
      destruct (first r) eqn:Fr.
      + apply FirstCase; [assumption | |]; unfold rad in Hq, Hu; rewrite Fr in Hq, Hu; [| lia].
        intros q Hq'. apply Hq. lia.
      + unfold rad in Hq, Hu. rewrite Fr in Hq, Hu.
        apply Step; [lia | | |].
        * apply IH; [lia | | pose proof (Rk r); lia]. intros q Hq'. apply Hq. pose proof (Rk r). lia.
        * unfold need. rewrite Fr. replace (Z.of_nat k + 1) with (Z.of_nat (S k)) by lia.
          apply FirstCase; [rewrite first_pred'; now rewrite Fr | | lia]. intros q Hq'. apply Hq. lia.
        * unfold need. rewrite Fr. replace (Z.of_nat k + 1) with (Z.of_nat (S k)) by lia.
          apply FirstCase; [rewrite first_alt; now rewrite Fr | | lia]. intros q Hq'. apply Hq. lia.
  Qed.

  (** Rows far enough above the last one received are complete, and all of
      them once everything has been received. *)
  Definition complete (s : st T) : Prop :=
    forall r, nout s <= r < a1 -> (r + 2 * m < nin s \/ nin s = a1) -> get_dl G s r = m.

  Lemma live_rows s : Inv s -> closed s -> complete s.
  Proof.
    intros I Cl r Hr Hn. pose proof top_pos as Tp. pose proof bot_pos as Bp. pose proof (i_bounds s I) as Bd.
    assert (Rm : rad (Z.to_nat m) r = if first r then 2 * m - 1 else 2 * m).
    { unfold rad. destruct (Z.to_nat m) eqn:E; [lia |]. rewrite <- E. replace (Z.of_nat (Z.to_nat m)) with m by lia. reflexivity. }
    assert (Hle : passed s r \/ Z.of_nat (Z.to_nat m) <= get_dl G s r).
    { apply (live s I Cl); [lia | | destruct Hn; [right; rewrite Rm; destruct (first r); lia | now left]].
      intros q Hq. rewrite Rm in Hq.
      destruct (Z_lt_ge_dec q a0) as [Q0 | Q0].
      - destruct (Z_lt_ge_dec a0 (nout s)) as [Ho | Ho]; [left; split; lia |]. right.
        assert (Tq : is_top q).
        { unfold is_top. split; [| lia]. destruct (Z.eq_dec r a0) as [-> | Hne]; [lia |].
          destruct (first a0); destruct (first r); lia. }
        apply (i_pse s I); [now left |]. unfold is_top in Tq.
        destruct Hn as [Hn | ->].
        + pose proof (mirror_near_top a0 a1 (a0 - q)) as M. replace (a0 - (a0 - q)) with q in M by lia.
          destruct (first r); lia.
        + pose proof (mirror_range a0 a1 q). lia.
      - destruct (Z_lt_ge_dec q a1) as [Q1 | Q1].
        + destruct (Z_lt_ge_dec q (origin s)) as [Qo | Qo].
          * left. split; pose proof (i_org s I); lia.
          * right. apply (i_real s I); [lia |]. destruct Hn; destruct (first r); lia.
        + right. destruct Hn as [Hn | Hn]; [destruct (first r); lia |].
          apply (i_pse s I).
          * right. unfold is_bot. split; [lia |]. destruct (Z.eq_dec r (a1 - 1)) as [E | Hne]; [rewrite E in Hq; lia |].
            destruct (first (a1 - 1)); destruct (first r); lia.
          * pose proof (mirror_range a0 a1 q). lia. }
    destruct Hle as [[_ ?] | Hle]; [lia |].
    pose proof (i_content s I r ltac:(lia)). lia.
  Qed.

  (** The repeated sweep of the 9/7 forward cascade. *)
  Definition slack (s : st T) (lo hi : Z) : Z :=
    fold_right Z.add 0 (map (fun q => m - get_dl G s q) (range lo hi)).

  Lemma slack_sum_step (f g : Z -> Z) (l : list Z) r : NoDup l -> In r l ->
    (forall q, g q = if q =? r then f q - 1 else f q) ->
    fold_right Z.add 0 (map g l) = fold_right Z.add 0 (map f l) - 1.
  Proof.
    intros Nd Hin H. induction l as [| a l IH]; [contradiction |].
    cbn [map fold_right]. inversion_clear Nd as [| ? ? Na Nl].
    destruct (Z.eq_dec a r) as [-> | Ne].
    - rewrite (H r), Z.eqb_refl. replace (map g l) with (map f l); [lia |].
      apply map_ext_in. intros q Hq. rewrite H. destruct (Z.eqb_spec q r) as [-> |]; [contradiction | reflexivity].
    - destruct Hin as [-> | Hin]; [congruence |]. rewrite (IH Nl Hin), H.
      destruct (Z.eqb_spec a r); [congruence | lia].
  Qed.

  Lemma range_nodup lo hi : NoDup (range lo hi).
  Proof.
    unfold range. apply FinFun.Injective_map_NoDup; [intros a b; lia |].
    unfold zseq. apply FinFun.Injective_map_NoDup; [intros a b; lia |]. apply seq_NoDup.
  Qed.

  Lemma slack_nonneg s lo hi : Inv s -> 0 <= slack s lo hi.
  Proof.
    intros I. unfold slack. induction (range lo hi) as [| q l IH]; cbn [map fold_right]; [lia |].
    pose proof (i_neg s I q). destruct (Z_lt_ge_dec (get_dl G s q) 0); [lia |].
    pose proof (i_content s I q ltac:(lia)). lia.
  Qed.
  Lemma slack_bound s lo hi : Inv s -> lo <= hi -> slack s lo hi <= (m + 1) * (hi - lo).
  Proof.
    intros I Hl. unfold slack.
    assert (H : forall l, fold_right Z.add 0 (map (fun q => m - get_dl G s q) l) <= (m + 1) * zlen l).
    { induction l as [| q l IH]; cbn [map fold_right]; [unfold zlen; cbn; lia |].
      rewrite zlen_cons. pose proof (i_neg s I q). lia. }
    specialize (H (range lo hi)). rewrite range_len in H by assumption. exact H.
  Qed.

  Section OddFirst.
    Hypothesis first_odd_rows : forall q, first q = negb (q mod 2 =? 0).

    Lemma can_adv_f_spec s r : can_adv_f G s r = true <-> can s r (get_dl G s r).
    Proof.
      unfold can_adv_f, can, need. rewrite first_odd_rows.
      rewrite !andb_true_iff, !Z.leb_le, Z.ltb_lt.
      destruct (r mod 2 =? 0); cbn [negb]; intuition lia.
    Qed.

    Lemma sweep_inv lo hi count : forall r pr s, Inv s -> lo <= r -> r + Z.of_nat count <= hi ->
      exists pr' s', sweep G step count r pr s = Ret (pr', s') /\ Inv s' /\ same_cursors s s'
        /\ slack s' lo hi <= slack s lo hi
        /\ (pr' = false -> pr = false /\ s' = s /\ forall q k, r <= q < r + Z.of_nat count -> ~ can s q k)
        /\ (pr' = true -> pr = true \/ slack s' lo hi < slack s lo hi).
    Proof.
      induction count as [| c IH]; intros r pr s I Hlo Hhi.
      - exists pr, s. cbn [sweep]. split; [reflexivity |]. split; [assumption |]. split; [apply same_refl |].
        split; [lia |]. split; [intros ->; split; [reflexivity | split; [reflexivity | lia]] | intros ->; now left].
      - cbn [sweep]. destruct (can_adv_f G s r) eqn:C.
        + apply can_adv_f_spec in C.
          destruct (adv_inv s r _ I C) as [s1 [E1 [I1 [S1 D1]]]]. rewrite E1. cbn [bind].
          assert (Sl : slack s1 lo hi = slack s lo hi - 1).
          { unfold slack. apply (slack_sum_step (fun q => m - get_dl G s q) _ _ r).
            - apply range_nodup.
            - apply range_In. lia.
            - intros q. rewrite D1. destruct (Z.eqb_spec q r) as [-> |]; lia. }
          destruct (IH (r + 1) true s1 I1 ltac:(lia) ltac:(lia)) as [pr' [s2 [E2 [I2 [S2 [Sl2 [F2 T2]]]]]]].
          exists pr', s2. split; [assumption |]. split; [assumption |]. split; [now apply (same_trans _ s1) |].
          split; [lia |]. split; [intros Ef; destruct (F2 Ef); discriminate | intros _; right; lia].
        + destruct (IH (r + 1) pr s I ltac:(lia) ltac:(lia)) as [pr' [s2 [E2 [I2 [S2 [Sl2 [F2 T2]]]]]]].
          exists pr', s2. split; [assumption |]. split; [assumption |]. split; [assumption |].
          split; [lia |]. split; [| assumption].
          intros Ef. destruct (F2 Ef) as [-> [-> Hn]]. split; [reflexivity |]. split; [reflexivity |].
          intros q k Hq Hc. destruct (Z.eq_dec q r) as [-> | Ne].
          * assert (can_adv_f G s r = true); [| congruence].
            apply can_adv_f_spec. pose proof Hc as [Ek _]. now rewrite Ek.
          * apply (Hn q k); [lia | assumption].
    Qed.

    Lemma until_stable_inv lo hi fuel : forall s, Inv s -> lo <= hi -> slack s lo hi < Z.of_nat fuel ->
      exists s', until_stable G step fuel lo hi s = Ret s' /\ Inv s' /\ same_cursors s s'
              /\ closed_below s' lo hi m.
    Proof.
      induction fuel as [| f IH]; intros s I Hl Hf; [pose proof (slack_nonneg s lo hi I); lia |].
      cbn [until_stable].
      destruct (sweep_inv lo hi (Z.to_nat (hi - lo)) lo false s I ltac:(lia) ltac:(lia))
        as [pr [s1 [E1 [I1 [S1 [Sl [F1 T1]]]]]]].
      rewrite E1. cbn [bind]. destruct pr.
      - destruct (T1 eq_refl) as [? | Hlt]; [discriminate |].
        destruct (IH s1 I1 Hl ltac:(lia)) as [s2 [E2 [I2 [S2 C2]]]].
        exists s2. split; [assumption |]. split; [assumption |]. split; [now apply (same_trans _ s1) | assumption].
      - destruct (F1 eq_refl) as [_ [-> Hn]]. exists s. split; [reflexivity |]. split; [assumption |].
        split; [apply same_refl |]. intros r k Hr Hk. apply Hn. lia.
    Qed.

    Lemma scan_le s : Inv s -> scan_lo G s <= scan_hi G s.
    Proof.
      intros I. pose proof (i_bounds s I). pose proof top_pos. pose proof bot_pos.
      unfold scan_lo, scan_hi.
      destruct (Z.ltb_spec (a0 - top_pse G) (origin s - (top_pse G + m * 2 + 2)));
        destruct (Z.ltb_spec (nin s) a1); lia.
    Qed.

    Lemma scan_same s s' : same_cursors s s' -> scan_lo G s' = scan_lo G s /\ scan_hi G s' = scan_hi G s.
    Proof. intros [E1 [E2 E3]]. unfold scan_lo, scan_hi. now rewrite E1, E2. Qed.

    Lemma cascade_f_inv s : Inv s ->
      exists s', cascade_f G step s = Ret s' /\ Inv s' /\ same_cursors s s' /\ closed s'.
    Proof.
      intros I. unfold cascade_f. cbv zeta. pose proof (scan_le s I).
      assert (Fin : forall s', same_cursors s s' -> closed_below s' (scan_lo G s) (scan_hi G s) m -> closed s').
      { intros s' S C. apply closed_from. destruct (scan_same s s' S) as [-> ->]. exact C. }
      destruct (Z.eqb_spec m 1) as [E | E].
      - destruct (phases_inv 1 0 (first_odd (scan_lo G s)) (first_even (scan_lo G s)) (scan_lo G s) (scan_hi G s) s I)
          as [s' [E1 [I1 [S1 C1]]]]; try lia.
        + unfold first_odd. rewrite first_odd_rows. destruct (Z.eqb_spec ((scan_lo G s + (1 - scan_lo G s mod 2)) mod 2) 0); [lia | reflexivity].
        + unfold first_even. rewrite first_odd_rows. destruct (Z.eqb_spec ((scan_lo G s + scan_lo G s mod 2) mod 2) 0); [reflexivity | lia].
        + unfold first_odd. lia.
        + unfold first_even. lia.
        + intros r k _ Hk [_ [? _]]. lia.
        + exists s'. split; [assumption |]. split; [assumption |]. split; [assumption |].
          apply Fin; [assumption |]. now replace m with (0 + Z.of_nat 1) by lia.
      - destruct (until_stable_inv (scan_lo G s) (scan_hi G s)
                    (Z.to_nat ((m + 1) * (scan_hi G s - scan_lo G s)) + 1) s I ltac:(lia)) as [s' [E1 [I1 [S1 C1]]]].
        + pose proof (slack_bound s (scan_lo G s) (scan_hi G s) I ltac:(lia)). lia.
        + exists s'. repeat (split; [assumption |]). now apply Fin.
    Qed.
  End OddFirst.

  Section EvenFirst.
    Hypothesis first_even_rows : forall q, first q = (q mod 2 =? 0).

    Lemma cascade_i_inv s : Inv s ->
      exists s', cascade_i G step s = Ret s' /\ Inv s' /\ same_cursors s s' /\ closed s'.
    Proof.
      intros I. unfold cascade_i. cbv zeta.
      destruct (phases_inv (Z.to_nat m) 0 (first_even (scan_lo G s)) (first_odd (scan_lo G s)) (scan_lo G s) (scan_hi G s) s I)
        as [s' [E1 [I1 [S1 C1]]]]; try lia.
      + unfold first_even. rewrite first_even_rows. destruct (Z.eqb_spec ((scan_lo G s + scan_lo G s mod 2) mod 2) 0); [reflexivity | lia].
      + unfold first_odd. rewrite first_even_rows. destruct (Z.eqb_spec ((scan_lo G s + (1 - scan_lo G s mod 2)) mod 2) 0); [lia | reflexivity].
      + unfold first_even. lia.
      + unfold first_odd. lia.
      + intros r k _ Hk [_ [? _]]. lia.
      + exists s'. split; [assumption |]. split; [assumption |]. split; [assumption |].
        apply closed_from. destruct S1 as [E2 [E3 E4]].
        replace (scan_lo G s') with (scan_lo G s) by (unfold scan_lo; now rewrite E2).
        replace (scan_hi G s') with (scan_hi G s) by (unfold scan_hi; now rewrite E3).
        now replace m with (0 + Z.of_nat (Z.to_nat m)) by lia.
    Qed.
  End EvenFirst.

  (** Giving up the ring slot of the oldest row. *)
  Definition retire (s : st T) : st T :=
    mk_st (rows s) (upd (dls s) (Ring (origin s mod depth G)) (-1)) (origin s + 1) (nin s) (nout s).

  Lemma retire_dl s q : Inv s -> origin s < a1 ->
    get_dl G (retire s) q = if q =? origin s then -1 else get_dl G s q.
  Proof.
    intros I Ho. pose proof (i_bounds s I) as Bd.
    destruct (row_cases q) as [C | [C | [C | [C1 [C2 C3]]]]].
    - rewrite !dl_real by assumption. cbn [retire origin dls]. unfold upd. cbn [addr_eqb].
      destruct (Z.eqb_spec q (origin s)) as [-> | Ne].
      + replace (origin s <? origin s + 1) with true by lia. reflexivity.
      + destruct (Z.ltb_spec q (origin s)).
        * replace (q <? origin s + 1) with true by lia. reflexivity.
        * replace (q <? origin s + 1) with false by lia. cbn [orb].
          destruct (Z.eqb_spec (origin s mod depth G) (q mod depth G)) as [E | E].
          -- destruct (Z.leb_spec (origin s + 1 + depth G) q); destruct (Z.leb_spec (origin s + depth G) q); try lia; try reflexivity.
             exfalso. apply Ne. symmetry. apply (mod_inj _ _ (depth G)); lia.
          -- destruct (Z.leb_spec (origin s + 1 + depth G) q); destruct (Z.leb_spec (origin s + depth G) q); try lia; try reflexivity.
             exfalso. apply E. replace q with (origin s + 1 * depth G) by lia. now rewrite Z_mod_plus_full.
    - rewrite !dl_top by assumption. cbn [retire dls]. unfold upd. cbn [addr_eqb].
      destruct (Z.eqb_spec q (origin s)); [unfold is_top in C; lia | reflexivity].
    - rewrite !dl_bot by assumption. cbn [retire dls]. unfold upd. cbn [addr_eqb].
      destruct (Z.eqb_spec q (origin s)); [unfold is_bot in C; lia | reflexivity].
    - rewrite !dl_none by assumption. now destruct (q =? origin s).
  Qed.

  Lemma retire_inv s : Inv s -> origin s + 1 < nout s -> Inv (retire s).
  Proof.
    intros I Ho. pose proof (i_bounds s I) as Bd.
    assert (D : forall q, get_dl G (retire s) q = if q =? origin s then -1 else get_dl G s q).
    { intros q. apply retire_dl; [assumption | lia]. }
    constructor; cbn [retire origin nin nout].
    - lia.
    - intros r Hr. change (get_row G (retire s) r) with (get_row G s r).
      revert Hr. rewrite D. destruct (Z.eqb_spec r (origin s)); intros Hr; [lia | now apply (i_content s I)].
    - intros r. rewrite D. destruct (r =? origin s); [lia | apply (i_neg s I)].
    - intros r b Fr Hb Rr Rb. unfold retired in Rr, Rb. cbn [retire origin] in Rr, Rb. rewrite !D.
      destruct (Z.eqb_spec r (origin s)); [lia |]. destruct (Z.eqb_spec b (origin s)); [lia |].
      apply (i_adj s I); unfold retired; try assumption; lia.
    - intros r Hr. rewrite D. destruct (Z.eqb_spec r (origin s)); [lia |]. apply (i_real s I). lia.
    - intros r Hr. rewrite D. destruct (Z.eqb_spec r (origin s)); [unfold is_top, is_bot in Hr; lia |]. now apply (i_pse s I).
    - intros r Hr. rewrite D. destruct (Z.eqb_spec r (origin s)); [lia |]. apply (i_done s I). lia.
    - right. lia.
  Qed.

  (** Receiving a row. *)
  Definition store (s : st T) (v : T) : st T :=
    let slot := Ring (nin s mod depth G) in
    let s1 := set_lv (set_row s slot v) slot 0 in
    mk_st (rows s1) (dls s1) (origin s1) (nin s1 + 1) (nout s1).

  Definition slot_hit (l : list (addr * Z)) (r : Z) (a : addr) : bool :=
    existsb (fun e => addr_eqb (fst e) a && (mirror a0 a1 (snd e) =? r)) l.

  Lemma fill_loop_spec r v l : forall s,
    exists s', fill_loop G l r v s = Ret s' /\ same_cursors s s'
      /\ forall a, dls s' a = (if (dls s a <? 0) && slot_hit l r a then 0 else dls s a)
              /\ rows s' a = (if (dls s a <? 0) && slot_hit l r a then Some v else rows s a).
  Proof.
    induction l as [| [b p] l IH]; intros s.
    - exists s. split; [reflexivity |]. split; [apply same_refl |]. intros a. cbn [slot_hit existsb].
      rewrite andb_false_r. now split.
    - cbn [fill_loop]. unfold fill_one. rewrite pse_o_mirror by lia. cbn [bind].
      replace (a0 + (mirror a0 a1 p - a0)) with (mirror a0 a1 p) by lia.
      destruct (dls s b <? 0) eqn:Cb; [destruct (mirror a0 a1 p =? r) eqn:Cm |]; cbn [bind].
      + destruct (IH (set_lv (set_row s b v) b 0)) as [s' [E [S D]]].
        exists s'. split; [assumption |]. split; [assumption |].
        intros a. destruct (D a) as [D1 D2]. rewrite D1, D2. cbn [set_lv set_row dls rows].
        unfold upd. cbn [slot_hit existsb fst snd]. rewrite Cm, andb_true_r.
        destruct (addr_eqb_spec b a) as [<- | Nb].
        * rewrite Cb. change (0 <? 0) with false. cbn [andb orb]. now split.
        * cbn [orb]. now split.
      + destruct (IH s) as [s' [E [S D]]]. exists s'. split; [assumption |]. split; [assumption |].
        intros a. destruct (D a) as [D1 D2]. rewrite D1, D2. cbn [slot_hit existsb fst snd].
        rewrite Cm, andb_false_r. cbn [orb]. now split.
      + destruct (IH s) as [s' [E [S D]]]. exists s'. split; [assumption |]. split; [assumption |].
        intros a. destruct (D a) as [D1 D2]. rewrite D1, D2. cbn [slot_hit existsb fst snd].
        destruct (addr_eqb_spec b a) as [<- | Nb]; [rewrite Cb; now split | cbn [orb andb]; now split].
  Qed.

  Lemma slot_hit_ring r i : slot_hit (pse_slots G) r (Ring i) = false.
  Proof.
    unfold slot_hit, pse_slots. rewrite existsb_app. apply orb_false_iff.
    split; apply not_true_is_false; intros C; apply existsb_exists in C as [e [Hin Hc]];
      apply in_map_iff in Hin as [j [<- _]]; cbn in Hc; discriminate.
  Qed.

  Lemma slot_hit_top r q : is_top q -> slot_hit (pse_slots G) r (Top (a0 - 1 - q)) = (mirror a0 a1 q =? r).
  Proof.
    intros Hq. apply eq_iff_eq_true. unfold slot_hit. rewrite existsb_exists. split.
    - intros [e [Hin Hc]]. unfold pse_slots in Hin. apply in_app_iff in Hin as [Hin | Hin];
        apply in_map_iff in Hin as [j [<- Hj]]; cbn [fst snd addr_eqb] in Hc; [| discriminate].
      apply andb_true_iff in Hc as [H1 H2]. b2p. replace q with (a0 - j) by lia. now apply Z.eqb_eq.
    - intros Hm. exists (Top (a0 - 1 - q), q). split.
      + unfold pse_slots. apply in_app_iff. left. apply in_map_iff. exists (a0 - q).
        split; [f_equal; [f_equal |]; lia |]. unfold upto. apply in_map_iff. exists (a0 - q - 1).
        split; [lia |]. apply zseq_In. unfold is_top in Hq. lia.
      + cbn [fst snd addr_eqb]. now rewrite Z.eqb_refl.
  Qed.

  Lemma slot_hit_bot r q : is_bot q -> slot_hit (pse_slots G) r (Bot (q - a1)) = (mirror a0 a1 q =? r).
  Proof.
    intros Hq. apply eq_iff_eq_true. unfold slot_hit. rewrite existsb_exists. split.
    - intros [e [Hin Hc]]. unfold pse_slots in Hin. apply in_app_iff in Hin as [Hin | Hin];
        apply in_map_iff in Hin as [j [<- Hj]]; cbn [fst snd addr_eqb] in Hc; [discriminate |].
      apply andb_true_iff in Hc as [H1 H2]. b2p. replace q with (a1 + j) by lia. now apply Z.eqb_eq.
    - intros Hm. exists (Bot (q - a1), q). split.
      + unfold pse_slots. apply in_app_iff. right. apply in_map_iff. exists (q - a1).
        split; [f_equal; lia |]. apply zseq_In. unfold is_bot in Hq. lia.
      + cbn [fst snd addr_eqb]. now rewrite Z.eqb_refl.
  Qed.

  Lemma store_fill_inv s : Inv s -> nin s < a1 -> nin s < origin s + depth G ->
    exists s', fill_pse G (store s (x (nin s))) (nin s) = Ret s' /\ Inv s'
      /\ origin s' = origin s /\ nin s' = nin s + 1 /\ nout s' = nout s.
  Proof.
    intros I Hn Hd. pose proof (i_bounds s I) as Bd. set (r := nin s).
    assert (Wr : in_window s r) by (left; unfold r; lia).
    assert (Ar : rptr G r = Some (Ring (r mod depth G))) by (apply rptr_real; unfold r; lia).
    set (s1 := store s (x r)).
    assert (D1 : forall q, get_dl G s1 q = if q =? r then 0 else get_dl G s q).
    { intros q. change (get_dl G s1 q) with (get_dl G (set_lv (set_row s (Ring (r mod depth G)) (x r)) (Ring (r mod depth G)) 0) q).
      rewrite (dl_set (set_row s (Ring (r mod depth G)) (x r)) r _ 0 q Wr Ar). reflexivity. }
    assert (R1 : forall q, in_window s q -> get_row G s1 q = if q =? r then Ret (x r) else get_row G s q).
    { intros q Hq. change (get_row G s1 q) with (get_row G (set_row s (Ring (r mod depth G)) (x r)) q).
      now apply row_set. }
    unfold fill_pse. rewrite (R1 r Wr), Z.eqb_refl. cbn [bind].
    destruct (fill_loop_spec r (x r) (pse_slots G) s1) as [s2 [E2 [[O2 [N2 U2]] D2]]].
    exists s2. split; [assumption |].
    change (origin s1) with (origin s) in O2. change (nin s1) with (nin s + 1) in N2. change (nout s1) with (nout s) in U2.
    (* levels after the fill *)
    assert (D3 : forall q, a0 <= q < a1 -> get_dl G s2 q = if q =? r then 0 else get_dl G s q).
    { intros q Hq. rewrite <- D1, !dl_real by assumption. rewrite O2. change (origin s1) with (origin s).
      destruct (D2 (Ring (q mod depth G))) as [-> _]. rewrite slot_hit_ring, andb_false_r. reflexivity. }
    assert (D4 : forall q, is_top q \/ is_bot q -> get_dl G s2 q = if mirror a0 a1 q =? r then 0 else get_dl G s q).
    { intros q Hq. pose proof (i_pse s I q Hq) as P.
      assert (Q1 : get_dl G s1 q = get_dl G s q).
      { rewrite D1. destruct (Z.eqb_spec q r); [unfold r, is_top, is_bot in *; lia | reflexivity]. }
      rewrite <- Q1 in P |- *. destruct Hq as [Hq | Hq].
      - rewrite !dl_top in * by assumption. destruct (D2 (Top (a0 - 1 - q))) as [-> _]. rewrite slot_hit_top by assumption.
        destruct (Z.eqb_spec (mirror a0 a1 q) r) as [Em | Em]; [| now rewrite andb_false_r].
        unfold r in Em. destruct (Z.ltb_spec (dls s1 (Top (a0 - 1 - q))) 0); [reflexivity | lia].
      - rewrite !dl_bot in * by assumption. destruct (D2 (Bot (q - a1))) as [-> _]. rewrite slot_hit_bot by assumption.
        destruct (Z.eqb_spec (mirror a0 a1 q) r) as [Em | Em]; [| now rewrite andb_false_r].
        unfold r in Em. destruct (Z.ltb_spec (dls s1 (Bot (q - a1))) 0); [reflexivity | lia]. }
    assert (R3 : forall q, a0 <= q < a1 -> get_row G s2 q = get_row G s1 q).
    { intros q Hq. unfold get_row. rewrite rptr_real by assumption.
      destruct (D2 (Ring (q mod depth G))) as [_ ->]. now rewrite slot_hit_ring, andb_false_r. }
    assert (R4 : forall q, is_top q \/ is_bot q ->
               get_row G s2 q = if mirror a0 a1 q =? r then Ret (x r) else get_row G s q).
    { intros q Hq. pose proof (i_pse s I q Hq) as P.
      assert (Q1 : get_dl G s1 q = get_dl G s q).
      { rewrite D1. destruct (Z.eqb_spec q r); [unfold r, is_top, is_bot in *; lia | reflexivity]. }
      rewrite <- Q1 in P. unfold get_row. destruct Hq as [Hq | Hq].
      - rewrite dl_top in P by assumption. rewrite rptr_top by assumption.
        destruct (D2 (Top (a0 - 1 - q))) as [_ ->]. rewrite slot_hit_top by assumption.
        destruct (Z.eqb_spec (mirror a0 a1 q) r) as [Em | Em]; [| now rewrite andb_false_r].
        unfold r in Em. destruct (Z.ltb_spec (dls s1 (Top (a0 - 1 - q))) 0); [reflexivity | lia].
      - rewrite dl_bot in P by assumption. rewrite rptr_bot by assumption.
        destruct (D2 (Bot (q - a1))) as [_ ->]. rewrite slot_hit_bot by assumption.
        destruct (Z.eqb_spec (mirror a0 a1 q) r) as [Em | Em]; [| now rewrite andb_false_r].
        unfold r in Em. destruct (Z.ltb_spec (dls s1 (Bot (q - a1))) 0); [reflexivity | lia]. }
    (* every level is unchanged or goes from -1 to 0 *)
    assert (DD : forall q, get_dl G s2 q = get_dl G s q \/ (get_dl G s2 q = 0 /\ get_dl G s q = -1)).
    { intros q. destruct (row_cases q) as [C | [C | [C | [C1 [C2 C3]]]]].
      - rewrite D3 by assumption. destruct (Z.eqb_spec q r) as [-> |]; [| now left]. right. split; [reflexivity |].
        pose proof (i_real s I r ltac:(unfold r in *; lia)). pose proof (i_neg s I r). unfold r in *. lia.
      - rewrite D4 by auto. destruct (Z.eqb_spec (mirror a0 a1 q) r) as [E |]; [| now left]. right. split; [reflexivity |].
        pose proof (i_pse s I q ltac:(auto)). pose proof (i_neg s I q). unfold r in *. lia.
      - rewrite D4 by auto. destruct (Z.eqb_spec (mirror a0 a1 q) r) as [E |]; [| now left]. right. split; [reflexivity |].
        pose proof (i_pse s I q ltac:(auto)). pose proof (i_neg s I q). unfold r in *. lia.
      - left. now rewrite !dl_none. }
    split; [| now repeat split].
    constructor; rewrite ?O2, ?N2, ?U2.
    - lia.
    - intros q. destruct (row_cases q) as [C | [C | [C | [C1 [C2 C3]]]]].
      + rewrite D3, R3 by assumption. destruct (Z.eqb_spec q r) as [-> | Nq].
        * intros _. split; [lia |]. rewrite (R1 r Wr), Z.eqb_refl. reflexivity.
        * intros Hq. rewrite R1 by now apply dl_window. destruct (Z.eqb_spec q r); [congruence |]. now apply (i_content s I).
      + rewrite D4, R4 by auto. destruct (Z.eqb_spec (mirror a0 a1 q) r) as [E | N].
        * intros _. split; [lia |]. rewrite <- E, x_mirror. reflexivity.
        * intros Hq. now apply (i_content s I).
      + rewrite D4, R4 by auto. destruct (Z.eqb_spec (mirror a0 a1 q) r) as [E | N].
        * intros _. split; [lia |]. rewrite <- E, x_mirror. reflexivity.
        * intros Hq. now apply (i_content s I).
      + rewrite dl_none by assumption. lia.
    - intros q. pose proof (i_neg s I q). pose proof (DD q). lia.
    - intros q b Fq Hb Rq Rb. unfold retired in Rq, Rb. rewrite O2 in Rq, Rb.
      pose proof (i_adj s I q b Fq Hb Rq Rb). pose proof (DD q). pose proof (DD b). pose proof (i_neg s I b). lia.
    - intros q Hq. rewrite D3 by lia. pose proof (i_real s I q Hq). destruct (Z.eqb_spec q r) as [-> |]; unfold r in *; lia.
    - intros q Hq. rewrite D4 by assumption. pose proof (i_pse s I q Hq).
      destruct (Z.eqb_spec (mirror a0 a1 q) r); unfold r in *; lia.
    - intros q Hq. rewrite D3 by lia. destruct (Z.eqb_spec q r); [unfold r in *; lia |]. apply (i_done s I). lia.
    - apply (i_org s I).
  Qed.

  Lemma init_inv : Inv (init_st G).
  Proof.
    assert (D : forall q, get_dl G (init_st (T := T) G) q = -1).
    { intros q. unfold get_dl, init_st. cbn [dls origin].
      destruct ((a0 <=? q) && (q <? a1)); [now destruct ((q <? a0) || (a0 + depth G <=? q)) |].
      destruct ((a0 - top_pse G <=? q) && (q <? a0)); [reflexivity |].
      now destruct ((a1 <=? q) && (q <? a1 + bot_pse G)). }
    constructor.
    - cbn [init_st origin nin nout]. lia.
    - intros r H. rewrite D in H. exfalso. lia.
    - intros r. rewrite D. lia.
    - intros r b _ _ _ _. rewrite !D. lia.
    - intros r Hr. rewrite D. cbn [init_st origin nin nout] in *. lia.
    - intros r Hr. rewrite D. pose proof (mirror_range a0 a1 r). cbn [init_st origin nin nout] in *. lia.
    - intros r Hr. cbn [init_st origin nin nout] in *. lia.
    - now left.
  Qed.

  (** The forward machine. *)
  Lemma reclaim_inv fuel : forall s, Inv s -> Z.max 0 (nout s - 4 - origin s) < Z.of_nat fuel ->
    exists s', reclaim G fuel s = Ret s' /\ Inv s' /\ nin s' = nin s /\ nout s' = nout s
      /\ nout s - 4 <= origin s'
      /\ forall q, nout s <= q -> get_dl G s' q = get_dl G s q.
  Proof.
    induction fuel as [| f IH]; intros s I Hf; pose proof (i_bounds s I) as Bd; cbn [reclaim]; [lia |].
    destruct (Z.ltb_spec (origin s) (nout s - 4)) as [Hlt | Hge]; cbn [andb].
    - rewrite (i_done s I (origin s)) by lia. rewrite Z.leb_refl. fold (retire s).
      assert (Ir : Inv (retire s)) by (apply retire_inv; [assumption | lia]).
      destruct (IH (retire s) Ir) as [s' [E [I' [N [U [O D]]]]]]; [cbn [retire nout origin]; lia |].
      cbn [retire nin nout] in N, U, O.
      exists s'. split; [assumption |]. split; [assumption |]. split; [assumption |]. split; [assumption |].
      split; [lia |]. intros q Hq. rewrite D by exact Hq. rewrite retire_dl by (assumption || lia).
      destruct (Z.eqb_spec q (origin s)); [lia | reflexivity].
    - exists s. split; [reflexivity |]. split; [assumption |]. split; [reflexivity |]. split; [reflexivity |]. split; [lia | reflexivity].
  Qed.

  Section Forward.
    Context {R : Type} (hor : T -> out R) (yy : Z -> R) (single : T -> T).
    Hypothesis first_odd_rows : forall q, first q = negb (q mod 2 =? 0).
    Hypothesis Hhor : forall r, a0 <= r < a1 -> hor (L (Z.to_nat m) r) = Ret (yy r).
    Hypothesis Gdf : 2 * m + 5 <= depth G.

    Definition ev (r : Z) : event (R := R) := (negb (r mod 2 =? 0), r, yy r).

    Lemma emit_inv fuel : forall s, Inv s -> nout s - 4 <= origin s -> a1 - nout s < Z.of_nat fuel ->
      exists s', emit_ready G hor fuel s = Ret (map ev (range (nout s) (nout s')), s')
        /\ Inv s' /\ nin s' = nin s /\ nout s <= nout s' /\ nout s' - 4 <= origin s'
        /\ ~ (nout s' < a1 /\ m <= get_dl G s' (nout s'))
        /\ forall q, nout s' <= q -> get_dl G s' q = get_dl G s q.
    Proof.
      induction fuel as [| f IH]; intros s I Ho Hf; pose proof (i_bounds s I) as Bd; [lia |].
      cbn [emit_ready].
      destruct ((nout s <? a1) && (m <=? get_dl G s (nout s))) eqn:C.
      - b2p. assert (Ec : get_dl G s (nout s) = m) by (pose proof (i_content s I (nout s) ltac:(lia)); lia).
        destruct (i_content s I (nout s) ltac:(lia)) as [_ Cr]. rewrite Cr, Ec. cbn [bind].
        rewrite Hhor by lia. cbn [bind].
        set (s1 := mk_st (rows s) (dls s) (origin s) (nin s) (nout s + 1)).
        assert (I1 : Inv s1).
        { pose proof (proj1 (i_real s I (nout s) ltac:(lia)) ltac:(lia)).
          destruct I as [? ? ? ? ? ? Dn Og]. constructor; try assumption.
          - cbn [s1 origin nin nout]. lia.
          - intros q Hq. cbn [s1 origin nout] in Hq. change (get_dl G s1 q) with (get_dl G s q).
            destruct (Z.eq_dec q (nout s)) as [-> |]; [assumption | apply Dn; lia].
          - cbn [s1 origin nout]. lia. }
        destruct (reclaim_inv (Z.to_nat (nout s1 - origin s) + 1) s1 I1) as [s2 [E2 [I2 [N2 [U2 [O2 D2]]]]]];
          [cbn [s1 origin nout]; lia |].
        change (nout s1) with (nout s + 1) in *. change (nin s1) with (nin s) in *.
        rewrite E2. cbn [bind].
        destruct (IH s2 I2 ltac:(lia) ltac:(lia)) as [s3 [E3 [I3 [N3 [U3 [O3 [F3 D3]]]]]]].
        rewrite E3. cbn [bind]. exists s3.
        split.
        + rewrite (range_cons (nout s) (nout s3)) by lia. cbn [map]. rewrite U2. reflexivity.
        + split; [assumption |]. split; [lia |]. split; [lia |]. split; [lia |]. split; [assumption |].
          intros q Hq. rewrite D3 by lia. rewrite D2 by lia. reflexivity.
      - exists s. split; [now rewrite range_nil by lia |]. split; [assumption |]. split; [reflexivity |].
        split; [lia |]. split; [assumption |]. split; [| reflexivity].
        intros [H1 H2]. apply andb_false_iff in C as [C | C]; b2p; lia.
    Qed.

    (** Between two pushes. *)
    Definition FInv (s : st T) : Prop :=
      Inv s /\ nout s - 4 <= origin s /\ nin s <= nout s + 2 * m /\ (nin s = a1 -> nout s = a1).

    Lemma settle s : Inv s -> nout s - 4 <= origin s ->
      exists s', (let* s4 := cascade_f G step s in emit_ready_f G hor s4)
                 = Ret (map ev (range (nout s) (nout s')), s')
        /\ FInv s' /\ nin s' = nin s /\ nout s <= nout s'.
    Proof.
      intros I Ho. destruct (cascade_f_inv first_odd_rows s I) as [s4 [E4 [I4 [[O4 [N4 U4]] C4]]]].
      rewrite E4. cbn [bind]. unfold emit_ready_f.
      pose proof (i_bounds s4 I4) as Bd.
      destruct (emit_inv (Z.to_nat (a1 - nout s4) + 1) s4 I4 ltac:(lia) ltac:(lia)) as [s5 [E5 [I5 [N5 [U5 [O5 [F5 D5]]]]]]].
      rewrite E5, U4. exists s5. split; [reflexivity |].
      pose proof (live_rows s4 I4 C4) as Lv. pose proof (i_bounds s5 I5) as Bd5.
      split; [| split; lia].
      split; [assumption |]. split; [assumption |].
      assert (Hstop : nout s5 < a1 -> ~ (nout s5 + 2 * m < nin s4 \/ nin s4 = a1)).
      { intros Hlt Hc. apply F5. split; [assumption |]. rewrite D5 by lia. rewrite (Lv (nout s5)); lia. }
      split; [destruct (Z_lt_ge_dec (nout s5) a1) as [Hl | Hl]; [specialize (Hstop Hl) |]; lia |].
      intros En. destruct (Z_lt_ge_dec (nout s5) a1) as [Hl | Hl]; [specialize (Hstop Hl) |]; lia.
    Qed.

    Lemma push_inv s : FInv s -> nin s < a1 ->
      exists s', push_row G step hor (x (nin s)) s = Ret (map ev (range (nout s) (nout s')), s')
        /\ FInv s' /\ nin s' = nin s + 1 /\ nout s <= nout s'.
    Proof.
      intros [I [Ho [Hn Hf]]] Hlt. pose proof (i_bounds s I) as Bd.
      unfold push_row. destruct (Z.leb_spec a1 (nin s)); [lia |]. destruct (Z.eqb_spec a1 (a0 + 1)); [lia |].
      cbv zeta.
      destruct (store_fill_inv s I Hlt ltac:(lia)) as [s3 [E3 [I3 [O3 [N3 U3]]]]].
      unfold store in E3. cbv zeta in E3. rewrite E3. cbn [bind].
      destruct (settle s3 I3 ltac:(lia)) as [s5 [E5 [F5 [N5 U5]]]].
      rewrite E5. exists s5. rewrite U3 in *. split; [reflexivity |]. split; [assumption |]. split; lia.
    Qed.

    Lemma push_all_inv n : forall s, FInv s -> Z.of_nat n <= a1 - nin s ->
      exists s', push_all G step hor (map x (range (nin s) (nin s + Z.of_nat n))) s
                 = Ret (map ev (range (nout s) (nout s')), s')
        /\ FInv s' /\ nin s' = nin s + Z.of_nat n /\ nout s <= nout s'.
    Proof.
      induction n as [| n IH]; intros s F Hn.
      - exists s. rewrite !range_nil by lia. cbn [map push_all]. split; [reflexivity |]. split; [assumption |]. lia.
      - rewrite range_cons by lia. cbn [map push_all].
        destruct (push_inv s F ltac:(lia)) as [s1 [E1 [F1 [N1 U1]]]]. rewrite E1. cbn [bind].
        destruct (IH s1 F1 ltac:(lia)) as [s2 [E2 [F2 [N2 U2]]]].
        replace (nin s1) with (nin s + 1) in E2 by lia.
        replace (nin s + 1 + Z.of_nat n) with (nin s + Z.of_nat (S n)) in E2 by lia.
        rewrite E2. cbn [bind]. exists s2. split; [| split; [assumption | lia]].
        rewrite <- map_app, range_app by lia. reflexivity.
    Qed.

    Lemma flush_fill_noop l s : Inv s -> nin s = a1 -> (forall i, In i l -> 0 <= i < bot_pse G) ->
      flush_fill G l s = Ret s.
    Proof.
      intros I Hn Hl. induction l as [| i l IH]; [reflexivity |]. cbn [flush_fill].
      assert (Hi : 0 <= i < bot_pse G) by (apply Hl; now left).
      assert (Hd : 0 <= dls s (Bot i)).
      { assert (B : is_bot (a1 + i)) by (unfold is_bot; lia).
        pose proof (proj2 (i_pse s I (a1 + i) (or_intror B))) as P. rewrite dl_bot in P by assumption.
        replace (a1 + i - a1) with i in P by lia. apply P. pose proof (mirror_range a0 a1 (a1 + i)). lia. }
      destruct (Z.ltb_spec (dls s (Bot i)) 0); [lia |]. cbn [bind]. apply IH. intros j Hj. apply Hl. now right.
    Qed.

    Theorem fdwt_run_spec :
      fdwt_run G step hor single (map x (range a0 a1)) = Ret (map ev (range a0 a1)).
    Proof.
      unfold fdwt_run.
      assert (F0 : FInv (init_st G)).
      { split; [exact init_inv |]. cbn [init_st origin nin nout]. lia. }
      destruct (push_all_inv (Z.to_nat (a1 - a0)) (init_st G) F0) as [s1 [E1 [F1 [N1 U1]]]];
        [cbn [init_st nin]; lia |].
      cbn [init_st nin nout] in E1, N1, U1.
      replace (a0 + Z.of_nat (Z.to_nat (a1 - a0))) with a1 in E1, N1 by lia.
      change {| rows := fun _ => None; dls := fun _ => -1; origin := a0; nin := a0; nout := a0 |} with (init_st (T := T) G) in E1.
      rewrite E1. cbn [bind].
      destruct F1 as [I1 [O1 [H1 H2]]]. specialize (H2 N1).
      unfold flush. destruct (Z.eqb_spec a1 (a0 + 1)); [lia |]. cbn [andb].
      rewrite flush_fill_noop; [| assumption | assumption | intros i Hi; now apply zseq_In in Hi].
      cbn [bind].
      destruct (settle s1 I1 O1) as [s2 [E2 [F2 [N2 U2]]]]. rewrite E2. cbn [bind].
      destruct F2 as [I2 _]. pose proof (i_bounds s2 I2).
      rewrite <- map_app, range_app by lia. replace (nout s2) with a1 by lia. reflexivity.
    Qed.
  End Forward.

  (** The inverse machine. *)
  Section Inverse.
    Context (single : T -> T) (src : Z -> out T).
    Hypothesis first_even_rows : forall q, first q = (q mod 2 =? 0).
    Hypothesis Hsrc : forall r, a0 <= r < a1 -> src r = Ret (x r).
    Hypothesis Gdi : 2 * m + 2 <= depth G.

    Lemma evict_inv fuel s : Inv s -> nin s <= nout s + 2 * m ->
      exists s', evict G (S (S fuel)) s = Ret s' /\ Inv s' /\ nin s' = nin s /\ nout s' = nout s
        /\ nin s < origin s' + depth G
        /\ forall q, nout s <= q -> get_dl G s' q = get_dl G s q.
    Proof.
      intros I Hn. pose proof (i_bounds s I) as Bd. cbn [evict].
      destruct ((origin s + depth G <=? nin s) && (origin s <? nout s)) eqn:C.
      - b2p. fold (retire s).
        assert (Ir : Inv (retire s)) by (apply retire_inv; [assumption | lia]).
        cbn [evict retire origin nin nout]. replace (origin s + 1 + depth G <=? nin s) with false by lia.
        cbn [andb]. fold (retire s). exists (retire s). split; [reflexivity |]. split; [assumption |].
        cbn [retire origin nin nout]. repeat (split; [lia |]).
        intros q Hq. rewrite retire_dl by (assumption || lia). destruct (Z.eqb_spec q (origin s)); [lia | reflexivity].
      - exists s. split; [reflexivity |]. split; [assumption |]. split; [reflexivity |]. split; [reflexivity |]. split; [| reflexivity].
        apply andb_false_iff in C as [C | C]; b2p; pose proof (i_org s I); lia.
    Qed.

    Lemma evict_all_inv s : Inv s -> nin s <= nout s + 2 * m ->
      exists s', evict_all G s = Ret s' /\ Inv s' /\ nin s' = nin s /\ nout s' = nout s
        /\ nin s < origin s' + depth G
        /\ forall q, nout s <= q -> get_dl G s' q = get_dl G s q.
    Proof.
      intros I Hn. pose proof (i_bounds s I) as Bd. unfold evict_all.
      destruct (Z_lt_ge_dec (origin s) (nout s)) as [Hlt | Hge].
      - replace (Z.to_nat (nout s - origin s) + 1)%nat with (S (S (Z.to_nat (nout s - origin s) - 1))) by lia.
        now apply evict_inv.
      - replace (Z.to_nat (nout s - origin s) + 1)%nat with 1%nat by lia. cbn [evict].
        replace (origin s <? nout s) with false by lia. rewrite andb_false_r.
        exists s. split; [reflexivity |]. split; [assumption |]. split; [reflexivity |]. split; [reflexivity |]. split; [lia | reflexivity].
    Qed.

    Lemma fetch_one_inv s : Inv s -> nin s < a1 -> nin s <= nout s + 2 * m ->
      exists s', fetch_one G step src s = Ret s' /\ Inv s' /\ closed s' /\ nin s' = nin s + 1 /\ nout s' = nout s.
    Proof.
      intros I Hlt Hn. unfold fetch_one. destruct (Z.leb_spec a1 (nin s)); [lia |]. cbv zeta.
      destruct (evict_all_inv s I Hn) as [s0 [E0 [I0 [N0 [U0 [W0 D0]]]]]]. rewrite E0. cbn [bind].
      pose proof (i_bounds s I) as Bd.
      rewrite Hsrc by lia. cbn [bind].
      destruct (store_fill_inv s0 I0 ltac:(lia) ltac:(lia)) as [s3 [E3 [I3 [O3 [N3 U3]]]]].
      unfold store in E3. cbv zeta in E3. rewrite N0 in E3. rewrite E3. cbn [bind].
      destruct (cascade_i_inv first_even_rows s3 I3) as [s4 [E4 [I4 [[O4 [N4 U4]] C4]]]].
      rewrite E4. exists s4. split; [reflexivity |]. split; [assumption |]. split; [assumption |]. lia.
    Qed.

    Lemma fetch_loop_inv fuel : forall s, Inv s -> complete s -> nout s < a1 -> a1 - nin s < Z.of_nat fuel ->
      exists s', fetch_loop G step src fuel s = Ret s' /\ Inv s' /\ complete s' /\ nout s' = nout s
              /\ get_dl G s' (nout s) = m.
    Proof.
      induction fuel as [| f IH]; intros s I Cm Hlt Hf; [pose proof (i_bounds s I); lia |].
      pose proof (i_bounds s I) as Bd.
      cbn [fetch_loop]. destruct (Z.ltb_spec (get_dl G s (nout s)) m) as [Hd | Hd].
      - pose proof (Cm (nout s) ltac:(lia)) as Hc.
        destruct (Z.leb_spec a1 (nin s)) as [Hall | Hmore]; [rewrite Hc in Hd by lia; lia |].
        assert (Hn : nin s <= nout s + 2 * m) by lia.
        destruct (evict_all_inv s I Hn) as [s0 [E0 [I0 [N0 [U0 [W0 D0]]]]]]. rewrite E0. cbn [bind].
        destruct (fetch_one_inv s0 I0 ltac:(lia) ltac:(lia)) as [s1 [E1 [I1 [C1 [N1 U1]]]]]. rewrite E1. cbn [bind].
        destruct (IH s1 I1 (live_rows s1 I1 C1) ltac:(lia) ltac:(lia)) as [s2 [E2 [I2 [C2 [U2 D2]]]]].
        exists s2. split; [assumption |]. split; [assumption |]. split; [assumption |].
        replace (nout s) with (nout s1) by lia. split; [lia | assumption].
      - exists s. split; [reflexivity |]. split; [assumption |]. split; [assumption |]. split; [reflexivity |].
        pose proof (i_neg s I (nout s)). pose proof (i_content s I (nout s) ltac:(lia)). lia.
    Qed.

    Lemma pull_inv s : Inv s -> complete s -> nout s < a1 ->
      exists s', pull_row G step single src s = Ret (Some (L (Z.to_nat m) (nout s)), s')
              /\ Inv s' /\ complete s' /\ nout s' = nout s + 1.
    Proof.
      intros I Cm Hlt. unfold pull_row. pose proof (i_bounds s I) as Bd.
      destruct (Z.leb_spec a1 (nout s)); [lia |]. destruct (Z.leb_spec a1 a0); [lia |].
      destruct (Z.eqb_spec a1 (a0 + 1)); [lia |].
      destruct (fetch_loop_inv (Z.to_nat (a1 - nin s) + 1) s I Cm Hlt ltac:(lia)) as [s1 [E1 [I1 [C1 [U1 D1]]]]].
      rewrite E1. cbn [bind]. rewrite U1, D1. rewrite Z.ltb_irrefl.
      destruct (i_content s1 I1 (nout s) ltac:(lia)) as [_ Cr]. rewrite Cr, D1. cbn [bind].
      set (s2 := mk_st (rows s1) (dls s1) (origin s1) (nin s1) (nout s + 1)).
      exists s2. split; [reflexivity |]. split; [| split; [| reflexivity]].
      - pose proof (i_bounds s1 I1) as Bd1. pose proof (proj1 (i_real s1 I1 (nout s) ltac:(lia)) ltac:(lia)).
        destruct I1 as [? ? ? ? ? ? Dn Og]. constructor; try assumption.
        + cbn [s2 origin nin nout]. lia.
        + intros q Hq. cbn [s2 origin nout] in Hq. change (get_dl G s2 q) with (get_dl G s1 q).
          destruct (Z.eq_dec q (nout s)) as [-> |]; [assumption | apply Dn; lia].
        + cbn [s2 origin nout]. lia.
      - intros q Hq Hc. apply (C1 q); [cbn [s2 nout] in Hq; lia | exact Hc].
    Qed.

    Lemma pull_end s : a1 <= nout s -> pull_row G step single src s = Ret (None, s).
    Proof. intros H. unfold pull_row. destruct (Z.leb_spec a1 (nout s)); [reflexivity | lia]. Qed.

    Theorem idwt_pulls_spec n :
      idwt_pulls G step single src n
      = Ret (map (fun r => if r <? a1 then Some (L (Z.to_nat m) r) else None) (range a0 (a0 + Z.of_nat n))).
    Proof.
      assert (H : forall n s, Inv s -> complete s ->
                exists s', pulls G step single src n s
                  = Ret (map (fun r => if r <? a1 then Some (L (Z.to_nat m) r) else None)
                             (range (nout s) (nout s + Z.of_nat n)), s')).
      { clear n. induction n as [| n IH]; intros s I Cm.
        - exists s. rewrite range_nil by lia. reflexivity.
        - cbn [pulls]. rewrite range_cons by lia. cbn [map].
          destruct (Z.ltb_spec (nout s) a1) as [Hlt | Hge].
          + destruct (pull_inv s I Cm Hlt) as [s1 [E1 [I1 [C1 U1]]]]. rewrite E1. cbn [bind].
            destruct (IH s1 I1 C1) as [s2 E2]. rewrite E2. cbn [bind]. exists s2. rewrite U1.
            replace (nout s + 1 + Z.of_nat n) with (nout s + Z.of_nat (S n)) by lia. reflexivity.
          + rewrite pull_end by lia. cbn [bind]. destruct (IH s I Cm) as [s2 E2]. rewrite E2. cbn [bind]. exists s2.
            do 3 f_equal.
            assert (Hnone : forall l, (forall r, In r l -> a1 <= r) ->
                      map (fun r => if r <? a1 then Some (L (Z.to_nat m) r) else None) l = map (fun _ => None) l).
            { intros l Hl. apply map_ext_in. intros r Hr. specialize (Hl r Hr). destruct (Z.ltb_spec r a1); [lia | reflexivity]. }
            rewrite !Hnone by (intros r Hr; apply range_In in Hr; lia).
            unfold range. rewrite !map_map. f_equal. f_equal. lia. }
      unfold idwt_pulls. destruct (H n (init_st G) init_inv) as [s' E].
      - intros r Hr Hc. cbn [init_st nin nout] in *. lia.
      - change (nout (init_st (T := T) G)) with a0 in E. rewrite E. reflexivity.
    Qed.
  End Inverse.
End Proofs.
