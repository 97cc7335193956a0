(** Lemmas for what the server sends and how it re-assembles. *)
From Coq Require Import Permutation.
From Verif Require Import Base BaseLemmas Be WalkerModel WalkerSpec WalkerProps PrecinctModel PrecinctSpec PrecinctProofs ReasmModel ReasmSpec ReasmProofs ReasmProps.
From Verif Require JppModel JppSpec JppProps.

Lemma key_eqb_eq a b : key_eqb a b = true <-> a = b.
Proof.
  unfold key_eqb. destruct a as [a1 a2 a3 a4], b as [b1 b2 b3 b4]; cbn [k_t k_c k_r k_p]. split.
  - intros H. f_equal; lia.
  - intros H. injection H as -> -> -> ->. lia.
Qed.
Lemma pkey_key a b : pkey_eqb a b = key_eqb a b. Proof. reflexivity. Qed.

(** [b] lies in [B] at the given range. *)
Definition located (B b : list Z) (r : Z * Z) : Prop :=
  exists X Y, B = X ++ b ++ Y /\ zlen X = fst r /\ snd r = zlen b.

Lemma slice_mid X b Y from to : zlen X = from -> to = from + zlen b -> slice (X ++ b ++ Y) from to = Ret b.
Proof.
  intros <- ->. unfold slice. rewrite !zlen_app. pose proof (zlen_nonneg X). pose proof (zlen_nonneg b). pose proof (zlen_nonneg Y).
  replace ((0 <=? zlen X) && (zlen X <=? zlen X + zlen b) && (zlen X + zlen b <=? zlen X + (zlen b + zlen Y))) with true by lia.
  rewrite zskip_app by reflexivity. rewrite ztake_app by lia. reflexivity.
Qed.

Lemma gather_located B bs rs : Forall2 (located B) bs rs -> gather B rs = Ret (Some (concat bs)).
Proof.
  induction 1 as [|b [a n] bs rs (X & Y & E & E1 & E2) _ IH]; cbn [gather concat]; [reflexivity|].
  cbn [fst snd] in *. subst n.
  assert (zlen B = zlen X + (zlen b + zlen Y)) as EL by (rewrite E, !zlen_app; reflexivity).
  pose proof (zlen_nonneg Y). replace (zlen B <? a + zlen b) with false by lia.
  rewrite E at 1. rewrite slice_mid by (reflexivity || lia). cbn [bind]. rewrite IH. reflexivity.
Qed.

Lemma part_bytes_len p : zlen (part_bytes p) = part_len p.
Proof. unfold part_bytes, part_len. rewrite !zlen_app, !be16_len, be32_len. change (zlen [pt_idx p; pt_cnt p]) with 2. lia. Qed.

Lemma app_split {A} (a b l1 l2 : list A) (x : A) : a ++ b = l1 ++ x :: l2 ->
  (exists m, a = l1 ++ x :: m /\ l2 = m ++ b) \/ (exists m, l1 = a ++ m /\ b = m ++ x :: l2).
Proof.
  revert l1. induction a as [|y a IH]; intros l1 E; cbn [app] in E.
  - right. exists l1. auto.
  - destruct l1 as [|z l1]; cbn [app] in E.
    + injection E as -> <-. left. exists a. auto.
    + injection E as -> E. destruct (IH _ E) as [(m & -> & ->)|(m & -> & ->)]; [left|right]; exists m; auto.
Qed.

Definition body_of (q : tilepart) : list Z := concat (map snd (q_packets q)).

Lemma to_absolute_ok B t : forall qs P S acc l1 k b l2, B = P ++ concat (map part_bytes (map to_part qs)) ++ S ->
  packets_of_tile qs t = l1 ++ (k, b) :: l2 -> b <> [] ->
  exists a, to_absolute (locate (zlen P) (map to_part qs)) t (acc + zlen (concat (map snd l1))) acc = Some a /\ located B b (a, zlen b).
Proof.
  induction qs as [|q qs IH]; intros P S acc l1 k b l2 EB EP Hb.
  - destruct l1; discriminate.
  - cbn [map locate to_absolute tp_tile pt_tile to_part]. cbn [map concat] in EB.
    assert (B = (P ++ part_bytes (to_part q)) ++ concat (map part_bytes (map to_part qs)) ++ S) as EB'
      by (rewrite EB, <- !app_assoc; reflexivity).
    assert (zlen P + part_len (to_part q) = zlen (P ++ part_bytes (to_part q))) as EZ
      by (rewrite zlen_app, part_bytes_len; reflexivity).
    unfold packets_of_tile, parts_of_tile in EP. cbn [filter] in EP.
    change {| pt_tile := q_tile q; pt_idx := q_idx q; pt_cnt := q_cnt q; pt_segs := q_segs q; pt_body := concat (map snd (q_packets q)) |}
      with (to_part q) in *.
    destruct (q_tile q =? t) eqn:Et; cbn [negb].
    2:{ rewrite EZ. eapply IH; [exact EB'|exact EP|exact Hb]. }
    cbn [tp_body_offset tp_body_end]. change (pt_segs (to_part q)) with (q_segs q). set (hd := zlen P + 12 + zlen (segs_bytes (q_segs q))).
    cbn [map concat] in EP.
    assert (zlen P + part_len (to_part q) = hd + 2 + zlen (body_of q)) as EL.
    { unfold part_len, to_part, hd, body_of. cbn [pt_segs pt_body]. lia. }
    rewrite EL. pose proof (zlen_nonneg (body_of q)) as Hq.
    replace (if hd + 2 <? hd + 2 + zlen (body_of q) then hd + 2 + zlen (body_of q) - (hd + 2) else 0) with (zlen (body_of q))
      by (destruct (Z.ltb_spec (hd + 2) (hd + 2 + zlen (body_of q))); lia).
    destruct (app_split _ _ _ _ _ EP) as [(m & E1 & E2)|(m & E1 & E2)].
    + assert (body_of q = concat (map snd l1) ++ b ++ concat (map snd m)) as Eb.
      { unfold body_of. rewrite E1, map_app, concat_app. reflexivity. }
      assert (1 <= zlen b) as H1 by (destruct b; [congruence|rewrite zlen_cons; pose proof (zlen_nonneg b); lia]).
      pose proof (zlen_nonneg (concat (map snd m))) as H2. rewrite Eb, !zlen_app.
      replace (acc + zlen (concat (map snd l1)) <? acc + (zlen (concat (map snd l1)) + (zlen b + zlen (concat (map snd m))))) with true by lia.
      eexists. split; [reflexivity|].
      set (A := be16 SOT ++ be16 10 ++ be16 (q_tile q) ++ be32 (part_len (to_part q)) ++ [q_idx q; q_cnt q] ++ segs_bytes (q_segs q) ++ be16 SOD).
      exists (P ++ A ++ concat (map snd l1)), (concat (map snd m) ++ concat (map part_bytes (map to_part qs)) ++ S). split; [|split].
      * rewrite EB. replace (part_bytes (to_part q)) with (A ++ body_of q)
          by (unfold A, part_bytes, to_part, body_of; cbn [pt_tile pt_idx pt_cnt pt_segs pt_body]; rewrite <- !app_assoc; reflexivity).
        rewrite Eb, <- !app_assoc. reflexivity.
      * rewrite !zlen_app. cbn [fst]. unfold A. rewrite !zlen_app, !be16_len, be32_len. change (zlen [q_idx q; q_cnt q]) with 2.
        unfold hd. lia.
      * reflexivity.
    + assert (concat (map snd l1) = body_of q ++ concat (map snd m)) as E3.
      { rewrite E1, map_app, concat_app. reflexivity. }
      rewrite E3, zlen_app. pose proof (zlen_nonneg (concat (map snd m))).
      replace (acc + (zlen (body_of q) + zlen (concat (map snd m))) <? acc + zlen (body_of q)) with false by lia.
      rewrite <- EL, EZ.
      replace (acc + (zlen (body_of q) + zlen (concat (map snd m)))) with ((acc + zlen (body_of q)) + zlen (concat (map snd m))) by lia.
      eapply IH; [exact EB'|exact E2|exact Hb].
Qed.

(** ** The locator *)

Definition ev_ok (B : list Z) (tps : list tpart) (e : event) (kb : key * list Z) : Prop :=
  ev_key e = fst kb /\ ev_len e = zlen (snd kb) /\
  exists a, to_absolute tps (k_t (fst kb)) (ev_off e) 0 = Some a /\ located B (snd kb) (a, zlen (snd kb)).

Lemma packets_of_app a b k o o' o'' :
  packets_of (Locator (a ++ b) o) k = packets_of (Locator a o') k ++ packets_of (Locator b o'') k.
Proof. unfold packets_of. cbn [lc_packets]. rewrite filter_app, map_app. reflexivity. Qed.
Lemma packets_of_other a k o : ~ In k (map fst a) -> packets_of (Locator a o) k = [].
Proof.
  unfold packets_of. cbn [lc_packets]. induction a as [|[k' r] a IH]; cbn [filter map fst In]; [reflexivity|].
  intros H. rewrite pkey_key. destruct (key_eqb k' k) eqn:E; [apply key_eqb_eq in E; tauto|]. apply IH. tauto.
Qed.
Lemma packets_of_same k rs o : packets_of (Locator (map (pair k) rs) o) k = rs.
Proof.
  unfold packets_of. cbn [lc_packets]. induction rs as [|r rs IH]; cbn [map filter fst]; [reflexivity|].
  rewrite pkey_key, (proj2 (key_eqb_eq k k) eq_refl). cbn [map snd]. f_equal. exact IH.
Qed.

Lemma locate_more B lay k : forall bs evs more l, packets_of l k <> [] ->
  Forall2 (ev_ok B (l_parts lay)) evs (map (pair k) bs) ->
  exists rs, Forall2 (located B) bs rs /\
    locate_all lay (evs ++ more) l = locate_all lay more (Locator (lc_packets l ++ map (pair k) rs) (lc_order l)).
Proof.
  induction bs as [|b bs IH]; intros evs more l Hl HF; cbn [map] in HF; inversion HF as [|e kb evs' l' He HF']; subst.
  - exists []. split; [constructor|]. cbn [map app]. rewrite app_nil_r. destruct l; reflexivity.
  - destruct He as (E1 & E2 & a & E3 & E4). cbn [fst snd] in *. cbn [app locate_all]. rewrite E1, E3, E2.
    destruct (packets_of l k) as [|r0 rs0] eqn:EP; [congruence|].
    destruct (IH evs' more (Locator (lc_packets l ++ [(k, (a, zlen b))]) (lc_order l))) as (rs & HR & EQ).
    + rewrite (packets_of_app _ _ _ _ (lc_order l) []). destruct l as [lp lo]. cbn [lc_packets lc_order] in *. rewrite EP. discriminate.
    + exact HF'.
    + exists ((a, zlen b) :: rs). split; [constructor; assumption|]. cbn [lc_packets lc_order] in EQ. rewrite EQ.
      rewrite <- app_assoc. reflexivity.
Qed.

Lemma locate_run B lay k bs evs more l : bs <> [] -> ~ In k (map fst (lc_packets l)) ->
  Forall2 (ev_ok B (l_parts lay)) evs (map (pair k) bs) ->
  exists rs, Forall2 (located B) bs rs /\
    locate_all lay (evs ++ more) l = locate_all lay more (Locator (lc_packets l ++ map (pair k) rs) (lc_order l ++ [k])).
Proof.
  intros Hb Hk HF. destruct bs as [|b bs]; [congruence|]. cbn [map] in HF. inversion HF as [|e kb evs' l' He HF']; subst.
  destruct He as (E1 & E2 & a & E3 & E4). cbn [fst snd] in *. cbn [app locate_all]. rewrite E1, E3, E2.
  destruct l as [lp lo]. cbn [lc_packets lc_order] in *. rewrite (packets_of_other lp k lo Hk).
  destruct (locate_more B lay k bs evs' more (Locator (lp ++ [(k, (a, zlen b))]) (lo ++ [k]))) as (rs & HR & EQ).
  - rewrite (packets_of_app _ _ _ _ [] []). rewrite (packets_of_other lp k [] Hk).
    change [(k, (a, zlen b))] with (map (pair k) [(a, zlen b)]). rewrite packets_of_same. discriminate.
  - exact HF'.
  - exists ((a, zlen b) :: rs). split; [constructor; assumption|]. cbn [lc_packets lc_order] in EQ. rewrite EQ.
    rewrite <- app_assoc. reflexivity.
Qed.

Definition ranges (RR : list (key * list (Z * Z))) : list (key * (Z * Z)) := flat_map (fun r => map (pair (fst r)) (snd r)) RR.

Lemma locate_runs B lay : forall R evs l, NoDup (map fst R) -> Forall (fun r => snd r <> []) R ->
  (forall k, In k (map fst R) -> ~ In k (map fst (lc_packets l))) ->
  Forall2 (ev_ok B (l_parts lay)) evs (run_packets R) ->
  exists RR, Forall2 (fun r rr => fst r = fst rr /\ Forall2 (located B) (snd r) (snd rr)) R RR /\
    locate_all lay evs l = Some (Locator (lc_packets l ++ ranges RR) (lc_order l ++ map fst R)).
Proof.
  induction R as [|[k bs] R IH]; intros evs l Hnd Hne Hdis HF; cbn [run_packets flat_map] in HF.
  - inversion HF; subst. exists []. split; [constructor|]. cbn. rewrite !app_nil_r. destruct l; reflexivity.
  - cbn [fst snd] in HF. apply Forall2_app_inv_r in HF. destruct HF as (e1 & e2 & H1 & H2 & ->).
    cbn [map fst] in Hnd. inversion Hnd as [|a l0 Hk Hnd']; subst. inversion Hne as [|a l0 Hb Hne']; subst. cbn [snd] in Hb.
    destruct (locate_run B lay k bs e1 e2 l Hb (Hdis k (or_introl eq_refl)) H1) as (rs & HR & EQ).
    destruct (IH e2 (Locator (lc_packets l ++ map (pair k) rs) (lc_order l ++ [k])) Hnd' Hne') as (RR & HRR & EQ2).
    + cbn [lc_packets]. intros k' Hk' Hin. rewrite map_app in Hin. apply in_app_or in Hin. destruct Hin as [Hin|Hin].
      * exact (Hdis k' (or_intror Hk') Hin).
      * rewrite map_map in Hin. apply in_map_iff in Hin. destruct Hin as (r & <- & _). contradiction.
    + exact H2.
    + exists ((k, rs) :: RR). split; [constructor; auto|]. rewrite EQ, EQ2. cbn [lc_packets lc_order].
      rewrite <- !app_assoc. reflexivity.
Qed.

Lemma ranges_of B R RR k bs o : Forall2 (fun r rr => fst r = fst rr /\ Forall2 (located B) (snd r) (snd rr)) R RR ->
  NoDup (map fst R) -> In (k, bs) R -> exists rs, packets_of (Locator (ranges RR) o) k = rs /\ Forall2 (located B) bs rs.
Proof.
  induction 1 as [|[k0 b0] [k1 r1] R RR [E HL] HF IH]; intros Hnd Hin; [destruct Hin|].
  cbn [fst snd] in *. subst k1. cbn [map fst] in Hnd. inversion Hnd as [|a l0 Hk Hnd']; subst.
  unfold ranges. cbn [flat_map fst snd]. rewrite (packets_of_app _ _ _ _ o o). destruct Hin as [Hin|Hin].
  - injection Hin as -> ->. rewrite packets_of_same.
    rewrite (packets_of_other (flat_map _ RR)); [rewrite app_nil_r; eexists; split; [reflexivity|exact HL]|].
    intros X. apply Hk. clear -HF X. induction HF as [|[ka ba] [kb rb] R RR [E _] _ IH]; [destruct X|].
    cbn [fst snd flat_map map] in *. rewrite map_app in X. apply in_app_or in X. destruct X as [X|X]; [|right; auto].
    rewrite map_map in X. apply in_map_iff in X. destruct X as (? & <- & _). left. exact E.
  - destruct (IH Hnd' Hin) as (rs & E2 & HR). exists rs. split; [|exact HR].
    rewrite packets_of_other; [exact E2|]. rewrite map_map. intros X. apply in_map_iff in X. destruct X as (? & E3 & _).
    cbn [fst] in E3. subst k0. apply Hk. apply in_map_iff. exists (k, bs). auto.
Qed.
