(** C58: from the source codestream through data-bins and the JPP stream back
    to a codestream. *)
From Coq Require Import Permutation FinFun.
From Verif Require Import Base BaseLemmas Be WalkerModel WalkerSpec WalkerProps PrecinctModel PrecinctSpec PrecinctProofs ReasmModel ReasmSpec ReasmProofs ReasmProps ReasmServer PrecinctProps.
From Verif Require JppModel JppSpec JppProps.

Notation emit_bins := JppSpec.emit_bins.
Notation emit_eor := JppModel.emit_eor.

Definition to_event (e : key * Z * Z) : event := let '(k, o, n) := e in Event k o n.
(** What the packet observer sees when the decoder visits the tiles in the
    order [ts]. *)
Definition observed (qs : list tilepart) (ts : list Z) : list event :=
  map to_event (flat_map (fun t => walk_packets 0 (packets_of_tile qs t)) ts).

Lemma Forall2_flat {A B C} (R : B -> C -> Prop) (f : A -> list B) (g : A -> list C) l :
  (forall a, In a l -> Forall2 R (f a) (g a)) -> Forall2 R (flat_map f l) (flat_map g l).
Proof.
  induction l as [|a l IH]; intros H; cbn [flat_map]; [constructor|].
  apply Forall2_app; [apply H; left; reflexivity|apply IH; intros; apply H; right; assumption].
Qed.

Lemma run_packets_flat (runs : Z -> list run) ts :
  run_packets (flat_map runs ts) = flat_map (fun t => run_packets (runs t)) ts.
Proof.
  induction ts as [|t ts IH]; cbn [flat_map]; [reflexivity|]. rewrite <- IH. unfold run_packets.
  rewrite !flat_map_concat_map, map_app, concat_app. reflexivity.
Qed.

Lemma run_packets_In k bs rs b : In (k, bs) rs -> In b bs -> In (k, b) (run_packets rs).
Proof.
  intros H1 H2. unfold run_packets. apply in_flat_map. exists (k, bs). split; [exact H1|]. cbn [fst snd].
  apply in_map. exact H2.
Qed.

Lemma bytes_ok_mid X b Y : bytes_ok (X ++ b ++ Y) -> bytes_ok b.
Proof. unfold bytes_ok. rewrite !Forall_app. tauto. Qed.

Lemma key_mem_spec k sel : existsb (key_eqb k) sel = true <-> In k sel.
Proof.
  rewrite existsb_exists. split.
  - intros (k' & H & E). apply key_eqb_eq in E. subst. exact H.
  - intros H. exists k. split; [exact H|apply key_eqb_eq; reflexivity].
Qed.

Lemma zseq_NoDup n : NoDup (zseq n).
Proof. unfold zseq. apply FinFun.Injective_map_NoDup; [intros a b H; lia|apply seq_NoDup]. Qed.

Lemma NoDup_app_disj {A} (a b : list A) : NoDup a -> NoDup b -> (forall k, In k a -> ~ In k b) -> NoDup (a ++ b).
Proof.
  intros H1 H2 H3. induction a as [|k ks IH]; cbn [app]; [exact H2|].
  inversion H1 as [|a l0 Ha Hn]; subst. constructor.
  - intros Hin. apply in_app_or in Hin. destruct Hin as [Hin|Hin]; [contradiction|]. exact (H3 k (or_introl eq_refl) Hin).
  - apply IH; [exact Hn|]. intros k' Hk'. apply H3. right. exact Hk'.
Qed.

Section Server.
  Variable h : header.
  Hypothesis Hleg : legal h.
  Hypothesis Hcnt : countable h.
  Variable main : list seg.
  Variable qs : list tilepart.
  Variable runs : Z -> list run.
  Hypothesis Hok : source_ok h main qs runs.
  Let nT := tiles_x h * tiles_y h.
  Let B := codestream main (map to_part qs) [].
  Let P := be16 SOC ++ segs_bytes main.
  Let x := index_of_header h.

  Lemma B_split : B = P ++ concat (map part_bytes (map to_part qs)) ++ be16 EOC.
  Proof. unfold B, P, codestream. rewrite app_nil_r, <- app_assoc. reflexivity. Qed.
  Lemma P_len : zlen P = 2 + zlen (segs_bytes main).
  Proof. unfold P. rewrite zlen_app, be16_len. reflexivity. Qed.
  Lemma nT_pos : 0 < nT <= 65535.
  Proof. unfold nT. destruct (n_tiles_small h Hleg) as (H1 & H2 & H3). nia. Qed.

  Lemma qs_cons : qs <> [].
  Proof.
    intros E. pose proof nT_pos. apply (so_tiles _ _ _ _ Hok 0); [fold nT; lia|]. rewrite E. reflexivity.
  Qed.

  Definition lay : layout := Layout (zlen P) (zlen P + zlen (concat (map part_bytes (map to_part qs)))) (locate (zlen P) (map to_part qs)).
  Lemma walk_lay : walk_codestream B = ret lay.
  Proof.
    unfold B. rewrite (C16_well_formed main (map to_part qs) []).
    - unfold lay. rewrite P_len. pose proof qs_cons. destruct qs; [congruence|]. reflexivity.
    - apply (so_main _ _ _ _ Hok).
    - apply (so_main _ _ _ _ Hok).
    - apply Forall_forall. intros p Hp. apply in_map_iff in Hp. destruct Hp as (q & <- & Hq).
      pose proof (so_parts _ _ _ _ Hok) as H. rewrite Forall_forall in H. apply (H q Hq).
  Qed.

  Lemma packet_facts t k b : In (k, b) (packets_of_tile qs t) -> names_precinct h k /\ k_t k = t /\ b <> [].
  Proof.
    unfold packets_of_tile, parts_of_tile. intros H. apply in_concat in H. destruct H as (l & Hl & H).
    apply in_map_iff in Hl. destruct Hl as (q & <- & Hq). apply filter_In in Hq. destruct Hq as (Hq & Et).
    pose proof (so_parts _ _ _ _ Hok) as H0. rewrite Forall_forall in H0. destruct (H0 q Hq) as (_ & _ & H1).
    rewrite Forall_forall in H1. destruct (H1 _ H) as (H2 & H3 & H4). cbn [fst snd] in *. repeat split; try assumption. lia.
  Qed.

  Lemma run_facts t k bs : 0 <= t < nT -> In (k, bs) (runs t) -> names_precinct h k /\ k_t k = t /\ bs <> [].
  Proof.
    intros Ht H. destruct (so_runs _ _ _ _ Hok t Ht) as (E & _ & Hne). rewrite Forall_forall in Hne.
    pose proof (Hne _ H) as Hb. cbn [snd] in Hb. destruct bs as [|b bs]; [congruence|].
    destruct (packet_facts t k b) as (H1 & H2 & _); [|auto]. rewrite E. eapply run_packets_In; [exact H|left; reflexivity].
  Qed.

  Lemma events_tile t : forall L pre, packets_of_tile qs t = pre ++ L ->
    Forall2 (ev_ok B (l_parts lay)) (map to_event (walk_packets (zlen (concat (map snd pre))) L)) L.
  Proof.
    induction L as [|[k b] L IH]; intros pre E; cbn [walk_packets map]; constructor.
    - cbn [to_event]. assert (In (k, b) (packets_of_tile qs t)) as Hin by (rewrite E; apply in_elt).
      destruct (packet_facts t k b Hin) as (_ & Ht & Hb).
      unfold ev_ok. cbn [ev_key ev_off ev_len fst snd]. repeat (split; [reflexivity|]). rewrite Ht.
      destruct (to_absolute_ok B t qs P (be16 EOC) 0 pre k b L B_split E Hb) as (a & Ea & La).
      exists a. split; [exact Ea|exact La].
    - replace (zlen (concat (map snd pre)) + zlen b) with (zlen (concat (map snd (pre ++ [(k, b)])))).
      + apply IH. rewrite E, <- app_assoc. reflexivity.
      + rewrite map_app, concat_app, zlen_app. cbn [map concat snd]. rewrite app_nil_r. reflexivity.
  Qed.

  Variable ts : list Z.
  Hypothesis Hts : Permutation ts (zseq nT).
  Lemma ts_In t : In t ts <-> 0 <= t < nT.
  Proof.
    rewrite <- zseq_In. split; intros H; [eapply Permutation_in|eapply Permutation_in; [apply Permutation_sym|]]; eassumption.
  Qed.
  Lemma ts_NoDup : NoDup ts.
  Proof. eapply Permutation_NoDup; [apply Permutation_sym; exact Hts|apply zseq_NoDup]. Qed.

  Lemma all_runs_NoDup l : NoDup l -> (forall t, In t l -> 0 <= t < nT) -> NoDup (map fst (flat_map runs l)).
  Proof.
    induction l as [|t l IH]; intros Hn Hl; cbn [flat_map map]; [constructor|]. inversion Hn as [|a l0 Ha Hn']; subst.
    rewrite map_app. assert (NoDup (map fst (runs t))) as H1 by (apply (so_runs _ _ _ _ Hok t), Hl; left; reflexivity).
    assert (NoDup (map fst (flat_map runs l))) as H2 by (apply IH; [exact Hn'|intros; apply Hl; right; assumption]).
    assert (forall k, In k (map fst (runs t)) -> ~ In k (map fst (flat_map runs l))) as H3.
    { intros k Hk Hk'. apply in_map_iff in Hk. destruct Hk as ([k1 b1] & <- & Hk). cbn [fst] in *.
      apply in_map_iff in Hk'. destruct Hk' as ([k2 b2] & E2 & Hk'). cbn [fst] in E2. subst k2.
      apply in_flat_map in Hk'. destruct Hk' as (t' & Ht' & Hk').
      destruct (run_facts t k1 b1 (Hl t (or_introl eq_refl)) Hk) as (_ & E1 & _).
      destruct (run_facts t' k1 b2 (Hl t' (or_intror Ht')) Hk') as (_ & E2 & _). congruence. }
    apply NoDup_app_disj; assumption.
  Qed.

  Lemma locator_ok : exists loc, build_locator lay (observed qs ts) = Some loc /\
    (forall t, 0 <= t < nT -> precincts_of_tile loc t = map fst (runs t)) /\
    (forall t k bs, 0 <= t < nT -> In (k, bs) (runs t) -> exists rs, packets_of loc k = rs /\ Forall2 (located B) bs rs).
  Proof.
    destruct (locate_runs B lay (flat_map runs ts) (observed qs ts) (Locator [] [])) as (RR & HRR & EQ).
    - apply all_runs_NoDup; [exact ts_NoDup|]. intros t. apply ts_In.
    - apply Forall_forall. intros [k bs] H. apply in_flat_map in H. destruct H as (t & Ht & H). cbn [snd].
      apply ts_In in Ht. apply (run_facts t k bs Ht H).
    - intros k _ [].
    - rewrite run_packets_flat. unfold observed.
      replace (map to_event (flat_map (fun t => walk_packets 0 (packets_of_tile qs t)) ts))
        with (flat_map (fun t => map to_event (walk_packets 0 (packets_of_tile qs t))) ts)
        by (rewrite !flat_map_concat_map, concat_map, map_map; reflexivity).
      apply Forall2_flat. intros t Ht. apply ts_In in Ht. destruct (so_runs _ _ _ _ Hok t Ht) as (E & _ & _).
      rewrite <- E. exact (events_tile t (packets_of_tile qs t) [] eq_refl).
    - cbn [lc_packets lc_order app] in EQ. eexists. split; [exact EQ|]. split.
      + intros t Ht. unfold precincts_of_tile. cbn [lc_order].
        assert (forall l, NoDup l -> (forall t', In t' l -> 0 <= t' < nT) ->
          filter (fun k => k_t k =? t) (map fst (flat_map runs l)) = if existsb (Z.eqb t) l then map fst (runs t) else []) as H.
        { induction l as [|t' l IH]; intros Hn Hl; [reflexivity|]. inversion Hn as [|a l0 Ha Hn']; subst.
          cbn [flat_map existsb]. rewrite map_app, filter_app, IH; [|exact Hn'|intros; apply Hl; right; assumption].
          assert (forall k, In k (map fst (runs t')) -> k_t k = t') as Hk.
          { intros k Hk. apply in_map_iff in Hk. destruct Hk as ([k1 b1] & <- & Hk).
            apply (run_facts t' k1 b1 (Hl t' (or_introl eq_refl)) Hk). }
          destruct (Z.eqb_spec t t') as [->|Hne]; cbn [orb].
          - assert (existsb (Z.eqb t') l = false) as ->.
            { destruct (existsb (Z.eqb t') l) eqn:E; [|reflexivity]. apply existsb_exists in E. destruct E as (y & Hy & Ey).
              apply Z.eqb_eq in Ey. subst y. contradiction. }
            rewrite app_nil_r. clear - Hk. induction (map fst (runs t')) as [|k ks IH]; [reflexivity|]. cbn [filter].
            rewrite (Hk k (or_introl eq_refl)), Z.eqb_refl. f_equal. apply IH. intros. apply Hk. right. assumption.
          - replace (filter (fun k => k_t k =? t) (map fst (runs t'))) with (@nil key); [reflexivity|].
            clear - Hk Hne. induction (map fst (runs t')) as [|k ks IH]; [reflexivity|]. cbn [filter].
            rewrite (Hk k (or_introl eq_refl)). destruct (Z.eqb_spec t' t); [congruence|]. apply IH. intros. apply Hk. right. assumption. }
        rewrite H; [|exact ts_NoDup|intros t'; apply ts_In].
        replace (existsb (Z.eqb t) ts) with true; [reflexivity|]. symmetry. apply existsb_exists. exists t.
        split; [apply ts_In; exact Ht|apply Z.eqb_refl].
      + intros t k bs Ht Hk. apply (ranges_of B (flat_map runs ts) RR k bs _ HRR).
        * apply all_runs_NoDup; [exact ts_NoDup|]. intros t'. apply ts_In.
        * apply in_flat_map. exists t. split; [apply ts_In; exact Ht|exact Hk].
  Qed.

  (** *** The data-bins *)
  Definition main_bin : bin := mkBin 6 0 P.
  Definition tile_bin (t : Z) : bin := mkBin 2 t (segs_bytes (segs_of_tile qs t)).

  Lemma main_bin_ok : main_header_bin B lay = Ret (Some main_bin).
  Proof.
    unfold main_header_bin, lay. cbn [l_header_end]. pose proof P_len. pose proof (zlen_nonneg (segs_bytes main)).
    replace (zlen P =? 0) with false by lia.
    assert (zlen B = zlen P + zlen (concat (map part_bytes (map to_part qs)) ++ be16 EOC)) as EB by (rewrite B_split, zlen_app; reflexivity).
    pose proof (zlen_nonneg (concat (map part_bytes (map to_part qs)) ++ be16 EOC)).
    replace (zlen B <? zlen P) with false by lia.
    rewrite B_split. rewrite (slice_mid [] P _ 0 (zlen P) eq_refl eq_refl : slice (P ++ _) 0 (zlen P) = Ret P). reflexivity.
  Qed.

  Lemma tile_payload t : forall l Q S, B = Q ++ concat (map part_bytes (map to_part l)) ++ S ->
    tile_header_payload B (locate (zlen Q) (map to_part l)) t =
      Ret (match parts_of_tile l t with [] => false | _ => true end, segs_bytes (segs_of_tile l t)).
  Proof.
    induction l as [|q l IH]; intros Q S E; cbn [map locate tile_header_payload]; [reflexivity|].
    cbn [map concat] in E.
    assert (B = (Q ++ part_bytes (to_part q)) ++ concat (map part_bytes (map to_part l)) ++ S) as E'
      by (rewrite E, <- !app_assoc; reflexivity).
    assert (zlen Q + part_len (to_part q) = zlen (Q ++ part_bytes (to_part q))) as EZ by (rewrite zlen_app, part_bytes_len; reflexivity).
    cbn [tp_tile tp_sot tp_header_end]. change (pt_tile (to_part q)) with (q_tile q). change (pt_segs (to_part q)) with (q_segs q).
    rewrite EZ, (IH _ _ E'). unfold parts_of_tile, segs_of_tile, parts_of_tile. cbn [filter].
    destruct (q_tile q =? t); cbn [negb]; [|reflexivity].
    set (A := be16 SOT ++ be16 10 ++ be16 (q_tile q) ++ be32 (part_len (to_part q)) ++ [q_idx q; q_cnt q]).
    assert (B = (Q ++ A) ++ segs_bytes (q_segs q) ++ (be16 SOD ++ body_of q) ++ concat (map part_bytes (map to_part l)) ++ S) as EB.
    { rewrite E. unfold A, part_bytes, to_part, body_of. cbn [pt_tile pt_idx pt_cnt pt_segs pt_body]. rewrite <- !app_assoc. reflexivity. }
    assert (zlen (Q ++ A) = zlen Q + 12) as EA.
    { rewrite zlen_app. unfold A. rewrite !zlen_app, !be16_len, be32_len. change (zlen [q_idx q; q_cnt q]) with 2. lia. }
    assert (zlen Q + 12 + zlen (segs_bytes (q_segs q)) <= zlen B) as HB.
    { rewrite EB, zlen_app, EA, zlen_app. pose proof (zlen_nonneg ((be16 SOD ++ body_of q) ++ concat (map part_bytes (map to_part l)) ++ S)). lia. }
    pose proof (zlen_nonneg (segs_bytes (q_segs q))).
    replace ((zlen B <? zlen Q + 12) || (zlen B <? zlen Q + 12 + zlen (segs_bytes (q_segs q)))
       || (zlen Q + 12 + zlen (segs_bytes (q_segs q)) <? zlen Q + 12)) with false by lia.
    rewrite EB at 1. rewrite slice_mid by (rewrite ?EA; lia). cbn [bind map concat]. rewrite segs_app. reflexivity.
  Qed.

  Lemma tile_bin_ok t : 0 <= t < nT -> tile_header_bin B lay t = Ret (Some (tile_bin t)).
  Proof.
    intros Ht. unfold tile_header_bin, lay. cbn [l_parts]. rewrite (tile_payload t qs P (be16 EOC) B_split). cbn [bind].
    pose proof (so_tiles _ _ _ _ Hok t Ht) as H. destruct (parts_of_tile qs t); [congruence|]. reflexivity.
  Qed.

  Definition content (k : key) : list Z :=
    match find (fun r => key_eqb (fst r) k) (runs (k_t k)) with Some r => concat (snd r) | None => [] end.
  Lemma content_run t k bs : 0 <= t < nT -> In (k, bs) (runs t) -> content k = concat bs.
  Proof.
    intros Ht H. destruct (run_facts t k bs Ht H) as (_ & E & _). unfold content. rewrite E.
    destruct (so_runs _ _ _ _ Hok t Ht) as (_ & Hn & _). clear - H Hn. induction (runs t) as [|[k0 b0] R IH]; [destruct H|].
    cbn [find fst]. cbn [map fst] in Hn. inversion Hn as [|a l0 Ha Hn']; subst. destruct H as [H|H].
    - injection H as -> ->. rewrite (proj2 (key_eqb_eq k k) eq_refl). reflexivity.
    - destruct (key_eqb k0 k) eqn:E; [|apply IH; assumption]. apply key_eqb_eq in E. subst k0.
      exfalso. apply Ha. apply in_map_iff. exists (k, bs). auto.
  Qed.

  Lemma precinct_bin_ok loc t k bs i : 0 <= t < nT -> In (k, bs) (runs t) -> id_of x k = ret i ->
    (exists rs, packets_of loc k = rs /\ Forall2 (located B) bs rs) ->
    precinct_bin B x loc k = ret (Some (mkBin 0 i (concat bs))).
  Proof.
    intros Ht H Hi (rs & E & HF). destruct (run_facts t k bs Ht H) as (_ & _ & Hb). unfold precinct_bin. rewrite E.
    destruct rs as [|r rs]; [inversion HF; subst; congruence|]. rewrite (gather_located _ _ _ HF). cbn [bind].
    rewrite Hi, ret_bindx. reflexivity.
  Qed.

  (** *** Sizes *)
  Lemma tile_sizes t : forall l, zlen (segs_bytes (segs_of_tile l t)) + zlen (concat (map snd (packets_of_tile l t)))
    <= zlen (concat (map part_bytes (map to_part l))).
  Proof.
    induction l as [|q l IH]; [cbn; lia|]. unfold segs_of_tile, packets_of_tile, parts_of_tile in *. cbn [filter map concat].
    rewrite zlen_app, part_bytes_len. unfold part_len, to_part at 1 2. cbn [pt_segs pt_body].
    pose proof (zlen_nonneg (segs_bytes (q_segs q))). pose proof (zlen_nonneg (concat (map snd (q_packets q)))).
    destruct (q_tile q =? t); [|lia]. cbn [map concat]. rewrite segs_app, map_app, concat_app, !zlen_app. lia.
  Qed.
  Lemma run_size k bs : forall R, In (k, bs) R -> zlen (concat bs) <= zlen (concat (map snd (run_packets R))).
  Proof.
    induction R as [|[k0 b0] R IH]; intros H; [destruct H|]. unfold run_packets in *. cbn [flat_map fst snd].
    rewrite map_app, concat_app, zlen_app, map_map. cbn [snd]. rewrite map_id.
    pose proof (zlen_nonneg (concat b0)). pose proof (zlen_nonneg (concat (map snd (flat_map (fun r : key * list (list Z) => map (pair (fst r)) (snd r)) R)))).
    destruct H as [H|H]; [injection H as -> ->; lia|]. specialize (IH H). lia.
  Qed.
  Lemma B_len : zlen B = zlen P + zlen (concat (map part_bytes (map to_part qs))) + 2.
  Proof. rewrite B_split, !zlen_app, be16_len. lia. Qed.

  Lemma segs_bytes_ok t : forall l, (forall q, In q l -> bytes_ok (part_bytes (to_part q))) -> bytes_ok (segs_bytes (segs_of_tile l t)).
  Proof.
    induction l as [|q l IH]; intros H; [constructor|]. unfold segs_of_tile, parts_of_tile in *. cbn [filter].
    assert (bytes_ok (segs_bytes (concat (map q_segs (filter (fun q => q_tile q =? t) l))))) as IH' by (apply IH; intros; apply H; right; assumption).
    destruct (q_tile q =? t); [|exact IH']. cbn [map concat]. rewrite segs_app. unfold bytes_ok. rewrite Forall_app. split; [|exact IH'].
    pose proof (H q (or_introl eq_refl)) as Hq. unfold part_bytes, bytes_ok in Hq. rewrite !Forall_app in Hq. apply Hq.
  Qed.
  Lemma part_bytes_ok q : In q qs -> bytes_ok (part_bytes (to_part q)).
  Proof.
    intros Hq. pose proof (so_bytes _ _ _ _ Hok) as H. fold B in H. rewrite B_split in H. unfold bytes_ok in *.
    rewrite !Forall_app in H. destruct H as (_ & H & _). rewrite Forall_forall in H |- *. intros z Hz. apply H.
    apply in_concat. exists (part_bytes (to_part q)). split; [|exact Hz]. rewrite map_map.
    apply in_map_iff. exists q. auto.
  Qed.

  Lemma main_bin_fit : JppSpec.bin_ok main_bin.
  Proof.
    unfold JppSpec.bin_ok, main_bin. cbn [JppSpec.b_class JppSpec.b_id JppSpec.b_data]. split; [lia|]. split; [unfold JppSpec.u64, two64; lia|].
    pose proof (so_bytes _ _ _ _ Hok) as H. pose proof (so_size _ _ _ _ Hok) as H2. fold B in H, H2. split.
    - rewrite B_split in H. unfold bytes_ok in *. rewrite Forall_app in H. apply H.
    - rewrite B_len in H2. pose proof (zlen_nonneg (concat (map part_bytes (map to_part qs)))). lia.
  Qed.
  Lemma tile_bin_fit t : 0 <= t < nT -> JppSpec.bin_ok (tile_bin t).
  Proof.
    intros Ht. unfold JppSpec.bin_ok, tile_bin. cbn [JppSpec.b_class JppSpec.b_id JppSpec.b_data]. pose proof nT_pos.
    split; [lia|]. split; [unfold JppSpec.u64, two64; lia|]. split.
    - apply segs_bytes_ok. exact part_bytes_ok.
    - pose proof (so_size _ _ _ _ Hok) as H2. fold B in H2. rewrite B_len in H2. pose proof (tile_sizes t qs).
      pose proof (zlen_nonneg P). pose proof (zlen_nonneg (concat (map snd (packets_of_tile qs t)))). lia.
  Qed.
  Lemma precinct_bin_fit t k bs i : 0 <= t < nT -> In (k, bs) (runs t) -> 0 <= i < two64 -> Forall (fun b => bytes_ok b) bs ->
    JppSpec.bin_ok (mkBin 0 i (concat bs)).
  Proof.
    intros Ht Hk Hi Hb. unfold JppSpec.bin_ok. cbn [JppSpec.b_class JppSpec.b_id JppSpec.b_data]. split; [lia|]. split; [exact Hi|]. split.
    - unfold bytes_ok in *. rewrite Forall_forall in *. intros z Hz. apply in_concat in Hz. destruct Hz as (b & Hb1 & Hb2).
      specialize (Hb b Hb1). rewrite Forall_forall in Hb. apply Hb, Hb2.
    - pose proof (so_size _ _ _ _ Hok) as H2. fold B in H2. rewrite B_len in H2. pose proof (tile_sizes t qs).
      destruct (so_runs _ _ _ _ Hok t Ht) as (E & _ & _). rewrite E in H.
      pose proof (run_size k bs (runs t) Hk). pose proof (zlen_nonneg P).
      pose proof (zlen_nonneg (segs_bytes (segs_of_tile qs t))). lia.
  Qed.

  (** *** Re-assembly *)
  Lemma body_ok s layers sel t : 0 <= t < nT -> 
    (forall k bs i, In (k, bs) (runs t) -> id_of x k = ret i -> In k sel -> ds_contains s 0 i = true /\ ds_get s 0 i = concat bs) ->
    (forall k bs i, In (k, bs) (runs t) -> id_of x k = ret i -> ~ In k sel -> ds_contains s 0 i = false) ->
    tile_body s x layers (map fst (runs t)) = ret (pt_body (merged qs runs layers sel t)).
  Proof.
    intros Ht H1 H2. unfold merged. cbn [pt_body].
    assert (forall R, (forall r, In r R -> In r (runs t)) ->
      tile_body s x layers (map fst R) =
      ret (flat_map (fun r => precinct_bytes layers (if existsb (key_eqb (fst r)) sel then Some (concat (snd r)) else None)) R)) as H.
    { induction R as [|[k bs] R IH]; intros HR; [reflexivity|]. cbn [map fst tile_body flat_map snd].
      pose proof (HR _ (or_introl eq_refl)) as Hk. destruct (run_facts t k bs Ht Hk) as (Hn & _ & _).
      destruct (names_id h Hleg Hcnt k Hn) as (i & Hi & _). fold x in Hi. rewrite Hi, ret_bindx.
      rewrite IH by (intros; apply HR; right; assumption). rewrite ret_bindx. f_equal. f_equal. f_equal. unfold kPrecinct.
      destruct (existsb (key_eqb k) sel) eqn:Es.
      - destruct (H1 k bs i Hk Hi) as (E1 & E2); [apply key_mem_spec; exact Es|]. rewrite E1, E2. reflexivity.
      - rewrite (H2 k bs i Hk Hi); [reflexivity|]. intros X. apply key_mem_spec in X. congruence. }
    apply H. auto.
  Qed.

  Lemma tiles_ok s loc layers sel :
    (forall t, 0 <= t < nT -> precincts_of_tile loc t = map fst (runs t)) ->
    (forall t k bs i, 0 <= t < nT -> In (k, bs) (runs t) -> id_of x k = ret i -> In k sel -> ds_contains s 0 i = true /\ ds_get s 0 i = concat bs) ->
    (forall t k bs i, 0 <= t < nT -> In (k, bs) (runs t) -> id_of x k = ret i -> ~ In k sel -> ds_contains s 0 i = false) ->
    (forall t, 0 <= t < nT -> ds_contains s 2 t = true /\ ds_get s 2 t = segs_bytes (segs_of_tile qs t)) ->
    (forall t, 0 <= t < nT -> part_len (merged qs runs layers sel t) < 2 ^ 32) ->
    forall l acc, (forall t, In t l -> 0 <= t < nT) ->
    tiles_loop s x layers loc l acc = ret (Ok, acc ++ concat (map (fun t => part_bytes (merged qs runs layers sel t)) l)).
  Proof.
    intros Hloc H1 H2 H3 H4. induction l as [|t l IH]; intros acc Hl; cbn [tiles_loop map concat]; [rewrite app_nil_r; reflexivity|].
    pose proof (Hl t (or_introl eq_refl)) as Ht. pose proof nT_pos as HnT. rewrite (Z.mod_small t 65536) by lia.
    rewrite (Hloc t Ht), (body_ok s layers sel t Ht (fun k bs i => H1 t k bs i Ht) (fun k bs i => H2 t k bs i Ht)), ret_bindx.
    unfold kTileHeader. destruct (H3 t Ht) as (-> & ->). cbn [negb].
    pose proof (H4 t Ht) as HL. assert (part_len (merged qs runs layers sel t) =
      12 + zlen (segs_bytes (segs_of_tile qs t)) + 2 + zlen (pt_body (merged qs runs layers sel t))) as EL by reflexivity.
    change (2 ^ 32) with 4294967296 in HL.
    replace (4294967295 <? 12 + zlen (segs_bytes (segs_of_tile qs t)) + 2 + zlen (pt_body (merged qs runs layers sel t))) with false by lia.
    rewrite IH by (intros; apply Hl; right; assumption). f_equal. f_equal. rewrite <- app_assoc. f_equal. f_equal.
    apply put_tile_part; [lia|]. exact (H4 t Ht).
  Qed.
End Server.

Lemma Forall2_exists {A B} (R : A -> B -> Prop) l : (forall a, In a l -> exists b, R a b) -> exists l', Forall2 R l l'.
Proof.
  induction l as [|a l IH]; intros H; [exists []; constructor|].
  destruct (H a (or_introl eq_refl)) as (b & Hb). destruct IH as (l' & Hl'); [intros; apply H; right; assumption|].
  exists (b :: l'). constructor; assumption.
Qed.
Lemma Forall2_In_l {A B} (R : A -> B -> Prop) l l' a : Forall2 R l l' -> In a l -> exists b, In b l' /\ R a b.
Proof.
  induction 1 as [|u v l l' Huv _ IH]; intros H; [destruct H|]. destruct H as [<-|H]; [exists v; cbn; auto|].
  destruct (IH H) as (b & Hb & HR). exists b. cbn; auto.
Qed.
Lemma Forall2_In_r {A B} (R : A -> B -> Prop) l l' b : Forall2 R l l' -> In b l' -> exists a, In a l /\ R a b.
Proof.
  induction 1 as [|u v l l' Huv _ IH]; intros H; [destruct H|]. destruct H as [<-|H]; [exists u; cbn; auto|].
  destruct (IH H) as (a & Ha & HR). exists a. cbn; auto.
Qed.
Lemma Forall2_impl_In {A B} (R Q : A -> B -> Prop) l l' : (forall a b, R a b -> Q a b) -> Forall2 R l l' -> Forall2 Q l l'.
Proof. intros H. induction 1; constructor; auto. Qed.

(** A precinct of the source and its data-bin. *)
Definition bin_of (h : header) (runs : Z -> list run) (k : key) (b : bin) : Prop :=
  exists bs i, 0 <= k_t k < tiles_x h * tiles_y h /\ In (k, bs) (runs (k_t k)) /\ id_of (index_of_header h) k = ret i /\
    0 <= i < two64 /\ b = mkBin 0 i (concat bs).

Lemma bin_of_NoDup h runs : legal h -> countable h -> (forall k bs, In (k, bs) (runs (k_t k)) -> 0 <= k_t k < tiles_x h * tiles_y h -> names_precinct h k) ->
  forall sel pbs, Forall2 (bin_of h runs) sel pbs -> NoDup sel -> NoDup (map JppSpec.bin_key pbs).
Proof.
  intros Hl Hc Hn. induction 1 as [|k b sel pbs Hb HF IH]; intros Hnd; cbn [map]; [constructor|].
  inversion Hnd as [|a l0 Ha Hnd']; subst. constructor; [|apply IH; exact Hnd'].
  destruct Hb as (bs & i & Ht & Hr & Hi & _ & ->). cbn. intros Hin. apply in_map_iff in Hin. destruct Hin as (b' & Eb & Hin).
  destruct (Forall2_In_r _ _ _ _ HF Hin) as (k' & Hk' & bs' & i' & Ht' & Hr' & Hi' & _ & ->). apply (f_equal snd) in Eb.
  cbn in Eb. subst i'. apply Ha. replace k with k'; [exact Hk'|].
  apply (ids_distinct h Hl Hc k' k i); [eapply Hn; eassumption|eapply Hn; eassumption|exact Hi'|exact Hi].
Qed.

Lemma located_bytes B bs rs : bytes_ok B -> Forall2 (located B) bs rs -> Forall (fun b => bytes_ok b) bs.
Proof.
  intros HB. induction 1 as [|b r bs rs (X & Y & E & _) _ IH]; constructor; [|exact IH].
  rewrite E in HB. eapply bytes_ok_mid. exact HB.
Qed.

(** The server indexes the codestream and turns the main header, the tile
    headers and any set of precincts into data-bins; they are sent in any order
    as one JPP stream, arrive in pieces of any size, and re-assembly gives the
    source's main header, for each tile one tile-part with all its header
    segments, and its precincts in the source's order: those that were sent
    byte for byte, the others as empty packets. *)
Theorem C58_served_codestream : forall h main qs runs ts sel po layers reason,
  legal h -> countable h -> source_ok h main qs runs ->
  let nT := tiles_x h * tiles_y h in
  let B := codestream main (map to_part qs) [] in
  Permutation ts (zseq nT) ->
  NoDup sel -> (forall k, In k sel -> 0 <= k_t k < nT /\ In k (map fst (runs (k_t k)))) ->
  2 <= po <= 5 -> 0 <= layers -> 0 <= reason < 256 ->
  (forall t, 0 <= t < nT -> part_len (merged qs runs layers sel t) < 2 ^ 32) ->
  exists x lay loc mb tbs pbs,
    build h = ret x /\ walk_codestream B = ret lay /\ build_locator lay (observed qs ts) = Some loc /\
    main_header_bin B lay = Ret (Some mb) /\
    Forall2 (fun t b => tile_header_bin B lay t = Ret (Some b)) (zseq nT) tbs /\
    Forall2 (fun k b => precinct_bin B x loc k = ret (Some b)) sel pbs /\
    forall bs, Permutation bs (mb :: tbs ++ pbs) ->
    exists bytes c s, emit_bins bs JppModel.ctx0 = Ret (bytes, c) /\
      (forall chunks, concat chunks = bytes ++ emit_eor reason ->
         exists p, JppModel.sp_feed_all JppModel.sparser0 chunks JppModel.dbset0 = Ret (true, p, s) /\ JppModel.sp_finish p = true) /\
      reassemble s x po layers false false loc =
        ret (Ok, codestream main (map (merged qs runs layers sel) (zseq nT)) []).
Proof.
  intros h main qs runs ts sel po layers reason Hl Hc Hok nT B Hts Hsel Hin Hpo Hlay Hre Hlen.
  destruct (locator_ok h main qs runs Hok ts Hts) as (loc & Eloc & Hord & Hpk). fold nT in Hord, Hpk.
  set (x := index_of_header h) in *.
  assert (forall k bs, In (k, bs) (runs (k_t k)) -> 0 <= k_t k < nT -> names_precinct h k) as Hnames.
  { intros k bs H1 H2. apply (run_facts h main qs runs Hok (k_t k) k bs H2 H1). }
  destruct (Forall2_exists (bin_of h runs) sel) as (pbs & Hpbs).
  { intros k Hk. destruct (Hin k Hk) as (Ht & Hr). apply in_map_iff in Hr. destruct Hr as ([k' bs] & E & Hr). cbn [fst] in E. subst k'.
    destruct (names_id h Hl Hc k (Hnames k bs Hr Ht)) as (i & Hi & Hi2).
    exists (mkBin 0 i (concat bs)), bs, i. repeat (split; [assumption|]). reflexivity. }
  exists x, (lay main qs), loc, (main_bin main), (map (tile_bin qs) (zseq nT)), pbs.
  split; [apply build_exact; assumption|]. split; [apply (walk_lay h Hl main qs runs Hok)|]. split; [exact Eloc|].
  split; [apply (main_bin_ok h main qs)|].
  split.
  { assert (forall l, (forall t, In t l -> 0 <= t < nT) -> Forall2 (fun t b => tile_header_bin B (lay main qs) t = Ret (Some b)) l (map (tile_bin qs) l)) as H.
    { induction l as [|t l IH]; intros H; cbn [map]; constructor;
        [apply (tile_bin_ok h main qs runs Hok t), H; left; reflexivity|apply IH; intros; apply H; right; assumption]. }
    apply H. intros t. apply zseq_In. }
  split.
  { eapply Forall2_impl_In; [|exact Hpbs]. intros k b (bs & i & Ht & Hr & Hi & _ & ->).
    apply (precinct_bin_ok h main qs runs Hok loc (k_t k) k bs i Ht Hr Hi (Hpk _ k bs Ht Hr)). }
  intros bs Hperm.
  assert (forall b, In b bs <-> b = main_bin main \/ (exists t, 0 <= t < nT /\ b = tile_bin qs t) \/ In b pbs) as Hb.
  { intros b. split; intros H.
    - apply (Permutation_in _ Hperm) in H. destruct H as [H|H]; [left; auto|]. right. apply in_app_or in H. destruct H as [H|H]; [left|right; exact H].
      apply in_map_iff in H. destruct H as (t & <- & Ht). apply zseq_In in Ht. exists t. auto.
    - apply (Permutation_in _ (Permutation_sym Hperm)). destruct H as [->|[(t & Ht & ->)|H]]; [left; reflexivity|right|right]; apply in_or_app.
      + left. apply in_map, zseq_In, Ht.
      + right. exact H. }
  assert (Forall JppSpec.bin_ok bs) as Hfit.
  { apply Forall_forall. intros b H. apply Hb in H. destruct H as [->|[(t & Ht & ->)|H]].
    - apply (main_bin_fit h main qs runs Hok).
    - apply (tile_bin_fit h Hl main qs runs Hok t Ht).
    - destruct (Forall2_In_r _ _ _ _ Hpbs H) as (k & _ & bs' & i & Ht & Hr & Hi & Hi2 & ->).
      apply (precinct_bin_fit h main qs runs Hok (k_t k) k bs' i Ht Hr Hi2).
      destruct (Hpk _ k bs' Ht Hr) as (rs & _ & HF). eapply located_bytes; [|exact HF]. apply (so_bytes _ _ _ _ Hok). }
  assert (NoDup (map JppSpec.bin_key bs)) as Hkeys.
  { eapply Permutation_NoDup; [apply Permutation_map, Permutation_sym, Hperm|]. cbn [map]. rewrite map_app, map_map. constructor.
    - intros H. apply in_app_or in H. destruct H as [H|H]; apply in_map_iff in H.
      + destruct H as (t & E & _). cbn in E. discriminate.
      + destruct H as (b & E & H). destruct (Forall2_In_r _ _ _ _ Hpbs H) as (k & _ & bs' & i & _ & _ & _ & _ & ->). cbn in E. discriminate.
    - apply NoDup_app_disj.
      + apply FinFun.Injective_map_NoDup; [|apply zseq_NoDup]. intros t t' E. apply (f_equal snd) in E. cbn in E. exact E.
      + apply (bin_of_NoDup h runs Hl Hc Hnames sel pbs Hpbs Hsel).
      + intros kk H H'. apply in_map_iff in H. destruct H as (t & <- & _). apply in_map_iff in H'. destruct H' as (b & E & H).
        destruct (Forall2_In_r _ _ _ _ Hpbs H) as (k & _ & bs' & i & _ & _ & _ & _ & ->). cbn in E. discriminate. }
  destruct (JppProps.C05_emitted_bins_received bs reason JppModel.dbset0 Hfit Hkeys Hre eq_refl (fun b _ => eq_refl))
    as (bytes & c & Eem & s & Epar & _ & Hget & Hoth).
  exists bytes, c, s. split; [exact Eem|]. split.
  { intros chunks Ech. eapply JppProps.C06_emitted_response_any_chunking; try eassumption; reflexivity. }
  assert (forall b, In b bs -> ds_contains s (JppSpec.b_class b) (JppSpec.b_id b) = true /\ ds_get s (JppSpec.b_class b) (JppSpec.b_id b) = JppSpec.b_data b) as Hgot.
  { intros b H. destruct (Hget b H) as (E1 & E2). split; [|exact E1]. unfold JppModel.ds_is_complete in E2. unfold ds_contains, JppModel.ds_contains.
    destruct (JppModel.lookup (JppModel.ds_bins s) (JppSpec.b_class b, JppSpec.b_id b)); [reflexivity|discriminate]. }
  destruct (Hgot (main_bin main)) as (Em1 & Em2); [apply Hb; left; reflexivity|]. cbn in Em1, Em2.
  unfold reassemble. replace ((po =? 0) || (po =? 1)) with false by lia.
  replace (negb (po =? 3) && negb (po =? 2) && negb (po =? 4) && negb (po =? 5)) with false by lia.
  unfold kMainHeader. cbn [orb]. rewrite Em1, Em2. cbn [negb]. unfold x at 2. rewrite num_tiles_exact by exact Hl. fold nT.
  rewrite (tiles_ok h Hl Hc main qs runs Hok s loc layers sel Hord).
  - rewrite ret_bindx. f_equal. f_equal. unfold codestream. rewrite app_nil_r, <- !app_assoc. rewrite map_map. reflexivity.
  - intros t k bs' i Ht Hr Hi Hk. destruct (run_facts h main qs runs Hok t k bs' Ht Hr) as (_ & Et & _).
    destruct (Forall2_In_l _ _ _ _ Hpbs Hk) as (b & Hbp & bs2 & i2 & Ht2 & Hr2 & Hi2 & _ & ->).
    rewrite Hi in Hi2. apply ret_inj in Hi2. subst i2.
    destruct (Hgot _ (proj2 (Hb _) (or_intror (or_intror Hbp)))) as (E1 & E2). cbn in E1, E2. split; [exact E1|]. rewrite E2.
    rewrite <- (content_run h main qs runs Hok t k bs' Ht Hr). symmetry. apply (content_run h main qs runs Hok (k_t k) k bs2 Ht2 Hr2).
  - intros t k bs' i Ht Hr Hi Hk. destruct (run_facts h main qs runs Hok t k bs' Ht Hr) as (Hn & Et & _).
    unfold ds_contains, JppModel.ds_contains. rewrite (Hoth (0, i)); [reflexivity|].
    intros H. apply in_map_iff in H. destruct H as (b & E & H). apply Hb in H. destruct H as [->|[(t' & Ht' & ->)|H]]; [discriminate..|].
    destruct (Forall2_In_r _ _ _ _ Hpbs H) as (k2 & Hk2 & bs2 & i2 & Ht2 & Hr2 & Hi2 & _ & ->). apply (f_equal snd) in E.
    cbn in E. subst i2. apply Hk. replace k with k2; [exact Hk2|].
    apply (ids_distinct h Hl Hc k2 k i); [eapply Hnames; eassumption|exact Hn|exact Hi2|exact Hi].
  - intros t Ht. apply (Hgot (tile_bin qs t)). apply Hb. right. left. exists t. auto.
  - exact Hlen.
  - intros t. apply zseq_In.
Qed.
Print Assumptions C58_served_codestream.

(** If every precinct was sent, and the source has one tile-part per tile, in
    order, the result is the source codestream itself, byte for byte. *)
Theorem C58_lossless : forall h main qs runs ts sel po layers reason,
  legal h -> countable h -> source_ok h main qs runs ->
  let nT := tiles_x h * tiles_y h in
  let B := codestream main (map to_part qs) [] in
  Permutation ts (zseq nT) ->
  map q_tile qs = zseq nT -> Forall (fun q => q_idx q = 0 /\ q_cnt q = 1) qs ->
  NoDup sel -> (forall k, In k sel <-> 0 <= k_t k < nT /\ In k (map fst (runs (k_t k)))) ->
  2 <= po <= 5 -> 0 <= layers -> 0 <= reason < 256 ->
  exists x lay loc mb tbs pbs,
    build h = ret x /\ walk_codestream B = ret lay /\ build_locator lay (observed qs ts) = Some loc /\
    main_header_bin B lay = Ret (Some mb) /\
    Forall2 (fun t b => tile_header_bin B lay t = Ret (Some b)) (zseq nT) tbs /\
    Forall2 (fun k b => precinct_bin B x loc k = ret (Some b)) sel pbs /\
    forall bs, Permutation bs (mb :: tbs ++ pbs) ->
    exists bytes c s, emit_bins bs JppModel.ctx0 = Ret (bytes, c) /\
      (forall chunks, concat chunks = bytes ++ emit_eor reason ->
         exists p, JppModel.sp_feed_all JppModel.sparser0 chunks JppModel.dbset0 = Ret (true, p, s) /\ JppModel.sp_finish p = true) /\
      reassemble s x po layers false false loc = ret (Ok, B).
Proof.
  intros h main qs runs ts sel po layers reason Hl Hc Hok nT B Hts Hone Hidx Hsel Hin Hpo Hlay Hre.
  assert (forall t, 0 <= t < nT -> flat_map (fun r => precinct_bytes layers (if existsb (key_eqb (fst r)) sel then Some (concat (snd r)) else None)) (runs t)
    = concat (map snd (packets_of_tile qs t))) as Hbody.
  { intros t Ht. destruct (so_runs _ _ _ _ Hok t Ht) as (E & _ & _). rewrite E.
    assert (forall R, (forall r, In r R -> In r (runs t)) ->
      flat_map (fun r => precinct_bytes layers (if existsb (key_eqb (fst r)) sel then Some (concat (snd r)) else None)) R
      = concat (map snd (run_packets R))) as H.
    { induction R as [|[k bs] R IH]; intros HR; [reflexivity|]. unfold run_packets in *. cbn [flat_map fst snd].
      rewrite map_app, concat_app, map_map. cbn [snd]. rewrite map_id. rewrite <- IH by (intros; apply HR; right; assumption).
      f_equal. replace (existsb (key_eqb k) sel) with true; [reflexivity|]. symmetry. apply key_mem_spec. apply Hin.
      pose proof (HR _ (or_introl eq_refl)) as Hr. destruct (run_facts h main qs runs Hok t k bs Ht Hr) as (_ & Et & _). rewrite Et.
      split; [exact Ht|]. apply in_map_iff. exists (k, bs). auto. }
    apply H. auto. }
  assert (map (merged qs runs layers sel) (zseq nT) = map to_part qs) as EM.
  { rewrite <- Hone, map_map. apply map_ext_in. intros q Hq.
    assert (0 <= q_tile q < nT) as Ht by (apply zseq_In; rewrite <- Hone; apply in_map; exact Hq).
    unfold merged. rewrite (Hbody _ Ht).
    assert (parts_of_tile qs (q_tile q) = [q]) as EP.
    { assert (NoDup (map q_tile qs)) as Hnd by (rewrite Hone; apply zseq_NoDup). clear - Hq Hnd. unfold parts_of_tile.
      induction qs as [|a l IH]; [destruct Hq|]. cbn [map] in Hnd. inversion Hnd as [|u v Hu Hv]; subst. cbn [filter].
      destruct Hq as [->|Hq].
      - rewrite Z.eqb_refl. f_equal. clear - Hu. induction l as [|b l IH]; [reflexivity|]. cbn [filter map In] in *.
        destruct (Z.eqb_spec (q_tile b) (q_tile q)); [exfalso; apply Hu; left; assumption|]. apply IH. intros X. apply Hu. right. exact X.
      - destruct (Z.eqb_spec (q_tile a) (q_tile q)) as [E|E]; [|apply IH; assumption].
        exfalso. apply Hu. rewrite E. apply in_map. exact Hq. }
    unfold packets_of_tile, segs_of_tile. rewrite EP. cbn [map concat]. rewrite !app_nil_r.
    rewrite Forall_forall in Hidx. destruct (Hidx q Hq) as (E1 & E2). unfold to_part. rewrite E1, E2. reflexivity. }
  pose proof (C58_served_codestream h main qs runs ts sel po layers reason Hl Hc Hok) as T. cbv zeta in T. fold nT B in T.
  rewrite EM in T. fold B in T. apply T; try assumption.
  - intros k Hk. apply Hin. exact Hk.
  - intros t Ht. assert (In (merged qs runs layers sel t) (map to_part qs)) as H by (rewrite <- EM; apply in_map, zseq_In, Ht).
    apply in_map_iff in H. destruct H as (q & <- & Hq). pose proof (so_parts _ _ _ _ Hok) as H. rewrite Forall_forall in H.
    destruct (H q Hq) as ((_ & _ & H') & _). exact H'.
Qed.
Print Assumptions C58_lossless.

(** Two tiles of two precincts; the second tile comes first and in two parts;
    two layers; one precinct is not sent. *)
Definition two : header := {| h_size := (16, 8); h_origin := (0, 0); h_tsize := (8, 8); h_torigin := (0, 0);
  h_comps := [{| c_sub := (1, 1); c_NL := 1; c_pp := [(15, 15); (15, 15)] |}]; h_irreversible := false |}.
Definition kk (t r : Z) : key := {| k_t := t; k_c := 0; k_r := r; k_p := 0 |}.
Definition two_qs : list tilepart :=
  [TP 1 0 2 [Seg 65373 [1; 2; 3]] [(kk 1 0, [128; 1]); (kk 1 0, [129; 2])];
   TP 0 0 1 [] [(kk 0 0, [130]); (kk 0 0, [0]); (kk 0 1, [131; 7]); (kk 0 1, [132; 255; 144])];
   TP 1 1 2 [Seg 65380 [9]] [(kk 1 1, [133]); (kk 1 1, [134; 9])]].
Definition two_runs (t : Z) : list run :=
  if t =? 0 then [(kk 0 0, [[130]; [0]]); (kk 0 1, [[131; 7]; [132; 255; 144]])]
  else [(kk 1 0, [[128; 1]; [129; 2]]); (kk 1 1, [[133]; [134; 9]])].
Lemma two_ok : legal two /\ countable two /\ source_ok two (main1 2) two_qs two_runs.
Proof.
  split; [|split].
  - constructor; [constructor; cbn; lia..| |cbn; lia|vm_compute; discriminate]. repeat constructor; cbn; lia.
  - apply countable_b_ok. vm_compute. reflexivity.
  - assert (tiles_x two * tiles_y two = 2) as E by (vm_compute; reflexivity).
    assert (tiles_x two = 2) as E1 by (vm_compute; reflexivity). assert (tiles_y two = 1) as E2 by (vm_compute; reflexivity).
    assert (forall t r, 0 <= t < 2 -> 0 <= r <= 1 -> names_precinct two (kk t r)) as Hn.
    { intros t r Ht Hr. exists t, 0. eexists. rewrite E1, E2. cbn [kk k_t k_c k_r k_p]. split; [lia|]. split; [lia|]. split; [lia|].
      split; [lia|]. split; [reflexivity|]. split; [cbn; lia|].
      assert (t = 0 \/ t = 1) as [-> | ->] by lia; assert (r = 0 \/ r = 1) as [-> | ->] by lia; vm_compute; auto; split; congruence. }
    constructor.
    + split; (constructor; [|constructor]); unfold seg_ok, stands_alone, COD, SOT; cbn; lia.
    + rewrite E. repeat apply Forall_cons; try apply Forall_nil; (split; [split; [cbn; lia|split; [repeat (constructor; [unfold seg_ok, stands_alone; cbn; lia|]); constructor|vm_compute; reflexivity]]|]);
        (split; [cbn; lia|]); cbn [q_packets q_tile two_qs];
        repeat apply Forall_cons; try apply Forall_nil; (split; [apply Hn; lia|split; [reflexivity|discriminate]]).
    + unfold bytes_ok. apply Forall_forall. intros z Hz. vm_compute in Hz.
      repeat (destruct Hz as [<-|Hz]; [unfold byte_ok; lia|]). destruct Hz.
    + vm_compute. reflexivity.
    + rewrite E. intros t Ht. assert (t = 0 \/ t = 1) as [-> | ->] by lia; discriminate.
    + rewrite E. intros t Ht. assert (t = 0 \/ t = 1) as [-> | ->] by lia;
        (split; [reflexivity|split; [|repeat constructor; discriminate]]); cbn; repeat constructor; cbn; intuition discriminate.
Qed.
Example C58_case : source_ok two (main1 2) two_qs two_runs /\ Permutation [1; 0] (zseq (tiles_x two * tiles_y two)) /\
  (let sel := [kk 1 1; kk 0 0; kk 1 0] in
   NoDup sel /\ (forall k, In k sel -> 0 <= k_t k < tiles_x two * tiles_y two /\ In k (map fst (two_runs (k_t k)))) /\
   map (fun t => pt_body (merged two_qs two_runs 2 sel t)) [0; 1] = [[130; 0; 0; 0]; [128; 1; 129; 2; 133; 134; 9]]).
Proof.
  split; [apply two_ok|]. split; [vm_compute; apply perm_swap|]. cbv zeta. split; [repeat constructor; cbn; intuition discriminate|].
  split; [|vm_compute; reflexivity]. assert (tiles_x two * tiles_y two = 2) as -> by (vm_compute; reflexivity).
  intros k Hk. cbn in Hk. repeat (destruct Hk as [<-|Hk]; [cbn; split; [lia|auto]|]). destruct Hk.
Qed.
