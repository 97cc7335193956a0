(** Lemmas for re-assembly on the client. *)
From Coq Require Import Permutation Sorted.
From Verif Require Import Base BaseLemmas Be WalkerModel WalkerSpec PrecinctModel PrecinctSpec PrecinctProofs ReasmModel ReasmSpec.
From Verif Require JppModel.

(** ** Filling a group *)

Definition zrange (a b : Z) : list Z := map (Z.add a) (zseq (b - a)).
Lemma zrange_nil a b : b <= a -> zrange a b = [].
Proof. intros. unfold zrange. rewrite zseq_0 by lia. reflexivity. Qed.
Lemma zrange_cons a b : a < b -> zrange a b = a :: zrange (a + 1) b.
Proof.
  intros. unfold zrange. rewrite zseq_cons by lia. cbn [map]. f_equal; [lia|].
  rewrite map_map. replace (b - a - 1) with (b - (a + 1)) by lia. apply map_ext. intros. lia.
Qed.
Lemma zrange_0 n : zrange 0 n = zseq n.
Proof. unfold zrange. rewrite Z.sub_0_r. rewrite <- map_id. apply map_ext. intros. lia. Qed.
Lemma zrange_split a b c : a <= b <= c -> zrange a c = zrange a b ++ zrange b c.
Proof.
  intros [H1 H2]. remember (Z.to_nat (b - a)) as n eqn:En. revert a H1 En. induction n as [|n IH]; intros a H1 En.
  - replace b with a by lia. rewrite (zrange_nil a a) by lia. reflexivity.
  - rewrite (zrange_cons a c), (zrange_cons a b) by lia. cbn [app]. f_equal. apply IH; lia.
Qed.
Lemma zrange_In a b i : In i (zrange a b) <-> a <= i < b.
Proof.
  unfold zrange. rewrite in_map_iff. split.
  - intros (j & <- & H). apply zseq_In in H. lia.
  - intros H. exists (i - a). split; [lia|]. apply zseq_In. lia.
Qed.

Lemma zeros_range f a b : (forall p, a <= p < b -> f p = None) ->
  flat_map (fun p => precinct_bytes 1 (f p)) (zrange a b) = zeros (b - a).
Proof.
  intros H. remember (Z.to_nat (b - a)) as n eqn:En. revert a H En. induction n as [|n IH]; intros a H En.
  - rewrite zrange_nil by lia. unfold zeros. rewrite <- En. reflexivity.
  - rewrite zrange_cons by lia. cbn [flat_map]. rewrite H by lia. cbn [precinct_bytes].
    rewrite IH; [|intros; apply H; lia|lia]. unfold zeros. rewrite <- En. cbn [repeat app].
    replace (Z.to_nat (b - (a + 1))) with n by lia. reflexivity.
Qed.

Lemma fill_sorted np f : np < two32 -> forall l cur, 0 <= cur ->
  StronglySorted (fun a b => fst a < fst b) l ->
  Forall (fun e => cur <= fst e < np /\ f (fst e) = Some (snd e)) l ->
  (forall p b, cur <= p < np -> f p = Some b -> In (p, b) l) ->
  fill cur np l = flat_map (fun p => precinct_bytes 1 (f p)) (zrange cur np).
Proof.
  intros Hnp. induction l as [|[p b] l IH]; intros cur Hc Hs Hf Hin; cbn [fill].
  - destruct (cur <? np) eqn:E.
    + symmetry. apply zeros_range. intros p Hp. destruct (f p) eqn:Ef; [|reflexivity].
      destruct (Hin p l ltac:(lia) Ef).
    + rewrite zrange_nil by lia. reflexivity.
  - inversion Hs as [|x l' Hs' Hall]; subst. inversion Hf as [|x l' [Hp Hfp] Hf']; subst. cbn [fst snd] in *.
    rewrite Forall_forall in Hall, Hf'.
    rewrite (zrange_split cur p np), flat_map_app by lia. f_equal.
    { rewrite zeros_range.
      - destruct (cur <? p) eqn:E; [reflexivity|]. unfold zeros. replace (Z.to_nat (p - cur)) with O by lia. reflexivity.
      - intros q Hq. destruct (f q) eqn:Ef; [|reflexivity]. exfalso.
        destruct (Hin q l0 ltac:(lia) Ef) as [X|X]; [injection X; lia|].
        specialize (Hall _ X). cbn in Hall. lia. }
    rewrite (zrange_cons p np) by lia. cbn [flat_map]. rewrite Hfp. cbn [precinct_bytes]. f_equal.
    rewrite wrap32_small by lia. apply IH; try lia; auto.
    + apply Forall_forall. intros e He. pose proof (Hall e He). pose proof (Hf' e He). cbn in *. intuition lia.
    + intros q d Hq Eq. destruct (Hin q d ltac:(lia) Eq) as [X|X]; [injection X; lia|exact X].
Qed.

Lemma insert_perm e l : Permutation (insert e l) (e :: l).
Proof.
  induction l as [|a l IH]; cbn [insert]; [reflexivity|]. destruct (fst e <=? fst a); [reflexivity|].
  rewrite IH. apply perm_swap.
Qed.
Lemma sort_perm l : Permutation (sort l) l.
Proof.
  unfold sort. induction l as [|a l IH]; cbn [fold_right]; [reflexivity|]. rewrite insert_perm, IH. reflexivity.
Qed.
Lemma insert_sorted e l : StronglySorted (fun a b => fst a < fst b) l -> ~ In (fst e) (map fst l) ->
  StronglySorted (fun a b => fst a < fst b) (insert e l).
Proof.
  induction l as [|a l IH]; intros Hs Hn; cbn [insert].
  - constructor; constructor.
  - inversion Hs as [|x l' Hs' Hall]; subst. cbn [map In] in Hn. destruct (fst e <=? fst a) eqn:E.
    + constructor; [exact Hs|]. constructor; [lia|]. rewrite Forall_forall in Hall |- *. intros y Hy. specialize (Hall y Hy). lia.
    + constructor; [apply IH; tauto|]. rewrite Forall_forall in Hall |- *. intros y Hy.
      apply (Permutation_in _ (insert_perm e l)) in Hy. destruct Hy as [<-|Hy]; [|auto].
      assert (fst a <> fst e) by tauto. lia.
Qed.
Lemma sort_sorted l : NoDup (map fst l) -> StronglySorted (fun a b => fst a < fst b) (sort l).
Proof.
  unfold sort. induction l as [|a l IH]; intros Hn; cbn [fold_right]; [constructor|].
  cbn [map] in Hn. inversion Hn as [|x l' H1 H2]; subst. apply insert_sorted; [auto|].
  intros H. apply H1. apply (Permutation_in _ (Permutation_map fst (sort_perm l))). exact H.
Qed.

Lemma group_spec np f l : 0 <= np < two32 -> NoDup (map fst l) ->
  (forall p b, In (p, b) l <-> 0 <= p < np /\ f p = Some b) ->
  group (sort l) np = flat_map (fun p => precinct_bytes 1 (f p)) (zseq np).
Proof.
  intros Hnp Hn Hin.
  assert (fill 0 np (sort l) = flat_map (fun p => precinct_bytes 1 (f p)) (zseq np)) as Hf.
  { rewrite <- zrange_0. apply fill_sorted; try lia.
    - apply sort_sorted, Hn.
    - apply Forall_forall. intros [p b] He. apply (Permutation_in _ (sort_perm l)) in He.
      apply Hin in He. exact He.
    - intros p b Hp Hfp. apply (Permutation_in _ (Permutation_sym (sort_perm l))). apply Hin. auto. }
  unfold group. destruct (sort l) eqn:E; [|exact Hf]. rewrite <- Hf. cbn [fill].
  destruct (0 <? np) eqn:E0; [rewrite Z.sub_0_r; reflexivity|]. unfold zeros. replace (Z.to_nat np) with O by lia. reflexivity.
Qed.

(** ** Deliveries *)

Lemma contains_key s cl i : ds_contains s cl i = true <-> In (cl, i) (JppModel.ds_keys s).
Proof.
  unfold JppModel.ds_contains, JppModel.ds_keys. induction (JppModel.ds_bins s) as [|[k e] m IH]; cbn [JppModel.lookup map In].
  - split; [discriminate|tauto].
  - destruct (JppModel.key_eqb (cl, i) k) eqn:E.
    + split; auto. intros _. left. unfold JppModel.key_eqb in E. destruct k; cbn in *. f_equal; lia.
    + rewrite IH. split; auto. intros [X|X]; auto. exfalso. unfold JppModel.key_eqb in E. destruct k; apply pair_inj in X; cbn in *; lia.
Qed.

Section Client.
  Variable h : header.
  Hypothesis Hleg : legal h.
  Hypothesis Hcnt : countable h.
  Let x := index_of_header h.
  Let limit := tiles_x h * tiles_y h * zlen (h_comps h) * 2 ^ 32.

  Lemma find_res_total tx ty c t i s rs : In c (h_comps h) -> 0 <= tx < tiles_x h -> 0 <= ty < tiles_y h ->
    Forall (fun r => 0 <= r <= c_NL c) rs -> exists d, find_res (tc_of h tx ty c) t i s rs = ret d.
  Proof.
    intros Hc Htx Hty. induction rs as [|r rs IH]; intros Hr; cbn [find_res]; [eexists; reflexivity|].
    inversion Hr; subst. rewrite row_exact, ret_bindx by assumption. destruct (_ && _); [eexists; reflexivity|]. auto.
  Qed.

  Lemma tile_split t : 0 <= t < tiles_x h * tiles_y h ->
    0 <= t mod tiles_x h < tiles_x h /\ 0 <= t / tiles_x h < tiles_y h /\ t = (t / tiles_x h) * tiles_x h + t mod tiles_x h.
  Proof.
    intros Ht. destruct (n_tiles_small h Hleg) as (H1 & H2 & _).
    pose proof (Z.mod_pos_bound t (tiles_x h) ltac:(lia)). pose proof (Z.div_mod t (tiles_x h) ltac:(lia)).
    split; [lia|]. split; [|lia]. split; [apply Z.div_pos; lia|]. apply Z.div_lt_upper_bound; lia.
  Qed.

  Lemma comp_nth ci : 0 <= ci < zlen (h_comps h) -> exists c, nth_error (h_comps h) (Z.to_nat ci) = Some c /\ In c (h_comps h).
  Proof.
    intros Hc. destruct (nth_error (h_comps h) (Z.to_nat ci)) as [c|] eqn:E.
    - exists c. split; [reflexivity|]. eapply nth_error_In; eauto.
    - apply nth_error_None in E. unfold zlen in Hc. lia.
  Qed.

  Lemma decompose_total i : 0 <= i -> exists d, decompose x i = ret d.
  Proof.
    intros Hi. unfold decompose, x. rewrite num_tiles_exact by assumption. unfold num_components.
    change (h_comps (hdr (index_of_header h))) with (h_comps h).
    destruct (n_tiles_small h Hleg) as (H1 & H2 & H3). pose proof (lg_ncomps h Hleg) as Hn.
    set (nT := tiles_x h * tiles_y h) in *. set (nC := zlen (h_comps h)) in *.
    assert (1 <= nT) by (unfold nT; nia).
    replace ((nT =? 0) || (nC =? 0)) with false by lia.
    pose proof (Z.mod_pos_bound i nT ltac:(lia)) as Hm. pose proof (Z.mod_pos_bound (i / nT) nC ltac:(lia)) as Hm2.
    rewrite (Z.mod_small (i mod nT)) by lia. rewrite (Z.mod_small ((i / nT) mod nC)) by lia.
    destruct (tile_split (i mod nT) Hm) as (Ha & Hb & Hc).
    destruct (comp_nth _ Hm2) as (c & Ec & Hin).
    pose proof (tile_component_exact h Hleg _ _ _ _ Ha Hb (proj1 Hm2) Ec) as ET. rewrite <- Hc in ET.
    rewrite ET, ret_bindx.
    apply find_res_total; auto. apply Forall_forall. intros r Hr. cbn [tc_of NL] in Hr. apply zseq_In in Hr. lia.
  Qed.

  Lemma deliveries_spec s : forall ks, NoDup ks ->
    (forall i, In (0, i) ks -> 0 <= i < limit) ->
    (forall k, In k ks -> In k (JppModel.ds_keys s)) ->
    exists dl, deliveries s x ks = ret dl /\ NoDup (map fst dl) /\
      forall k b, In (k, b) dl <-> names_precinct h k /\ exists i, id_of x k = ret i /\ In (0, i) ks /\ b = ds_get s 0 i.
  Proof.
    induction ks as [|[cl i] ks IH]; intros Hnd Hlim Hsub; cbn [deliveries].
    - exists []. split; [reflexivity|]. split; [constructor|]. intros k b. split; [intros []|intros (_ & i & _ & [] & _)].
    - inversion Hnd as [|a l Hni Hnd']; subst.
      destruct (IH Hnd' ltac:(intros; apply Hlim; right; assumption) ltac:(intros; apply Hsub; right; assumption))
        as (dl & Edl & Hn & Hiff).
      unfold kPrecinct. destruct (cl =? 0) eqn:Ecl; cbn [negb].
      2:{ exists dl. split; [exact Edl|]. split; [exact Hn|]. intros k b. rewrite Hiff. split.
          - intros (A & j & B & C & D). split; [exact A|]. exists j. split; [exact B|]. split; [right; exact C|exact D].
          - intros (A & j & B & [C|C] & D); [injection C; lia|]. split; [exact A|]. exists j. auto. }
      assert (cl = 0) by lia. subst cl. pose proof (Hlim i (or_introl eq_refl)) as Hi.
      destruct (decompose_total i ltac:(lia)) as (d & Ed). rewrite Ed, ret_bindx. destruct d as [k0|].
      + rewrite Edl, ret_bindx. destruct (id_decompose h Hleg Hcnt i k0 Hi Ed) as (Hk0 & Hid0).
        exists ((k0, ds_get s 0 i) :: dl). split; [reflexivity|]. split.
        * cbn [map fst]. constructor; [|exact Hn]. intros X. apply in_map_iff in X. destruct X as ([k b] & Ek & X).
          cbn in Ek. subst k. apply Hiff in X. destruct X as (_ & j & Hj & Hjk & _).
          fold x in Hid0. rewrite Hid0 in Hj. apply ret_inj in Hj. subst j. contradiction.
        * intros k b. cbn [In]. rewrite Hiff. split.
          -- intros [X|(A & j & B & C & D)].
             ++ apply pair_inj in X. destruct X as [<- <-]. split; [exact Hk0|]. exists i. auto.
             ++ split; [exact A|]. exists j. auto.
          -- intros (A & j & B & [C|C] & D).
             ++ left. apply pair_inj in C. destruct C as [_ <-]. f_equal; [|auto].
                apply (ids_distinct h Hleg Hcnt k0 k i); auto.
             ++ right. split; [exact A|]. exists j. auto.
      + exists dl. split; [exact Edl|]. split; [exact Hn|]. intros k b. rewrite Hiff. split.
        * intros (A & j & B & C & D). split; [exact A|]. exists j. split; [exact B|]. split; [right; exact C|exact D].
        * intros (A & j & B & [C|C] & D).
          -- exfalso. apply pair_inj in C. destruct C as [_ <-].
             pose proof (decompose_id h Hleg Hcnt k i A B) as E. fold x in E. rewrite Ed in E. discriminate.
          -- split; [exact A|]. exists j. auto.
  Qed.

  Definition client_ok (s : dbset) : Prop :=
    NoDup (JppModel.ds_keys s) /\ forall i, In (0, i) (JppModel.ds_keys s) -> 0 <= i < limit.

  Lemma deliveries_held s : client_ok s ->
    exists dl, deliveries s x (JppModel.ds_keys s) = ret dl /\ NoDup (map fst dl) /\
      forall k b, In (k, b) dl <-> names_precinct h k /\ held s x k = Some b.
  Proof.
    intros [Hn Hl]. destruct (deliveries_spec s _ Hn Hl ltac:(auto)) as (dl & E & Hnd & Hiff).
    exists dl. split; [exact E|]. split; [exact Hnd|]. intros k b. rewrite Hiff. unfold held. split.
    - intros (A & i & B & C & D). split; [exact A|]. rewrite B. apply contains_key in C. unfold ret. rewrite C. f_equal. auto.
    - intros (A & B). split; [exact A|]. destruct (id_of x k) as [[i|]| |] eqn:Ei; try discriminate.
      destruct (JppModel.ds_contains s 0 i) eqn:Ec; [|discriminate]. exists i. split; [reflexivity|].
      split; [apply contains_key, Ec|]. apply Some_inj in B. auto.
  Qed.

  Lemma max_NL_fold l m : Forall (fun i => NL i <= 31) l -> m <= 31 ->
    let r := fold_left (fun m i => if m <? NL i then NL i else m) l m in
    m <= r <= 31 /\ Forall (fun i => NL i <= r) l.
  Proof.
    revert m. induction l as [|i l IH]; intros m Hf Hm; cbn [fold_left]; [split; [lia|constructor]|].
    inversion Hf; subst. destruct (m <? NL i) eqn:E.
    - destruct (IH (NL i) H2 H1) as (A & B). split; [lia|]. constructor; [lia|exact B].
    - destruct (IH m H2 Hm) as (A & B). split; [lia|]. constructor; [lia|exact B].
  Qed.
  Lemma tcs_NL : Forall (fun i => NL i <= 31) (tcs x).
  Proof.
    apply Forall_forall. intros i Hi. unfold x, index_of_header in Hi. cbn [tcs] in Hi.
    apply in_concat in Hi. destruct Hi as (l & Hl & Hi). apply in_concat in Hl. destruct Hl as (l2 & Hl2 & Hl).
    apply in_map_iff in Hl2. destruct Hl2 as (ty & <- & _). apply in_map_iff in Hl. destruct Hl as (tx & <- & _).
    apply in_map_iff in Hi. destruct Hi as (c & <- & Hc). cbn [tc_of NL].
    pose proof (comp_is_legal h Hleg c Hc) as L. destruct L as (_ & _ & L & _). lia.
  Qed.
  Lemma max_NL_bounds : 0 <= max_NL x <= 31 /\ forall c, In c (h_comps h) -> c_NL c <= max_NL x.
  Proof.
    unfold max_NL. destruct (max_NL_fold (tcs x) 0 tcs_NL ltac:(lia)) as (A & B). split; [exact A|].
    intros c Hc. rewrite Forall_forall in B. apply (B (tc_of h 0 0 c)).
    destruct (n_tiles_small h Hleg) as (H1 & H2 & _).
    apply in_concat. exists (map (tc_of h 0 0) (h_comps h)). split; [|apply in_map, Hc].
    apply in_concat. exists (map (fun tx => map (tc_of h tx 0) (h_comps h)) (zseq (tiles_x h))). split.
    - apply in_map_iff. exists 0. split; [reflexivity|]. apply zseq_In. lia.
    - apply in_map_iff. exists 0. split; [reflexivity|]. apply zseq_In. lia.
  Qed.

  Lemma n_precincts_small c tx ty r : In c (h_comps h) -> 0 <= tx < tiles_x h -> 0 <= ty < tiles_y h -> 0 <= r <= c_NL c ->
    0 <= n_precincts h c tx ty r < two32.
  Proof.
    intros Hc Hx Hy Hr. pose proof (comp_is_legal h Hleg c Hc) as L. split; [apply n_precincts_nonneg; assumption|].
    pose proof (Hcnt tx ty c Hx Hy Hc) as Hs. change (2 ^ 32) with two32 in Hs.
    pose proof (offset_succ h c tx ty r ltac:(lia)) as E.
    pose proof (offset_mono h c tx ty (r + 1) (c_NL c + 1) L ltac:(lia) ltac:(lia)) as M.
    pose proof (offset_mono h c tx ty 0 r L ltac:(lia) ltac:(lia)) as M0.
    unfold offset at 2 in M. unfold offset at 1 in M0. rewrite zseq_0 in M0 by lia. cbn in M0. lia.
  Qed.

  Lemma slot_In (dl : list (key * list Z)) t c r p b : In (p, b) (map (fun e => (k_p (fst e), snd e))
            (filter (fun e => (k_t (fst e) =? t) && (k_c (fst e) =? c) && (k_r (fst e) =? r)) dl)) <->
    In ({| k_t := t; k_c := c; k_r := r; k_p := p |}, b) dl.
  Proof.
    rewrite in_map_iff. split.
    - intros ([[kt kc kr kp] d] & E & Hin). cbn in E. apply pair_inj in E. destruct E as [<- <-].
      apply filter_In in Hin. destruct Hin as [Hin E]. cbn in E. assert (kt = t /\ kc = c /\ kr = r) as (-> & -> & ->) by lia.
      exact Hin.
    - intros Hin. eexists. split; [|apply filter_In; split; [exact Hin|cbn; lia]]. reflexivity.
  Qed.
  Lemma slot_NoDup (dl : list (key * list Z)) t c r : NoDup (map fst dl) -> NoDup (map fst (map (fun e => (k_p (fst e), snd e))
            (filter (fun e => (k_t (fst e) =? t) && (k_c (fst e) =? c) && (k_r (fst e) =? r)) dl : list (key * list Z)))).
  Proof.
    intros H. induction dl as [|[[kt kc kr kp] d] dl IH]; cbn [filter]; [constructor|].
    cbn [map fst] in H. inversion H as [|a l H1 H2]; subst. cbn [fst k_t k_c k_r].
    destruct ((kt =? t) && (kc =? c) && (kr =? r)) eqn:E; [|auto]. cbn [map fst snd k_p]. constructor; [|auto].
    intros X. apply H1. apply in_map_iff in X. destruct X as ([p b] & Ep & X). cbn in Ep. subst p.
    apply slot_In in X. assert (kt = t /\ kc = c /\ kr = r) as (-> & -> & ->) by lia.
    apply in_map_iff. eexists. split; [|exact X]. reflexivity.
  Qed.

  Lemma concat_concat_map {A} (f : Z -> Z -> list A) rs cs :
    concat (concat (map (fun r => map (f r) cs) rs)) = flat_map (fun r => flat_map (f r) cs) rs.
  Proof.
    induction rs as [|r rs IH]; cbn [map concat flat_map]; [reflexivity|].
    rewrite concat_app, IH. f_equal. symmetry. apply flat_map_concat_map.
  Qed.

  Lemma layer_body_spec s dl t : NoDup (map fst dl) ->
    (forall k b, In (k, b) dl <-> names_precinct h k /\ held s x k = Some b) ->
    0 <= t < tiles_x h * tiles_y h ->
    layer_body x dl t = ret (lrcp_body h (held s x) t).
  Proof.
    intros Hn Hiff Ht. destruct (tile_split t Ht) as (Ha & Hb & Hc). destruct (n_tiles_small h Hleg) as (H1 & H2 & H3).
    unfold layer_body. rewrite Z.mod_small by lia.
    set (F := fun r ci => match nth_error (h_comps h) (Z.to_nat ci) with
      | Some c => if r <=? c_NL c then
          flat_map (fun p => precinct_bytes 1 (held s x {| k_t := t; k_c := ci; k_r := r; k_p := p |}))
                   (zseq (n_precincts h c (t mod tiles_x h) (t / tiles_x h) r)) else []
      | None => [] end).
    destruct max_NL_bounds as (HM & HMc).
    rewrite (mapM_ok _ (fun r => map (F r) (zseq (zlen (h_comps h))))).
    - rewrite ret_bindx, concat_concat_map. f_equal. f_equal. unfold lrcp_body. cbv zeta. fold F.
      change (flat_map (fun r => flat_map (F r) (zseq (zlen (h_comps h)))) (zseq (max_NL x + 1))
            = flat_map (fun r => flat_map (F r) (zseq (zlen (h_comps h)))) (zseq 32)).
      rewrite <- !zrange_0. rewrite (zrange_split 0 (max_NL x + 1) 32) by lia. rewrite flat_map_app.
      symmetry. rewrite <- app_nil_r. f_equal.
      assert (forall r, In r (zrange (max_NL x + 1) 32) -> flat_map (F r) (zrange 0 (zlen (h_comps h))) = []) as Z0.
      { intros r Hr. apply zrange_In in Hr. assert (forall l, flat_map (F r) l = []) as ->; [|reflexivity].
        induction l as [|ci l IH]; cbn [flat_map]; [reflexivity|]. rewrite IH, app_nil_r. unfold F.
        destruct (nth_error (h_comps h) (Z.to_nat ci)) eqn:E; [|reflexivity].
        apply nth_error_In in E. specialize (HMc _ E). replace (r <=? c_NL c) with false by lia. reflexivity. }
      induction (zrange (max_NL x + 1) 32) as [|r l IH]; cbn [flat_map]; [reflexivity|].
      rewrite Z0 by (left; reflexivity). apply IH. intros. apply Z0. right. assumption.
    - intros r Hr. apply zseq_In in Hr. unfold num_components. change (h_comps (hdr x)) with (h_comps h).
      apply mapM_ok. intros ci Hci. apply zseq_In in Hci. destruct (comp_nth ci Hci) as (c & Ec & Hin).
      pose proof (tile_component_exact h Hleg _ _ _ _ Ha Hb (proj1 Hci) Ec) as ET. rewrite <- Hc in ET. fold x in ET.
      rewrite ET, ret_bindx.
      cbn [tc_of NL]. unfold F. rewrite Ec. destruct (c_NL c <? r) eqn:E.
      + replace (r <=? c_NL c) with false by lia. reflexivity.
      + replace (r <=? c_NL c) with true by lia. fold (tc_of h (t mod tiles_x h) (t / tiles_x h) c).
        rewrite row_exact, ret_bindx by lia. f_equal. f_equal. cbn [row_of npw nph].
        change (cells (x_span h c (t mod tiles_x h) r) (ppx c r) * cells (y_span h c (t / tiles_x h) r) (ppy c r))
          with (n_precincts h c (t mod tiles_x h) (t / tiles_x h) r).
        pose proof (n_precincts_small c _ _ r Hin Ha Hb ltac:(lia)) as Hnp.
        rewrite wrap32_small by assumption. unfold slot.
        apply (group_spec _ (fun p => held s x {| k_t := t; k_c := ci; k_r := r; k_p := p |}) _ Hnp).
        * apply slot_NoDup, Hn.
        * intros p b. rewrite slot_In, Hiff. split; intros [A B]; split; auto.
          -- destruct A as (tx & ty & c' & Hx & Hy & E1 & E2 & E3 & E4 & E5). cbn [k_t k_c k_r k_p] in *.
             rewrite Ec in E3. apply Some_inj in E3. subst c'.
             assert (tx = t mod tiles_x h /\ ty = t / tiles_x h) as [-> ->]; [|exact E5].
             rewrite E1. split.
             ++ rewrite Z.add_comm, Z.mod_add, Z.mod_small by lia. reflexivity.
             ++ rewrite Z.add_comm, Z.div_add, Z.div_small by lia. lia.
          -- exists (t mod tiles_x h), (t / tiles_x h), c. cbn [k_t k_c k_r k_p]. repeat (split; [lia || assumption|]). lia.
  Qed.
End Client.
