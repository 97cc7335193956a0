From Verif Require Import Base BaseLemmas Assoc Text TextProofs CacheModel CacheSpec CacheProofs ChannelModel ChannelSpec.
From Coq Require Import Permutation Sorting.Sorted.

(** ** [apply] always finishes *)
Lemma range_ops_total op : forall fuel m id e b, 0 <= b -> (Z.to_nat b < fuel)%nat ->
  exists m' b' st, range_ops fuel op m id e b = Ret (m', b', st) /\ 0 <= b' <= b.
Proof.
  induction fuel as [| f IH]; intros m id e b Hb Hf; [lia |]. cbn [range_ops].
  destruct (id <=? e); [| do 3 eexists; split; [reflexivity | lia]].
  destruct (Z.eqb_spec b 0); [do 3 eexists; split; [reflexivity | lia] |].
  destruct (IH (op m id) (wrap64 (id + 1)) e (b - 1)) as [m' [b' [st [E H]]]]; [lia | lia |].
  exists m', b', st. split; [assumption | lia].
Qed.
Lemma apply_token_total m b q len : 0 <= b -> exists m' b' st, apply_token m b q len = Ret (m', b', st) /\ 0 <= b' <= b.
Proof.
  intros Hb. unfold apply_token.
  assert (K : forall (m : cmodel) (st : bool), exists m' b' st', Ret (m, b, st) = Ret (m', b', st') /\ 0 <= b' <= b).
  { intros m0 st. do 3 eexists. split; [reflexivity | lia]. }
  destruct (if (0 <? len) && (char_at q 0 =? 45) then (zskip 1 q, len - 1) else (q, len)) as [q1 len1].
  destruct (prefix_to_class q1 len1) as [[[cls q2] len2] |]; [| apply K].
  destruct (cls =? 6); [apply K |]. destruct (len2 <=? 0); [apply K |].
  destruct (strtoull q2) as [start n1]. destruct (n1 =? 0); [apply K |].
  destruct (if (n1 <? len2) && (char_at q2 n1 =? 45)
            then let '(e, n2) := strtoull (zskip (n1 + 1) q2) in (e, n1 + 1 + n2, (n2 =? 0) || (e <? start))
            else (start, n1, false)) as [[e numend] bad].
  destruct bad; [apply K |]. apply range_ops_total; lia.
Qed.
Lemma token_len_nonneg p : 0 <= token_len p.
Proof.
  unfold token_len. pose proof (zlen_nonneg p). destruct (index_of 44 p) as [i |] eqn:E; [| lia].
  revert i E. induction p as [| x p IH]; intros i E; cbn [index_of] in E; [discriminate |].
  destruct (x =? 44); [apply Some_inj in E; lia |]. destruct (index_of 44 p) as [j |]; [| discriminate].
  cbn [option_map] in E. apply Some_inj in E. pose proof (zlen_nonneg p). specialize (IH H0 j eq_refl). lia.
Qed.
Lemma apply_loop_total : forall fuel p b m, 0 <= b -> (length p < fuel)%nat -> exists m', apply_loop fuel p b m = Ret m'.
Proof.
  induction fuel as [| f IH]; intros p b m Hb Hf; [lia |]. cbn [apply_loop].
  destruct (Z.eqb_spec (zlen p) 0); [eauto |].
  destruct (apply_token_total m b p (token_len p) Hb) as [m' [b' [st [E H]]]]. rewrite E. cbn [bind].
  destruct st; [eauto |]. apply IH; [lia |]. pose proof (token_len_nonneg p).
  unfold zskip. rewrite skipn_length. unfold zlen in n. lia.
Qed.
Theorem apply_total m s : exists m', apply m s = Ret m'.
Proof. unfold apply. apply apply_loop_total; [unfold max_bin_ops; lia | lia]. Qed.

(** ** Additive statements never lose anything *)
Definition le_model (m m' : cmodel) : Prop :=
  forall k, let e := cget_or_new m k in let e' := cget_or_new m' k in
            (ce_complete e = true -> ce_complete e' = true) /\
            (ce_complete e' = true \/ ce_bytes e <= ce_bytes e').
Lemma le_model_refl m : le_model m m.
Proof. intros k. cbv zeta. split; [auto | right; lia]. Qed.
Lemma le_model_trans a b c : le_model a b -> le_model b c -> le_model a c.
Proof. intros H1 H2 k. specialize (H1 k). specialize (H2 k). cbv zeta in *. intuition lia. Qed.
Lemma cget_or_new_put m k e k' : cget_or_new (aput Z.eqb m k e) k' = if k =? k' then e else cget_or_new m k'.
Proof. unfold cget_or_new, cget. rewrite aget_aput by apply zeqb_reflect. now destruct (k =? k'). Qed.
Lemma mark_le m c i : le_model m (mark m c i).
Proof.
  intros k. cbv zeta. unfold mark. rewrite cget_or_new_put. destruct (Z.eqb_spec (ckey c i) k) as [<- |]; cbn; [| split; [auto | right; lia]].
  split; auto.
Qed.
Lemma mark_partial_le m c i b : le_model m (mark_partial m c i b).
Proof.
  intros k. cbv zeta. unfold mark_partial. rewrite cget_or_new_put. destruct (Z.eqb_spec (ckey c i) k) as [<- |]; [| split; [auto | right; lia]].
  set (e := cget_or_new m (ckey c i)). destruct (ce_complete e) eqn:Ec; cbn [negb andb]; [split; auto |].
  destruct (Z.ltb_spec (ce_bytes e) b); cbn [ce_bytes ce_complete]; (split; [congruence || auto | right; lia]).
Qed.
Lemma range_ops_le op : (forall m k, le_model m (op m k)) -> forall fuel m id e b m' b' st,
  range_ops fuel op m id e b = Ret (m', b', st) -> le_model m m'.
Proof.
  intros H. induction fuel as [| f IH]; intros m id e b m' b' st E; cbn [range_ops] in E; [discriminate |].
  destruct (id <=? e).
  - destruct (b =? 0); [apply Ret_inj in E; apply pair_inj in E as [E _]; apply pair_inj in E as [-> _]; apply le_model_refl |].
    eapply le_model_trans; [apply H | eapply IH; eassumption].
  - apply Ret_inj in E; apply pair_inj in E as [E _]; apply pair_inj in E as [-> _]; apply le_model_refl.
Qed.
Lemma apply_token_le m b q len m' b' st : ~ (0 < len /\ char_at q 0 = 45) ->
  apply_token m b q len = Ret (m', b', st) -> le_model m m'.
Proof.
  intros N E. unfold apply_token in E.
  assert (S : (0 <? len) && (char_at q 0 =? 45) = false) by (destruct (Z.ltb_spec 0 len), (Z.eqb_spec (char_at q 0) 45); tauto).
  rewrite S in E. cbn iota in E.
  assert (K : forall m0, Ret (m0, b, false) = Ret (m', b', st) -> le_model m m0 -> le_model m m').
  { intros m0 K L. apply Ret_inj in K. apply pair_inj in K as [K _]. apply pair_inj in K as [<- _]. exact L. }
  destruct (prefix_to_class q len) as [[[cls q2] len2] |]; [| eapply K; [exact E | apply le_model_refl]].
  destruct (cls =? 6).
  { eapply K; [exact E |]. destruct (index_of 58 (ztake len2 q2)); [apply mark_partial_le | apply mark_le]. }
  destruct (len2 <=? 0); [eapply K; [exact E | apply le_model_refl] |].
  destruct (strtoull q2) as [start n1]. destruct (n1 =? 0); [eapply K; [exact E | apply le_model_refl] |].
  destruct (if (n1 <? len2) && (char_at q2 n1 =? 45)
            then let '(e, n2) := strtoull (zskip (n1 + 1) q2) in (e, n1 + 1 + n2, (n2 =? 0) || (e <? start))
            else (start, n1, false)) as [[e numend] bad].
  destruct bad; [eapply K; [exact E | apply le_model_refl] |].
  eapply range_ops_le; [| exact E]. intros m0 k. cbv beta.
  destruct ((numend <? len2) && (char_at q2 numend =? 58)); [apply mark_partial_le | apply mark_le].
Qed.

Lemma index_of_split c p i : index_of c p = Some i -> p = ztake i p ++ c :: zskip (i + 1) p /\ 0 <= i < zlen p.
Proof.
  revert i. induction p as [| x p IH]; intros i E; cbn [index_of] in E; [discriminate |].
  rewrite zlen_cons. pose proof (zlen_nonneg p).
  destruct (Z.eqb_spec x c) as [-> | N].
  - apply Some_inj in E. subst i. split; [| lia]. reflexivity.
  - destruct (index_of c p) as [j |]; [| discriminate]. cbn [option_map] in E. apply Some_inj in E. subst i.
    destruct (IH j eq_refl) as [E Hj]. split; [| lia]. rewrite E at 1.
    unfold ztake, zskip. replace (Z.to_nat (1 + j)) with (S (Z.to_nat j)) by lia.
    replace (Z.to_nat (1 + j + 1)) with (S (Z.to_nat (j + 1))) by lia. reflexivity.
Qed.

Lemma no_drops_rest p i : index_of 44 p = Some i -> no_drops p -> no_drops (zskip (i + 1) p).
Proof.
  intros E N pre post Eq. destruct (index_of_split _ _ _ E) as [S _]. rewrite Eq in S.
  destruct (N ((ztake i p ++ [44]) ++ pre) post) as [N1 N2].
  { rewrite S at 1. rewrite <- !app_assoc. reflexivity. }
  destruct pre as [| c pre].
  - exfalso. apply N2. rewrite app_nil_r. apply last_last.
  - split; [discriminate |]. intros L. apply N2. rewrite <- L. 
    destruct (exists_last (l := c :: pre)) as [l' [x ->]]; [discriminate |].
    rewrite app_assoc, !last_last. reflexivity.
Qed.
Lemma apply_loop_le : forall fuel p b m m', 0 <= b -> no_drops p -> apply_loop fuel p b m = Ret m' -> le_model m m'.
Proof.
  induction fuel as [| f IH]; intros p b m m' Hb N E; cbn [apply_loop] in E; [discriminate |].
  destruct (Z.eqb_spec (zlen p) 0); [apply Ret_inj in E; subst; apply le_model_refl |].
  destruct (apply_token_total m b p (token_len p) Hb) as [m1 [b1 [st [E1 H]]]]. rewrite E1 in E. cbn [bind] in E.
  assert (L1 : le_model m m1).
  { eapply apply_token_le; [| exact E1]. intros [Hl Hc]. destruct p as [| x p]; [now cbn in n |]. cbn in Hc. subst x.
    destruct (N [] p eq_refl) as [X _]. now apply X. }
  destruct st; [apply Ret_inj in E; now subst |].
  eapply le_model_trans; [exact L1 |]. eapply IH; [| | exact E]; [lia |].
  unfold token_len. destruct (index_of 44 p) as [i |] eqn:Ei; [eapply no_drops_rest; eassumption |].
  rewrite zskip_all by lia. intros pre post Eq. destruct pre; discriminate Eq.
Qed.
Lemma apply_le m s m' : no_drops s -> apply m s = Ret m' -> le_model m m'.
Proof. intros N. apply apply_loop_le; [unfold max_bin_ops; lia | assumption]. Qed.

Lemma commit_bin_le m b : le_model m (commit_bin m b).
Proof. unfold commit_bin. destruct (s_complete b); [apply mark_le | apply mark_partial_le]. Qed.
Lemma commit_le sent : forall m, le_model m (fold_left commit_bin sent m).
Proof.
  induction sent as [| b l IH]; intros m; cbn [fold_left]; [apply le_model_refl |].
  eapply le_model_trans; [apply commit_bin_le | apply IH].
Qed.
Lemma has_entry m c i : has m c i = ce_complete (cget_or_new m (ckey c i)).
Proof. unfold has, cget_or_new. now destruct (cget m (ckey c i)). Qed.
Lemma bytes_entry m c i : received_bytes m c i = ce_bytes (cget_or_new m (ckey c i)).
Proof. unfold received_bytes, cget_or_new. now destruct (cget m (ckey c i)). Qed.
Lemma holds_mono m m' b : le_model m m' -> holds m b -> holds m' b.
Proof.
  intros L H. unfold holds in *. rewrite !has_entry, !bytes_entry in *. destruct (L (ckey (s_class b) (s_id b))) as [L1 L2].
  destruct H as [H | [H1 H2]]; [left; auto |]. destruct L2 as [L2 | L2]; [left; assumption | right; split; [assumption | lia]].
Qed.
Lemma commit_holds sent : forall m b, In b sent -> holds (fold_left commit_bin sent m) b.
Proof.
  induction sent as [| x l IH]; intros m b Hin; [easy |]. cbn [fold_left]. destruct Hin as [-> | Hin]; [| now apply IH].
  eapply holds_mono; [apply commit_le |]. unfold holds, commit_bin. destruct (s_complete b) eqn:Ec.
  - left. rewrite has_entry. unfold mark. rewrite cget_or_new_put, Z.eqb_refl. reflexivity.
  - rewrite has_entry, bytes_entry. unfold mark_partial. rewrite cget_or_new_put, Z.eqb_refl.
    set (e := cget_or_new m (ckey (s_class b) (s_id b))). destruct (ce_complete e) eqn:Ee; cbn [negb andb]; [left; assumption |].
    right. split; [reflexivity |]. destruct (Z.ltb_spec (ce_bytes e) (s_end b)); cbn [ce_bytes]; lia.
Qed.

(** ** The session table *)
Notation sadel := (adel str_eqb). Notation saget := (aget str_eqb). Notation saput := (aput str_eqb).
Lemma adel_notin {V} (l : list (list Z * V)) k : ~ In k (map fst l) -> sadel l k = l.
Proof.
  induction l as [| [a b] l IH]; cbn [map fst]; intros N; [reflexivity |]. unfold adel in *. cbn [filter fst].
  destruct (str_eqb_spec a k) as [-> |]; [exfalso; apply N; now left |]. cbn [negb]. f_equal. apply IH. intros I. apply N. now right.
Qed.
Lemma aput_perm {V} (l : list (list Z * V)) k v : NoDup (map fst l) -> Permutation (saput l k v) ((k, v) :: sadel l k).
Proof.
  induction l as [| [a b] l IH]; intros ND; cbn [aput]; [reflexivity |].
  cbn [map fst] in ND. inversion_clear ND as [| ? ? Na ND'].
  change (sadel ((a, b) :: l) k) with (if negb (str_eqb a k) then (a, b) :: sadel l k else sadel l k).
  destruct (str_eqb_spec a k) as [-> | N]; cbn [negb].
  - rewrite adel_notin by assumption. reflexivity.
  - rewrite IH by assumption. apply perm_swap.
Qed.
Lemma adel_perm {V} (l l' : list (list Z * V)) k : Permutation l l' -> Permutation (sadel l k) (sadel l' k).
Proof.
  intros P. unfold adel. induction P; cbn [filter]; auto.
  - destruct (negb (str_eqb (fst x) k)); auto.
  - destruct (negb (str_eqb (fst x) k)), (negb (str_eqb (fst y) k)); auto. apply perm_swap.
  - etransitivity; eauto.
Qed.
Lemma aget_perm {V} (l l' : list (list Z * V)) k : Permutation l l' -> NoDup (map fst l) -> saget l k = saget l' k.
Proof.
  intros P ND. assert (ND' : NoDup (map fst l')) by (eapply Permutation_NoDup; [apply Permutation_map; exact P | exact ND]).
  destruct (saget l k) as [v |] eqn:E.
  - apply (aget_In _ str_eqb_spec) in E. symmetry. apply (aget_NoDup _ str_eqb_spec); [assumption |]. eapply Permutation_in; eauto.
  - symmetry. apply (aget_None _ str_eqb_spec). apply (aget_None _ str_eqb_spec) in E. intros I. apply E.
    eapply Permutation_in; [apply Permutation_map; symmetry; exact P | exact I].
Qed.
Definition strip (kc : list Z * channel) : list Z * cmodel := (fst kc, ch_model (snd kc)).
Lemma strip_keys L : map fst (map strip L) = map fst L.
Proof. rewrite map_map. reflexivity. Qed.
Lemma strip_get L k : saget (map strip L) k = option_map ch_model (saget L k).
Proof. induction L as [| [a b] L IH]; cbn [map strip aget fst snd]; [reflexivity |]. destruct (str_eqb a k); auto. Qed.
Lemma strip_del L k : map strip (sadel L k) = sadel (map strip L) k.
Proof. unfold adel. induction L as [| [a b] L IH]; cbn [map filter strip fst snd]; [reflexivity |]. destruct (str_eqb a k); cbn [negb map]; now rewrite ?IH. Qed.

Definition later (a b : list Z * channel) : Prop := ch_used (snd b) < ch_used (snd a).
Record agree (maxc : Z) (s : manager) (t : sessions) (L : list (list Z * channel)) : Prop := {
  ag_perm : Permutation (channels s) L;
  ag_live : map strip L = live t;
  ag_sorted : StronglySorted later L;
  ag_clock : Forall (fun kc => ch_used (snd kc) <= use_clock s) L;
  ag_nodup : NoDup (map fst L);
  ag_names : Forall (fun kc => exists n, 1 <= n <= opened t /\ fst kc = cid_text n) L;
  ag_len : zlen L <= maxc;
  ag_max : max_channels s = maxc;
  ag_next : next_cid s = opened t + 1;
  ag_open : 0 <= opened t;
  ag_use : 0 <= use_clock s }.

Lemma cid_text_inj n n' : 0 <= n -> 0 <= n' -> cid_text n = cid_text n' -> n = n'.
Proof. unfold cid_text. intros H H' E. apply app_inv_head in E. now apply dec_inj. Qed.

Lemma sorted_filter p L : StronglySorted later L -> StronglySorted later (filter p L).
Proof.
  induction 1 as [| x L S IH F]; cbn [filter]; [constructor |]. destruct (p x); [| assumption].
  constructor; [assumption |]. rewrite Forall_forall in *. intros y Hy. apply filter_In in Hy as [Hy _]. auto.
Qed.
Lemma Forall_adel {V} (P : list Z * V -> Prop) L k : Forall P L -> Forall P (sadel L k).
Proof. intros F. rewrite Forall_forall in *. intros y Hy. apply filter_In in Hy as [Hy _]. auto. Qed.

Lemma touch_agree maxc s t L cid ch m : agree maxc s t L -> use_clock s + 1 < two64 ->
  chget (channels s) cid = Some ch ->
  agree maxc (touch s cid ch m) (used_now t cid m)
        ((cid, {| ch_model := m; ch_used := use_clock s + 1 |}) :: sadel L cid).
Proof.
  intros A Hc G. destruct A. assert (NDc : NoDup (map fst (channels s))).
  { eapply Permutation_NoDup; [apply Permutation_map; symmetry; exact ag_perm0 | assumption]. }
  unfold touch, used_now. rewrite wrap64_small by lia.
  assert (GL : saget L cid = Some ch) by (rewrite <- (aget_perm _ _ cid ag_perm0 NDc); exact G).
  assert (IL : In (cid, ch) L) by now apply (aget_In _ str_eqb_spec).
  constructor; cbn [channels live opened use_clock max_channels next_cid]; auto.
  - rewrite aput_perm by assumption. constructor. now apply adel_perm.
  - cbn [map strip fst snd ch_model]. f_equal. now rewrite strip_del, ag_live0.
  - constructor; [now apply sorted_filter |]. apply Forall_adel. eapply Forall_impl; [| exact ag_clock0].
    cbv beta. intros kc H. unfold later. cbn [snd ch_used]. lia.
  - constructor; [cbn; lia |]. apply Forall_adel. eapply Forall_impl; [| exact ag_clock0]. cbv beta. intros; lia.
  - cbn [map fst]. constructor; [| now apply (adel_NoDup _ str_eqb_spec)].
    intros I. apply (adel_keys _ str_eqb_spec) in I. tauto.
  - constructor; [| now apply Forall_adel]. rewrite Forall_forall in ag_names0. exact (ag_names0 _ IL).
  - rewrite zlen_cons. pose proof (adel_length_in str_eqb str_eqb_spec L cid (in_map fst _ _ IL)). unfold zlen in *. lia.
  - lia.
Qed.

Lemma lru_victim_spec l : forall v, let r := lru_victim v l in
  (In r (v :: l)) /\ Forall (fun x => ch_used (snd r) <= ch_used (snd x)) (v :: l).
Proof.
  induction l as [| x l IH]; intros v; cbn [lru_victim]; cbv zeta.
  - split; [now left |]. constructor; [lia | constructor].
  - destruct (IH (if ch_used (snd x) <? ch_used (snd v) then x else v)) as [I F]. cbv zeta in *.
    inversion_clear F as [| ? ? F1 F2]. destruct (Z.ltb_spec (ch_used (snd x)) (ch_used (snd v))); split.
    + right. exact I.
    + constructor; [lia |]. constructor; assumption.
    + destruct I as [I | I]; [left; assumption | right; right; assumption].
    + constructor; [assumption |]. constructor; [lia | assumption].
Qed.

Lemma sorted_last L x : StronglySorted later (L ++ [x]) -> Forall (fun y => later y x) L.
Proof.
  induction L as [| y L IH]; cbn [app]; intros S; [constructor |]. inversion_clear S as [| ? ? S' F].
  constructor; [| auto]. rewrite Forall_forall in F. apply F. apply in_or_app. right. now left.
Qed.
Lemma sorted_app_l L x : StronglySorted later (L ++ [x]) -> StronglySorted later L.
Proof.
  induction L as [| y L IH]; cbn [app]; intros S; [constructor |]. inversion_clear S as [| ? ? S' F].
  constructor; [auto |]. rewrite Forall_forall in *. intros z Hz. apply F. apply in_or_app. now left.
Qed.

Lemma open_agree maxc s t L : 1 <= maxc -> agree maxc s t L -> use_clock s + 1 < two64 -> opened t + 2 < two64 ->
  exists s' L', open s = Ret (cid_text (opened t + 1), s') /\ agree maxc s' (snd (spec_call maxc t Open)) L'
                /\ use_clock s' = use_clock s + 1.
Proof.
  intros Hm A Hc Ho. pose proof A as A0. destruct A.
  assert (NDc : NoDup (map fst (channels s))).
  { eapply Permutation_NoDup; [apply Permutation_map; symmetry; exact ag_perm0 | assumption]. }
  assert (Lc : zlen (channels s) = zlen L) by (unfold zlen; now rewrite (Permutation_length ag_perm0)).
  set (K := firstn (Z.to_nat (maxc - 1)) L).
  assert (HK : exists kept, (if max_channels s <=? zlen (channels s)
                 then match channels s with [] => UB | x :: l => Ret (sadel (channels s) (fst (lru_victim x (x :: l)))) end
                 else Ret (channels s)) = Ret kept /\ Permutation kept K).
  { rewrite ag_max0, Lc. destruct (Z.leb_spec maxc (zlen L)) as [Hfull | Hroom].
    - assert (zlen L = maxc) as HL by lia.
      destruct (exists_last (l := L)) as [L0 [x EL]]; [intros ->; change (zlen (@nil (list Z * channel))) with 0 in HL; lia |].
      destruct (channels s) as [| y l] eqn:Ec; [rewrite <- Lc in HL; change (zlen (@nil (list Z * channel))) with 0 in HL; lia |].
      destruct (lru_victim_spec (y :: l) y) as [Vi Vf]. cbv zeta in Vi, Vf. set (v := lru_victim y (y :: l)) in *.
      assert (Vi' : In v (y :: l)) by (destruct Vi as [<- | Vi]; [now left | assumption]).
      assert (VL : In v L) by (eapply Permutation_in; eauto).
      assert (EV : v = x).
      { rewrite EL in VL. apply in_app_or in VL as [VL | [<- | []]]; [exfalso | reflexivity].
        rewrite EL in ag_sorted0. apply sorted_last in ag_sorted0. rewrite Forall_forall in ag_sorted0.
        specialize (ag_sorted0 v VL). unfold later in ag_sorted0.
        assert (Ix : In x (y :: l)).
        { eapply Permutation_in; [symmetry; exact ag_perm0 |]. rewrite EL. apply in_or_app. right. now left. }
        inversion_clear Vf as [| ? ? _ Vf']. rewrite Forall_forall in Vf'. specialize (Vf' x Ix). lia. }
      exists (sadel (y :: l) (fst v)). split; [reflexivity |]. rewrite (adel_perm _ _ _ ag_perm0).
      assert (EK : K = L0).
      { unfold K. rewrite EL. replace (Z.to_nat (maxc - 1)) with (length L0).
        - rewrite firstn_app, firstn_all, Nat.sub_diag. cbn. now rewrite app_nil_r.
        - rewrite EL, zlen_app in HL. change (zlen [x]) with 1 in HL. unfold zlen in HL. lia. }
      rewrite EK, EL, EV. unfold adel. rewrite filter_app. cbn [filter].
      destruct (str_eqb_spec (fst x) (fst x)); [| congruence]. cbn [negb]. rewrite app_nil_r.
      change (filter _ L0) with (sadel L0 (fst x)). rewrite adel_notin; [reflexivity |].
      rewrite EL, map_app in ag_nodup0. cbn [map] in ag_nodup0.
      intros I. apply NoDup_remove_2 in ag_nodup0. apply ag_nodup0. rewrite app_nil_r. assumption.
    - exists (channels s). split; [reflexivity |]. unfold K. rewrite firstn_all2; [assumption |]. unfold zlen in Hroom. lia. }
  destruct HK as [kept [EK PK]]. unfold open. rewrite EK. cbn [bind]. rewrite ag_next0.
  assert (SubK : forall z, In z K -> In z L) by (intros z Hz; unfold K in Hz; rewrite <- (firstn_skipn (Z.to_nat (maxc - 1)) L); apply in_or_app; now left).
  assert (NK : ~ In (cid_text (opened t + 1)) (map fst K)).
  { intros I. apply in_map_iff in I as [z [Ez Iz]]. apply SubK in Iz. rewrite Forall_forall in ag_names0.
    destruct (ag_names0 z Iz) as [n [Hn En]]. rewrite En in Ez. apply cid_text_inj in Ez; lia. }
  assert (NDK : NoDup (map fst K)).
  { unfold K. rewrite <- firstn_map. rewrite <- (firstn_skipn (Z.to_nat (maxc - 1)) (map fst L)) in ag_nodup0.
    now apply NoDup_app_inv in ag_nodup0 as [X _]. }
  assert (NDk : NoDup (map fst kept)) by (eapply Permutation_NoDup; [apply Permutation_map; symmetry; exact PK | exact NDK]).
  assert (Gk : chget kept (cid_text (opened t + 1)) = None).
  { unfold chget. rewrite (aget_perm _ _ _ PK NDk). now apply (aget_None _ str_eqb_spec). }
  rewrite Gk. rewrite !wrap64_small by lia.
  eexists. exists ((cid_text (opened t + 1), {| ch_model := []; ch_used := use_clock s + 1 |}) :: K). split; [reflexivity |].
  split; [| reflexivity].
  assert (FK : forall P, Forall P L -> Forall P K).
  { intros P F. rewrite Forall_forall in *. auto. }
  constructor; cbn [channels live opened use_clock max_channels next_cid snd spec_call]; auto.
  - rewrite aput_perm by assumption. constructor. rewrite (adel_perm _ _ _ PK). now rewrite adel_notin.
  - cbn [map strip fst snd ch_model]. f_equal. unfold K. rewrite <- firstn_map. now rewrite ag_live0.
  - constructor.
    + unfold K. clear -ag_sorted0. revert ag_sorted0. generalize (Z.to_nat (maxc - 1)) as n. induction L as [| x L IH]; intros n S; [destruct n; constructor |].
      destruct n; [constructor |]. cbn [firstn]. inversion_clear S as [| ? ? S' F]. constructor; [auto |].
      rewrite Forall_forall in *. intros z Hz. apply F. rewrite <- (firstn_skipn n L). apply in_or_app. now left.
    + apply FK. eapply Forall_impl; [| exact ag_clock0]. cbv beta. intros kc H. unfold later. cbn. lia.
  - constructor; [cbn; lia |]. apply FK. eapply Forall_impl; [| exact ag_clock0]. cbv beta. intros; lia.
  - cbn [map fst]. now constructor.
  - constructor; [exists (opened t + 1); cbn; split; [lia | reflexivity] |]. apply FK. eapply Forall_impl; [| exact ag_names0].
    intros kc [n [Hn En]]. exists n. split; [lia | assumption].
  - rewrite zlen_cons. unfold K, zlen. rewrite firstn_length. lia.
  - lia.
  - lia.
Qed.

Lemma call_agree maxc s t L c : 1 <= maxc -> agree maxc s t L -> use_clock s + 1 < two64 -> opened t + 2 < two64 ->
  exists s' L', do_call s c = Ret (fst (spec_call maxc t c), s') /\ agree maxc s' (snd (spec_call maxc t c)) L'
                /\ use_clock s' <= use_clock s + 1 /\ opened (snd (spec_call maxc t c)) <= opened t + 1.
Proof.
  intros Hm A Hc Ho. assert (GC : forall cid, chget (channels s) cid = saget L cid).
  { intros cid. destruct A. apply aget_perm; [assumption |].
    eapply Permutation_NoDup; [apply Permutation_map; symmetry; exact ag_perm0 | assumption]. }
  assert (GM : forall cid, model_of t cid = option_map ch_model (chget (channels s) cid)).
  { intros cid. rewrite GC. unfold model_of. destruct A. now rewrite <- ag_live0, strip_get. }
  assert (TU : forall cid ch m, use_clock (touch s cid ch m) <= use_clock s + 1).
  { intros. unfold touch. cbn [use_clock]. destruct A. rewrite wrap64_small; lia. }
  destruct c as [| cid | cid sent | cid text | cid |]; cbn [do_call].
  - destruct (open_agree maxc s t L Hm A Hc Ho) as [s' [L' [E [A' Eu]]]]. rewrite E. cbn [bind].
    exists s', L'. split; [reflexivity |]. split; [assumption |]. split; [lia |]. cbn. lia.
  - unfold snapshot. cbn [spec_call]. rewrite GM. destruct (chget (channels s) cid) as [ch |] eqn:E; cbn [option_map fst snd].
    + do 2 eexists. split; [reflexivity |]. split; [apply (touch_agree maxc s t L cid ch _ A Hc E) |]. split; [apply TU | cbn; lia].
    + exists s, L. split; [reflexivity |]. split; [assumption |]. split; lia.
  - unfold commit. cbn [spec_call]. rewrite GM. destruct (chget (channels s) cid) as [ch |] eqn:E; cbn [option_map fst snd].
    + do 2 eexists. split; [reflexivity |]. split; [apply (touch_agree maxc s t L cid ch _ A Hc E) |]. split; [apply TU | cbn; lia].
    + exists s, L. split; [reflexivity |]. split; [assumption |]. split; lia.
  - unfold apply_model. cbn [spec_call]. rewrite GM. destruct (chget (channels s) cid) as [ch |] eqn:E; cbn [option_map fst snd bind].
    + destruct (apply_total (ch_model ch) text) as [m' Em]. rewrite Em. cbn [bind fst snd].
      do 2 eexists. split; [reflexivity |]. split; [apply (touch_agree maxc s t L cid ch _ A Hc E) |]. split; [apply TU | cbn; lia].
    + exists s, L. split; [reflexivity |]. split; [assumption |]. split; lia.
  - unfold close. cbn [spec_call]. rewrite GM. destruct (chget (channels s) cid) as [ch |] eqn:E; cbn [option_map fst snd].
    + eexists. exists (sadel L cid). split; [reflexivity |]. split; [| cbn; lia]. destruct A.
      constructor; cbn [channels live opened use_clock max_channels next_cid]; auto.
      * now apply adel_perm.
      * now rewrite strip_del, ag_live0.
      * now apply sorted_filter.
      * now apply Forall_adel.
      * now apply (adel_NoDup _ str_eqb_spec).
      * now apply Forall_adel.
      * pose proof (adel_length str_eqb L cid). unfold zlen in *. lia.
    + exists s, L. split; [reflexivity |]. split; [assumption |]. split; lia.
  - exists s, L. cbn [spec_call fst snd]. split; [| split; [assumption | lia]]. do 3 f_equal. unfold size. destruct A.
    rewrite <- ag_live0, zlen_map. unfold zlen. now rewrite (Permutation_length ag_perm0).
Qed.

Lemma reorder_agree maxc s t L l : agree maxc s t L -> Permutation (channels s) l -> agree maxc (reordered s l) t L.
Proof. intros A P. destruct A. constructor; cbn; auto. rewrite <- P. assumption. Qed.

Lemma runs_agree maxc s h s' : runs_to s h s' -> forall t L, 1 <= maxc -> agree maxc s t L ->
  use_clock s + zlen h < two64 -> opened t + 1 + zlen h < two64 ->
  map snd h = fst (spec_run maxc t (map fst h)) /\ exists L', agree maxc s' (snd (spec_run maxc t (map fst h))) L'
    /\ use_clock s' <= use_clock s + zlen h /\ opened (snd (spec_run maxc t (map fst h))) <= opened t + zlen h.
Proof.
  induction 1 as [s | s l h s' P R IH | s c a s1 h s' D R IH]; intros t L Hm A Hu Ho.
  - change (zlen (@nil (call * answer))) with 0 in *. cbn. split; [reflexivity |]. exists L. split; [assumption |]. split; lia.
  - eapply IH; eauto. eapply reorder_agree; eauto.
  - rewrite zlen_cons in *. pose proof (zlen_nonneg h).
    destruct (call_agree maxc s t L c Hm A ltac:(lia) ltac:(lia)) as [s2 [L2 [E [A2 [U2 O2]]]]].
    rewrite D in E. apply Ret_inj in E. apply pair_inj in E as [-> ->]. cbn [map fst spec_run].
    destruct (spec_call maxc t c) as [a t1]. cbn [fst snd] in *.
    destruct (IH t1 L2 Hm A2 ltac:(lia) ltac:(lia)) as [E3 [L3 [A3 [U3 O3]]]].
    destruct (spec_run maxc t1 (map fst h)) as [r t2]. cbn [fst snd] in *. split; [now rewrite <- E3 |].
    exists L3. split; [assumption |]. split; lia.
Qed.

Lemma new_agree maxc : 0 <= maxc -> agree maxc (new_manager maxc) no_sessions [].
Proof. intros H. constructor; cbn; auto; try constructor; unfold zlen; cbn; lia. Qed.

Theorem manager_refines maxc h s : 1 <= maxc -> runs_to (new_manager maxc) h s -> zlen h < 2 ^ 64 - 1 ->
  map snd h = fst (spec_run maxc no_sessions (map fst h)).
Proof.
  intros Hm R Hl. eapply runs_agree; [exact R | exact Hm | apply new_agree; lia | |]; change (use_clock (new_manager maxc)) with 0; change (opened no_sessions) with 0; unfold two64; lia.
Qed.

Theorem manager_runs maxc cs : 1 <= maxc -> zlen cs < 2 ^ 64 - 1 ->
  exists h s, runs_to (new_manager maxc) h s /\ map fst h = cs.
Proof.
  intros Hm Hl.
  enough (G : forall cs s t L, agree maxc s t L -> use_clock s + zlen cs < two64 -> opened t + 1 + zlen cs < two64 ->
     exists h s', runs_to s h s' /\ map fst h = cs).
  { eapply G; [apply new_agree; lia | |]; change (use_clock (new_manager maxc)) with 0; change (opened no_sessions) with 0; unfold two64; lia. }
  clear cs Hl. induction cs as [| c cs IH]; intros s t L A Hu Ho.
  - exists [], s. split; [constructor | reflexivity].
  - rewrite zlen_cons in *. pose proof (zlen_nonneg cs).
    destruct (call_agree maxc s t L c Hm A ltac:(lia) ltac:(lia)) as [s2 [L2 [E [A2 [U2 O2]]]]].
    destruct (IH s2 _ L2 A2 ltac:(lia) ltac:(lia)) as [h [s' [R Eh]]].
    eexists ((c, _) :: h), s'. split; [econstructor; eassumption | cbn; now rewrite Eh].
Qed.

(** Fresh ids. *)
Lemma spec_ids maxc cs : forall t, 0 <= opened t ->
  NoDup (ids_of (combine cs (fst (spec_run maxc t cs)))) /\
  Forall (fun c => exists n, opened t < n /\ c = cid_text n) (ids_of (combine cs (fst (spec_run maxc t cs)))).
Proof.
  induction cs as [| c cs IH]; intros t Ht; cbn [spec_run]; [split; constructor |].
  destruct (spec_call maxc t c) as [a t1] eqn:E. destruct (spec_run maxc t1 cs) as [r t2] eqn:E2. cbn [fst combine].
  assert (Hc : (exists cid, a = ACid cid /\ cid = cid_text (opened t + 1) /\ opened t1 = opened t + 1)
               \/ ((forall cid, a <> ACid cid) /\ opened t1 = opened t)).
  { destruct c as [| cid | cid sent | cid text | cid |]; cbn [spec_call] in E; try destruct (model_of t cid); try destruct (apply _ text);
      apply pair_inj in E as [<- <-]; first [left; eexists; split; [reflexivity | split; reflexivity] | right; split; [discriminate | reflexivity]]. }
  destruct (IH t1) as [I1 I2]; [destruct Hc as [[? [? [? ->]]] | [? ->]]; lia |]. rewrite E2 in I1, I2. cbn [fst] in *.
  unfold ids_of in *. cbn [map concat snd].
  destruct Hc as [[cid [-> [-> Eo]]] | [Na Eo]].
  - cbn [app]. rewrite Eo in I2. split.
    + constructor; [| assumption]. intros I. rewrite Forall_forall in I2. destruct (I2 _ I) as [n [Hn En]].
      apply cid_text_inj in En; lia.
    + constructor; [exists (opened t + 1); split; [lia | reflexivity] |]. eapply Forall_impl; [| exact I2].
      intros x [n [Hn En]]. exists n. split; [lia | assumption].
  - rewrite Eo in I2. destruct a as [cid | | | |]; cbn [app]; [now destruct (Na cid) | auto | auto | auto | auto].
Qed.
Theorem fresh_ids maxc h s : 1 <= maxc -> runs_to (new_manager maxc) h s -> zlen h < 2 ^ 64 - 1 -> NoDup (ids_of h).
Proof.
  intros Hm R Hl. pose proof (manager_refines maxc h s Hm R Hl) as E.
  destruct (spec_ids maxc (map fst h) no_sessions ltac:(cbn; lia)) as [N _].
  rewrite <- E in N. replace (combine (map fst h) (map snd h)) with h in N; [assumption |].
  clear. induction h as [| [a b] h IH]; cbn; [reflexivity | now rewrite <- IH].
Qed.
Theorem size_bounded maxc h s : 1 <= maxc -> runs_to (new_manager maxc) h s -> zlen h < 2 ^ 64 - 1 -> size s <= maxc.
Proof.
  intros Hm R Hl. destruct (runs_agree maxc _ h s R no_sessions [] Hm) as [_ [L [A _]]].
  - apply new_agree. lia.
  - change (use_clock (new_manager maxc)) with 0; change (opened no_sessions) with 0; unfold two64; lia.
  - change (use_clock (new_manager maxc)) with 0; change (opened no_sessions) with 0; unfold two64; lia.
  - destruct A. unfold size, zlen. rewrite (Permutation_length ag_perm0). exact ag_len0.
Qed.

(** ** C13 *)
Definition model_in (s : manager) (cid : list Z) : option cmodel := option_map ch_model (chget (channels s) cid).
Definition names (c : call) (cid : list Z) : Prop :=
  match c with Snapshot d | Commit d _ | ApplyModel d _ | Close d => d = cid | Open | Size => False end.

Lemma touch_get s d ch m cid : chget (channels (touch s d ch m)) cid =
  if str_eqb d cid then Some {| ch_model := m; ch_used := wrap64 (use_clock s + 1) |} else chget (channels s) cid.
Proof. unfold chget, touch. cbn [channels]. apply aget_aput. apply str_eqb_spec. Qed.

Lemma open_get s cid s' d : open s = Ret (cid, s') -> d <> cid ->
  chget (channels s') d = chget (channels s) d \/ chget (channels s') d = None.
Proof.
  unfold open. intros E Nd.
  destruct (max_channels s <=? zlen (channels s)).
  - destruct (channels s) as [| x l] eqn:Ec; [discriminate |]. cbn [bind] in E. apply Ret_inj in E. apply pair_inj in E as [<- <-].
    unfold chget. cbn [channels]. rewrite !aget_aput by apply str_eqb_spec.
    destruct (str_eqb_spec (cid_text (next_cid s)) d); [congruence |].
    rewrite !aget_adel by apply str_eqb_spec. destruct (str_eqb _ d); auto.
  - cbn [bind] in E. apply Ret_inj in E. apply pair_inj in E as [<- <-]. left. unfold chget. cbn [channels].
    rewrite aget_aput by apply str_eqb_spec. destruct (str_eqb_spec (cid_text (next_cid s)) d); [congruence | reflexivity].
Qed.

Theorem isolated s c a s' cid : do_call s c = Ret (a, s') -> ~ names c cid -> a <> ACid cid ->
  model_in s' cid = model_in s cid \/ (c = Open /\ model_in s' cid = None).
Proof.
  intros E N Na. unfold model_in. destruct c as [| d | d sent | d text | d |]; cbn [do_call names] in *.
  - destruct (open s) as [[k s1] | |] eqn:Eo; try discriminate E. cbn [bind] in E. apply Ret_inj in E. apply pair_inj in E as [<- <-].
    assert (Nk : cid <> k) by congruence. destruct (open_get s k s1 cid Eo Nk) as [-> | ->]; auto.
  - unfold snapshot in E. destruct (chget (channels s) d); apply Ret_inj in E; apply pair_inj in E as [<- <-]; [| auto].
    rewrite touch_get. destruct (str_eqb_spec d cid); [congruence | auto].
  - unfold commit in E. destruct (chget (channels s) d); apply Ret_inj in E; apply pair_inj in E as [<- <-]; [| auto].
    rewrite touch_get. destruct (str_eqb_spec d cid); [congruence | auto].
  - unfold apply_model in E. destruct (chget (channels s) d) as [ch |].
    + destruct (apply (ch_model ch) text); try discriminate E. cbn [bind] in E. apply Ret_inj in E. apply pair_inj in E as [<- <-].
      rewrite touch_get. destruct (str_eqb_spec d cid); [congruence | auto].
    + cbn [bind] in E. apply Ret_inj in E. apply pair_inj in E as [<- <-]. auto.
  - unfold close in E. destruct (chget (channels s) d); apply Ret_inj in E; apply pair_inj in E as [<- <-]; [| auto].
    unfold chget. cbn [channels]. rewrite aget_adel by apply str_eqb_spec. destruct (str_eqb_spec d cid); [congruence | auto].
  - apply Ret_inj in E. apply pair_inj in E as [<- <-]. auto.
Qed.

(** One call: either the model only grows, or the session is gone. *)
Lemma call_keeps s c a s' cid m' : do_call s c = Ret (a, s') -> keeps cid c -> a <> ACid cid ->
  model_in s' cid = Some m' -> exists m, model_in s cid = Some m /\ le_model m m'.
Proof.
  intros E Kc Na M'. assert (D : names c cid \/ ~ names c cid).
  { destruct c as [| d | d sent | d text | d |]; cbn [names]; auto; destruct (str_eqb_spec d cid); auto. }
  destruct D as [D | D].
  - unfold model_in in *. destruct c as [| d | d sent | d text | d |]; cbn [do_call names keeps] in *; try tauto; subst.
    + unfold snapshot in E. destruct (chget (channels s) cid) as [ch |] eqn:G; apply Ret_inj in E; apply pair_inj in E as [<- <-];
        [| rewrite G in M'; discriminate].
      rewrite touch_get in M'. destruct (str_eqb_spec cid cid); [| congruence]. apply Some_inj in M'. subst m'.
      eexists. split; [reflexivity | apply le_model_refl].
    + unfold commit in E. destruct (chget (channels s) cid) as [ch |] eqn:G; apply Ret_inj in E; apply pair_inj in E as [<- <-];
        [| rewrite G in M'; discriminate].
      rewrite touch_get in M'. destruct (str_eqb_spec cid cid); [| congruence]. apply Some_inj in M'. subst m'.
      eexists. split; [reflexivity | apply commit_le].
    + unfold apply_model in E. destruct (chget (channels s) cid) as [ch |] eqn:G.
      * destruct (apply (ch_model ch) text) as [m1 | |] eqn:Ea; try discriminate E. cbn [bind] in E. apply Ret_inj in E. apply pair_inj in E as [<- <-].
        rewrite touch_get in M'. destruct (str_eqb_spec cid cid); [| congruence]. apply Some_inj in M'. subst m'.
        eexists. split; [reflexivity |]. eapply apply_le; [| exact Ea]. auto.
      * cbn [bind] in E. apply Ret_inj in E. apply pair_inj in E as [<- <-]. rewrite G in M'. discriminate.
  - destruct (isolated s c a s' cid E D Na) as [Eq | [_ Eq]]; [| congruence].
    exists m'. rewrite <- Eq. split; [assumption | apply le_model_refl].
Qed.

Lemma ids_of_cons c a h : ids_of ((c, a) :: h) = (match a with ACid k => [k] | _ => [] end) ++ ids_of h.
Proof. reflexivity. Qed.
(** Keys stay distinct; ids in use come from the history. *)
Lemma runs_grow maxc s h s' : runs_to s h s' -> forall t L, 1 <= maxc -> agree maxc s t L ->
  use_clock s + zlen h < two64 -> opened t + 1 + zlen h < two64 ->
  forall cid n m', cid = cid_text n -> 1 <= n <= opened t ->
  Forall (fun ca => keeps cid (fst ca)) h -> model_in s' cid = Some m' ->
  exists m, model_in s cid = Some m /\ le_model m m'.
Proof.
  induction 1 as [s | s l h s' P R IH | s c a s1 h s' D R IH]; intros t L Hm A Hu Ho cid n m' Ec Hn F M'.
  - exists m'. split; [assumption | apply le_model_refl].
  - destruct (IH t L Hm (reorder_agree _ _ _ _ _ A P) Hu Ho cid n m' Ec Hn F M') as [m [E Le]].
    exists m. split; [| assumption]. rewrite <- E. unfold model_in, chget, reordered. cbn [channels]. f_equal.
    apply aget_perm; [assumption |]. destruct A. eapply Permutation_NoDup; [apply Permutation_map; symmetry; exact ag_perm0 | assumption].
  - rewrite zlen_cons in *. pose proof (zlen_nonneg h). inversion_clear F as [| ? ? F1 F2]. cbn [fst] in F1.
    destruct (call_agree maxc s t L c Hm A ltac:(lia) ltac:(lia)) as [s2 [L2 [E [A2 [U2 O2]]]]].
    pose proof D as D0. rewrite D in E. apply Ret_inj in E. apply pair_inj in E as [Ea ->].
    assert (O1 : opened t <= opened (snd (spec_call maxc t c))).
    { destruct c as [| d | d sent | d text | d |]; cbn [spec_call]; try destruct (model_of t d); try destruct (apply _ text); cbn; lia. }
    destruct (IH _ L2 Hm A2 ltac:(lia) ltac:(lia) cid n m' Ec ltac:(lia) F2 M') as [m [Em Le]].
    destruct (call_keeps s c a s2 cid m D0 F1) as [m0 [Em0 Le0]]; [| assumption |].
    + intros ->. destruct c as [| d | d sent | d text | d |]; cbn [spec_call] in Ea; try destruct (model_of t d); try destruct (apply _ text);
        cbn [fst] in Ea; try discriminate Ea. injection Ea as Ea. rewrite Ec in Ea. destruct A. apply cid_text_inj in Ea; lia.
    + exists m0. split; [assumption | eapply le_model_trans; eassumption].
Qed.


Theorem committed_stays maxc h1 s1 cid sent s2 h2 s3 m : 1 <= maxc ->
  runs_to (new_manager maxc) h1 s1 -> do_call s1 (Commit cid sent) = Ret (ADone, s2) -> model_in s1 cid <> None ->
  runs_to s2 h2 s3 -> zlen h1 + zlen h2 < 2 ^ 64 - 2 ->
  Forall (fun ca => keeps cid (fst ca)) h2 -> model_in s3 cid = Some m ->
  Forall (holds m) sent.
Proof.
  intros Hm R1 D N R2 Hl F M.
  destruct (runs_agree maxc _ h1 s1 R1 no_sessions [] Hm) as [_ [L [A [U1 O1]]]].
  { apply new_agree. lia. } { change (use_clock (new_manager maxc)) with 0; change (opened no_sessions) with 0; pose proof (zlen_nonneg h2). unfold two64. lia. } { change (use_clock (new_manager maxc)) with 0; change (opened no_sessions) with 0; pose proof (zlen_nonneg h2). unfold two64. lia. }
  set (t := snd (spec_run maxc no_sessions (map fst h1))) in *.
  cbn [use_clock new_manager opened no_sessions] in U1, O1.
  destruct (call_agree maxc s1 t L (Commit cid sent) Hm A) as [s2' [L2 [E [A2 [U2 O2]]]]].
  { pose proof (zlen_nonneg h2). unfold two64. lia. } { pose proof (zlen_nonneg h2). unfold two64. lia. }
  pose proof D as D0. rewrite D in E. apply Ret_inj in E. apply pair_inj in E as [_ <-].
  unfold model_in in N. destruct (chget (channels s1) cid) as [ch |] eqn:G; [| now cbn in N].
  assert (Hid : exists n, 1 <= n <= opened t /\ cid = cid_text n).
  { destruct A. unfold chget in G. apply (aget_In _ str_eqb_spec) in G. rewrite Forall_forall in ag_names0.
    apply (ag_names0 (cid, ch)). eapply Permutation_in; eauto. }
  destruct Hid as [n [Hn En]].
  assert (Et : opened (snd (spec_call maxc t (Commit cid sent))) = opened t).
  { cbn [spec_call]. destruct (model_of t cid); reflexivity. }
  destruct (runs_grow maxc s2 h2 s3 R2 _ L2 Hm A2) with (cid := cid) (n := n) (m' := m) as [m2 [Em2 Le]]; auto.
  { unfold two64. lia. } { rewrite Et. unfold two64. lia. } { lia. }
  cbn [do_call] in D0. unfold commit in D0. rewrite G in D0. apply Ret_inj in D0. apply pair_inj in D0 as [_ <-].
  unfold model_in in Em2. rewrite touch_get in Em2. destruct (str_eqb_spec cid cid); [| congruence]. cbn [option_map ch_model] in Em2.
  apply Some_inj in Em2. subst m2. apply Forall_forall. intros b Hb. eapply holds_mono; [exact Le |]. now apply commit_holds.
Qed.

(** ** C45 *)
Lemma trim_front_spec l : exists a, l = a ++ trim_front l /\ Forall (fun c => is_blank c = true) a
  /\ match trim_front l with [] => True | c :: _ => is_blank c = false end.
Proof.
  induction l as [| c l [a [E [F N]]]]; cbn [trim_front]; [exists []; repeat split; auto |].
  destruct (is_blank c) eqn:B.
  - exists (c :: a). cbn [app]. split; [now f_equal |]. split; [now constructor | assumption].
  - exists []. repeat split; auto.
Qed.
Lemma trim_front_blank a l : Forall (fun c => is_blank c = true) a -> trim_front (a ++ l) = trim_front l.
Proof. induction 1 as [| c a B F IH]; cbn [app trim_front]; [reflexivity |]. now rewrite B. Qed.
Lemma trim_http l : trim l = http_name <->
  exists a b, l = a ++ http_name ++ b /\ Forall (fun c => is_blank c = true) a /\ Forall (fun c => is_blank c = true) b.
Proof.
  split.
  - intros E. unfold trim in E. destruct (trim_front_spec l) as [a [E1 [F1 _]]].
    destruct (trim_front_spec (rev (trim_front l))) as [b [E2 [F2 _]]].
    exists a, (rev b). split; [| split; [assumption | now apply Forall_rev]].
    rewrite E1 at 1. f_equal. rewrite <- E. rewrite <- rev_app_distr, <- E2. now rewrite rev_involutive.
  - intros [a [b [-> [Fa Fb]]]]. unfold trim. rewrite trim_front_blank by assumption.
    change (trim_front (http_name ++ b)) with (http_name ++ b). rewrite rev_app_distr, trim_front_blank by now apply Forall_rev. reflexivity.
Qed.

Lemma index_of_first c p i : index_of c p = Some i -> Forall (fun x => x <> c) (ztake i p).
Proof.
  revert i. induction p as [| x p IH]; intros i E; cbn [index_of] in E; [discriminate |].
  destruct (Z.eqb_spec x c) as [-> | N].
  - apply Some_inj in E. subst i. constructor.
  - destruct (index_of c p) as [j |] eqn:Ej; [| discriminate]. cbn [option_map] in E. apply Some_inj in E. subst i.
    destruct (index_of_split _ _ _ Ej) as [_ Hj]. unfold ztake. replace (Z.to_nat (1 + j)) with (S (Z.to_nat j)) by lia.
    cbn [firstn]. constructor; [assumption |]. now apply IH.
Qed.
Lemma index_of_absent c p : index_of c p = None -> Forall (fun x => x <> c) p.
Proof.
  induction p as [| x p IH]; intros E; cbn [index_of] in E; [constructor |].
  destruct (Z.eqb_spec x c); [discriminate |]. constructor; [assumption |]. apply IH.
  destruct (index_of c p); [discriminate | reflexivity].
Qed.

(** The first token ends at the first comma. *)
Lemma first_comma (a b t r : list Z) : a ++ 44 :: b = t ++ 44 :: r -> Forall (fun x => x <> 44) a -> Forall (fun x => x <> 44) t ->
  a = t /\ b = r.
Proof.
  revert t. induction a as [| x a IH]; intros [| y t] E Fa Ft; cbn [app] in E.
  - injection E as ->. auto.
  - injection E as E1 _. inversion_clear Ft. congruence.
  - injection E as E1 _. inversion_clear Fa. congruence.
  - injection E as -> E. inversion_clear Fa. inversion_clear Ft. destruct (IH t E) as [-> ->]; auto.
Qed.
Lemma blank_http_no_comma a b : Forall (fun c => is_blank c = true) a -> Forall (fun c => is_blank c = true) b ->
  Forall (fun x => x <> 44) (a ++ http_name ++ b).
Proof.
  intros Fa Fb. assert (B : forall l, Forall (fun c => is_blank c = true) l -> Forall (fun x => x <> 44) l).
  { intros l F. eapply Forall_impl; [| exact F]. cbv beta. intros c H ->. discriminate H. }
  apply Forall_app. split; [auto |]. apply Forall_app. split; [| auto]. repeat constructor; lia.
Qed.

Lemma http_eq : http = http_name.
Proof. reflexivity. Qed.

Lemma negotiate_loop_spec : forall fuel p, (length p < fuel)%nat ->
  (negotiate_loop fuel p = Ret http_name /\ names_http p) \/ (negotiate_loop fuel p = Ret [] /\ ~ names_http p).
Proof.
  induction fuel as [| f IH]; intros p Hf; [lia |]. cbn [negotiate_loop]. rewrite !http_eq.
  destruct (index_of 44 p) as [i |] eqn:Ei.
  - destruct (index_of_split _ _ _ Ei) as [Ep Hi]. pose proof (index_of_first _ _ _ Ei) as Ft.
    remember (ztake i p) as t eqn:Et0. remember (zskip (i + 1) p) as r eqn:Er0.
    destruct (str_eqb_spec (trim t) http_name) as [T | T].
    + left. split; [reflexivity |]. apply trim_http in T as [a [b [Et [Fa Fb]]]]. exists [], a, b, (44 :: r).
      split; [rewrite Ep, Et, <- !app_assoc; reflexivity |]. repeat split; eauto.
    + destruct (Z.leb_spec (i + 1) (zlen p)); [| lia].
      assert (Lr : (length r < f)%nat) by (rewrite Er0; unfold zskip; rewrite skipn_length; unfold zlen in *; lia).
      assert (Eq : names_http p <-> names_http r).
      { split.
        - intros [pre [a [b [post [E [Fa [Fb [Hpre Hpost]]]]]]]].
          destruct Hpre as [-> | [q ->]].
          + exfalso. apply T. apply trim_http. exists a, b. split; [| auto]. cbn [app] in E.
            pose proof (blank_http_no_comma a b Fa Fb) as Fc. destruct Hpost as [-> | [q ->]].
            * exfalso. rewrite app_nil_r in E. rewrite Ep in E. rewrite <- E in Fc. apply Forall_app in Fc as [_ Fc]. inversion_clear Fc. congruence.
            * rewrite Ep in E. rewrite !app_assoc in E. apply first_comma in E as [E _]; auto; rewrite <- !app_assoc in *; auto.
          + assert (exists q', q ++ [44] = t ++ 44 :: q' /\ r = q' ++ a ++ http_name ++ b ++ post /\ (q' = [] \/ exists w, q' = w ++ [44])) as [q' [Eq [Er Hq']]].
            { rewrite Ep in E. rewrite <- app_assoc in E. change ([44] ++ a ++ http_name ++ b ++ post) with (44 :: a ++ http_name ++ b ++ post) in E. set (X := a ++ http_name ++ b ++ post) in *. clearbody X. clear -E Ft. revert t Ft E.
              induction q as [| x q IH]; intros t Ft E; cbn [app] in E.
              - destruct t as [| y t]; cbn [app] in E.
                + injection E as E2. exists []. repeat split; auto.
                + injection E as E1 E2. subst y. inversion_clear Ft. congruence.
              - destruct t as [| y t]; cbn [app] in E; injection E as E1 E2.
                + exists (q ++ [44]). subst x. split; [reflexivity |]. split; [rewrite E2, <- app_assoc; reflexivity | right; eauto].
                + inversion_clear Ft as [| ? ? _ Ft']. destruct (IH t Ft' E2) as [q' [A [B C]]]. exists q'. subst y. cbn [app]. rewrite A. auto. }
            exists q', a, b, post. rewrite Er. repeat split; auto.
        - intros [pre [a [b [post [E [Fa [Fb [Hpre Hpost]]]]]]]]. exists (t ++ 44 :: pre), a, b, post.
          split; [rewrite Ep, E, <- !app_assoc; reflexivity |]. repeat split; auto. right.
          destruct Hpre as [-> | [q ->]]; [exists t; reflexivity | exists (t ++ 44 :: q); rewrite <- app_assoc; reflexivity]. }
      rewrite Eq. apply IH. exact Lr.
  - assert (Ft : Forall (fun x => x <> 44) p) by now apply index_of_absent.
    rewrite ztake_all by lia. destruct (str_eqb_spec (trim p) http_name) as [T | T].
    + left. split; [reflexivity |]. apply trim_http in T as [a [b [-> [Fa Fb]]]]. exists [], a, b, [].
      rewrite !app_nil_r. repeat split; auto.
    + destruct (Z.leb_spec (zlen p + 1) (zlen p)); [lia |]. right. split; [reflexivity |].
      intros [pre [a [b [post [E [Fa [Fb [Hpre Hpost]]]]]]]]. apply T. apply trim_http. exists a, b. split; [| auto].
      destruct Hpre as [-> | [q ->]]; [| exfalso].
      * destruct Hpost as [-> | [q ->]]; [now rewrite !app_nil_r in E | exfalso]. rewrite E in Ft. cbn [app] in Ft.
        rewrite !Forall_app in Ft. destruct Ft as [_ [_ [_ Ft]]]. inversion_clear Ft. congruence.
      * rewrite E in Ft. rewrite !Forall_app in Ft. destruct Ft as [[_ Ft] _]. inversion_clear Ft. congruence.
Qed.
Theorem negotiate_spec s :
  (negotiate_transport s = Ret http_name /\ names_http s) \/ (negotiate_transport s = Ret [] /\ ~ names_http s).
Proof. apply negotiate_loop_spec. lia. Qed.

(** ** Finding: "P-1" *)
Lemma minus_one_token B : apply_token [] B [80; 45; 49] 3
  = range_ops (S (Z.to_nat B)) (fun m id => mark m 0 id) [] (two64 - 1) (two64 - 1) B.
Proof. reflexivity. Qed.
Lemma minus_one_range B m b st : 3 <= B ->
  range_ops (S (Z.to_nat B)) (fun m id => mark m 0 id) [] (two64 - 1) (two64 - 1) B = Ret (m, b, st) ->
  has m 0 0 = true /\ has m 0 1 = true.
Proof.
  intros HB T.
  assert (Ef : S (Z.to_nat B) = S (S (S (Z.to_nat (B - 2))))) by lia. rewrite Ef in T. cbn [range_ops] in T.
  change (two64 - 1 <=? two64 - 1) with true in T. destruct (Z.eqb_spec B 0); [lia |]. cbn iota in T.
  change (wrap64 (two64 - 1 + 1)) with 0 in T. change (0 <=? two64 - 1) with true in T.
  destruct (Z.eqb_spec (B - 1) 0); [lia |]. cbn iota in T. change (wrap64 (0 + 1)) with 1 in T.
  change (1 <=? two64 - 1) with true in T. destruct (Z.eqb_spec (B - 1 - 1) 0); [lia |]. cbn iota in T.
  apply range_ops_le in T; [| intros; apply mark_le].
  rewrite !has_entry. split; apply T; vm_compute; reflexivity.
Qed.
Lemma minus_one_loop B m : 3 <= B -> apply_loop 4 [80; 45; 49] B [] = Ret m -> has m 0 0 = true /\ has m 0 1 = true.
Proof.
  intros HB E. cbn [apply_loop] in E. change (zlen [80; 45; 49] =? 0) with false in E. cbn iota in E.
  change (token_len [80; 45; 49]) with 3 in E. rewrite minus_one_token in E.
  destruct (range_ops (S (Z.to_nat B)) _ [] (two64 - 1) (two64 - 1) B) as [[[m1 b1] st] | |] eqn:T; try discriminate E.
  apply minus_one_range in T; [| assumption]. cbn [bind] in E.
  assert (Em : m1 = m).
  { destruct st; [now apply Ret_inj in E |]. change (zskip (3 + 1) [80; 45; 49]) with (@nil Z) in E.
    change (zlen (@nil Z) =? 0) with true in E. cbn iota in E. now apply Ret_inj in E. }
  now subst m1.
Qed.
Lemma apply_unfold m s : exists B, 3 <= B /\ apply m s = apply_loop (S (length s)) s B m.
Proof. exists max_bin_ops. split; [unfold max_bin_ops; lia | reflexivity]. Qed.
Lemma minus_one_marks : exists m, apply [] [80; 45; 49] = Ret m /\ has m 0 0 = true /\ has m 0 1 = true.
Proof.
  destruct (apply_total [] [80; 45; 49]) as [m E]. exists m. split; [assumption |].
  destruct (apply_unfold [] [80; 45; 49]) as [B [HB U]]. rewrite U in E. exact (minus_one_loop B m HB E).
Qed.

(** The id always fits the 32-byte buffer. *)
Lemma dec_digits_len : forall fuel n acc k, 0 <= n < 10 ^ Z.of_nat k -> (1 <= k)%nat ->
  zlen (dec_digits fuel n acc) <= Z.of_nat k + zlen acc.
Proof.
  induction fuel as [| f IH]; intros n acc k Hn Hk; cbn [dec_digits]; [lia |].
  destruct (Z.ltb_spec n 10).
  - rewrite zlen_cons. lia.
  - destruct k as [| [| k]]; [lia | cbn in Hn; lia |].
    assert (0 <= n / 10 < 10 ^ Z.of_nat (S k)).
    { split; [apply Z.div_pos; lia |]. apply Z.div_lt_upper_bound; [lia |].
      rewrite (Nat2Z.inj_succ (S k)), Z.pow_succ_r in Hn by lia. lia. }
    pose proof (IH (n / 10) ((48 + n mod 10) :: acc) (S k) H0 ltac:(lia)) as L. rewrite zlen_cons in L. lia.
Qed.
Lemma cid_text_len n : 0 <= n < 2 ^ 64 -> zlen (cid_text n) + 1 <= 32.
Proof.
  intros H. unfold cid_text. rewrite zlen_app. change (zlen [74; 80; 72]) with 3. unfold dec.
  generalize (S (Z.to_nat (Z.log2 n))) as f. intros f.
  assert (H0 : 0 <= n < 10 ^ Z.of_nat 20) by (change (10 ^ Z.of_nat 20) with 100000000000000000000; lia).
  pose proof (dec_digits_len f n [] 20 H0 ltac:(lia)) as L.
  change (zlen (@nil Z)) with 0 in L. lia.
Qed.
