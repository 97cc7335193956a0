From Verif Require Import Base BaseLemmas JppModel JppSpec VbasProofs HeaderProofs ParserProofs.

(** ** Sequences of headers *)
Lemma encode_header_ctx h c : hdr_ok h -> ctx_ok (snd (encode_header h c)).
Proof. intros Hh. split; cbn; apply Hh. Qed.
Lemma encode_header_bytes h c : hdr_ok h -> bytes_ok (fst (encode_header h c)) /\ 1 <= zlen (fst (encode_header h c)) <= 60.
Proof.
  intros Hh.
  assert (F := encode_with_indicator_facts h (negb (h_class h =? c_class c) || negb (h_csn h =? c_csn c))
            (negb (h_csn h =? c_csn c)) Hh).
  cbv zeta in F. unfold encode_header. cbn [fst]. tauto.
Qed.

Lemma decode_encode_all hs : forall c rest, Forall hdr_ok hs -> ctx_ok c -> bytes_ok rest ->
  decode_all (length hs) (fst (encode_all hs c) ++ rest) c
  = Ret (Some (map as_received hs, rest, snd (encode_all hs c))).
Proof.
  induction hs as [|h hs IH]; intros c rest Hh Hc Hr; [reflexivity|].
  inversion Hh as [|? ? H1 H2]; subst. cbn [encode_all length decode_all map].
  pose proof (decode_encode_header h c) as D.
  pose proof (encode_header_ctx h c H1) as C1. pose proof (encode_header_bytes h c H1) as [B1 B2].
  destruct (encode_header h c) as [b c1]. cbn [fst snd] in *.
  specialize (IH c1 rest H2 C1 Hr).
  assert (K : bytes_ok (fst (encode_all hs c1))).
  { clear - H2. revert c1; induction H2 as [|h hs H1 H2 IH]; intros c1; cbn [encode_all fst]; auto.
    pose proof (encode_header_bytes h c1 H1) as [B1 B2].
    destruct (encode_header h c1) as [b c2]. specialize (IH c2). destruct (encode_all hs c2). cbn [fst] in *.
    apply bytes_ok_app; auto. }
  destruct (encode_all hs c1) as [bs c2]. cbn [fst snd] in *.
  rewrite <- app_assoc. rewrite D; auto; [|apply bytes_ok_app; auto]. cbn [bind].
  rewrite adv_ok by (rewrite zlen_app; pose proof (zlen_nonneg (bs ++ rest)); lia). cbn [bind].
  rewrite zskip_app by auto. rewrite IH. reflexivity.
Qed.

Lemma decode_header_prefix_refused src c h n c' q r :
  bytes_ok src -> ctx_ok c -> decode_header src c = Ret (Some (h, n, c')) ->
  src = q ++ r -> zlen q < n -> decode_header q c = Ret None.
Proof.
  intros Hb Hc H E Hlt. assert (Hq : bytes_ok q) by (rewrite E in Hb; apply bytes_ok_app in Hb; tauto).
  destruct (decode_header_total q c Hq) as [[[[h2 n2] c2]|] Eq]; auto.
  exfalso. apply decode_header_sound in Eq; auto. destruct Eq as (_ & _ & Hn & _ & M).
  rewrite (M src) in H; auto.
  - apply Ret_inj, Some_inj in H. assert (n2 = n) by congruence. lia.
  - rewrite E. apply agree_app. lia.
Qed.

Lemma vbas_prefix_refused v q r : u64 v -> vbas_encode v = q ++ r -> r <> [] -> vbas_decode q = Ret None.
Proof.
  intros Hv E Hr. destruct (vbas_encode_facts v Hv) as (F1 & F2 & F3 & F4).
  assert (Hq : bytes_ok q) by (rewrite E in F1; apply bytes_ok_app in F1; tauto).
  destruct (vbas_decode_total q) as [[[w n]|] Eq]; auto. exfalso.
  apply vbas_decode_iff in Eq; auto. destruct Eq as (pre & rest & E1 & E2 & _).
  destruct (vbas_form_prefix pre (vbas_encode v) (rest ++ r) []) as [X Y]; auto.
  - rewrite app_nil_r, E, E1, app_assoc. auto.
  - apply app_eq_nil in Y. tauto.
Qed.

(** ** Whole bins *)
Lemma append_loop_complete fuel payload budget : forall h c acc offset r,
  hdr_ok h -> zlen payload < 2 ^ 64 ->
  0 <= offset <= zlen payload -> 61 * (zlen payload - offset) + 61 <= budget - zlen acc ->
  append_loop fuel h payload budget c acc offset = Ret r -> am_complete r = true.
Proof.
  induction fuel as [|f IH]; intros h c acc offset r Hh H64 Ho Hbud H; [discriminate|].
  cbn [append_loop] in H.
  match type of H with context [if ?x <=? kMessageHeaderMaxBytes then _ else _] => set (avail := x) in * end.
  pose proof (zlen_nonneg acc) as Hacc0.
  assert (Hav : avail = budget - zlen acc) by (subst avail; destruct (Z.ltb_spec (zlen acc) budget); lia).
  unfold kMessageHeaderMaxBytes, kVbasMaxBytes, kMaxMessagePayload in *.
  destruct (Z.leb_spec avail (10 * 6)) as [Hle|Hgt]; [lia|].
  set (tl := Z.min (Z.min (zlen payload - offset) 987) (avail - 10 * 6)) in *.
  destruct ((0 <? zlen payload - offset) && (tl =? 0)) eqn:E; [exfalso; lia|].
  match type of H with context [encode_header ?x c] => set (h1 := x) in * end.
  assert (Hh1 : hdr_ok h1).
  { unfold h1, hdr_ok, u64; cbn. unfold hdr_ok, u64 in Hh. intuition lia. }
  pose proof (encode_header_bytes h1 c Hh1) as [F1 F2].
  destruct (encode_header h1 c) as [hb c2]. cbn [fst] in *.
  destruct (Z.eqb_spec (offset + tl) (zlen payload)) as [Hlast|Hnl].
  - injection H as <-. reflexivity.
  - eapply IH in H; auto; try lia.
    rewrite !zlen_app.
    destruct (Z.ltb_spec 0 tl).
    + rewrite zlen_ztake by (rewrite zlen_zskip; lia). lia.
    + rewrite zlen_nil. lia.
Qed.

Lemma bin_hdr_ok b : bin_ok b -> hdr_ok (bin_hdr b).
Proof. intros (H1 & H2 & H3 & H4). unfold hdr_ok, bin_hdr, u64 in *; cbn. intuition lia. Qed.

Lemma append_message_delivers b c : bin_ok b -> ctx_ok c ->
  exists x c', append_message (bin_hdr b) (b_data b) c = Ret (x, c') /\ bytes_ok x /\ ctx_ok c' /\
  forall s rest, bytes_ok rest -> ds_has_eor s = false -> lookup (ds_bins s) (bin_key b) = None ->
    exists s', reach c s (x ++ rest) c' s' rest /\ same_except (bin_key b) s s' /\
      lookup (ds_bins s') (bin_key b) = Some (mkEntry (b_data b) true).
Proof.
  intros Hb Hc. pose proof (bin_hdr_ok b Hb) as Hh. destruct Hb as (H1 & H2 & H3 & H4).
  pose proof (zlen_nonneg (b_data b)) as Hz.
  unfold append_message.
  destruct (append_loop_total (S (length (b_data b))) (bin_hdr b) (b_data b) SIZE_MAX c [] 0) as [r E];
    [lia|unfold zlen; lia|].
  rewrite E. cbn [bind]. exists (am_out r), (am_ctx r). split; [reflexivity|].
  assert (Hcomp : am_complete r = true).
  { eapply append_loop_complete; [exact Hh| | | |exact E]; try lia.
    change (zlen (@nil Z)) with 0; unfold SIZE_MAX, two64; lia. }
  apply (append_loop_spec _ (bin_hdr b)) in E; auto; try lia.
  2:{ rewrite zlen_nil. unfold SIZE_MAX, two64; lia. }
  destruct E as (_ & _ & I3 & _ & _ & _ & I5 & bs & I6 & I7 & I8). cbn [app] in I6. rewrite I6.
  specialize (I3 Hcomp).
  split; [auto|]. split; [auto|].
  intros s rest Hr Heor Hn.
  change (h_class (bin_hdr b), h_id (bin_hdr b)) with (bin_key b) in I8.
  assert (En : entry_of s (bin_key b) = entry0) by (unfold entry_of; rewrite Hn; reflexivity).
  destruct (I8 s rest Hr Heor) as (s' & R1 & R2 & R3 & R4).
  { rewrite En. reflexivity. } { rewrite En. discriminate. }
  exists s'. split; [exact R1|]. split; [exact R2|].
  rewrite En, Hcomp in R4. rewrite I3, ztake_all in R3 by lia.
  unfold entry_of in R3, R4. destruct (lookup (ds_bins s') (bin_key b)) as [[eb el]|].
  - cbn in *. subst. reflexivity.
  - discriminate.
Qed.

Lemma emit_bins_deliver bs : forall c, Forall bin_ok bs -> ctx_ok c -> NoDup (map bin_key bs) ->
  exists x c', emit_bins bs c = Ret (x, c') /\ bytes_ok x /\ ctx_ok c' /\
  forall s rest, bytes_ok rest -> ds_has_eor s = false ->
    (forall b, In b bs -> lookup (ds_bins s) (bin_key b) = None) ->
    exists s', reach c s (x ++ rest) c' s' rest /\ ds_eor s' = ds_eor s /\
      (forall b, In b bs -> lookup (ds_bins s') (bin_key b) = Some (mkEntry (b_data b) true)) /\
      (forall k, ~ In k (map bin_key bs) -> lookup (ds_bins s') k = lookup (ds_bins s) k).
Proof.
  induction bs as [|b bs IH]; intros c Hb Hc Hnd.
  - exists [], c. conj. intros s rest Hr Heor _. exists s. conj; [constructor|intros ? []].
  - inversion Hb as [|? ? B1 B2]; subst. inversion Hnd as [|? ? N1 N2]; subst.
    destruct (append_message_delivers b c B1 Hc) as (x & c1 & E & X1 & X2 & X3).
    destruct (IH c1 B2 X2 N2) as (y & c2 & E2 & Y1 & Y2 & Y3).
    cbn [emit_bins]. rewrite E. cbn [bind]. rewrite E2. cbn [bind].
    exists (x ++ y), c2. conj. { apply bytes_ok_app; auto. }
    intros s rest Hr Heor Hn. rewrite <- app_assoc.
    destruct (X3 s (y ++ rest)) as (s1 & R1 & [R2a R2b] & R3); auto.
    { apply bytes_ok_app; auto. } { apply Hn; simpl; auto. }
    destruct (Y3 s1 rest) as (s2 & T1 & T2 & T3 & T4); auto.
    { unfold ds_has_eor in *. rewrite R2a; auto. }
    { intros b' Hb'. rewrite R2b. apply Hn; simpl; auto.
      intros Q. apply N1. rewrite <- Q. apply in_map; auto. }
    exists s2. conj.
    + eapply reach_trans; eauto.
    + congruence.
    + intros b' [<-|Hb']; [|auto]. rewrite T4 by auto. exact R3.
    + intros k Hk. cbn [map In] in Hk. rewrite T4 by tauto. apply R2b. intro; subst; tauto.
Qed.

Lemma reach_feed c s b c1 s1 b1 : reach c s b c1 s1 b1 -> bytes_ok b -> ctx_ok c ->
  feedL b c s = feedL b1 c1 s1.
Proof.
  induction 1 as [|c s buf n c1 s1 c2 s2 buf2 H H0 H1 H2 IH]; auto. intros Hb Hc. rewrite feedL_eq by auto.
  destruct (Z.eqb_spec (zlen buf) 0) as [E|E]; [apply zlen_0 in E; contradiction|].
  rewrite H, H0. apply try_decode_ok in H; auto. destruct H as (_ & Hc' & _).
  apply IH; auto.
Qed.

Lemma eor_feed reason c s : 0 <= reason < 256 -> ctx_ok c ->
  feedL (emit_eor reason) c s = Ret (true, mkSP [] c, ds_set_eor s reason).
Proof.
  intros Hr Hc.
  assert (B : bytes_ok (emit_eor reason)) by (repeat constructor; unfold byte_ok; lia).
  rewrite feedL_eq by auto. reflexivity.
Qed.

(** The same response, cut into arbitrary pieces. *)
Lemma emitted_bins_received_chunked bs reason s x c chunks s' :
  Forall bin_ok bs -> NoDup (map bin_key bs) -> 0 <= reason < 256 -> ds_has_eor s = false ->
  (forall b, In b bs -> ds_contains s (b_class b) (b_id b) = false) ->
  emit_bins bs ctx0 = Ret (x, c) ->
  concat chunks = x ++ emit_eor reason ->
  parse_jpp_stream (x ++ emit_eor reason) s = Ret (true, s') ->
  exists p, sp_feed_all sparser0 chunks s = Ret (true, p, s') /\ sp_finish p = true.
Proof.
  intros Hb Hnd Hr Heor Hn E Hch Hp.
  destruct (emit_bins_deliver bs ctx0 Hb ctx0_ok Hnd) as (x' & c' & E' & X1 & X2 & X3).
  rewrite E in E'. injection E' as <- <-.
  destruct (X3 s (emit_eor reason)) as (s1 & R1 & R2 & R3 & R4); auto.
  { repeat constructor; unfold byte_ok; lia. }
  { intros b Hin. specialize (Hn b Hin). unfold ds_contains in Hn. unfold bin_key.
    destruct (lookup _ _); [discriminate|auto]. }
  assert (B : bytes_ok (x ++ emit_eor reason)).
  { apply bytes_ok_app; split; auto. repeat constructor; unfold byte_ok; lia. }
  pose proof (reach_feed _ _ _ _ _ _ R1 B ctx0_ok) as F. rewrite eor_feed in F by auto.
  pose proof (parse_vs_feed _ _ _ _ _ _ B ctx0_ok Heor F) as G.
  change (parseL ?a ctx0 s) with (parse_jpp_stream a s) in G. rewrite Hp in G.
  apply Ret_inj in G. apply pair_inj in G. destruct G as [_ G]. subst s'.
  exists (mkSP [] c). split; [|reflexivity].
  apply streaming_chunk_invariance; auto.
  - assert (B2 : bytes_ok (concat chunks)) by (rewrite Hch; auto).
    clear - B2. induction chunks as [|a l IH]; constructor; cbn in B2; apply bytes_ok_app in B2; tauto.
  - rewrite Hch. unfold sp_feed. pose proof (zlen_nonneg x). rewrite zlen_app. change (zlen (emit_eor reason)) with 3.
    replace (zlen x + 3 =? 0) with false by lia. exact F.
Qed.

Lemma emitted_bins_received bs reason s :
  Forall bin_ok bs -> NoDup (map bin_key bs) -> 0 <= reason < 256 -> ds_has_eor s = false ->
  (forall b, In b bs -> ds_contains s (b_class b) (b_id b) = false) ->
  exists x c, emit_bins bs ctx0 = Ret (x, c) /\
  exists s', parse_jpp_stream (x ++ emit_eor reason) s = Ret (true, s') /\
    ds_eor s' = Some reason /\
    (forall b, In b bs -> ds_get s' (b_class b) (b_id b) = b_data b /\
                          ds_is_complete s' (b_class b) (b_id b) = true) /\
    (forall k, ~ In k (map bin_key bs) -> lookup (ds_bins s') k = lookup (ds_bins s) k).
Proof.
  intros Hb Hnd Hr Heor Hn.
  destruct (emit_bins_deliver bs ctx0 Hb ctx0_ok Hnd) as (x & c & E & X1 & X2 & X3).
  exists x, c. split; [exact E|].
  destruct (X3 s (emit_eor reason)) as (s1 & R1 & R2 & R3 & R4); auto.
  { repeat constructor; unfold byte_ok; lia. }
  { intros b Hin. specialize (Hn b Hin). unfold ds_contains in Hn. unfold bin_key.
    destruct (lookup _ _); [discriminate|auto]. }
  exists (ds_set_eor s1 reason). split.
  - change (parse_jpp_stream ?a s) with (parseL a ctx0 s).
    rewrite (reach_parse _ _ _ _ _ _ R1).
    + rewrite <- (app_nil_r (emit_eor reason)). apply eor_parse; auto.
    + apply bytes_ok_app; split; auto. repeat constructor; unfold byte_ok; lia.
    + apply ctx0_ok.
  - conj.
    intros b Hin. unfold ds_get, ds_is_complete. cbn [ds_set_eor ds_bins].
    change (b_class b, b_id b) with (bin_key b). rewrite (R3 b Hin). auto.
Qed.

(** ** Budgeted sessions *)
Definition holds_prefix (b : bin) (n : Z) (s : dbset) : Prop :=
  ds_has_eor s = false /\ 0 <= n <= zlen (b_data b) /\
  ds_get s (b_class b) (b_id b) = ztake n (b_data b) /\
  (ds_is_complete s (b_class b) (b_id b) = true -> n = zlen (b_data b)).

Lemma get_entry s cl id : ds_get s cl id = e_bytes (entry_of s (cl, id)).
Proof. unfold ds_get, entry_of. destruct (lookup _ _); auto. Qed.
Lemma complete_entry s cl id : ds_is_complete s cl id = e_last (entry_of s (cl, id)).
Proof. unfold ds_is_complete, entry_of. destruct (lookup _ _); auto. Qed.

Lemma one_response b g n s : bin_ok b -> 0 <= g -> holds_prefix b n s ->
  exists x c w s', append_message_win (bin_hdr b) (b_data b) ctx0 (mkWin n g 0 false false) = Ret (x, c, w) /\
    parse_jpp_stream x s = Ret (true, s') /\
    zlen x <= g /\ 0 <= w_sent w /\ holds_prefix b (n + w_sent w) s' /\
    ds_is_complete s' (b_class b) (b_id b) = ds_is_complete s (b_class b) (b_id b) || w_complete w /\
    (60 < g -> Z.min (zlen (b_data b) - n) (Z.min 987 (g - 60)) <= w_sent w) /\
    (w_complete w = true -> n + w_sent w = zlen (b_data b)) /\
    (n + w_sent w = zlen (b_data b) -> n < zlen (b_data b) \/ 60 < g -> w_complete w = true) /\
    w_blocked w = negb (w_complete w) /\
    same_except (bin_key b) s s'.
Proof.
  intros Hb Hg (P1 & P2 & P3 & P4). pose proof (bin_hdr_ok b Hb) as Hh. destruct Hb as (H1 & H2 & H3 & H4).
  unfold append_message_win. cbn [w_skip w_budget w_blocked].
  rewrite Z.min_l by lia.
  destruct (append_loop_total (S (length (b_data b))) (bin_hdr b) (b_data b) g ctx0 [] n) as [r E];
    [lia|unfold zlen; lia|].
  rewrite E. cbn [bind]. exists (am_out r), (am_ctx r). 
  apply (append_loop_spec _ (bin_hdr b)) in E; auto; try lia; [|apply ctx0_ok].
  rewrite zlen_nil in E.
  destruct E as (I1 & I2 & I3 & I4 & I4a & I4b & I5 & bs & I6 & I7 & I8). cbn [app] in I6.
  change (h_class (bin_hdr b), h_id (bin_hdr b)) with (bin_key b) in I8.
  rewrite get_entry in P3. rewrite complete_entry in P4. change (b_class b, b_id b) with (bin_key b) in *.
  destruct (I8 s [] ltac:(auto) P1 P3 P4) as (s' & R1 & R2 & R3 & R4).
  rewrite app_nil_r in R1.
  eexists. exists s'. split; [reflexivity|]. cbn [w_sent w_complete w_blocked].
  replace (n + (am_offset r - n)) with (am_offset r) by lia.
  assert (Q : ds_is_complete s' (b_class b) (b_id b) = ds_is_complete s (b_class b) (b_id b) || am_complete r).
  { rewrite !complete_entry. exact R4. }
  split. { change (parse_jpp_stream ?a s) with (parseL a ctx0 s). rewrite I6.
    rewrite (reach_parse _ _ _ _ _ _ R1) by (auto using ctx0_ok). reflexivity. }
  conj; try lia.
  - unfold holds_prefix. destruct R2 as [R2a R2b]. conj.
    + unfold ds_has_eor in *. rewrite R2a; auto.
    + lia.
    + lia.
    + rewrite get_entry. exact R3.
    + rewrite Q. rewrite orb_true_iff. intros [X|X]; auto. rewrite complete_entry in X. specialize (P4 X). lia.
  - intros; apply I4a; auto. destruct H0; [left|right]; lia.
  - rewrite orb_false_r. auto.
Qed.

Lemma session_spec b budgets : forall n s, bin_ok b -> Forall (fun g => 0 <= g) budgets -> holds_prefix b n s ->
  exists rs m s', session b budgets n s = Ret (Some (rs, m, s')) /\
    holds_prefix b m s' /\ n <= m /\
    Forall2 (fun g r => zlen (fst r) <= g) budgets rs /\
    m = n + fold_right (fun r a => w_sent (snd r) + a) 0 rs /\
    (ds_is_complete s' (b_class b) (b_id b) = true <->
       ds_is_complete s (b_class b) (b_id b) = true \/ exists r, In r rs /\ w_complete (snd r) = true) /\
    (Forall (fun g => 60 < g) budgets -> zlen (b_data b) - n < zlen budgets ->
       ds_is_complete s' (b_class b) (b_id b) = true) /\
    same_except (bin_key b) s s'.
Proof.
  induction budgets as [|g gs IH]; intros n s Hb Hg Hp.
  - exists [], n, s. cbn [session fold_right]. conj; try lia.
    + split; [auto|]. intros [?|(r & [] & _)]; auto.
    + destruct Hp as (_ & ? & _). rewrite zlen_nil. lia.
    + split; auto.
  - inversion Hg as [|? ? G1 G2]; subst.
    destruct (one_response b g n s Hb G1 Hp) as (x & c & w & s1 & E1 & E2 & R1 & R2 & R3 & R4 & R5 & R6 & R7 & R8 & R9).
    destruct (IH (n + w_sent w) s1 Hb G2 R3) as (rs & m & s2 & E3 & T1 & T2 & T3 & T4 & T5 & T6 & T7).
    cbn [session]. rewrite E1. cbn [bind]. rewrite E2. cbn [bind]. rewrite E3. cbn [bind].
    exists ((x, w) :: rs), m, s2. conj; try lia.
    + cbn [fold_right snd]. lia.
    + rewrite T5, R4, orb_true_iff. split.
      * intros [[?|?]|(r & ? & ?)]; [auto|right; exists (x, w); simpl; auto|right; exists r; simpl; auto].
      * intros [?|(r & [<-|?] & ?)]; [auto|auto|right; exists r; auto].
    + intros F L. inversion F as [|? ? F1 F2]; subst. rewrite zlen_cons in L.
      destruct Hp as (_ & Hn & _); pose proof R3 as (_ & Hn3 & _). specialize (R5 F1).
      destruct (Z.eq_dec n (zlen (b_data b))) as [Hfull|Hnf].
      * apply T5. left. rewrite R4, R7; [apply orb_true_r|lia|auto].
      * apply T6; auto. lia.
    + destruct R9 as [A1 A2], T7 as [A3 A4]. split; [congruence|]. intros; rewrite A4, A2; auto.
Qed.

(** ** Message histories *)
Lemma offer_all_spec ms : forall s s' oks k, offer_all s ms = (s', oks) ->
  length oks = length ms /\ ds_eor s' = ds_eor s /\
  e_bytes (entry_of s' k) = e_bytes (entry_of s k) ++ accepted_bodies k ms oks /\
  (e_last (entry_of s k) = true -> entry_of s' k = entry_of s k).
Proof.
  induction ms as [|m ms IH]; intros s s' oks k H.
  - injection H as <- <-. cbn. rewrite app_nil_r. auto.
  - cbn [offer_all] in H.
    destruct (ds_append s (m_class m) (m_id m) (m_off m) (m_body m) (m_last m)) as [s1 ok] eqn:E.
    destruct (offer_all s1 ms) as [s2 oks2] eqn:E2. injection H as <- <-.
    destruct (IH _ _ _ k E2) as (I1 & I2 & I3 & I4).
    pose proof (ds_append_spec s (m_class m) (m_id m) (m_off m) (m_body m) (m_last m)) as A.
    pose proof (ds_append_other s (m_class m) (m_id m) (m_off m) (m_body m) (m_last m) k) as B.
    pose proof (ds_append_eor s (m_class m) (m_id m) (m_off m) (m_body m) (m_last m)) as C.
    rewrite E in A, B, C. cbn zeta in A. cbn [fst snd] in A, B, C. destruct A as [A1 A2].
    cbn [length accepted_bodies]. unfold msg_key.
    split; [lia|]. split; [congruence|].
    destruct (key_dec (m_class m, m_id m) k) as [<-|Hk].
    + rewrite key_eqb_refl, andb_true_r.
      assert (X : entry_of s1 (m_class m, m_id m) = if ok then
                 mkEntry (e_bytes (entry_of s (m_class m, m_id m)) ++ m_body m)
                         (e_last (entry_of s (m_class m, m_id m)) || m_last m)
                 else entry_of s (m_class m, m_id m)).
      { unfold entry_of at 1. rewrite A2. destruct ok; auto. }
      rewrite X in I3, I4. split.
      * rewrite I3. destruct ok; cbn [e_bytes app]; [rewrite <- app_assoc|]; reflexivity.
      * intros L. destruct ok.
        -- assert (m_body m = []) as Hnil.
           { symmetry in A1. apply andb_prop in A1. destruct A1 as [A1 _]. rewrite L in A1. cbn [andb] in A1.
             apply zlen_0. pose proof (zlen_nonneg (m_body m)). lia. }
           rewrite Hnil, app_nil_r, L in *. cbn [orb e_last] in I4. rewrite (I4 eq_refl).
           destruct (entry_of s (m_class m, m_id m)); cbn in *; subst; reflexivity.
        -- auto.
    + rewrite key_eqb_neq by auto. rewrite andb_false_r. cbn [app].
      assert (X : entry_of s1 k = entry_of s k) by (unfold entry_of; rewrite B by auto; auto).
      rewrite X in I3, I4. auto.
Qed.

(** ** Merging *)
Lemma keys_update m k e : map fst (update m k e) = if match lookup m k with Some _ => true | None => false end
  then map fst m else map fst m ++ [k].
Proof.
  induction m as [|[k' e'] m IH]; cbn; auto.
  destruct (key_eqb k k') eqn:E; cbn; auto.
  - rewrite IH. destruct (lookup m k); auto.
Qed.
Lemma lookup_None_notin m k : lookup m k = None <-> ~ In k (map fst m).
Proof.
  induction m as [|[k' e'] m IH]; cbn; [tauto|].
  destruct (key_eqb k k') eqn:E.
  - apply key_eqb_spec in E. subst. split; [discriminate|]. tauto.
  - rewrite IH. split; [|tauto]. intros H [->|?]; [rewrite key_eqb_refl in E; discriminate|auto].
Qed.
Lemma NoDup_update m k e : NoDup (map fst m) -> NoDup (map fst (update m k e)).
Proof.
  intros H. rewrite keys_update. destruct (lookup m k) eqn:E; auto.
  apply lookup_None_notin in E. apply NoDup_rev in H. rewrite <- (rev_involutive (map fst m ++ [k])).
  apply NoDup_rev. rewrite rev_app_distr. cbn [rev app]. constructor; auto. rewrite <- in_rev. auto.
Qed.

Definition merged (a b : option entry) : option entry :=
  match b with
  | None => a
  | Some o => match a with
              | None => Some o
              | Some e => if zlen (e_bytes e) <? zlen (e_bytes o) then Some o
                          else Some (mkEntry (e_bytes e) (e_last e || e_last o))
              end
  end.

Lemma merge_one_lookup m k o k' :
  lookup (merge_one m (k, o)) k' = if key_eqb k k' then merged (lookup m k') (Some o) else lookup m k'.
Proof.
  unfold merge_one. destruct (key_dec k k') as [<-|Hk].
  - rewrite key_eqb_refl. destruct (lookup m k) as [e|] eqn:E; cbn [merged].
    + destruct (zlen (e_bytes e) <? zlen (e_bytes o)); [apply lookup_update_eq|].
      destruct e as [eb el], o as [ob ol]; cbn. destruct el, ol; cbn; rewrite ?E, ?lookup_update_eq; auto.
    + apply lookup_update_eq.
  - rewrite key_eqb_neq by auto. destruct (lookup m k) as [e|].
    + repeat match goal with |- context [if ?x then _ else _] => destruct x end; auto; apply lookup_update_neq; auto.
    + apply lookup_update_neq; auto.
Qed.

Lemma merge_lookup o : forall m k, NoDup (map fst o) ->
  lookup (fold_left merge_one o m) k = merged (lookup m k) (lookup o k).
Proof.
  induction o as [|[k' e'] o IH]; intros m k Hnd; cbn [fold_left lookup map fst] in *.
  - destruct (lookup m k); reflexivity.
  - inversion Hnd as [|? ? N1 N2]; subst. rewrite IH by auto. rewrite merge_one_lookup.
    destruct (key_dec k k') as [<-|Hk].
    + rewrite key_eqb_refl. apply lookup_None_notin in N1. rewrite N1.
      destruct (lookup m k) as [e|]; reflexivity.
    + rewrite (key_eqb_neq k k') by auto. rewrite (key_eqb_neq k' k) by auto. reflexivity.
Qed.

Lemma merge_from_get s o cl id : NoDup (ds_keys o) ->
  ds_get (ds_merge_from s o) cl id =
  if zlen (ds_get s cl id) <? zlen (ds_get o cl id) then ds_get o cl id else ds_get s cl id.
Proof.
  intros H. unfold ds_get, ds_merge_from. cbn [ds_bins]. rewrite merge_lookup by auto. unfold merged.
  destruct (lookup (ds_bins s) (cl, id)) as [e|], (lookup (ds_bins o) (cl, id)) as [e'|]; cbn [zlen length].
  - destruct (zlen (e_bytes e) <? zlen (e_bytes e')); reflexivity.
  - rewrite zlen_nil. pose proof (zlen_nonneg (e_bytes e)). replace (zlen (e_bytes e) <? 0) with false by lia. auto.
  - rewrite zlen_nil. destruct (Z.ltb_spec 0 (zlen (e_bytes e'))); auto.
    pose proof (zlen_nonneg (e_bytes e')). apply zlen_0. lia.
  - auto.
Qed.

Lemma merge_from_complete s o cl id : NoDup (ds_keys o) ->
  ds_is_complete (ds_merge_from s o) cl id =
  if ds_contains s cl id && (zlen (ds_get s cl id) <? zlen (ds_get o cl id)) then ds_is_complete o cl id
  else ds_is_complete s cl id || ds_is_complete o cl id.
Proof.
  intros H. unfold ds_get, ds_is_complete, ds_contains, ds_merge_from. cbn [ds_bins]. rewrite merge_lookup by auto. unfold merged.
  destruct (lookup (ds_bins s) (cl, id)) as [e|], (lookup (ds_bins o) (cl, id)) as [e'|]; cbn [andb orb]; auto.
  - destruct (zlen (e_bytes e) <? zlen (e_bytes e')); reflexivity.
  - rewrite zlen_nil. pose proof (zlen_nonneg (e_bytes e)). replace (zlen (e_bytes e) <? 0) with false by lia.
    rewrite orb_false_r. auto.
Qed.

Lemma merge_from_contains s o cl id : NoDup (ds_keys o) ->
  ds_contains (ds_merge_from s o) cl id = ds_contains s cl id || ds_contains o cl id.
Proof.
  intros H. unfold ds_contains, ds_merge_from. cbn [ds_bins]. rewrite merge_lookup by auto. unfold merged.
  destruct (lookup (ds_bins s) (cl, id)) as [e|], (lookup (ds_bins o) (cl, id)) as [e'|]; auto.
  destruct (_ <? _); auto.
Qed.

(** Sets in which every bin is a prefix of the server's copy and "complete"
    means all of it. *)
Definition consistent (server : Z -> Z -> list Z) (s : dbset) : Prop :=
  forall cl id, ds_get s cl id = ztake (zlen (ds_get s cl id)) (server cl id) /\
                (ds_is_complete s cl id = true -> ds_get s cl id = server cl id).

Lemma merge_consistent server s o : NoDup (ds_keys o) -> consistent server s -> consistent server o ->
  consistent server (ds_merge_from s o) /\
  forall cl id, ds_is_complete (ds_merge_from s o) cl id = ds_is_complete s cl id || ds_is_complete o cl id.
Proof.
  intros Hnd Hs Ho.
  assert (C : forall cl id, ds_is_complete (ds_merge_from s o) cl id = ds_is_complete s cl id || ds_is_complete o cl id).
  { intros cl id. rewrite merge_from_complete by auto.
    destruct (ds_contains s cl id); cbn [andb]; auto.
    destruct (Z.ltb_spec (zlen (ds_get s cl id)) (zlen (ds_get o cl id))); auto.
    destruct (ds_is_complete s cl id) eqn:E; auto. exfalso.
    destruct (Hs cl id) as [_ S2], (Ho cl id) as [O1 _]. rewrite (S2 E) in H.
    assert (X := ztake_zskip (zlen (ds_get o cl id)) (server cl id)).
    apply (f_equal zlen) in X. rewrite zlen_app, <- O1 in X.
    pose proof (zlen_nonneg (zskip (zlen (ds_get o cl id)) (server cl id))). lia. }
  split; auto. intros cl id. rewrite C, merge_from_get by auto.
  destruct (Hs cl id) as [S1 S2], (Ho cl id) as [O1 O2].
  assert (LS : zlen (ds_get s cl id) <= zlen (server cl id)).
  { apply (f_equal zlen) in S1. unfold ztake in S1. unfold zlen in *. rewrite firstn_length in S1. lia. }
  assert (LO : zlen (ds_get o cl id) <= zlen (server cl id)).
  { apply (f_equal zlen) in O1. unfold ztake in O1. unfold zlen in *. rewrite firstn_length in O1. lia. }
  destruct (Z.ltb_spec (zlen (ds_get s cl id)) (zlen (ds_get o cl id))) as [L|L].
  - split; auto. rewrite orb_true_iff. intros [E|E]; [|auto]. rewrite (S2 E) in L. lia.
  - split; auto. rewrite orb_true_iff. intros [E|E]; [auto|].
    rewrite (O2 E) in L. rewrite S1. apply ztake_all. lia.
Qed.

(** ** Forms used by the property file *)
Lemma decode_header_independent h c rest : hdr_ok h -> ctx_ok c -> bytes_ok rest ->
  decode_header (encode_header_independent h ++ rest) c
  = Ret (Some (as_received h, zlen (encode_header_independent h), mkCtx (h_class h) (h_csn h))).
Proof. intros. apply decode_encode_with_indicator; auto; discriminate. Qed.

Lemma decode_header_safe src c : bytes_ok src -> ctx_ok c ->
  exists r, decode_header src c = Ret r /\
    forall h n c', r = Some (h, n, c') ->
      hdr_ok h /\ c' = mkCtx (h_class h) (h_csn h) /\ 1 <= n <= zlen src /\ n <= 60 /\
      forall tail, bytes_ok tail -> decode_header (ztake n src ++ tail) c = Ret (Some (h, n, c')).
Proof.
  intros Hb Hc. destruct (decode_header_total src c Hb) as [r E]. exists r. split; auto.
  intros h n c' ->. apply decode_header_sound in E; auto. destruct E as (A & B & C & D & M).
  conj; try lia. intros tail Ht. apply M. { apply bytes_ok_app; auto. }
  assert (L : zlen (ztake n src) = n) by (rewrite zlen_ztake; lia).
  pose proof (zlen_nonneg tail). unfold agree. rewrite zlen_app, ztake_app by auto. conj; lia.
Qed.

Lemma feed_vs_parse bytes s : bytes_ok bytes -> ds_has_eor s = false ->
  exists ok p s', sp_feed sparser0 bytes s = Ret (ok, p, s') /\
    parse_jpp_stream bytes s = Ret (ok && (sp_finish p || ds_has_eor s'), s').
Proof.
  intros Hb Hs. destruct (feedL_total bytes ctx0 s Hb ctx0_ok) as (ok & p & s' & E & _).
  exists ok, p, s'. split.
  - unfold sp_feed. destruct (Z.eqb_spec (zlen bytes) 0) as [Hz|Hz]; [|exact E].
    apply zlen_0 in Hz. subst. exact E.
  - apply (parse_vs_feed bytes ctx0); auto. apply ctx0_ok.
Qed.

Lemma offer_all_get ms s s' oks cl id : offer_all s ms = (s', oks) ->
  length oks = length ms /\
  ds_get s' cl id = ds_get s cl id ++ accepted_bodies (cl, id) ms oks /\
  (ds_is_complete s cl id = true -> ds_get s' cl id = ds_get s cl id /\ ds_is_complete s' cl id = true).
Proof.
  intros H. destruct (offer_all_spec _ _ _ _ (cl, id) H) as (A & B & C & D).
  rewrite !get_entry, !complete_entry. conj. intros X. rewrite (D X). auto.
Qed.

Lemma ds_append_accepts s cl id off body last :
  snd (ds_append s cl id off body last) = true <->
  off = zlen (ds_get s cl id) /\ (ds_is_complete s cl id = true -> body = []).
Proof.
  rewrite get_entry, complete_entry. destruct (ds_append_spec s cl id off body last) as [-> _].
  rewrite andb_true_iff, negb_true_iff, Z.eqb_eq. split; intros [A B]; split; auto.
  - intros L. rewrite L in A. cbn in A. apply zlen_0. pose proof (zlen_nonneg body). lia.
  - destruct (e_last _) eqn:L; auto. rewrite (B eq_refl). reflexivity.
Qed.

Lemma budgeted_delivery b budgets s :
  bin_ok b -> Forall (fun g => 0 <= g) budgets ->
  ds_has_eor s = false -> ds_contains s (b_class b) (b_id b) = false ->
  exists rs m s', session b budgets 0 s = Ret (Some (rs, m, s')) /\
    Forall2 (fun g r => zlen (fst r) <= g) budgets rs /\
    0 <= m <= zlen (b_data b) /\
    m = fold_right (fun r a => w_sent (snd r) + a) 0 rs /\
    ds_get s' (b_class b) (b_id b) = ztake m (b_data b) /\
    (ds_is_complete s' (b_class b) (b_id b) = true <-> exists r, In r rs /\ w_complete (snd r) = true) /\
    (ds_is_complete s' (b_class b) (b_id b) = true -> m = zlen (b_data b)) /\
    (Forall (fun g => 60 < g) budgets -> zlen (b_data b) < zlen budgets ->
       ds_is_complete s' (b_class b) (b_id b) = true).
Proof.
  intros Hb Hg Hs Hn.
  assert (Hcf : ds_is_complete s (b_class b) (b_id b) = false).
  { unfold ds_contains, ds_is_complete in *. destruct (lookup _ _); [discriminate|auto]. }
  assert (Hp : holds_prefix b 0 s).
  { unfold holds_prefix. pose proof (zlen_nonneg (b_data b)). rewrite Hcf. conj; try lia; try discriminate.
    unfold ds_contains, ds_get in *. destruct (lookup _ _); [discriminate|auto]. }
  destruct (session_spec b budgets 0 s Hb Hg Hp) as (rs & m & s' & E & (P1 & P2 & P3 & P4) & T2 & T3 & T4 & T5 & T6 & T7).
  exists rs, m, s'. conj; try lia.
  - rewrite T5, Hcf. split; [intros [?|?]; [discriminate|auto]|auto].
  - intros. apply T6; auto. lia.
Qed.

Lemma merge_bytes s o cl id : NoDup (ds_keys o) ->
  ds_contains (ds_merge_from s o) cl id = ds_contains s cl id || ds_contains o cl id /\
  (ds_get (ds_merge_from s o) cl id = ds_get s cl id \/ ds_get (ds_merge_from s o) cl id = ds_get o cl id) /\
  zlen (ds_get (ds_merge_from s o) cl id) = Z.max (zlen (ds_get s cl id)) (zlen (ds_get o cl id)).
Proof.
  intros H. split; [apply merge_from_contains; auto|]. rewrite merge_from_get by auto.
  destruct (Z.ltb_spec (zlen (ds_get s cl id)) (zlen (ds_get o cl id))); split; auto; lia.
Qed.

Lemma merge_loses_completeness : exists s o cl id, NoDup (ds_keys o) /\
  ds_is_complete s cl id = true /\ ds_is_complete (ds_merge_from s o) cl id = false.
Proof.
  exists (mkSet [((0,4), mkEntry [1] true)] None), (mkSet [((0,4), mkEntry [1;2] false)] None), 0, 4.
  split; [|split; reflexivity]. repeat constructor; auto.
Qed.

Lemma offer_all_NoDup ms : NoDup (ds_keys (fst (offer_all dbset0 ms))).
Proof.
  assert (G : forall s, NoDup (ds_keys s) -> NoDup (ds_keys (fst (offer_all s ms)))).
  { induction ms as [|m ms IH]; intros s Hs; auto. cbn [offer_all].
    assert (K : NoDup (ds_keys (fst (ds_append s (m_class m) (m_id m) (m_off m) (m_body m) (m_last m))))).
    { unfold ds_append, ds_keys. cbn zeta.
      repeat match goal with |- context [if ?x then _ else _] => destruct x end; cbn [fst ds_bins];
      apply NoDup_update; exact Hs. }
    destruct (ds_append s _ _ _ _ _) as [s1 ok]. specialize (IH s1 K).
    destruct (offer_all s1 ms) as [s2 oks]. exact IH. }
  apply G. constructor.
Qed.
