From Verif Require Import Base BaseLemmas JppModel JppSpec VbasProofs HeaderProofs.

(** ** The bin map *)
Lemma key_eqb_spec a b : key_eqb a b = true <-> a = b.
Proof.
  destruct a, b; unfold key_eqb; simpl. rewrite andb_true_iff, !Z.eqb_eq.
  split; [intros [-> ->]; auto|intros [= -> ->]; auto].
Qed.
Lemma key_eqb_refl a : key_eqb a a = true.
Proof. apply key_eqb_spec; auto. Qed.
Lemma key_eqb_neq a b : a <> b -> key_eqb a b = false.
Proof. intros. destruct (key_eqb a b) eqn:E; auto. apply key_eqb_spec in E. contradiction. Qed.

Lemma lookup_update_eq m k e : lookup (update m k e) k = Some e.
Proof.
  induction m as [|[k' e'] m IH]; simpl. rewrite key_eqb_refl; auto.
  destruct (key_eqb k k') eqn:E; simpl; rewrite E; auto.
Qed.
Lemma lookup_update_neq m k k' e : k <> k' -> lookup (update m k e) k' = lookup m k'.
Proof.
  intros H. induction m as [|[k2 e2] m IH]; simpl. rewrite key_eqb_neq by auto; auto.
  destruct (key_eqb k k2) eqn:E; simpl.
  - apply key_eqb_spec in E; subst. rewrite key_eqb_neq by auto. auto.
  - destruct (key_eqb k' k2); auto.
Qed.
Lemma key_dec (a b : key) : {a = b} + {a <> b}.
Proof. decide equality; apply Z.eq_dec. Qed.

(** ** One message *)
Lemma try_decode_total src c s : bytes_ok src -> ctx_ok c ->
  exists d c' s', try_decode_one_message src c s = Ret (d, c', s').
Proof.
  intros Hb Hc. unfold try_decode_one_message. pose proof (zlen_nonneg src).
  destruct (Z.eqb_spec (zlen src) 0); [eauto|].
  rewrite rd_in by lia. cbn [bind]. destruct (znth 0 src 0 =? 0).
  - destruct (Z.ltb_spec (zlen src) 2); [eauto|]. rewrite rd_in by lia. cbn [bind].
    rewrite adv_ok by lia. cbn [bind]. destruct (vbas_decode_total (zskip 2 src)) as [r ->].
    cbn [bind]. destruct r as [[? ?]|]; [|eauto].
    destruct (_ <? _); eauto.
  - destruct (decode_header_total src c Hb) as [r E]. rewrite E. cbn [bind].
    destruct r as [[[h hb] c']|]; [|eauto].
    apply decode_header_sound in E; auto. destruct E as (_ & _ & Hn & _).
    destruct (_ <? _); [eauto|]. rewrite adv_ok by lia. cbn [bind].
    destruct (ds_append _ _ _ _ _ _) as [s' []]; eauto.
Qed.

Lemma ztake_agree n a b : 0 <= n -> agree n a b -> forall i, 0 <= i < n -> znth 0 a i = znth 0 b i.
Proof.
  intros Hn (H1 & H2 & H3) i Hi. rewrite <- (znth_ztake 0 a n i) by auto. rewrite H3. apply znth_ztake; auto.
Qed.

Lemma agree_zskip n m a b : 0 <= m <= n -> agree n a b -> agree (n - m) (zskip m a) (zskip m b).
Proof.
  intros H (H1 & H2 & H3). repeat split; try (rewrite zlen_zskip; lia).
  assert (Q : forall l : list Z, n <= zlen l -> ztake (n - m) (zskip m l) = zskip m (ztake n l)).
  { intros l Hl. rewrite <- (ztake_zskip n l) at 1. rewrite zskip_app_le by (rewrite zlen_ztake; lia).
    apply ztake_app. rewrite zlen_zskip; rewrite zlen_ztake; lia. }
  rewrite !Q by lia. rewrite H3. reflexivity.
Qed.

Lemma agree_app n a b : 0 <= n <= zlen a -> agree n a (a ++ b).
Proof.
  intros. repeat split; try lia. rewrite zlen_app. pose proof (zlen_nonneg b). lia.
  symmetry. apply ztake_app_le. lia.
Qed.

Lemma vbas_decode_sound src v n : bytes_ok src -> vbas_decode src = Ret (Some (v, n)) ->
  u64 v /\ 0 < n <= zlen src /\ n <= 10 /\
  forall src', bytes_ok src' -> agree n src src' -> vbas_decode src' = Ret (Some (v, n)).
Proof.
  intros Hb H. pose proof (zlen_nonneg src) as Hn0.
  assert (F : vbas_field src 0 = Ret (Some (v, n))).
  { unfold vbas_field. rewrite adv_ok by lia. cbn [bind]. rewrite zskip_0, H. reflexivity. }
  apply vbas_field_sound in F; auto; [|lia]. destruct F as (H1 & H2 & H3 & H4).
  repeat split; auto; try lia; try apply H1.
  intros src' Hb' Ha. specialize (H4 src' Hb' Ha). unfold vbas_field in H4.
  pose proof (zlen_nonneg src'). rewrite adv_ok in H4 by lia. cbn [bind] in H4. rewrite zskip_0 in H4.
  destruct (vbas_decode src') as [[[? ?]|]| |]; cbn [bind] in H4; try discriminate. injection H4 as -> <-. reflexivity.
Qed.

Lemma DOk_inj a b : DOk a = DOk b -> a = b. Proof. congruence. Qed.

(** A message accepted on [src] is accepted identically on every buffer that
    starts with the consumed bytes. *)
Lemma try_decode_ok src c s n c' s' : bytes_ok src -> ctx_ok c ->
  try_decode_one_message src c s = Ret (DOk n, c', s') ->
  1 <= n <= zlen src /\ ctx_ok c' /\
  forall src', bytes_ok src' -> agree n src src' -> try_decode_one_message src' c s = Ret (DOk n, c', s').
Proof.
  intros Hb Hc H. unfold try_decode_one_message in H. pose proof (zlen_nonneg src).
  destruct (Z.eqb_spec (zlen src) 0); [discriminate|].
  rewrite rd_in in H by lia. cbn [bind] in H.
  destruct (Z.eqb_spec (znth 0 src 0) 0) as [E0|E0].
  - destruct (Z.ltb_spec (zlen src) 2); [discriminate|].
    rewrite rd_in in H by lia. cbn [bind] in H. rewrite adv_ok in H by lia. cbn [bind] in H.
    apply bind_ret_inv in H. destruct H as ([[bl va]|] & Ev & H).
    2:{ destruct (_ <? _) in H; discriminate. }
    apply vbas_decode_sound in Ev; [|apply bytes_ok_zskip; auto].
    destruct Ev as (Hbl & Hva & _ & M). rewrite zlen_zskip in Hva by lia. unfold u64 in Hbl.
    destruct (Z.ltb_spec (zlen src - 2 - va) bl); [discriminate|].
    apply Ret_inj3 in H. destruct H as (H & <- & <-). apply DOk_inj in H. subst n.
    split; [lia|]. split; [auto|].
    intros src' Hb' Ha. pose proof Ha as (A1 & A2 & A3).
    unfold try_decode_one_message.
    replace (zlen src' =? 0) with false by lia. rewrite rd_in by lia. cbn [bind].
    rewrite <- (ztake_agree (2 + va + bl) src src') by (auto; lia).
    rewrite E0. rewrite Z.eqb_refl. replace (zlen src' <? 2) with false by lia.
    rewrite rd_in by lia. cbn [bind]. rewrite adv_ok by lia. cbn [bind].
    rewrite M; [|apply bytes_ok_zskip; auto|].
    2:{ replace va with (2 + va - 2) by lia. apply agree_zskip; [lia|].
        apply agree_le with (2 + va + bl); [lia|auto]. }
    cbn [bind]. replace (zlen src' - 2 - va <? bl) with false by lia.
    rewrite <- (ztake_agree (2 + va + bl) src src') by (auto; lia). reflexivity.
  - apply bind_ret_inv in H. destruct H as ([[[h hb] c2]|] & Eh & H).
    2:{ destruct (_ <? _) in H; discriminate. }
    apply decode_header_sound in Eh; auto. destruct Eh as (Hh & Hc2 & Hhb & _ & M).
    assert (u64 (h_len h)) as Hlen by apply Hh. unfold u64 in Hlen.
    destruct (Z.ltb_spec (zlen src - hb) (h_len h)); [discriminate|].
    rewrite adv_ok in H by lia. cbn [bind] in H.
    destruct (ds_append s (h_class h) (h_id h) (h_off h) (ztake (h_len h) (zskip hb src)) (h_last h)) as [s2 ok] eqn:Ea.
    destruct ok; [|discriminate]. apply Ret_inj3 in H. destruct H as (H & <- & <-). apply DOk_inj in H. subst n.
    split; [lia|]. split. { subst c2. split; cbn; apply Hh. }
    intros src' Hb' Ha. pose proof Ha as (A1 & A2 & A3).
    unfold try_decode_one_message.
    replace (zlen src' =? 0) with false by lia. rewrite rd_in by lia. cbn [bind].
    rewrite <- (ztake_agree (hb + h_len h) src src') by (auto; lia).
    replace (znth 0 src 0 =? 0) with false by lia.
    rewrite M; auto. 2:{ apply agree_le with (hb + h_len h); [lia|auto]. }
    cbn [bind]. replace (zlen src' - hb <? h_len h) with false by lia.
    rewrite adv_ok by lia. cbn [bind].
    assert (Et : ztake (h_len h) (zskip hb src') = ztake (h_len h) (zskip hb src)).
    { pose proof (agree_zskip (hb + h_len h) hb src src' ltac:(lia) Ha) as (_ & _ & Q).
      replace (hb + h_len h - hb) with (h_len h) in Q by lia. auto. }
    rewrite Et, Ea. reflexivity.
Qed.

Lemma try_decode_needmore src c s c' s' :
  try_decode_one_message src c s = Ret (DNeedMore, c', s') -> c' = c /\ s' = s.
Proof.
  unfold try_decode_one_message. destruct (_ =? 0). { intros [= -> ->]; auto. }
  destruct (rd src 0); cbn [bind]; try discriminate. destruct (_ =? 0).
  - destruct (_ <? _). { intros [= -> ->]; auto. }
    destruct (rd src 1); cbn [bind]; try discriminate.
    destruct (adv src 2); cbn [bind]; try discriminate.
    destruct (vbas_decode _) as [[[? ?]|]| |]; cbn [bind]; try discriminate.
    + destruct (_ <? _); try discriminate. intros [= -> ->]; auto.
    + destruct (_ <? _); try discriminate. intros [= -> ->]; auto.
  - destruct (decode_header _ _) as [[[[? ?] ?]|]| |]; cbn [bind]; try discriminate.
    + destruct (_ <? _). { intros [= -> ->]; auto. }
      destruct (adv src _); cbn [bind]; try discriminate.
      destruct (ds_append _ _ _ _ _ _) as [? []]; discriminate.
    + destruct (_ <? _); try discriminate. intros [= -> ->]; auto.
Qed.

(** Malformed is final: no further bytes can repair it. *)
Lemma try_decode_malformed src c s c' s' ext : bytes_ok src -> bytes_ok ext -> ctx_ok c ->
  try_decode_one_message src c s = Ret (DMalformed, c', s') ->
  c' = c /\ try_decode_one_message (src ++ ext) c s = Ret (DMalformed, c', s').
Proof.
  intros Hb Hx Hc H. unfold try_decode_one_message in H. pose proof (zlen_nonneg src). pose proof (zlen_nonneg ext).
  destruct (Z.eqb_spec (zlen src) 0); [discriminate|].
  rewrite rd_in in H by lia. cbn [bind] in H.
  unfold try_decode_one_message. rewrite zlen_app.
  replace (zlen src + zlen ext =? 0) with false by lia.
  rewrite rd_in by (rewrite ?zlen_app; lia). cbn [bind]. rewrite znth_app_l by lia.
  assert (Hbx : bytes_ok (src ++ ext)) by (apply bytes_ok_app; auto).
  destruct (Z.eqb_spec (znth 0 src 0) 0) as [E0|E0].
  - destruct (Z.ltb_spec (zlen src) 2); [discriminate|].
    rewrite rd_in in H by lia. cbn [bind] in H. rewrite adv_ok in H by lia. cbn [bind] in H.
    apply bind_ret_inv in H. destruct H as ([[bl va]|] & Ev & H).
    { destruct (_ <? _) in H; discriminate. }
    destruct (Z.ltb_spec (zlen src - 2) kVbasMaxBytes) as [?|Hge] in H; [discriminate|].
    injection H as <- <-. split; [auto|].
    replace (zlen src + zlen ext <? 2) with false by lia.
    rewrite rd_in by (rewrite zlen_app; lia). cbn [bind]. rewrite adv_ok by (rewrite zlen_app; lia). cbn [bind].
    destruct (vbas_decode_total (zskip 2 (src ++ ext))) as [r Er]. rewrite Er. cbn [bind].
    destruct r as [[bl va]|].
    + apply vbas_decode_sound in Er; [|apply bytes_ok_zskip; auto].
      destruct Er as (_ & Hva & Hva10 & M). unfold kVbasMaxBytes in Hge.
      rewrite (M (zskip 2 src)) in Ev; [discriminate|apply bytes_ok_zskip; auto|].
      rewrite zskip_app_le by lia.
      assert (Q := agree_app va (zskip 2 src) ext ltac:(rewrite zlen_zskip; lia)).
      destruct Q as (Q1 & Q2 & Q3). repeat split; auto.
    + unfold kVbasMaxBytes in *. replace (zlen src + zlen ext - 2 <? 10) with false by lia. reflexivity.
  - apply bind_ret_inv in H. destruct H as ([[[h hb] c2]|] & Eh & H).
    + pose proof Eh as Eh'. apply decode_header_sound in Eh; auto. destruct Eh as (Hh & Hc2 & Hhb & _ & M).
      assert (u64 (h_len h)) as Hlen by apply Hh. unfold u64 in Hlen.
      destruct (Z.ltb_spec (zlen src - hb) (h_len h)); [discriminate|].
      rewrite adv_ok in H by lia. cbn [bind] in H.
      rewrite (M (src ++ ext)); auto; [|apply agree_app; lia]. cbn [bind].
      replace (zlen src + zlen ext - hb <? h_len h) with false by lia.
      rewrite adv_ok by (rewrite zlen_app; lia). cbn [bind].
      rewrite zskip_app_le by lia. rewrite ztake_app_le by (rewrite zlen_zskip; lia).
      destruct (ds_append _ _ _ _ _ _) as [s2 ok]. destruct ok; [discriminate|].
      injection H as <- <-. auto.
    + destruct (Z.ltb_spec (zlen src) kMessageHeaderMaxBytes) as [?|Hge] in H; [discriminate|].
      injection H as <- <-. split; [auto|].
      destruct (decode_header_total (src ++ ext) c Hbx) as [r Er]. rewrite Er. cbn [bind].
      destruct r as [[[h hb] c2]|].
      * apply decode_header_sound in Er; auto. destruct Er as (_ & _ & Hhb & H60 & M).
        unfold kMessageHeaderMaxBytes, kVbasMaxBytes in Hge.
        rewrite (M src) in Eh; [discriminate|auto|].
        assert (Q := agree_app hb src ext ltac:(lia)).
        destruct Q as (Q1 & Q2 & Q3). repeat split; auto.
      * unfold kMessageHeaderMaxBytes, kVbasMaxBytes in *.
        replace (zlen src + zlen ext <? 10 * 6) with false by lia. reflexivity.
Qed.

(** ** The streaming loop *)
Lemma feed_loop_fuel f1 : forall f2 rest c s, bytes_ok rest -> ctx_ok c ->
  (length rest < f1)%nat -> (length rest < f2)%nat -> feed_loop f1 rest c s = feed_loop f2 rest c s.
Proof.
  induction f1 as [|f1 IH]; intros f2 rest c s Hb Hc H1 H2; [lia|].
  destruct f2 as [|f2]; [lia|]. cbn [feed_loop].
  destruct (Z.eqb_spec (zlen rest) 0); [reflexivity|].
  destruct (try_decode_total rest c s Hb Hc) as (d & c' & s' & E). rewrite E. cbn [bind].
  destruct d as [n0| |]; try reflexivity.
  apply try_decode_ok in E; auto. destruct E as (Hn & Hc' & _).
  rewrite adv_ok by lia. cbn [bind]. destruct (ds_has_eor s'); [reflexivity|].
  apply IH; auto.
  all: unfold zskip, zlen in *; rewrite skipn_length; lia.
Qed.

Definition feedL (rest : list Z) (c : ctx) (s : dbset) := feed_loop (S (length rest)) rest c s.

Lemma feedL_eq rest c s : bytes_ok rest -> ctx_ok c ->
  feedL rest c s =
  if zlen rest =? 0 then Ret (true, mkSP [] c, s)
  else match try_decode_one_message rest c s with
       | Ret (DMalformed, c, s) => Ret (false, mkSP [] c, s)
       | Ret (DNeedMore, c, s) => Ret (true, mkSP rest c, s)
       | Ret (DOk n, c, s) =>
           if ds_has_eor s then Ret (true, mkSP (zskip n rest) c, s) else feedL (zskip n rest) c s
       | UB => UB | NoFuel => NoFuel
       end.
Proof.
  intros Hb Hc. unfold feedL at 1. cbn [feed_loop].
  destruct (Z.eqb_spec (zlen rest) 0); [reflexivity|].
  destruct (try_decode_total rest c s Hb Hc) as (d & c' & s' & E). rewrite E. cbn [bind].
  destruct d as [n0| |]; try reflexivity.
  apply try_decode_ok in E; auto. destruct E as (Hn & Hc' & _).
  rewrite adv_ok by lia. cbn [bind]. destruct (ds_has_eor s'); [reflexivity|].
  apply feed_loop_fuel; auto.
  all: unfold zskip, zlen in *; rewrite ?skipn_length; lia.
Qed.

Lemma zskip_len_lt {A} n (l : list A) : 1 <= n <= zlen l -> (length (zskip n l) < length l)%nat.
Proof. unfold zskip, zlen; intros; rewrite skipn_length; lia. Qed.

Lemma feedL_total rest : forall c s, bytes_ok rest -> ctx_ok c ->
  exists b p s', feedL rest c s = Ret (b, p, s') /\ bytes_ok (sp_pending p) /\ ctx_ok (sp_ctx p).
Proof.
  induction rest as [rest IH] using (well_founded_induction (Wf_nat.well_founded_ltof _ (@length Z))).
  intros c s Hb Hc. rewrite feedL_eq by auto.
  destruct (Z.eqb_spec (zlen rest) 0). { do 3 eexists; split; eauto. }
  destruct (try_decode_total rest c s Hb Hc) as (d & c' & s' & E). rewrite E.
  destruct d as [n0| |].
  - apply try_decode_ok in E; auto. destruct E as (Hn & Hc' & _).
    destruct (ds_has_eor s'). { do 3 eexists; split; eauto. cbn. split; auto. }
    apply IH; auto. apply zskip_len_lt; auto.
  - apply try_decode_needmore in E. destruct E; subst. do 3 eexists; split; eauto.
  - pose proof (try_decode_malformed _ _ _ _ _ [] Hb (Forall_nil _) Hc E) as [-> _].
    do 3 eexists; split; eauto.
Qed.

(** Splitting the input in two changes nothing. *)
Lemma feed_split a : forall b c s ok p s',
  bytes_ok a -> bytes_ok b -> ctx_ok c ->
  feedL (a ++ b) c s = Ret (ok, p, s') ->
  (ds_has_eor s' = false \/ sp_pending p = []) ->
  (feedL a c s = Ret (false, p, s') /\ ok = false) \/
  (exists p1 s1, feedL a c s = Ret (true, p1, s1) /\ bytes_ok (sp_pending p1) /\ ctx_ok (sp_ctx p1) /\
     feedL (sp_pending p1) (sp_ctx p1) s1 = Ret (true, p1, s1) /\
     feedL (sp_pending p1 ++ b) (sp_ctx p1) s1 = Ret (ok, p, s')).
Proof.
  induction a as [a IH] using (well_founded_induction (Wf_nat.well_founded_ltof _ (@length Z))).
  intros b c s ok p s' Ha Hb Hc H Hcond.
  destruct (Z.eq_dec (zlen a) 0) as [Hz|Hz].
  { apply zlen_0 in Hz. subst a. right. exists (mkSP [] c), s. cbn [sp_pending sp_ctx app]. conj. } 
  rewrite feedL_eq in H by (auto; apply bytes_ok_app; auto).
  pose proof (zlen_nonneg a). pose proof (zlen_nonneg b).
  rewrite zlen_app in H. replace (zlen a + zlen b =? 0) with false in H by lia.
  rewrite feedL_eq by auto. replace (zlen a =? 0) with false by lia.
  destruct (try_decode_total a c s Ha Hc) as (d & c2 & s2 & E). rewrite E.
  destruct d as [n| |].
  - pose proof E as E'. apply try_decode_ok in E'; auto. destruct E' as (Hn & Hc2 & M).
    rewrite (M (a ++ b)) in H; [|apply bytes_ok_app; auto|apply agree_app; lia].
    rewrite zskip_app_le in H by lia.
    destruct (ds_has_eor s2) eqn:Heor.
    + injection H as <- <- <-. rewrite Heor in Hcond. destruct Hcond as [?|Hnil]; [discriminate|].
      cbn [sp_pending] in Hnil. apply app_eq_nil in Hnil. destruct Hnil as [Hn1 ->].
      right. exists (mkSP (zskip n a) c2), s2. rewrite Hn1. cbn [sp_pending sp_ctx app].
      conj.
    + eapply IH in H; eauto.
      * apply zskip_len_lt; auto.
      
  - apply try_decode_needmore in E as E'. destruct E' as [-> ->].
    right. exists (mkSP a c), s. cbn [sp_pending sp_ctx]. conj.
    + rewrite feedL_eq by auto. replace (zlen a =? 0) with false by lia. rewrite E. reflexivity.
    + rewrite feedL_eq by (auto; apply bytes_ok_app; auto). rewrite zlen_app.
      replace (zlen a + zlen b =? 0) with false by lia. exact H.
  - destruct (try_decode_malformed _ _ _ _ _ b Ha Hb Hc E) as [-> E2].
    rewrite E2 in H. injection H as <- <- <-. left. auto.
Qed.

Lemma feed_all_state chunks : forall p s ok p' s',
  bytes_ok (sp_pending p) -> ctx_ok (sp_ctx p) -> Forall bytes_ok chunks ->
  feedL (sp_pending p) (sp_ctx p) s = Ret (true, p, s) ->
  feedL (sp_pending p ++ concat chunks) (sp_ctx p) s = Ret (ok, p', s') ->
  (ds_has_eor s' = false \/ sp_pending p' = []) ->
  sp_feed_all p chunks s = Ret (ok, p', s').
Proof.
  induction chunks as [|ch chs IH]; intros p s ok p' s' Hp Hc Hch Hst H Hcond.
  - cbn [concat] in H. rewrite app_nil_r, Hst in H. exact H.
  - inversion Hch as [|? ? Hb Hbs]; subst.
    cbn [sp_feed_all concat] in *. unfold sp_feed.
    destruct (Z.eqb_spec (zlen ch) 0) as [Hz|Hz].
    + apply zlen_0 in Hz. subst ch. cbn [bind app] in *. apply IH; auto.
    + rewrite app_assoc in H.
      change (feed_loop _ (sp_pending p ++ ch) (sp_ctx p) s) with (feedL (sp_pending p ++ ch) (sp_ctx p) s).
      assert (Hbs' : bytes_ok (concat chs)).
      { clear - Hbs. induction Hbs; cbn [concat]; [constructor|]. apply bytes_ok_app; auto. }
      assert (Hpb : bytes_ok (sp_pending p ++ ch)) by (apply bytes_ok_app; auto).
      destruct (feed_split _ _ _ _ _ _ _ Hpb Hbs' Hc H Hcond) as [[E ->]|(p1 & s1 & E & E1 & E2 & E3 & E4)].
      * rewrite E. reflexivity.
      * rewrite E. cbn [bind]. apply IH; auto.
Qed.

Lemma ctx0_ok : ctx_ok ctx0. Proof. unfold ctx_ok, ctx0; cbn; lia. Qed.

Lemma streaming_chunk_invariance chunks s ok p s' :
  Forall bytes_ok chunks ->
  sp_feed sparser0 (concat chunks) s = Ret (ok, p, s') ->
  (ds_has_eor s' = false \/ sp_pending p = []) ->
  sp_feed_all sparser0 chunks s = Ret (ok, p, s').
Proof.
  intros Hch H Hcond. apply feed_all_state; auto.
  - apply ctx0_ok.
  - cbn [sp_pending sparser0 app]. unfold sp_feed in H.
    destruct (Z.eqb_spec (zlen (concat chunks)) 0) as [Hz|Hz]; [|exact H].
    apply zlen_0 in Hz. rewrite Hz. injection H as <- <- <-. reflexivity.
Qed.

(** One-shot parse versus one feed of everything. *)
Lemma parse_loop_fuel f1 : forall f2 rest c s, bytes_ok rest -> ctx_ok c ->
  (length rest < f1)%nat -> (length rest < f2)%nat -> parse_loop f1 rest c s = parse_loop f2 rest c s.
Proof.
  induction f1 as [|f1 IH]; intros f2 rest c s Hb Hc H1 H2; [lia|].
  destruct f2 as [|f2]; [lia|]. cbn [parse_loop].
  destruct (Z.eqb_spec (zlen rest) 0); [reflexivity|].
  destruct (try_decode_total rest c s Hb Hc) as (d & c' & s' & E). rewrite E. cbn [bind].
  destruct d as [n0| |]; try reflexivity.
  apply try_decode_ok in E; auto. destruct E as (Hn & Hc' & _).
  rewrite adv_ok by lia. cbn [bind]. destruct (ds_has_eor s'); [reflexivity|].
  apply IH; auto.
  all: unfold zskip, zlen in *; rewrite skipn_length; lia.
Qed.

Definition parseL rest c s := parse_loop (S (length rest)) rest c s.

Lemma parseL_eq rest c s : bytes_ok rest -> ctx_ok c ->
  parseL rest c s =
  if zlen rest =? 0 then Ret (true, s)
  else match try_decode_one_message rest c s with
       | Ret (DOk n, c, s) => if ds_has_eor s then Ret (true, s) else parseL (zskip n rest) c s
       | Ret (_, _, s) => Ret (false, s)
       | UB => UB | NoFuel => NoFuel
       end.
Proof.
  intros Hb Hc. unfold parseL at 1. cbn [parse_loop].
  destruct (Z.eqb_spec (zlen rest) 0); [reflexivity|].
  destruct (try_decode_total rest c s Hb Hc) as (d & c' & s' & E). rewrite E. cbn [bind].
  destruct d as [n0| |]; try reflexivity.
  apply try_decode_ok in E; auto. destruct E as (Hn & Hc' & _).
  rewrite adv_ok by lia. cbn [bind]. destruct (ds_has_eor s'); [reflexivity|].
  apply parse_loop_fuel; auto.
  all: unfold zskip, zlen in *; rewrite ?skipn_length; lia.
Qed.

Lemma parse_vs_feed rest : forall c s ok p s', bytes_ok rest -> ctx_ok c -> ds_has_eor s = false ->
  feedL rest c s = Ret (ok, p, s') ->
  parseL rest c s = Ret (ok && (sp_finish p || ds_has_eor s'), s').
Proof.
  induction rest as [rest IH] using (well_founded_induction (Wf_nat.well_founded_ltof _ (@length Z))).
  intros c s ok p s' Hb Hc Hs H. rewrite feedL_eq in H by auto. rewrite parseL_eq by auto.
  destruct (Z.eqb_spec (zlen rest) 0). { injection H as <- <- <-. reflexivity. }
  destruct (try_decode_total rest c s Hb Hc) as (d & c2 & s2 & E). rewrite E in *.
  destruct d as [n0| |].
  - apply try_decode_ok in E; auto. destruct E as (Hn & Hc' & _).
    destruct (ds_has_eor s2) eqn:Heor.
    + injection H as <- <- <-. rewrite Heor, orb_true_r. reflexivity.
    + apply IH in H; auto. apply zskip_len_lt; auto.
  - apply try_decode_needmore in E. destruct E; subst. injection H as <- <- <-.
    rewrite Hs. unfold sp_finish. cbn. replace (zlen rest =? 0) with false by lia. reflexivity.
  - injection H as <- <- <-. reflexivity.
Qed.

(** ** data-bin store *)
Definition entry_of (s : dbset) (k : key) : entry :=
  match lookup (ds_bins s) k with Some e => e | None => entry0 end.

Lemma ds_append_other s cl id off pl l k : k <> (cl, id) ->
  lookup (ds_bins (fst (ds_append s cl id off pl l))) k = lookup (ds_bins s) k.
Proof.
  intros. unfold ds_append. cbn zeta.
  repeat match goal with |- context [if ?x then _ else _] => destruct x end; cbn [fst ds_bins];
  apply lookup_update_neq; auto.
Qed.

Lemma ds_append_eor s cl id off pl l : ds_eor (fst (ds_append s cl id off pl l)) = ds_eor s.
Proof.
  unfold ds_append. cbn zeta.
  repeat match goal with |- context [if ?x then _ else _] => destruct x end; reflexivity.
Qed.

Lemma ds_append_spec s cl id off pl l :
  let e := entry_of s (cl, id) in
  let r := ds_append s cl id off pl l in
  snd r = negb (e_last e && (0 <? zlen pl)) && (off =? zlen (e_bytes e)) /\
  lookup (ds_bins (fst r)) (cl, id) =
    Some (if snd r then mkEntry (e_bytes e ++ pl) (e_last e || l) else e).
Proof.
  unfold ds_append, entry_of. cbn zeta.
  set (e := match lookup (ds_bins s) (cl, id) with Some e => e | None => entry0 end).
  assert (A : (if 0 <? zlen pl then e_bytes e ++ pl else e_bytes e) = e_bytes e ++ pl).
  { destruct (Z.ltb_spec 0 (zlen pl)); auto. destruct pl; [symmetry; apply app_nil_r|].
    rewrite zlen_cons in H. pose proof (zlen_nonneg pl). lia. }
  rewrite A.
  destruct (e_last e && (0 <? zlen pl)) eqn:E1; cbn [fst snd ds_bins negb andb].
  { rewrite lookup_update_eq. destruct e; auto. }
  destruct (Z.eqb_spec off (zlen (e_bytes e))); cbn [fst snd ds_bins negb andb].
  - rewrite lookup_update_eq. destruct l, (e_last e); auto.
  - rewrite lookup_update_eq. auto.
Qed.

(** ** Emitted messages are parsed *)

(** Zero or more successful, non-EOR messages. *)
Inductive reach : ctx -> dbset -> list Z -> ctx -> dbset -> list Z -> Prop :=
| reach_refl c s buf : reach c s buf c s buf
| reach_step c s buf n c1 s1 c2 s2 buf2 :
    try_decode_one_message buf c s = Ret (DOk n, c1, s1) -> ds_has_eor s1 = false ->
    buf <> [] -> reach c1 s1 (zskip n buf) c2 s2 buf2 -> reach c s buf c2 s2 buf2.

Lemma reach_trans c s b c1 s1 b1 c2 s2 b2 :
  reach c s b c1 s1 b1 -> reach c1 s1 b1 c2 s2 b2 -> reach c s b c2 s2 b2.
Proof. induction 1; auto. intros. eapply reach_step; eauto. Qed.

Lemma reach_parse c s b c1 s1 b1 : reach c s b c1 s1 b1 -> bytes_ok b -> ctx_ok c ->
  parseL b c s = parseL b1 c1 s1.
Proof.
  induction 1 as [|c s buf n c1 s1 c2 s2 buf2 H H0 H1 H2 IH]; auto. intros Hb Hc. rewrite parseL_eq by auto.
  destruct (Z.eqb_spec (zlen buf) 0) as [E|E]; [apply zlen_0 in E; contradiction|].
  rewrite H, H0. apply try_decode_ok in H; auto. destruct H as (_ & Hc' & _).
  apply IH; auto.
Qed.

Lemma one_message h c pl rest s :
  hdr_ok h -> ctx_ok c -> bytes_ok pl -> bytes_ok rest -> zlen pl = h_len h ->
  snd (ds_append s (h_class h) (h_id h) (h_off h) pl (h_last h)) = true ->
  try_decode_one_message (fst (encode_header h c) ++ pl ++ rest) c s =
  Ret (DOk (zlen (fst (encode_header h c)) + zlen pl), snd (encode_header h c),
       fst (ds_append s (h_class h) (h_id h) (h_off h) pl (h_last h))).
Proof.
  intros Hh Hc Hp Hr Hl Ha.
  assert (F := encode_with_indicator_facts h (negb (h_class h =? c_class c) || negb (h_csn h =? c_csn c))
            (negb (h_csn h =? c_csn c)) Hh).
  change (encode_with_indicator h _ _) with (fst (encode_header h c)) in F.
  destruct F as (F1 & F2 & F3).
  set (E := fst (encode_header h c)) in *.
  pose proof (zlen_nonneg pl). pose proof (zlen_nonneg rest).
  unfold try_decode_one_message. rewrite !zlen_app.
  replace (zlen E + (zlen pl + zlen rest) =? 0) with false by lia.
  rewrite rd_in by (rewrite !zlen_app; lia). cbn [bind]. rewrite znth_app_l by lia.
  replace (znth 0 E 0 =? 0) with false by lia.
  unfold E. rewrite decode_encode_header; auto; [|apply bytes_ok_app; auto]. fold E.
  cbn [bind as_received h_len h_class h_id h_off h_last].
  replace (zlen E + (zlen pl + zlen rest) - zlen E <? h_len h) with false by lia.
  rewrite adv_ok by (rewrite !zlen_app; lia). cbn [bind].
  rewrite zskip_app by auto. rewrite ztake_app by auto.
  destruct (ds_append s (h_class h) (h_id h) (h_off h) pl (h_last h)) as [s2 ok]. cbn [snd fst] in *.
  subst ok. rewrite Hl. reflexivity.
Qed.

Definition same_except (k : key) (s s' : dbset) : Prop :=
  ds_eor s' = ds_eor s /\ forall k', k' <> k -> lookup (ds_bins s') k' = lookup (ds_bins s) k'.

Lemma append_loop_total fuel h payload budget c acc offset :
  0 <= offset <= zlen payload -> zlen payload - offset < Z.of_nat fuel ->
  exists r, append_loop fuel h payload budget c acc offset = Ret r.
Proof.
  revert h c acc offset; induction fuel as [|f IH]; intros h c acc offset Ho Hf; [lia|].
  cbn [append_loop].
  match goal with |- context [if ?x <=? kMessageHeaderMaxBytes then _ else _] => set (avail := x) end.
  destruct (Z.leb_spec avail kMessageHeaderMaxBytes) as [|Hav]; [eauto|].
  set (tl := Z.min (Z.min (zlen payload - offset) kMaxMessagePayload) (avail - kMessageHeaderMaxBytes)).
  destruct ((0 <? zlen payload - offset) && (tl =? 0)) eqn:E; [eauto|].
  destruct (encode_header _ c) as [hb c2].
  destruct (Z.eqb_spec (offset + tl) (zlen payload)); [eauto|].
  unfold kMaxMessagePayload in *. apply IH; lia.
Qed.

Lemma append_loop_spec fuel h payload budget : forall h0 c acc offset r,
  h_class h0 = h_class h -> h_csn h0 = h_csn h -> h_id h0 = h_id h -> h_aux h0 = h_aux h ->
  hdr_ok h -> zlen payload < 2 ^ 64 -> bytes_ok payload -> ctx_ok c -> 
  0 <= offset <= zlen payload -> zlen acc <= budget ->
  append_loop fuel h0 payload budget c acc offset = Ret r ->
  offset <= am_offset r <= zlen payload /\ zlen (am_out r) <= budget /\
  (am_complete r = true -> am_offset r = zlen payload) /\
  (60 < budget - zlen acc -> offset + Z.min (zlen payload - offset) (Z.min 987 (budget - zlen acc - 60)) <= am_offset r) /\
  (am_offset r = zlen payload -> offset < zlen payload \/ 60 < budget - zlen acc -> am_complete r = true) /\
  am_blocked r = negb (am_complete r) /\
  ctx_ok (am_ctx r) /\
  exists bs, am_out r = acc ++ bs /\ bytes_ok bs /\
    forall s rest, bytes_ok rest -> ds_has_eor s = false ->
      e_bytes (entry_of s (h_class h, h_id h)) = ztake offset payload ->
      (e_last (entry_of s (h_class h, h_id h)) = true -> offset = zlen payload) ->
      exists s', reach c s (bs ++ rest) (am_ctx r) s' rest /\ 
        same_except (h_class h, h_id h) s s' /\
        e_bytes (entry_of s' (h_class h, h_id h)) = ztake (am_offset r) payload /\
        e_last (entry_of s' (h_class h, h_id h)) = e_last (entry_of s (h_class h, h_id h)) || am_complete r.
Proof.
  induction fuel as [|f IH]; intros h0 c acc offset r E1 E2 E3 E4 Hh H64 Hb Hc Ho Hacc H; [discriminate|].
  cbn [append_loop] in H.
  match type of H with context [if ?x <=? kMessageHeaderMaxBytes then _ else _] => set (avail := x) in * end.
  pose proof (zlen_nonneg acc) as Hacc0. pose proof (zlen_nonneg payload) as Hpl0.
  assert (Hav : avail = budget - zlen acc) by (subst avail; destruct (Z.ltb_spec (zlen acc) budget); lia).
  unfold kMessageHeaderMaxBytes, kVbasMaxBytes, kMaxMessagePayload in *.
  destruct (Z.leb_spec avail (10 * 6)) as [Hle|Hgt].
  { injection H as <-. cbn. conj; try lia; try discriminate; try (intros; exfalso; lia).
    exists []. rewrite app_nil_r. conj.
    intros s rest Hr Heor He Hl. exists s. rewrite orb_false_r. conj. constructor. split; auto. }
  set (tl := Z.min (Z.min (zlen payload - offset) 987) (avail - 10 * 6)) in *.
  destruct ((0 <? zlen payload - offset) && (tl =? 0)) eqn:E; [exfalso; lia|].
  set (h1 := mkHdr (h_class h0) (h_csn h0) (h_id h0) offset tl (h_aux h0) (offset + tl =? zlen payload)) in *.
  assert (Hh1 : hdr_ok h1).
  { unfold h1, hdr_ok, u64; cbn. rewrite E1, E2, E3, E4. unfold hdr_ok, u64 in Hh. intuition lia. }
  destruct (encode_header h1 c) as [hb c2] eqn:Eh.
  assert (F := encode_with_indicator_facts h1 (negb (h_class h1 =? c_class c) || negb (h_csn h1 =? c_csn c))
            (negb (h_csn h1 =? c_csn c)) Hh1).
  change (encode_with_indicator h1 _ _) with (fst (encode_header h1 c)) in F. rewrite Eh in F. cbn [fst] in F.
  destruct F as (F1 & F2 & F3).
  assert (Hc2 : ctx_ok c2) by (injection Eh as _ <-; split; cbn; rewrite ?E1, ?E2; apply Hh).
  assert (Epl : (if 0 <? tl then ztake tl (zskip offset payload) else []) = ztake tl (zskip offset payload)).
  { destruct (Z.ltb_spec 0 tl); auto. rewrite ztake_0 by lia. auto. }
  rewrite Epl in H. set (pl := ztake tl (zskip offset payload)) in *.
  assert (Hpl : zlen pl = tl) by (unfold pl; apply zlen_ztake; rewrite zlen_zskip; lia).
  assert (Hplb : bytes_ok pl) by (apply bytes_ok_ztake, bytes_ok_zskip; auto).
  assert (Hcat : ztake offset payload ++ pl = ztake (offset + tl) payload).
  { apply ztake_plus; lia. }
  assert (STEP : forall s rest, bytes_ok rest -> ds_has_eor s = false ->
      e_bytes (entry_of s (h_class h, h_id h)) = ztake offset payload ->
      (e_last (entry_of s (h_class h, h_id h)) = true -> offset = zlen payload) ->
      exists s', reach c s (hb ++ pl ++ rest) c2 s' rest /\ same_except (h_class h, h_id h) s s' /\
        e_bytes (entry_of s' (h_class h, h_id h)) = ztake (offset + tl) payload /\
        e_last (entry_of s' (h_class h, h_id h)) = e_last (entry_of s (h_class h, h_id h)) || (offset + tl =? zlen payload)).
  { intros s rest Hr Heor He Hl.
    pose proof (ds_append_spec s (h_class h1) (h_id h1) (h_off h1) pl (h_last h1)) as Q. cbn zeta in Q.
    unfold h1 in Q; cbn [h_class h_id h_off h_last] in Q. rewrite E1, E3 in Q.
    destruct Q as (Q1 & Q2). rewrite He in Q1. rewrite zlen_ztake in Q1 by lia. rewrite Z.eqb_refl in Q1.
    assert (Qok : snd (ds_append s (h_class h) (h_id h) offset pl (offset + tl =? zlen payload)) = true).
    { rewrite Q1. rewrite Hpl. destruct (e_last (entry_of s (h_class h, h_id h))); auto.
      specialize (Hl eq_refl). replace (0 <? tl) with false by lia. reflexivity. }
    rewrite Qok in Q2.
    pose proof (one_message h1 c pl rest s Hh1 Hc Hplb Hr ltac:(unfold h1; cbn; lia)) as OM.
    unfold h1 in OM at 1 2 3 4. cbn [h_class h_id h_off h_last] in OM. rewrite E1, E3 in OM. specialize (OM Qok).
    rewrite Eh in OM. cbn [fst snd] in OM. unfold h1 in OM; cbn [h_class h_id h_off h_last] in OM. rewrite E1, E3 in OM.
    set (s' := fst (ds_append s (h_class h) (h_id h) offset pl (offset + tl =? zlen payload))) in *.
    exists s'. split; [|split; [|split]].
    - eapply reach_step; [exact OM| | |].
      + unfold ds_has_eor, s'. rewrite ds_append_eor. exact Heor.
      + intro Hnil. apply app_eq_nil in Hnil. destruct Hnil as [-> _]. rewrite zlen_nil in F2; lia.
      + replace (zskip (zlen hb + zlen pl) (hb ++ pl ++ rest)) with rest.
        constructor. rewrite app_assoc. symmetry. apply zskip_app. apply zlen_app.
    - split. unfold s'; apply ds_append_eor. intros k' Hk'. unfold s'. apply ds_append_other. auto.
    - unfold entry_of at 1. rewrite Q2. cbn [e_bytes]. rewrite He. exact Hcat.
    - unfold entry_of at 1. rewrite Q2. cbn [e_last]. reflexivity. }
  destruct (Z.eqb_spec (offset + tl) (zlen payload)) as [Hlast|Hnl].
  - injection H as <-. cbn. conj; try lia.
    + rewrite !zlen_app. lia.
    + exists (hb ++ pl). conj. apply bytes_ok_app; auto.
      intros s rest Hr Heor He Hl. rewrite <- app_assoc.
      destruct (STEP s rest Hr Heor He Hl) as (s' & R1 & R2 & R3 & R4).
      exists s'. conj.
  - assert (E0' : (offset + tl =? zlen payload) = false) by lia.
    assert (Hacc' : zlen (acc ++ hb ++ pl) <= budget) by (rewrite !zlen_app; lia).
    apply (IH h1 c2 (acc ++ hb ++ pl) (offset + tl) r E1 E2 E3 E4 Hh H64 Hb Hc2 ltac:(lia) Hacc') in H.
    destruct H as (I1 & I2 & I3 & I4 & I4a & I4b & I5 & bs & I6 & I7 & I8).
    conj; try lia. { intros; apply I4a; auto; left; lia. }
    exists (hb ++ pl ++ bs). conj.
    + rewrite I6. rewrite <- !app_assoc. reflexivity.
    + rewrite !bytes_ok_app; auto.
    + intros s rest Hr Heor He Hl. rewrite <- !app_assoc.
      destruct (STEP s (bs ++ rest) ltac:(apply bytes_ok_app; auto) Heor He Hl) as (s1 & R1 & R2 & R3 & R4).
      destruct R2 as [R2a R2b].
      assert (Heor1 : ds_has_eor s1 = false) by (unfold ds_has_eor in *; rewrite R2a; auto).
      destruct (I8 s1 rest Hr Heor1 R3) as (s2 & T1 & T2 & T3 & T4).
      { rewrite R4, orb_false_r. intros X; specialize (Hl X). lia. }
      exists s2. split; [eapply reach_trans; eauto|]. split; [|split; auto].
      * destruct T2 as [T2a T2b]. split; [congruence|]. intros k' Hk'. rewrite T2b, R2b by auto. auto.
      * rewrite T4, R4, orb_false_r. reflexivity.
Qed.

Lemma eor_parse reason c s rest : 0 <= reason < 256 -> ctx_ok c -> bytes_ok rest ->
  parseL (emit_eor reason ++ rest) c s = Ret (true, ds_set_eor s reason).
Proof.
  intros Hr Hc Hb. assert (K : bytes_ok (emit_eor reason ++ rest)).
  { apply bytes_ok_app; split; auto. repeat constructor; unfold byte_ok; lia. }
  rewrite parseL_eq by auto. rewrite zlen_app. pose proof (zlen_nonneg rest).
  change (zlen (emit_eor reason)) with 3. replace (3 + zlen rest =? 0) with false by lia.
  assert (T : try_decode_one_message (emit_eor reason ++ rest) c s = Ret (DOk 3, c, ds_set_eor s reason)).
  { unfold try_decode_one_message. rewrite zlen_app. change (zlen (emit_eor reason)) with 3.
    replace (3 + zlen rest =? 0) with false by lia.
    rewrite rd_in by (rewrite zlen_app; change (zlen (emit_eor reason)) with 3; lia). cbn [bind].
    change (znth 0 (emit_eor reason ++ rest) 0) with 0. rewrite Z.eqb_refl.
    replace (3 + zlen rest <? 2) with false by lia.
    rewrite rd_in by (rewrite zlen_app; change (zlen (emit_eor reason)) with 3; lia). cbn [bind].
    rewrite adv_ok by (rewrite zlen_app; change (zlen (emit_eor reason)) with 3; lia). cbn [bind].
    change (zskip 2 (emit_eor reason ++ rest)) with (vbas_encode 0 ++ rest).
    rewrite vbas_roundtrip by (auto; unfold u64; lia). cbn [bind].
    change (zlen (vbas_encode 0)) with 1. replace (3 + zlen rest - 2 - 1 <? 0) with false by lia.
    reflexivity. }
  rewrite T. reflexivity.
Qed.
