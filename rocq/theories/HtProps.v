(** Properties of the HT block coder. *)
From Verif Require Import Base BaseLemmas HtTables HtBits HtReaders HtStreamModel HtBlockModel HtSpec
  HtReadProofs HtMsProofs HtMelReadProofs HtMelEncProofs HtVlcProofs HtTableProofs HtQuadProofs
  HtEncProofs HtDec1Proofs HtDec2Proofs HtRoundProofs HtSizeProofs HtHostileProofs HtMarkProofs.
Require Import Lia.

(** ** C26.  Words written to the MagSgn stream are read back. *)

Lemma magsgn_call c : triple_ok c -> call_ok c.
Proof.
  destruct c as [[v m] e]. unfold triple_ok, call_ok. intros (H1 & H2). rewrite Z.shiftl_mul_pow2 by lia. lia.
Qed.

Lemma magsgn_read_ok words : Forall call_ok words -> forall f, fwd_inv f (msb words) ->
  magsgn_read f (map (fun c => snd (fst c)) words) = Some (map (fun c => let '(v, m, e) := c in v - e * 2 ^ m) words).
Proof.
  induction words as [|[[v m] e] t IH]; intros F f H; cbn [map magsgn_read]; [reflexivity|].
  inversion F as [|? ? C F']; subst. destruct C as [C1 C2]. cbn [fst snd] in *.
  assert (msb ((v, m, e) :: t) = bitsLE (Z.to_nat m) (v - Z.shiftl e m) ++ msb t) as E by reflexivity. rewrite E in H.
  destruct (fwd_head f m _ _ H ltac:(lia) C2) as (x & s1 & s2 & -> & -> & H2 & _ & Hx).
  rewrite (IH F' s2 H2). rewrite Hx, Z.shiftl_mul_pow2 by lia. reflexivity.
Qed.

Lemma znth_tl (b : Z) t i : 0 < i -> znth 0 (b :: t) i = znth 0 t (i - 1).
Proof. intros H. unfold znth. replace (Z.to_nat i) with (S (Z.to_nat (i - 1))) by lia. reflexivity. Qed.
Lemma fwf_spec l : forall u, fwf u l -> (u = true -> 0 < zlen l -> znth 0 l 0 < 128) /\ ff_then_at_most 127 l.
Proof.
  induction l as [|b t IH]; intros u; [intros _; split; [cbn; lia|intros i; cbn; lia]|].
  cbn [fwf]. intros [H1 H2]. destruct (IH _ H2) as [I1 I2]. split; [intros U _; exact (H1 U)|].
  intros i Hi Hl E. rewrite zlen_cons in Hl. destruct (Z.eq_dec i 0) as [->|N].
  - change (znth 0 (b :: t) 0) with b in E. subst b. change (0 + 1) with 1.
    assert (znth 0 (255 :: t) 1 = znth 0 t 0) as -> by reflexivity. specialize (I1 eq_refl). lia.
  - rewrite (znth_tl b t (i + 1)) by lia. rewrite (znth_tl b t i) in E by lia.
    replace (i + 1 - 1) with (i - 1 + 1) by lia. apply I2; (lia || exact E).
Qed.
Lemma fflag_last l : forall u, fflag u l = false -> (u = false \/ l <> []) -> last l 0 <> 255.
Proof.
  induction l as [|b t IH]; intros u H N; [cbn; lia|]. destruct t as [|c t].
  - cbn in *. lia.
  - cbn [fflag] in H. change (last (b :: c :: t) 0) with (last (c :: t) 0). apply (IH (b =? 255)); [exact H|]. right. discriminate.
Qed.

Theorem C26_magsgn_stream : forall al words, (al <= 3)%nat -> Forall triple_ok words ->
  let seg := rev (ms_term (ms_run words)) in
  (exists f, fwd_init al seg = Some f /\
     magsgn_read f (map (fun c => snd (fst c)) words) = Some (map (fun c => let '(v, m, e) := c in v - e * 2 ^ m) words)) /\
  Forall (fun b => 0 <= b < 256) seg /\ ff_then_at_most 127 seg /\ last seg 0 <> 255.
Proof.
  intros al words Ha Hw seg.
  assert (Forall call_ok words) as Hc by (eapply Forall_impl; [|exact Hw]; intros c; apply magsgn_call).
  destruct (ms_term_ok _ _ (ms_run_ok words Hc)) as (T1 & T2 & T3 & T4). fold seg in T1, T2, T3, T4.
  split; [|split; [exact T1|split; [apply (fwf_spec _ _ T2)|apply (fflag_last _ _ T3); auto]]].
  destruct (fwd_init_inv al seg (msb words) Ha T1 T4) as (f & E & H). exists f. split; [exact E|].
  apply magsgn_read_ok; assumption.
Qed.
Print Assumptions C26_magsgn_stream.

Example C26_words : Forall triple_ok [(5, 3, 0); (2 ^ 31 - 1, 31, 0); (0, 0, 0); (9, 3, 1); (2 ^ 32 - 1, 32, 0)].
Proof. repeat constructor; cbn; lia. Qed.
Example C26_stuffing : rev (ms_term (ms_run [(2 ^ 31 - 1, 31, 0); (0, 2, 0)])) = [255; 127; 255; 127; 249].
Proof. vm_compute. reflexivity. Qed.

(** ** C27 and C28.  The joined MEL and VLC segment. *)

Lemma word_vcall c : word_ok c -> vcall_ok c.
Proof. unfold word_ok, vcall_ok. lia. Qed.

Theorem C27_mel_stream : forall al events words, (al <= 3)%nat -> Forall word_ok words ->
  let seg := term_mel_vlc (vlc_run words) (mel_term (mel_run events)) in
  let (run, s) := mel_get_run (mel_dec_init al seg) in
  mel_decisions (length events) run s = events.
Proof.
  intros al events words Ha Hw seg.
  assert (Forall vcall_ok words) as Hc by (eapply Forall_impl; [|exact Hw]; intros c; apply word_vcall).
  destruct (mel_term_inv _ _ (mel_run_ok events)) as (lm & rs & x & L1 & L2 & L3).
  destruct (term_ok _ _ _ _ (vlc_run_ok _ Hc) L1) as (T1 & T2 & T3 & _). fold seg in T1, T3.
  specialize (L2 []). rewrite app_nil_r in L2.
  pose proof (mel_reads al seg lm rs events x Ha T1 T3 L2 L3) as M.
  destruct (mel_get_run (mel_dec_init al seg)) as [run s].
  clear -M. revert run s M. induction events as [|e t IH]; intros run s M; [reflexivity|].
  cbn [mel_yields length mel_decisions] in *. destruct (mel_event run s) as [b [run' s']]. destruct M as [-> M]. now rewrite IH.
Qed.
Print Assumptions C27_mel_stream.

Lemma vlc_read_ok words : Forall word_ok words -> forall r, rev_inv r (vb words) ->
  vlc_read r (map snd words) = Some (map fst words).
Proof.
  induction words as [|[v m] t IH]; intros F r H; cbn [map vlc_read fst snd]; [reflexivity|].
  inversion F as [|? ? [C1 C2] F']; subst. cbn [fst snd] in *.
  assert (vb ((v, m) :: t) = bitsLE (Z.to_nat m) v ++ vb t) as E by reflexivity. rewrite E in H.
  pose proof (rev_fetch_inv _ _ H) as P. destruct (rev_fetch r) as [x r1]. destruct P as (P1 & P2 & P3).
  destruct (rev_skip r1 m v _ P1 ltac:(lia)) as (r2 & -> & P4 & _). rewrite (IH F' r2 P4). rewrite P3.
  rewrite (rev_head r1 m v _ P1) by lia. reflexivity.
Qed.

Theorem C28_vlc_stream : forall al events words, (al <= 3)%nat -> Forall word_ok words ->
  let seg := term_mel_vlc (vlc_run words) (mel_term (mel_run events)) in
  exists r, rev_init al seg = Some r /\ vlc_read r (map snd words) = Some (map fst words).
Proof.
  intros al events words Ha Hw seg.
  assert (Forall vcall_ok words) as Hc by (eapply Forall_impl; [|exact Hw]; intros c; apply word_vcall).
  destruct (mel_term_inv _ _ (mel_run_ok events)) as (lm & rs & x & L1 & L2 & L3).
  destruct (term_ok _ _ _ _ (vlc_run_ok _ Hc) L1) as (T1 & T2 & T3 & d & rest & T4 & T5 & T6). fold seg in T1, T3, T4.
  destruct (rev_init_inv al seg d rest 255 _ Ha T1 T4 T5 T6) as (r & E & H). exists r. split; [exact E|].
  apply vlc_read_ok; assumption.
Qed.
Print Assumptions C28_vlc_stream.

Example C28_words : Forall word_ok [(5, 3); (127, 7); (127, 7); (0, 0); (2 ^ 18 - 1, 18)].
Proof. repeat constructor; cbn; lia. Qed.
Example C28_joined : term_mel_vlc (vlc_run [(5, 3); (127, 7); (127, 7)]) (mel_term (mel_run [true; false; false; true]))
  = [96; 63; 127; 223; 255].
Proof. vm_compute. reflexivity. Qed.

(** ** C29.  The tables agree. *)

Definition cxtvlc_enc (first : bool) : list Z := if first then enc_CxtVLC_table0 else enc_CxtVLC_table1.
Definition cxtvlc_dec (first : bool) : list Z := if first then dec_CxtVLC_table0_fast_16 else dec_CxtVLC_table1_fast_16.
Definition uvlc_enc (first : bool) : list Z := if first then enc_UVLC_table0 else enc_UVLC_table1.
Definition uvlc_dec (first : bool) : list Z := if first then uvlc_dec_0 else uvlc_dec_1.

(** [c] context, [rho] significance pattern, [emb] pattern of the samples with
    the largest exponent (zero when u is zero), [v] the bits at the decoder.
    Context zero with an empty pattern is coded by the MEL event alone. *)
Theorem C29_cxtvlc : forall first c rho emb v,
  0 <= c < 8 -> 0 <= rho < 16 -> 0 <= emb < 16 -> Z.land emb rho = emb -> 0 <= v ->
  let e := znth 0 (cxtvlc_enc first) (emb + 16 * rho + 256 * c) in
  let len := (e / 16) mod 8 in
  let known := e mod 16 in
  0 <= e / 128 < 2 ^ len /\ Z.land known rho = known /\
  (c = 0 /\ rho = 0 -> len = 0) /\
  (~ (c = 0 /\ rho = 0) -> v mod 2 ^ len = e / 128 ->
   let d := znth 0 (cxtvlc_dec first) (v mod 128 + 128 * c) in
   (d / 2) mod 8 = len /\ d mod 2 = (if emb =? 0 then 0 else 1) /\ (d / 16) mod 16 = rho /\
   (d / 256) mod 16 = Z.land emb known /\ d / 4096 = known).
Proof.
  intros first c rho emb v Hc Hr He Hsub Hv e len known.
  assert (H : cxt_sweep (etab first) (dtab first) = true) by (destruct first; [exact cxt_sweep0|exact cxt_sweep1]).
  unfold cxt_sweep in H. pose proof (sweep3 _ H c rho emb Hc Hr He) as S. cbv beta in S.
  rewrite Hsub, Z.eqb_refl in S. cbv zeta in S. change (etab first) with (cxtvlc_enc first) in S.
  rewrite (Z.shiftl_mul_pow2 rho 4) in S by lia. change (2 ^ 4) with 16 in S. rewrite (Z.mul_comm rho 16) in S. fold e in S.
  assert (ex_lw e = len) as E1 by (unfold ex_lw, len; rewrite land_7, Z.shiftr_div_pow2 by lia; reflexivity).
  assert (ex_cwd e = e / 128) as E2 by (unfold ex_cwd; rewrite Z.shiftr_div_pow2 by lia; reflexivity).
  assert (ex_embk e = known) as E3 by (unfold ex_embk, known; apply land_15).
  unfold cxt_word_ok in S. rewrite E1, E2, E3 in S.
  apply andb_prop in S as [S1 S2]. repeat (apply andb_prop in S1 as [S1 ?]).
  split; [lia|]. split; [lia|]. split; [intros [-> ->]; cbn in S2; lia|].
  intros Hn Hm d.
  replace ((c =? 0) && (rho =? 0)) with false in S2 by lia. rewrite forallb_forall in S2.
  assert (0 <= v mod 128 < 128) as Hw by (apply Z.mod_pos_bound; lia).
  specialize (S2 (v mod 128) (proj2 (zseq_In _ _) Hw)). cbv beta in S2.
  assert (0 <= len < 8) as Hlen by (apply Z.mod_pos_bound; lia).
  rewrite land_ones_mod in S2 by lia.
  assert ((v mod 128) mod 2 ^ len = e / 128) as Em by (rewrite <- Hm; change 128 with (2 ^ 7); apply mod_pow_le; lia).
  rewrite Em, Z.eqb_refl in S2. unfold cxt_entry_ok in S2. rewrite E1, E3 in S2. cbv zeta in S2.
  change (dtab first) with (cxtvlc_dec first) in S2. fold d in S2.
  assert (0 <= d < 65536) as Hd by (apply (dtab_entry first); lia). clearbody d.
  rewrite land_15, !Z.shiftr_div_pow2 in S2 by lia. rewrite !land_15 in S2.
  assert (Z.land d 1 = d mod 2) as D1.
  { pose proof (Z.land_ones d 1 ltac:(lia)) as Q. change (Z.ones 1) with 1 in Q. exact Q. }
  rewrite D1 in S2. change (2 ^ 1) with 2 in S2. change (2 ^ 4) with 16 in S2. change (2 ^ 8) with 256 in S2. change (2 ^ 12) with 4096 in S2.
  assert ((d mod 16) / 2 = (d / 2) mod 8) as D2 by (clear; lia).
  rewrite D2 in S2. clear -S2. destruct (emb =? 0); lia.
Qed.
Print Assumptions C29_cxtvlc.

Example C29_cxt_case : Z.land 5 13 = 5 /\ znth 0 enc_CxtVLC_table1 (5 + 16 * 13 + 256 * 3) / 128 < 128.
Proof. vm_compute. split; reflexivity. Qed.

Lemma uvlc_suffix_fits : forall f, forallb (fun r => du_sl r <=? du_ql r + 8) (dutab f) = true.
Proof. intros []; vm_compute; reflexivity. Qed.

(** Both u-values of a pair of quads; the index adds 64 in the first line-pair
    when the MEL event says that both exceed two. *)
Theorem C29_uvlc : forall first u0 u1 v, 0 <= u0 < 32 -> 0 <= u1 < 32 -> 0 <= v ->
  let e := znth 0 (uvlc_enc first) (u0 + 32 * u1) in
  let len := e mod 256 in
  0 <= e / 256 < 2 ^ len /\ len <= 18 /\
  (v mod 2 ^ len = e / 256 ->
   let idx := v mod 64 + (if u0 =? 0 then 0 else 64) + (if u1 =? 0 then 0 else 128)
              + (if first && (2 <? u0) && (2 <? u1) then 64 else 0) in
   let r := znth 0 (uvlc_dec first) idx in
   let prefix_len := r mod 8 in
   let suffix_len := (r / 8) mod 16 in
   let first_suffix := (r / 128) mod 8 in
   let suffix := (v / 2 ^ prefix_len) mod 2 ^ suffix_len in
   prefix_len + suffix_len = len /\
   (r / 1024) mod 8 + suffix mod 2 ^ first_suffix = u0 /\
   r / 8192 + suffix / 2 ^ first_suffix = u1).
Proof.
  intros first u0 u1 v H0 H1 Hv e len.
  destruct (uvlc_ok first u0 u1 H0 H1) as (_ & Hc & Hl & Hd). cbv zeta in Hc, Hl, Hd.
  assert (euw first u0 u1 = e) as Ee.
  { unfold euw, e. rewrite Z.shiftl_mul_pow2 by lia. change (2 ^ 5) with 32. rewrite (Z.mul_comm u1 32). reflexivity. }
  rewrite Ee in *. rewrite land_255, Z.shiftr_div_pow2 in * by lia. change (2 ^ 8) with 256 in *. fold len in Hc, Hl, Hd.
  split; [exact Hc|]. split; [lia|]. intros Hm. cbv zeta.
  specialize (Hd v Hv Hm). cbv zeta in Hd.
  assert (Z.land v 63 = v mod 64) as E63 by (change 63 with (2 ^ 6 - 1); rewrite land_ones_mod by lia; reflexivity).
  set (idx := v mod 64 + (if u0 =? 0 then 0 else 64) + (if u1 =? 0 then 0 else 128) + (if first && (2 <? u0) && (2 <? u1) then 64 else 0)).
  assert (Z.land v 63 + 64 * off u0 + 128 * off u1 + du_mo first u0 u1 = idx) as Ei.
  { unfold idx, off, du_mo. rewrite E63. destruct first; cbn [andb]; destruct (u0 =? 0), (u1 =? 0), (2 <? u0) eqn:A, (2 <? u1) eqn:B; cbn [andb];
      try (replace (2 <? Z.min u0 u1) with false by lia); try (replace (2 <? Z.min u0 u1) with true by lia); lia. }
  rewrite Ei in Hd. change (dutab first) with (uvlc_dec first) in Hd.
  assert (du_sl (znth 0 (uvlc_dec first) idx) <= du_ql (znth 0 (uvlc_dec first) idx) + 8) as Hfit.
  { destruct (Z.lt_ge_cases idx (zlen (uvlc_dec first))) as [L|L].
    - pose proof (uvlc_suffix_fits first) as S. rewrite forallb_forall in S.
      assert (0 <= idx) by (unfold idx; pose proof (Z.mod_pos_bound v 64); destruct (u0 =? 0), (u1 =? 0), (first && (2 <? u0) && (2 <? u1)); lia).
      specialize (S _ (znth_In 0 (dutab first) idx ltac:(split; assumption))). change (dutab first) with (uvlc_dec first) in S. lia.
    - assert (znth 0 (uvlc_dec first) idx = 0) as ->.
      { unfold znth. apply nth_overflow. unfold zlen in L. lia. }
      vm_compute. discriminate. }
  set (r := znth 0 (uvlc_dec first) idx) in *. clearbody r.
  unfold du_pl, du_sl, du_ql, du_p0, du_p1 in *. rewrite !land_7, land_15 in *.
  rewrite !Z.shiftr_div_pow2 in * by (lia || (apply Z.mod_pos_bound; lia)).
  change (2 ^ 3) with 8 in *. change (2 ^ 7) with 128 in *. change (2 ^ 10) with 1024 in *. change (2 ^ 13) with 8192 in *.
  destruct Hd as (D1 & D2 & D3). split; [exact D1|]. split; [|exact D3].
  etransitivity; [|exact D2]. f_equal.
  set (sl := (r / 8) mod 16) in *. set (ql := (r / 128) mod 8) in *.
  set (s := (v / 2 ^ (r mod 8)) mod 2 ^ sl).
  assert (0 <= sl < 16) as Bs by (apply Z.mod_pos_bound; lia). assert (0 <= ql < 8) as Bq by (apply Z.mod_pos_bound; lia).
  assert (0 <= s < 2 ^ sl) as Rs by (apply Z.mod_pos_bound, Z.pow_pos_nonneg; lia).
  clearbody s sl ql. symmetry. apply Z.bits_inj'. intros n Hn.
  rewrite Z.land_spec, wrap32_testbit, Z.lnot_spec by lia.
  destruct (Z.lt_ge_cases n ql).
  - rewrite Z.mod_pow2_bits_low, Z.shiftl_spec_low by lia. replace (n <? 32) with true by lia. apply andb_true_r.
  - rewrite Z.mod_pow2_bits_high, Z.shiftl_spec_high by lia.
    destruct (Z.lt_ge_cases n sl).
    + replace (Z.testbit 255 (n - ql)) with true; [now rewrite andb_false_r, andb_false_r|].
      symmetry. change 255 with (Z.ones 8). apply Z.ones_spec_low. lia.
    + rewrite (testbit_high s sl) by lia. reflexivity.
Qed.
Print Assumptions C29_uvlc.

(** ** C30.  A block comes back from the decoder unchanged. *)

(** Whatever the encoder produces, at whatever address. *)
Theorem C30_round_trip : forall a b c, size_ok (b_w b) (b_h b) -> 1 <= b_Mb b <= 30 -> bounded b ->
  ht_encode b = Ret c ->
  exists g, ht_decode a c (b_w b) (b_h b) (b_Mb b) = ret g /\ same b g.
Proof. intros a b c H1 H2 H3 H4. destruct (ht_round_trip a b c H1 H2 H3 H4) as (g & E & H). exists g. auto. Qed.
Print Assumptions C30_round_trip.

(** Up to 23 planes the encoder always succeeds. *)
Theorem C30_lossless : forall a b, size_ok (b_w b) (b_h b) -> 1 <= b_Mb b <= 23 -> bounded b ->
  exists c g, ht_encode b = Ret c /\ ht_decode a c (b_w b) (b_h b) (b_Mb b) = ret g /\ same b g.
Proof.
  intros a b H1 H2 H3. destruct (ht_encode_fits b H1 H2 H3) as (c & Ec).
  destruct (C30_round_trip a b c H1 ltac:(lia) H3 Ec) as (g & E & H). exists c, g. auto.
Qed.
Print Assumptions C30_lossless.

Example C30_demo : size_ok (b_w demo) (b_h demo) /\ bounded demo /\ any_sig demo = true /\
  exists c, ht_encode demo = Ret c /\ c_length c = 17.
Proof.
  repeat apply conj; [exists 3, 2; vm_compute; intuition congruence| |reflexivity|].
  - intros y x Hy Hx. cbn [b_h b_w b_Mb b_q demo] in *. replace ((y <? 3) && (x <? 5)) with true by lia.
    assert (y = 0 \/ y = 1 \/ y = 2) as [-> | [-> | ->]] by lia;
    assert (x = 0 \/ x = 1 \/ x = 2 \/ x = 3 \/ x = 4) as [-> | [-> | [-> | [-> | ->]]]] by lia; vm_compute; reflexivity.
  - eexists. split; [vm_compute; reflexivity|reflexivity].
Qed.

(** With 31 planes the encoder still produces a block, which the decoder refuses. *)
Theorem C30_31_planes_refuted : exists b c, size_ok (b_w b) (b_h b) /\ b_Mb b = 31 /\ bounded b /\
  ht_encode b = Ret c /\ forall a, ht_decode a c (b_w b) (b_h b) (b_Mb b) = throw.
Proof.
  set (b := Block 4 4 (fun _ _ => 5) 31). exists b. eexists. repeat apply conj.
  - exists 2, 2. vm_compute. intuition congruence.
  - reflexivity.
  - intros y x _ _. vm_compute. reflexivity.
  - vm_compute. reflexivity.
  - intros a. vm_compute. reflexivity.
Qed.
Print Assumptions C30_31_planes_refuted.

(** ** C49 and C50.  What the encoder leaves in the block. *)

Lemma encode_data b c : size_ok (b_w b) (b_h b) -> 1 <= b_Mb b <= 30 -> bounded b -> ht_encode b = Ret c ->
  c_length c = zlen (c_data c) /\ c_plen c = [c_length c] /\ bytes_ok (c_data c) /\
  (c_data c = [] \/ exists g, finish g = Ret (c_data c) /\ Forall call_ok (g_ms g) /\ Forall vcall_ok (g_vlc g)).
Proof.
  intros Hsz HMb Hq He. destruct (size_fit _ _ Hsz) as (S1 & S2 & S3 & S4 & S5 & S6).
  destruct (any_sig b) eqn:Sg.
  2:{ unfold ht_encode in He. rewrite Sg in He. apply Ret_inj in He. subst c. cbn. repeat split; auto. }
  assert (in_range b) as Hin.
  { intros y x Hy Hx. specialize (Hq y x Hy Hx). assert (2 ^ b_Mb b <= 2 ^ 30) by (apply Z.pow_le_mono_r; lia). lia. }
  rewrite ht_encode_log in He by (assumption || lia).
  set (g := rowslog b (half_up (b_w b)) (Z.to_nat (half_up (b_h b))) 0) in *.
  destruct (finish g) as [data| |] eqn:Ef; try discriminate. cbn [bind] in He. apply Ret_inj in He. subst c.
  assert (1 <= half_up (b_w b)) as W1 by (unfold half_up; lia).
  assert (Forall vcall_ok (g_vlc g)) as Fv by (apply rowslog_wf; assumption).
  assert (g_ms g = rowsms b (half_up (b_w b)) (Z.to_nat (half_up (b_h b))) 0) as Eg by (apply rowslog_ms; lia).
  assert (Forall call_ok (g_ms g)) as Fm by (rewrite Eg; apply rowsms_wf; assumption).
  cbn [c_length c_data c_plen]. split; [reflexivity|]. split; [reflexivity|]. split; [|right; exists g; auto].
  destruct (finish_inv g data Ef Fm Fv) as (ms & suf & d & rest & F1 & F2 & _ & F4 & _ & _ & _ & F8 & F9 & F10 & _ & _).
  rewrite F10. apply bytes_ok_app. split; [exact F1|]. apply bytes_ok_app. split; [apply bytes_ok_ztake; exact F2|].
  constructor; [|constructor; [|constructor]].
  - assert (byte_ok d) as Hd.
    { unfold bytes_ok in F2. apply Forall_rev in F2. rewrite F4 in F2. inversion F2 as [|? ? _ F2']; subst. now inversion F2'. }
    unfold byte_ok in *. apply (lor_range 8); [lia| |].
    + assert (In d (zseq 256)) as I by (apply zseq_In; exact Hd).
      assert (forallb (fun x => (0 <=? Z.land x 240) && (Z.land x 240 <? 256)) (zseq 256) = true) as A by (vm_compute; reflexivity).
      rewrite forallb_forall in A. specialize (A d I). change (2 ^ 8) with 256. lia.
    + rewrite land_15. pose proof (Z.mod_pos_bound (zlen suf) 16). change (2 ^ 8) with 256. lia.
  - unfold byte_ok. rewrite Z.shiftr_div_pow2 by lia. change (2 ^ 4) with 16. lia.
Qed.

Lemma nm_spec l : forall u, nm u l -> (u = true -> 0 < zlen l -> znth 0 l 0 <= 143) /\ ff_then_at_most 143 l.
Proof.
  induction l as [|b t IH]; intros u; [intros _; split; [cbn; lia|intros i; cbn; lia]|].
  cbn [nm]. intros [H1 H2]. destruct (IH _ H2) as [I1 I2]. split; [intros U _; exact (H1 U)|].
  intros i Hi Hl E. rewrite zlen_cons in Hl. destruct (Z.eq_dec i 0) as [->|N].
  - change (znth 0 (b :: t) 0) with b in E. subst b. change (0 + 1) with 1.
    assert (znth 0 (255 :: t) 1 = znth 0 t 0) as -> by reflexivity. specialize (I1 eq_refl). lia.
  - rewrite (znth_tl b t (i + 1)) by lia. rewrite (znth_tl b t i) in E by lia.
    replace (i + 1 - 1) with (i - 1 + 1) by lia. apply I2; (lia || exact E).
Qed.

(** Codestream markers in a packet body would be FF90..FFFF. *)
Theorem C49_no_marker : forall b c, size_ok (b_w b) (b_h b) -> 1 <= b_Mb b <= 30 -> bounded b -> ht_encode b = Ret c ->
  ff_then_at_most 143 (c_data c) /\ last (c_data c) 0 <> 255.
Proof.
  intros b c H1 H2 H3 H4. destruct (encode_data b c H1 H2 H3 H4) as (_ & _ & _ & [-> | (g & E & Fm & Fv)]).
  - split; [intros i; cbn; lia|cbn; lia].
  - destruct (finish_nm g _ E Fm Fv) as [N1 N2]. split; [apply (nm_spec _ _ N1)|apply (fflag_last _ _ N2); auto].
Qed.
Print Assumptions C49_no_marker.

Theorem C50_buffers_suffice_partial : forall b, size_ok (b_w b) (b_h b) -> 1 <= b_Mb b <= 23 -> bounded b ->
  exists c, ht_encode b = Ret c /\ c_length c = zlen (c_data c) /\ c_plen c = [c_length c] /\
    Forall (fun x => 0 <= x < 256) (c_data c) /\ c_length c <= 16834.
Proof.
  intros b H1 H2 H3. destruct (ht_encode_fits b H1 H2 H3) as (c & E). exists c. split; [exact E|].
  destruct (encode_data b c H1 ltac:(lia) H3 E) as (-> & -> & D3 & D4). repeat split; auto.
  destruct D4 as [-> | (g & F & Fm & Fv)]; [cbn; lia|].
  destruct (finish_inv g _ F Fm Fv) as (ms & suf & d & rest & _ & _ & _ & _ & _ & _ & _ & _ & F9 & _ & _ & F12). lia.
Qed.
Print Assumptions C50_buffers_suffice_partial.

(** A 64 by 64 block with 30 planes writes past the end of the buffers. *)
Theorem C50_30_planes_refuted : exists b, size_ok (b_w b) (b_h b) /\ b_Mb b = 30 /\ bounded b /\ ht_encode b = UB.
Proof.
  exists (Block 64 64 (fun _ _ => - (2 ^ 30 - 1)) 30). repeat apply conj.
  - exists 6, 6. vm_compute. intuition congruence.
  - reflexivity.
  - intros y x _ _. vm_compute. reflexivity.
  - vm_compute. reflexivity.
Qed.
Print Assumptions C50_30_planes_refuted.

(** ** C31 and C51.  Arbitrary bytes. *)

(** The setup of the decoder, given any block contents of the recorded length
    and any pass lengths: it never leaves the block, and what it hands on
    delimits segments inside the block. *)
Theorem C31_setup_in_bounds : forall c, Forall (fun b => 0 <= b < 256) (c_data c) -> c_length c <= zlen (c_data c) ->
  Forall (fun p => 0 <= p < 2 ^ 32) (c_plen c) ->
  exists v, ht_setup c = Ret v /\
    forall su, v = Go su ->
      2 <= su_Scup su <= 4079 /\ 0 <= su_Pcup su /\ su_Pcup su + su_Scup su = su_Lcup su /\
      0 <= su_Lref su /\ su_Lcup su + su_Lref su <= c_length c /\ 0 <= su_S su < 30 /\
      zlen (su_data su) = zlen (c_data c) /\
      (forall i, 0 <= i -> i <> su_Lcup su - 1 -> i <> su_Lcup su - 2 -> znth 0 (su_data su) i = znth 0 (c_data c) i).
Proof.
  intros c H1 H2 H3. destruct (setup_safe c H1 H2 H3) as (v & E & H). exists v. split; [exact E|].
  intros su Hs. specialize (H su Hs). intuition.
Qed.
Print Assumptions C31_setup_in_bounds.

(** Step 1 of the cleanup pass, on the bytes the setup accepted, at any
    address: it ends without exception, never reads a table or the scratch
    buffer out of bounds, and defines every cell that step 2 uses. *)
Theorem C51_step1_any_bytes_partial : forall a c su w h,
  Forall (fun b => 0 <= b < 256) (c_data c) -> c_length c <= zlen (c_data c) ->
  Forall (fun p => 0 <= p < 2 ^ 32) (c_plen c) -> size_ok w h -> ht_setup c = Ret (Go su) ->
  let suffix := ztake (su_Scup su) (zskip (su_Pcup su) (su_data su)) in
  let am := Z.to_nat ((a + su_Pcup su) mod 4) in
  let av := Z.to_nat ((a + su_Lcup su - 3) mod 4) in
  exists s, ht_step1 am av suffix (half_up w) (half_up h) (round8 (w + 2)) = ret s /\
    forall r i, 0 <= r < half_up h -> 0 <= i < 2 * half_up w ->
      exists x, s (r * round8 (w + 2) + i) = Some x /\ 0 <= x < 65536.
Proof.
  intros a c su w h H1 H2 H3 Hsz E suffix am av. destruct (setup_safe c H1 H2 H3) as (v & E' & H).
  rewrite E in E'. apply Ret_inj in E'. specialize (H su (eq_sym E')).
  destruct H as (B1 & B2 & B3 & B4 & B5 & B6 & B7 & B8 & B9 & B10 & B11 & _).
  assert (zlen suffix = su_Scup su) as Ls by (unfold suffix; rewrite zlen_ztake by (rewrite zlen_zskip; lia); reflexivity).
  assert (bytes_ok suffix) as Hb by (apply bytes_ok_ztake, bytes_ok_zskip; exact B8).
  destruct (rev suffix) as [|x [|d rest]] eqn:R.
  - apply (f_equal zlen) in R. rewrite zlen_rev in R. cbn in R. lia.
  - apply (f_equal zlen) in R. rewrite zlen_rev in R. cbn in R. lia.
  - destruct (step1_any am av suffix w h d rest x) as (s & Es & Hs); auto.
    + unfold av. pose proof (Z.mod_pos_bound (a + su_Lcup su - 3) 4). lia.
    + assert (suffix = rev rest ++ [d; x]) as Ex by (rewrite <- (rev_involutive suffix), R; cbn [rev]; now rewrite <- app_assoc).
      assert (znth 0 suffix (su_Scup su - 2) = d) as <-; [|].
      { rewrite <- Ls, Ex. rewrite zlen_app, znth_app_r; change (zlen [d; x]) with 2; [|lia].
        replace (zlen (rev rest) + 2 - 2 - zlen (rev rest)) with 0 by lia. reflexivity. }
      unfold suffix. rewrite znth_ztake by lia. rewrite znth_zskip by lia.
      replace (su_Pcup su + (su_Scup su - 2)) with (su_Lcup su - 2) by lia. exact B11.
    + exists s. split; [exact Es|]. exact Hs.
Qed.
Print Assumptions C51_step1_any_bytes_partial.

Definition hostile : coded := Coded [0;0;0;0;0;0;0;0;0;0;0;224;15;135;116;0] 16 [16] 1 0.
Example C51_hostile_accepted : exists su, ht_setup hostile = Ret (Go su) /\ size_ok 2 2.
Proof. eexists. split; [vm_compute; reflexivity|]. exists 2, 2. vm_compute. intuition congruence. Qed.

Lemma ht_decode_mod4 a c w h Mb : ht_decode a c w h Mb = ht_decode (a mod 4) c w h Mb.
Proof.
  unfold ht_decode. destruct (ht_setup c) as [[| |s]| |]; try reflexivity. cbn [bind].
  rewrite Z.mod_mod, Z.add_mod_idemp_l by lia.
  replace ((a mod 4 + su_Lcup s - 3) mod 4) with ((a + su_Lcup s - 3) mod 4); [reflexivity|]. lia.
Qed.

(** The whole decoder has undefined behaviour on some blocks: step 2 shifts by
    more than 31. *)
Theorem C51_step2_refuted : exists c w h Mb, Forall (fun b => 0 <= b < 256) (c_data c) /\ c_length c = zlen (c_data c) /\
  size_ok w h /\ 1 <= Mb <= 30 /\ forall a, ht_decode a c w h Mb = UB.
Proof.
  exists hostile, 2, 2, 30. split; [|split; [reflexivity|split; [|split; [lia|]]]].
  - repeat constructor; lia.
  - exists 2, 2. vm_compute. intuition congruence.
  - intros a. rewrite ht_decode_mod4.
    assert (a mod 4 = 0 \/ a mod 4 = 1 \/ a mod 4 = 2 \/ a mod 4 = 3) as [-> | [-> | [-> | ->]]]
      by (pose proof (Z.mod_pos_bound a 4); lia); vm_compute; reflexivity.
Qed.
Print Assumptions C51_step2_refuted.

(** ** C46.  One coefficient. *)

Lemma lor_top x : 0 <= x < 2 ^ 31 -> Z.lor x (2 ^ 31) = x + 2 ^ 31.
Proof.
  intros H. assert (Z.land x (2 ^ 31) = 0) as L.
  { apply Z.bits_inj'. intros i Hi. rewrite Z.land_spec, Z.bits_0, Z.pow2_bits_eqb by lia.
    destruct (31 =? i) eqn:E; [|apply andb_false_r]. replace i with 31 by lia. rewrite andb_true_r. apply (testbit_high x 31); lia. }
  rewrite <- Z.lxor_lor by exact L. symmetry. apply Z.add_nocarry_lxor. exact L.
Qed.

(** The encoder turns a coefficient into a word with its significance on top,
    magnitude minus one and sign; what the decoder stores for a coefficient is
    turned back into it. *)
Theorem C46_sign_magnitude : forall Mb q, 1 <= Mb <= 30 -> Z.abs q < 2 ^ Mb ->
  magsgn q = Ret (if q =? 0 then 0 else 2 ^ 31 + 2 * (Z.abs q - 1) + (if q <? 0 then 1 else 0)) /\
  dequant Mb (stored Mb q) = q.
Proof.
  intros Mb q HMb Hq.
  assert (2 ^ Mb <= 2 ^ 30) by (apply Z.pow_le_mono_r; lia). split.
  - rewrite (proj1 (magsgn_ok q ltac:(lia))). unfold pmag. destruct (q =? 0) eqn:E; [reflexivity|].
    f_equal. rewrite (lor_top (2 * (Z.abs q - 1) + (if q <? 0 then 1 else 0))); [lia|].
    change (2 ^ 31) with 2147483648. change (2 ^ 30) with 1073741824 in *. destruct (q <? 0); lia.
  - rewrite <- (dequant_word q Mb HMb Hq) at 2. f_equal. unfold stored. destruct (q =? 0) eqn:E.
    + replace q with 0 by lia. reflexivity.
    + rewrite (proj1 (word_spec q Mb HMb Hq ltac:(lia))). reflexivity.
Qed.
Print Assumptions C46_sign_magnitude.
Example C46_case : magsgn (-5) = Ret (2 ^ 31 + 9) /\ stored 6 (-5) = 2 ^ 31 + 11 * 2 ^ 24.
Proof. split; reflexivity. Qed.
