(** The JPP-stream properties C01-C09.  Statements only: every proof is one
    application of a lemma proved elsewhere; Examples show that hypotheses
    are met by concrete data. *)
From Verif Require Import Base BaseLemmas JppModel JppSpec VbasProofs HeaderProofs ParserProofs JppSession.

(** ** C01 *)
Theorem C01_vbas_roundtrip : forall v rest, u64 v -> bytes_ok rest ->
  vbas_decode (vbas_encode v ++ rest) = Ret (Some (v, zlen (vbas_encode v))) /\
  1 <= zlen (vbas_encode v) <= 10 /\ bytes_ok (vbas_encode v).
Proof. exact (fun v rest Hv Hr => conj (vbas_roundtrip v rest Hv Hr)
         (conj (proj1 (proj2 (proj2 (vbas_encode_facts v Hv)))) (proj1 (vbas_encode_facts v Hv)))). Qed.
Print Assumptions C01_vbas_roundtrip.
Example C01_case : vbas_encode (2 ^ 64 - 1) = [129;255;255;255;255;255;255;255;255;127]
  /\ vbas_decode ([129;0] ++ [7]) = Ret (Some (128, 2)).
Proof. vm_compute. auto. Qed.

(** ** C02 *)
Theorem C02_vbas_decode_exact : forall src, bytes_ok src ->
  (exists r, vbas_decode src = Ret r) /\
  forall v n, vbas_decode src = Ret (Some (v, n)) <->
    exists pre rest, src = pre ++ rest /\ vbas_form pre /\ n = zlen pre /\ n <= 10 /\
                     v = be128 0 pre /\ v < 2 ^ 64.
Proof. exact (fun src H => conj (vbas_decode_total src) (fun v n => vbas_decode_iff src v n H)). Qed.
Print Assumptions C02_vbas_decode_exact.
Theorem C02_vbas_prefix_refused : forall v q r, u64 v -> vbas_encode v = q ++ r -> r <> [] ->
  vbas_decode q = Ret None.
Proof. exact vbas_prefix_refused. Qed.
Print Assumptions C02_vbas_prefix_refused.
Example C02_case : vbas_decode [128; 128; 5; 9] = Ret (Some (5, 3))
  /\ vbas_decode [130;128;128;128;128;128;128;128;128;0] = Ret None /\ vbas_decode [200; 129] = Ret None.
Proof. vm_compute. auto. Qed.

(** ** C03 *)
Theorem C03_header_sequence_roundtrip : forall hs c rest,
  Forall hdr_ok hs -> ctx_ok c -> bytes_ok rest ->
  decode_all (length hs) (fst (encode_all hs c) ++ rest) c
  = Ret (Some (map as_received hs, rest, snd (encode_all hs c))).
Proof. exact decode_encode_all. Qed.
Print Assumptions C03_header_sequence_roundtrip.
Theorem C03_header_independent : forall h c rest, hdr_ok h -> ctx_ok c -> bytes_ok rest ->
  decode_header (encode_header_independent h ++ rest) c
  = Ret (Some (as_received h, zlen (encode_header_independent h), mkCtx (h_class h) (h_csn h))).
Proof. exact decode_header_independent. Qed.
Print Assumptions C03_header_independent.
Example C03_case :
  let hs := [mkHdr 6 0 0 0 200 0 true; mkHdr 0 0 4097 0 987 0 false; mkHdr 1 3 4097 987 5 2 true] in
  Forall hdr_ok hs /\ decode_all 3 (fst (encode_all hs ctx0) ++ [1;2]) ctx0
   = Ret (Some (hs, [1;2], mkCtx 1 3)).
Proof. split; [|vm_compute; reflexivity]. repeat constructor; cbn; unfold u64; lia. Qed.

(** ** C04 *)
Theorem C04_header_decode_safe : forall src c, bytes_ok src -> ctx_ok c ->
  exists r, decode_header src c = Ret r /\
    forall h n c', r = Some (h, n, c') ->
      hdr_ok h /\ c' = mkCtx (h_class h) (h_csn h) /\ 1 <= n <= zlen src /\ n <= 60 /\
      forall tail, bytes_ok tail -> decode_header (ztake n src ++ tail) c = Ret (Some (h, n, c')).
Proof. exact decode_header_safe. Qed.
Print Assumptions C04_header_decode_safe.
Theorem C04_header_prefix_refused : forall src c h n c' q r,
  bytes_ok src -> ctx_ok c -> decode_header src c = Ret (Some (h, n, c')) ->
  src = q ++ r -> zlen q < n -> decode_header q c = Ret None.
Proof. exact decode_header_prefix_refused. Qed.
Print Assumptions C04_header_prefix_refused.
Example C04_case : decode_header [96+16; 6; 0; 0; 5; 77] ctx0
   = Ret (Some (mkHdr 6 0 0 0 5 0 true, 5, mkCtx 6 0))
   /\ decode_header [96+16; 6; 0; 0] ctx0 = Ret None /\ decode_header [16; 6; 0; 0; 5] ctx0 = Ret None.
Proof. vm_compute. auto. Qed.

(** ** C05 *)
Theorem C05_emitted_bins_received : forall bs reason s,
  Forall bin_ok bs -> NoDup (map bin_key bs) -> 0 <= reason < 256 -> ds_has_eor s = false ->
  (forall b, In b bs -> ds_contains s (b_class b) (b_id b) = false) ->
  exists x c, emit_bins bs ctx0 = Ret (x, c) /\
  exists s', parse_jpp_stream (x ++ emit_eor reason) s = Ret (true, s') /\
    ds_eor s' = Some reason /\
    (forall b, In b bs -> ds_get s' (b_class b) (b_id b) = b_data b /\
                          ds_is_complete s' (b_class b) (b_id b) = true) /\
    (forall k, ~ In k (map bin_key bs) -> lookup (ds_bins s') k = lookup (ds_bins s) k).
Proof. exact emitted_bins_received. Qed.
Print Assumptions C05_emitted_bins_received.
Example C05_case :
  let bs := [mkBin 6 0 (repeat 200 1500); mkBin 2 3 []; mkBin 0 70000 [0;0;1]] in
  Forall bin_ok bs /\ NoDup (map bin_key bs) /\
  exists x c s, emit_bins bs ctx0 = Ret (x, c) /\ parse_jpp_stream (x ++ emit_eor 2) dbset0 = Ret (true, s)
    /\ ds_get s 6 0 = repeat 200 1500.
Proof.
  cbv zeta. split; [|split].
  - repeat constructor; cbn [b_class b_id]; unfold u64, byte_ok; try lia;
      try (cbn [b_data]; apply Forall_forall; intros ? H; apply repeat_spec in H; unfold byte_ok; lia);
      vm_compute; auto.
  - repeat constructor; cbn; intuition discriminate.
  - do 3 eexists. split; [vm_compute; reflexivity|]. split; vm_compute; reflexivity.
Qed.

(** ** C06 *)
Theorem C06_chunking_invariance : forall chunks s ok p s',
  Forall bytes_ok chunks ->
  sp_feed sparser0 (concat chunks) s = Ret (ok, p, s') ->
  (ds_has_eor s' = false \/ sp_pending p = []) ->
  sp_feed_all sparser0 chunks s = Ret (ok, p, s').
Proof. exact streaming_chunk_invariance. Qed.
Print Assumptions C06_chunking_invariance.
Theorem C06_streaming_equals_one_shot : forall bytes s, bytes_ok bytes -> ds_has_eor s = false ->
  exists ok p s', sp_feed sparser0 bytes s = Ret (ok, p, s') /\
    parse_jpp_stream bytes s = Ret (ok && (sp_finish p || ds_has_eor s'), s').
Proof. exact feed_vs_parse. Qed.
Print Assumptions C06_streaming_equals_one_shot.
Theorem C06_emitted_response_any_chunking : forall bs reason s x c chunks s',
  Forall bin_ok bs -> NoDup (map bin_key bs) -> 0 <= reason < 256 -> ds_has_eor s = false ->
  (forall b, In b bs -> ds_contains s (b_class b) (b_id b) = false) ->
  emit_bins bs ctx0 = Ret (x, c) ->
  concat chunks = x ++ emit_eor reason ->
  parse_jpp_stream (x ++ emit_eor reason) s = Ret (true, s') ->
  exists p, sp_feed_all sparser0 chunks s = Ret (true, p, s') /\ sp_finish p = true.
Proof. exact emitted_bins_received_chunked. Qed.
Print Assumptions C06_emitted_response_any_chunking.
(** Without the "nothing after the end-of-response marker" condition the
    claim is false: two responses in one buffer and in two pieces. *)
Theorem C06_bytes_after_eor_refuted : exists a b s1 s2 p1 p2,
  sp_feed sparser0 (a ++ b) dbset0 = Ret (true, p1, s1) /\
  sp_feed_all sparser0 [a; b] dbset0 = Ret (true, p2, s2) /\
  ds_get s1 6 0 = [] /\ ds_get s2 6 0 = [7].
Proof.
  exact (ex_intro _ (emit_eor 1) (ex_intro _ [96+16; 6; 0; 0; 1; 7]
   (ex_intro _ _ (ex_intro _ _ (ex_intro _ _ (ex_intro _ _
     (conj eq_refl (conj eq_refl (conj eq_refl eq_refl))))))))).
Qed.
Print Assumptions C06_bytes_after_eor_refuted.
Example C06_case : exists p s, sp_feed_all sparser0 [[112]; [6; 0; 0; 2]; []; [5]; [6; 0]; [1; 0]] dbset0 = Ret (true, p, s)
  /\ ds_get s 6 0 = [5; 6] /\ ds_is_complete s 6 0 = true /\ ds_eor s = Some 1.
Proof. do 2 eexists. split; [vm_compute; reflexivity|]. vm_compute. auto. Qed.

(** ** C07 *)
Theorem C07_gap_free_prefix : forall ms s s' oks cl id, offer_all s ms = (s', oks) ->
  length oks = length ms /\
  ds_get s' cl id = ds_get s cl id ++ accepted_bodies (cl, id) ms oks /\
  (ds_is_complete s cl id = true -> ds_get s' cl id = ds_get s cl id /\ ds_is_complete s' cl id = true).
Proof. exact offer_all_get. Qed.
Print Assumptions C07_gap_free_prefix.
Theorem C07_accept_condition : forall s cl id off body last,
  snd (ds_append s cl id off body last) = true <->
  off = zlen (ds_get s cl id) /\ (ds_is_complete s cl id = true -> body = []).
Proof. exact ds_append_accepts. Qed.
Print Assumptions C07_accept_condition.
(** The documented meaning of contains() ("at least one message received")
    does not hold: a refused message leaves an empty bin behind. *)
Theorem C07_refused_message_leaves_bin_refuted : exists s cl id off body,
  ds_contains s cl id = false /\ snd (ds_append s cl id off body false) = false /\
  ds_contains (fst (ds_append s cl id off body false)) cl id = true.
Proof. exact (ex_intro _ dbset0 (ex_intro _ 0 (ex_intro _ 5 (ex_intro _ 10 (ex_intro _ [1]
  (conj eq_refl (conj eq_refl eq_refl))))))). Qed.
Print Assumptions C07_refused_message_leaves_bin_refuted.
Example C07_case :
  let '(s, oks) := offer_all dbset0 [mkMsg 0 1 0 [1;2] false; mkMsg 0 1 1 [9] false; mkMsg 0 1 2 [3] true; mkMsg 0 1 3 [4] false] in
  oks = [true; false; true; false] /\ ds_get s 0 1 = [1;2;3] /\ ds_is_complete s 0 1 = true.
Proof. vm_compute. auto. Qed.

(** ** C08 *)
Theorem C08_budgeted_delivery : forall b budgets s,
  bin_ok b -> Forall (fun g => 0 <= g) budgets ->
  ds_has_eor s = false -> ds_contains s (b_class b) (b_id b) = false ->
  exists rs m s', session b budgets 0 s = Ret (Some (rs, m, s')) /\
    (* no response is longer than its budget *)
    Forall2 (fun g r => zlen (fst r) <= g) budgets rs /\
    (* what the client holds is the first m bytes, m the sum of what was reported sent *)
    0 <= m <= zlen (b_data b) /\
    m = fold_right (fun r a => w_sent (snd r) + a) 0 rs /\
    ds_get s' (b_class b) (b_id b) = ztake m (b_data b) /\
    (* complete exactly when some response said so, and then with all bytes *)
    (ds_is_complete s' (b_class b) (b_id b) = true <-> exists r, In r rs /\ w_complete (snd r) = true) /\
    (ds_is_complete s' (b_class b) (b_id b) = true -> m = zlen (b_data b)) /\
    (* budgets above one header's worst case always make progress *)
    (Forall (fun g => 60 < g) budgets -> zlen (b_data b) < zlen budgets ->
       ds_is_complete s' (b_class b) (b_id b) = true).
Proof. exact budgeted_delivery. Qed.
Print Assumptions C08_budgeted_delivery.
Theorem C08_one_response_progress : forall b g n s,
  bin_ok b -> 0 <= g -> holds_prefix b n s ->
  exists x c w s', append_message_win (bin_hdr b) (b_data b) ctx0 (mkWin n g 0 false false) = Ret (x, c, w) /\
    parse_jpp_stream x s = Ret (true, s') /\
    zlen x <= g /\ 0 <= w_sent w /\ holds_prefix b (n + w_sent w) s' /\
    ds_is_complete s' (b_class b) (b_id b) = ds_is_complete s (b_class b) (b_id b) || w_complete w /\
    (60 < g -> Z.min (zlen (b_data b) - n) (Z.min 987 (g - 60)) <= w_sent w) /\
    (w_complete w = true -> n + w_sent w = zlen (b_data b)) /\
    (n + w_sent w = zlen (b_data b) -> n < zlen (b_data b) \/ 60 < g -> w_complete w = true) /\
    w_blocked w = negb (w_complete w) /\
    same_except (bin_key b) s s'.
Proof. exact one_response. Qed.
Print Assumptions C08_one_response_progress.
Example C08_case : exists rs s,
  session (mkBin 0 9 (repeat 3 100)) [80; 10; 64; 200] 0 dbset0 = Ret (Some (rs, 100, s)) /\
  ds_is_complete s 0 9 = true /\ map (fun r => w_sent (snd r)) rs = [20; 0; 4; 76].
Proof. do 2 eexists. split; [vm_compute; reflexivity|]. vm_compute. auto. Qed.

(** ** C09 *)
Theorem C09_merge_keeps_bytes_partial : forall s o cl id, NoDup (ds_keys o) ->
  ds_contains (ds_merge_from s o) cl id = ds_contains s cl id || ds_contains o cl id /\
  (ds_get (ds_merge_from s o) cl id = ds_get s cl id \/ ds_get (ds_merge_from s o) cl id = ds_get o cl id) /\
  zlen (ds_get (ds_merge_from s o) cl id) = Z.max (zlen (ds_get s cl id)) (zlen (ds_get o cl id)).
Proof. exact merge_bytes. Qed.
Print Assumptions C09_merge_keeps_bytes_partial.
Theorem C09_merge_of_one_server : forall server s o, NoDup (ds_keys o) ->
  consistent server s -> consistent server o ->
  consistent server (ds_merge_from s o) /\
  forall cl id, ds_is_complete (ds_merge_from s o) cl id = ds_is_complete s cl id || ds_is_complete o cl id.
Proof. exact merge_consistent. Qed.
Print Assumptions C09_merge_of_one_server.
(** For arbitrary pairs of sets completeness can be lost. *)
Theorem C09_merge_completeness_refuted : exists s o cl id, NoDup (ds_keys o) /\
  ds_is_complete s cl id = true /\ ds_is_complete (ds_merge_from s o) cl id = false.
Proof. exact merge_loses_completeness. Qed.
Print Assumptions C09_merge_completeness_refuted.
(** A client's own sets always have distinct keys. *)
Theorem C09_reachable_sets_have_distinct_keys : forall ms, NoDup (ds_keys (fst (offer_all dbset0 ms))).
Proof. exact offer_all_NoDup. Qed.
Print Assumptions C09_reachable_sets_have_distinct_keys.
Example C09_case : let server cl id := if (cl =? 0) && (id =? 4) then [1;2;3] else [] in
  let s := mkSet [((0,4), mkEntry [1;2;3] true)] None in let o := mkSet [((0,4), mkEntry [1] false)] None in
  consistent server s /\ consistent server o /\ ds_get (ds_merge_from o s) 0 4 = [1;2;3].
Proof.
  cbv zeta. split; [|split]; [| |reflexivity]; intros cl id; unfold ds_get, ds_is_complete; cbn;
  unfold key_eqb; cbn; destruct ((cl =? 0) && (id =? 4)); cbn; auto; split; auto; discriminate.
Qed.
