(** Only gap-free frames are handed out (C42). *)
From Verif Require Import Base BaseLemmas Be RtpModel RtpHeaderProps.

(** ** Specification: the frames in a packet history *)

Definition marked (p : packet) : bool := h_marker (p_rtp p).
Definition stamp (p : packet) : Z := h_timestamp (p_rtp p).
(** The 24-bit extended sequence number. *)
Definition ext (p : packet) : Z := p_eseq p * 65536 + h_sequence (p_rtp p).
Definition is_main (p : packet) : bool := match p_kind p with KMain _ => true | KBody _ => false end.
(** Ranges of the numbers a parsed packet carries. *)
Definition pk_ok (p : packet) : Prop := 0 <= p_eseq p < 256 /\ 0 <= h_sequence (p_rtp p) < 65536.

Definition lastp (h : list packet) : option packet := match rev h with [] => None | p :: _ => Some p end.

(** [p] is the packet the sender sent right after the last one received;
    nothing is known about the first packet of the session. *)
Definition follows (h : list packet) (p : packet) : Prop :=
  match lastp h with None => True | Some q => ext p = (ext q + 1) mod 2 ^ 24 end.
(** [p] belongs to another frame than the packet before it. *)
Definition new_frame (h : list packet) (p : packet) : Prop :=
  match lastp h with None => True | Some q => marked q = true \/ stamp p <> stamp q end.

(** After the history [h], [run] is the packets of one frame from its start. *)
Inductive one_frame (h : list packet) : list packet -> Prop :=
| frame_start p : new_frame h p -> one_frame h [p]
| frame_more run p : one_frame h run -> ~ new_frame (h ++ run) p -> one_frame h (run ++ [p]).
(** None of its packets is missing. *)
Definition no_gap (h run : list packet) : Prop := forall a p b, run = a ++ p :: b -> follows (h ++ a) p.

(** The last main header announced for reuse. *)
Definition reusable (p : packet) : bool :=
  match p_kind p with KMain m => m_r m && (0 <? zlen (p_bytes p)) | KBody _ => false end.
Definition cached (h : list packet) : option (list Z) := option_map p_bytes (find reusable (rev h)).
(** The bytes put before a frame: nothing if it has its own main header. *)
Definition lead_in (h run : list packet) : option (list Z) :=
  match run with p :: _ => if is_main p then Some [] else cached h | [] => None end.
(** The colour metadata in force. *)
Definition main_of (p : packet) : option main_header := match p_kind p with KMain m => Some m | KBody _ => None end.
Definition metadata (h : list packet) : option main_header := match find is_main (rev h) with Some p => main_of p | None => None end.

(** The frame made of [run]. *)
Definition frame_of (h run : list packet) (hd : list Z) (first last : packet) : frame :=
  Frame (hd ++ concat (map p_bytes run)) (stamp first) (ext first) (ext last) (zlen run) (existsb is_main run) (metadata (h ++ run)).

(** [f] is handed out when [h ++ run] has been received. *)
Definition complete_frame (h run : list packet) (f : frame) : Prop :=
  one_frame h run /\ no_gap h run /\
  exists first last hd, (exists t, run = first :: t) /\ lastp run = Some last /\ marked last = true /\
    lead_in h run = Some hd /\ hd ++ concat (map p_bytes run) <> [] /\ f = frame_of h run hd first last.

(** ** The handler on a history *)

Definition after (h : list packet) : handler := fold_left (fun s p => fst (push_packet s p)) h handler0.

Lemma lastp_snoc h p : lastp (h ++ [p]) = Some p.
Proof. unfold lastp. now rewrite rev_app_distr. Qed.
Lemma lastp_nil : lastp [] = None. Proof. reflexivity. Qed.
Lemma lastp_app h r : r <> [] -> lastp (h ++ r) = lastp r.
Proof.
  intros H. destruct (exists_last H) as (r' & z & ->). now rewrite app_assoc, !lastp_snoc.
Qed.
Lemma lastp_none h : lastp h = None -> h = [].
Proof. destruct h as [|p h] using rev_ind; [reflexivity|rewrite lastp_snoc; discriminate]. Qed.
Lemma cached_snoc h p : cached (h ++ [p]) = if reusable p then Some (p_bytes p) else cached h.
Proof. unfold cached. rewrite rev_app_distr. cbn [rev app find]. now destruct (reusable p). Qed.
Lemma metadata_snoc h p : metadata (h ++ [p]) = match main_of p with Some m => Some m | None => metadata h end.
Proof. unfold metadata. rewrite rev_app_distr. cbn [rev app find]. destruct (p_kind p) eqn:E; unfold is_main at 1; rewrite E; unfold main_of at 1; [rewrite E|]; unfold main_of at 1; rewrite ?E; reflexivity. Qed.
Lemma ext_ok p : pk_ok p -> make_ext_seq (p_eseq p) (h_sequence (p_rtp p)) = ext p /\ 0 <= ext p < 2 ^ 24.
Proof.
  intros [H1 H2]. unfold make_ext_seq, ext. rewrite (lor_shift_add _ _ 16) by (change (2 ^ 16) with 65536; lia). change (2 ^ 16) with 65536. change (2 ^ 24) with 16777216. split; lia.
Qed.
Lemma expected_mod v : Z.land (v + 1) 0xFFFFFF = (v + 1) mod 2 ^ 24.
Proof. change 0xFFFFFF with (2 ^ 24 - 1). apply land_ones_mod. lia. Qed.

Definition followsb (h : list packet) (p : packet) : bool :=
  match lastp h with None => true | Some q => ext p =? (ext q + 1) mod 2 ^ 24 end.
Lemma followsb_iff h p : followsb h p = true <-> follows h p.
Proof. unfold followsb, follows. destruct (lastp h); [apply Z.eqb_eq|]. split; auto. Qed.
Definition new_frameb (h : list packet) (p : packet) : bool :=
  match lastp h with None => true | Some q => marked q || negb (stamp p =? stamp q) end.
Lemma new_frameb_iff h p : new_frameb h p = true <-> new_frame h p.
Proof.
  unfold new_frameb, new_frame. destruct (lastp h) as [q|]; [|split; auto].
  rewrite orb_true_iff, negb_true_iff, Z.eqb_neq. reflexivity.
Qed.

(** Counters: packets after which the sequence breaks, frames that end. *)
Fixpoint gaps_in (h : list packet) : Z :=
  match h with p :: (q :: _) as t => (if ext q =? (ext p + 1) mod 2 ^ 24 then 0 else 1) + gaps_in t | _ => 0 end.
Fixpoint frames_in (h : list packet) : Z :=
  match h with
  | [] => 0
  | p :: t => (if marked p || match t with q :: _ => negb (stamp q =? stamp p) | [] => false end then 1 else 0) + frames_in t
  end.
Lemma gaps_snoc h p : gaps_in (h ++ [p]) = gaps_in h + (if followsb h p then 0 else 1).
Proof.
  induction h as [|a h IH]; [reflexivity|]. destruct h as [|b h].
  - cbn [app gaps_in]. unfold followsb. cbn. destruct (ext p =? _); reflexivity.
  - cbn [app gaps_in] in *. rewrite IH. assert (followsb (a :: b :: h) p = followsb (b :: h) p) as ->; [|lia].
    unfold followsb. change (a :: b :: h) with ([a] ++ (b :: h)). now rewrite lastp_app.
Qed.
Lemma frames_snoc h p : frames_in (h ++ [p]) = frames_in h +
  (match lastp h with Some q => if negb (marked q) && negb (stamp p =? stamp q) then 1 else 0 | None => 0 end) + (if marked p then 1 else 0).
Proof.
  induction h as [|a h IH]; [cbn; destruct (marked p); reflexivity|].
  destruct h as [|b h].
  - cbn [app frames_in lastp rev]. destruct (marked a), (stamp p =? stamp a), (marked p); reflexivity.
  - change (lastp (a :: b :: h)) with (lastp ([a] ++ (b :: h))). rewrite lastp_app by discriminate.
    cbn [app frames_in] in *. rewrite IH. lia.
Qed.

(** ** Invariant *)

Definition opt_bytes (o : option (list Z)) : list Z := match o with Some b => b | None => [] end.
Definition is_some {A} (o : option A) : bool := match o with Some _ => true | None => false end.

(** What holds between two packets: [h] received, [n] frames ended. *)
Record Base (h : list packet) (n : Z) (s : handler) : Prop := {
  i_first : first_ever s = match h with [] => true | _ => false end;
  i_last : forall q, lastp h = Some q -> last_ext_seq s = ext q;
  i_cache : cached_main s = opt_bytes (cached h);
  i_have : have_cached_main s = is_some (cached h);
  i_meta : meta s = metadata h;
  i_gaps : seq_gaps s = gaps_in h;
  i_frames : frames_emitted s + frames_dropped s = n }.
Record Counts (h : list packet) (s : handler) : Prop := {
  i_packets : packets_received s = zlen h;
  i_bytes : bytes_received s = zlen (concat (map p_bytes h)) }.
(** The packets [run] received after [h0] are in the open frame; [all] is
    [run] or, before the next packet is added to the frame, one more. *)
Record Open (h0 run all : list packet) (s : handler) : Prop := {
  o_have : have_frame s = true;
  o_one : one_frame h0 all;
  o_first : forall p t, all = p :: t -> eseq_first s = ext p /\ current_ts s = stamp p;
  o_ts : forall p, lastp all = Some p -> current_ts s = stamp p;
  o_count : packet_count s = zlen run;
  o_meta : has_meta s = existsb is_main run;
  o_intact : intact s = true <-> no_gap h0 run /\ lead_in h0 all <> None;
  o_accum : accum s = opt_bytes (lead_in h0 all) ++ concat (map p_bytes run) }.
Definition Inv (h : list packet) (s : handler) : Prop :=
  Base h (frames_in h) s /\ Counts h s /\
  if have_frame s then exists h0 run last, h = h0 ++ run /\ Open h0 run run s /\ lastp run = Some last /\ marked last = false /\
                       last_marker s = false /\ eseq_last s = ext last
  else intact s = true /\ match lastp h with None => True | Some q => marked q = true end.

Lemma inv0 : Inv [] handler0.
Proof. split; [constructor; try reflexivity; discriminate|]. split; [constructor; reflexivity|]. cbn. auto. Qed.

Lemma no_gap_snoc h run p : no_gap h (run ++ [p]) <-> no_gap h run /\ follows (h ++ run) p.
Proof.
  split.
  - intros H. split; [|now apply (H run p [])]. intros a q b E. apply (H a q (b ++ [p])). rewrite E, <- app_assoc. reflexivity.
  - intros [H1 H2] a q b E. destruct b as [|z b] using rev_ind.
    + apply app_inj_tail in E as [-> ->]. exact H2.
    + rewrite app_comm_cons, app_assoc in E. apply app_inj_tail in E as [-> ->]. now apply (H1 a q b).
Qed.
Lemma no_gap_one h p : no_gap h [p] <-> follows h p.
Proof.
  split; [intros H; specialize (H [] p [] eq_refl); now rewrite app_nil_r in H|].
  intros H a q b E. destruct a as [|? a]; [cbn in E; injection E as E1 E2; subst; rewrite (app_nil_r h); exact H|]. injection E as _ E. destruct a; discriminate E.
Qed.

(** Adding a packet to a frame whose start is [h0], in a state where the
    sequence has not been checked yet. *)
Definition add_packet (s : handler) (p : packet) : handler :=
  let '(Hd a cm hc hf ts ef el pc ok lm hm mt fe les fem fdr prc brc gaps tl) := track_sequence s (make_ext_seq (p_eseq p) (h_sequence (p_rtp p))) in
  let '(hm, mt) := match p_kind p with KMain m => (true, Some m) | KBody _ => (hm, mt) end in
  let '(cm, hc) :=
    match p_kind p with
    | KMain m => if m_r m && (0 <? zlen (p_bytes p)) then (p_bytes p, true) else (cm, hc)
    | KBody _ => (cm, hc)
    end in
  Hd (a ++ p_bytes p) cm hc hf ts ef (make_ext_seq (p_eseq p) (h_sequence (p_rtp p))) (pc + 1) ok (h_marker (p_rtp p)) hm mt fe les fem fdr prc brc gaps tl.
(** Counting the packet and, where one begins, starting a frame. *)
Definition open_frame (s : handler) (p : packet) : handler :=
  let '(Hd a cm hc hf ts ef el pc ok lm hm mt fe les fem fdr prc brc gaps tl) := s in
  let s := Hd a cm hc hf ts ef el pc ok lm hm mt fe les fem fdr (prc + 1) (brc + zlen (p_bytes p)) gaps tl in
  let s := if hf && negb (stamp p =? ts) then fst (finalize_frame s) else s in
  if negb (have_frame s) then
      let '(Hd a cm hc hf ts ef el pc ok lm hm mt fe les fem fdr prc brc gaps tl) := s in
      let h := Hd a cm hc hf (stamp p) (make_ext_seq (p_eseq p) (h_sequence (p_rtp p))) el pc ok lm hm mt fe les fem fdr prc brc gaps tl in
      match p_kind p with KMain _ => start_frame_empty h | KBody _ => start_frame_with_main_prepend h end
  else s.

Lemma push_packet_eq s p : push_packet s p =
  let o1 := if have_frame s && negb (stamp p =? current_ts s) then snd (finalize_frame s) else None in
  let s2 := add_packet (open_frame s p) p in
  let '(s3, o2) := if marked p then finalize_frame s2 else (s2, None) in
  (s3, out_frame o1 o2).
Proof.
  destruct s as [a cm hc hf ts ef el pc ok lm hm mt fe les fem fdr prc brc gaps tl]. unfold push_packet, open_frame, add_packet, stamp, marked. cbn [have_frame current_ts].
  destruct (hf && negb (h_timestamp (p_rtp p) =? ts)) eqn:E; cbn [fst].
  - destruct hf; [|discriminate E]. unfold finalize_frame at 1 3 4. cbn [negb].
    destruct ok, lm; cbn [andb negb snd fst have_frame]; try destruct a; cbn [andb negb snd fst have_frame];
      (destruct (track_sequence _ _); destruct (p_kind p); [destruct (m_r m && (0 <? zlen (p_bytes p)))|]; destruct (h_marker (p_rtp p)); reflexivity).
  - destruct hf; cbn [negb have_frame].
    + destruct (track_sequence _ _); destruct (p_kind p); [destruct (m_r m && (0 <? zlen (p_bytes p)))|]; destruct (h_marker (p_rtp p)); reflexivity.
    + destruct (p_kind p) eqn:K; [destruct (m_r m && (0 <? zlen (p_bytes p)))|]; (destruct (track_sequence _ _); destruct (h_marker (p_rtp p)); reflexivity).
Qed.

Lemma lead_in_first h run p q : lead_in h (q :: run ++ [p]) = lead_in h (q :: run).
Proof. reflexivity. Qed.
Lemma one_frame_nonempty h run : one_frame h run -> run <> [].
Proof. intros H E. destruct H as [p H|run p H H']; [discriminate E|]. destruct run; discriminate E. Qed.

Lemma open_frame_spec h s p : Inv h s -> pk_ok p ->
  (if have_frame s && negb (stamp p =? current_ts s) then snd (finalize_frame s) else None) = None /\
  exists h0 run, h = h0 ++ run /\ Open h0 run (run ++ [p]) (open_frame s p) /\
    Base h (frames_in (h ++ [p]) - (if marked p then 1 else 0)) (open_frame s p) /\ Counts (h ++ [p]) (open_frame s p).
Proof.
  intros ([B1 B2 B3 B4 B5 B6 B7] & [C1 C2] & F) Hp. pose proof (ext_ok p Hp) as [Ee _].
  destruct s as [a cm hc hf ts ef el pc ok lm hm mt fe les fem fdr prc brc gaps tl]. cbn in *. subst.
  assert (forall s, packets_received s = zlen h + 1 -> bytes_received s = zlen (concat (map p_bytes h)) + zlen (p_bytes p) -> Counts (h ++ [p]) s) as KC.
  { intros s E1 E2. constructor; [rewrite zlen_app, zlen_cons, zlen_nil; lia|]. rewrite map_app, concat_app, zlen_app. cbn [map concat]. rewrite app_nil_r. lia. }
  rewrite frames_snoc. unfold open_frame.
  destruct hf.
  - destruct F as (h0 & run & last & -> & [O1 O2 O3 O4 O5 O6 O7 O8] & L & M & LM & EL). cbn in *. subst lm.
    rewrite lastp_app by (intros ->; discriminate L). rewrite L, M. cbn [negb andb].
    pose proof (O4 _ L) as Ets. rewrite Ets. destruct (Z.eqb_spec (stamp p) (stamp last)) as [Es|Es]; cbn [negb andb].
    + cbn [negb have_frame]. split; [reflexivity|]. exists h0, run. split; [reflexivity|]. split; [|split; [constructor; cbn; auto; lia|apply KC; reflexivity]].
      assert (exists q t, run = q :: t) as (q & t & ->) by (destruct run; [discriminate L|eauto]).
      constructor; cbn [have_frame eseq_first current_ts packet_count has_meta intact accum]; auto.
      * apply frame_more; [exact O2|]. unfold new_frame. rewrite lastp_app by discriminate. rewrite L, M. intros [K|K]; [discriminate K|congruence].
      * intros q' t' E. cbn [app] in E. injection E as <- _. rewrite <- Ets. apply O3 with (1 := eq_refl).
      * intros q' E. rewrite lastp_snoc in E. apply Some_inj in E. subst q'. congruence.
    + cbn [finalize_frame negb have_frame andb]. replace (ok && negb (ok && true)) with false by (destruct ok; reflexivity). cbn [andb snd fst].
      split; [reflexivity|]. exists (h0 ++ run), []. split; [now rewrite app_nil_r|]. rewrite Ee.
      assert (new_frame (h0 ++ run) p) as NF by (unfold new_frame; rewrite lastp_app by (intros ->; discriminate L); rewrite L; now right).
      split; [|split].
      * destruct (p_kind p) eqn:Kp; constructor; cbn; auto;
          try (now apply frame_start); try (intros q t E; injection E as <- _; auto); try (intros q E; apply Some_inj in E; now subst q);
          unfold is_main; rewrite ?Kp; auto.
        -- split; [intros _; split; [intros x y z E; destruct x; discriminate E|discriminate]|auto].
        -- destruct (cached (h0 ++ run)); cbn; (split; [intros H; split; [intros x y z E; destruct x; discriminate E|congruence]|]).
           ++ auto. ++ intros [_ K]; congruence.
        -- destruct (cached (h0 ++ run)); cbn; now rewrite ?app_nil_r.
      * destruct (p_kind p) eqn:Kp; constructor; cbn; auto; lia.
      * destruct (p_kind p) eqn:Kp; apply KC; reflexivity.
  - destruct F as (-> & F). cbn [andb]. split; [reflexivity|]. exists h, []. split; [now rewrite app_nil_r|]. rewrite Ee.
    assert (new_frame h p) as NF by (unfold new_frame; destruct (lastp h); auto).
    assert (match lastp h with Some q => if negb (marked q) && negb (stamp p =? stamp q) then 1 else 0 | None => 0 end = 0) as ->
      by (destruct (lastp h) as [q|]; [rewrite F|]; reflexivity).
    split; [|split].
    * destruct (p_kind p) eqn:Kp; constructor; cbn; auto;
          try (now apply frame_start); try (intros q t E; injection E as <- _; auto); try (intros q E; apply Some_inj in E; now subst q);
          unfold is_main; rewrite ?Kp; auto.
        -- split; [intros _; split; [intros x y z E; destruct x; discriminate E|discriminate]|auto].
        -- destruct (cached h); cbn; (split; [intros H; split; [intros x y z E; destruct x; discriminate E|congruence]|]).
           ++ auto. ++ intros [_ K]; congruence.
        -- destruct (cached h); cbn; now rewrite ?app_nil_r.
    * destruct (p_kind p) eqn:Kp; constructor; cbn; auto; lia.
    * destruct (p_kind p) eqn:Kp; apply KC; reflexivity.
Qed.

Lemma add_packet_spec h h0 run p n s : h = h0 ++ run -> pk_ok p -> Open h0 run (run ++ [p]) s -> Base h n s -> Counts (h ++ [p]) s ->
  let s' := add_packet s p in
  Open h0 (run ++ [p]) (run ++ [p]) s' /\ Base (h ++ [p]) n s' /\ Counts (h ++ [p]) s' /\ last_marker s' = marked p /\ eseq_last s' = ext p.
Proof.
  intros Eh Hp [O1 O2 O3 O4 O5 O6 O7 O8] [B1 B2 B3 B4 B5 B6 B7] [C1 C2]. pose proof (ext_ok p Hp) as [Ee _].
  assert (forall ok' : bool, (ok' = true <-> intact s = true /\ follows h p) -> (ok' = true <-> no_gap h0 (run ++ [p]) /\ lead_in h0 (run ++ [p]) <> None)) as KI.
  { intros ok' ->. rewrite O7, no_gap_snoc, <- Eh. tauto. }
  destruct s as [a cm hc hf ts ef el pc ok lm hm mt fe les fem fdr prc brc gaps tl]. cbn in *. unfold add_packet. rewrite Ee.
  assert (track_sequence (Hd a cm hc hf ts ef el pc ok lm hm mt fe les fem fdr prc brc gaps tl) (ext p) =
    Hd a cm hc hf ts ef el pc (ok && followsb h p) lm hm mt false (ext p) fem fdr prc brc (gaps_in (h ++ [p])) tl) as ->.
  { rewrite gaps_snoc. unfold track_sequence, followsb. destruct (lastp h) as [q|] eqn:L.
    - rewrite B1. replace (match h with [] => true | _ => false end) with false by (destruct h; [discriminate L|reflexivity]).
      rewrite expected_mod, (B2 q eq_refl). destruct (ext p =? _); rewrite ?andb_true_r, ?andb_false_r; f_equal; lia.
    - apply lastp_none in L. subst h. rewrite B1. rewrite L. rewrite andb_true_r. f_equal. rewrite L in B6. cbn in B6. rewrite B6. reflexivity. }
  assert (forall cm' hc' mt' hm', cm' = opt_bytes (cached (h ++ [p])) -> hc' = is_some (cached (h ++ [p])) -> mt' = metadata (h ++ [p]) -> hm' = existsb is_main (run ++ [p]) ->
    let s' := Hd (a ++ p_bytes p) cm' hc' hf ts ef (ext p) (pc + 1) (ok && followsb h p) (h_marker (p_rtp p)) hm' mt' false (ext p) fem fdr prc brc (gaps_in (h ++ [p])) tl in
    Open h0 (run ++ [p]) (run ++ [p]) s' /\ Base (h ++ [p]) n s' /\ Counts (h ++ [p]) s' /\ last_marker s' = marked p /\ eseq_last s' = ext p) as K.
  { intros cm' hc' mt' hm' -> -> -> ->. cbv zeta. split; [|split; [|split; [constructor; assumption|split; reflexivity]]].
    - constructor; cbn; auto.
      + rewrite zlen_app, zlen_cons, zlen_nil. lia.
      + apply KI. rewrite andb_true_iff, followsb_iff. reflexivity.
      + rewrite O8, map_app, concat_app, <- app_assoc. cbn [map concat]. now rewrite app_nil_r.
    - constructor; cbn; auto; [now destruct h|]. intros q L. rewrite lastp_snoc in L. apply Some_inj in L. now subst q. }
  rewrite cached_snoc, metadata_snoc, existsb_app in K. cbn [existsb] in K. rewrite orb_false_r in K.
  destruct (p_kind p) as [m|b] eqn:Kp.
  - replace (reusable p) with (m_r m && (0 <? zlen (p_bytes p))) in K by (unfold reusable; now rewrite Kp).
    replace (main_of p) with (Some m) in K by (unfold main_of; now rewrite Kp).
    replace (is_main p) with true in K by (unfold is_main; now rewrite Kp). rewrite orb_true_r in K.
    destruct (m_r m && (0 <? zlen (p_bytes p))); apply K; auto.
  - replace (reusable p) with false in K by (unfold reusable; now rewrite Kp).
    replace (main_of p) with (@None main_header) in K by (unfold main_of; now rewrite Kp).
    replace (is_main p) with false in K by (unfold is_main; now rewrite Kp). rewrite orb_false_r in K.
    apply K; auto.
Qed.

(** The frame that starts with [first] after [h0] is the only one the packets
    up to now can end. *)
Lemma one_frame_inside h run : one_frame h run -> forall a p b, run = a ++ p :: b -> a <> [] -> ~ new_frame (h ++ a) p.
Proof.
  induction 1 as [p H|run p H IH N]; intros a q b E Ha.
  - destruct a as [|x a]; [congruence|]. injection E as _ E. destruct a; discriminate E.
  - destruct b as [|z b] using rev_ind.
    + apply app_inj_tail in E as [-> ->]. exact N.
    + rewrite app_comm_cons, app_assoc in E. apply app_inj_tail in E as [-> ->]. now apply (IH a q b).
Qed.
Lemma one_frame_start h run : one_frame h run -> forall p t, run = p :: t -> new_frame h p.
Proof.
  induction 1 as [p H|run p H IH N]; intros q t E.
  - injection E as -> _. exact H.
  - destruct run as [|x run]; [now destruct (one_frame_nonempty _ _ H)|]. injection E as -> _. now apply (IH q run).
Qed.
Lemma one_frame_unique h h' run run' : one_frame h run -> one_frame h' run' -> h ++ run = h' ++ run' -> h = h' /\ run = run'.
Proof.
  assert (forall h h' run run', one_frame h run -> one_frame h' run' -> h ++ run = h' ++ run' -> (length h <= length h')%nat -> h = h' /\ run = run') as K.
  { clear. intros h h' run run' A B E L.
    assert (exists l, h' = h ++ l /\ run = l ++ run') as (l & -> & ->).
    { exists (firstn (length h' - length h) run). pose proof (f_equal (firstn (length h')) E) as E1. rewrite firstn_app, firstn_app, Nat.sub_diag, firstn_O, app_nil_r, firstn_all in E1.
      rewrite firstn_all2 in E1 by exact L. split; [now symmetry|].
      apply (f_equal (skipn (length h'))) in E. rewrite skipn_app, skipn_app, Nat.sub_diag, skipn_all in E. cbn [app skipn] in E.
      rewrite (skipn_all2 h) in E by exact L. cbn [app] in E. rewrite <- E. symmetry. apply firstn_skipn. }
    destruct l as [|x l]; [now rewrite app_nil_r|exfalso]. destruct run' as [|p t] eqn:Er; [now apply (one_frame_nonempty _ _ B)|].
    eapply (one_frame_inside _ _ A (x :: l) p t eq_refl); [discriminate|]. eapply one_frame_start; [exact B|reflexivity]. }
  intros A B E. destruct (Nat.le_ge_cases (length h) (length h')) as [L|L]; [now apply K|]. destruct (K h' h run' run B A (eq_sym E) L). split; congruence.
Qed.
Lemma one_frame_snoc_inv h run p : one_frame h (run ++ [p]) -> run = [] \/ one_frame h run.
Proof. intros H. inversion H as [q N E|r q H' N E]; [destruct run as [|? [|]]; [now left|discriminate E|discriminate E]|]. apply app_inj_tail in E as [-> ->]. now right. Qed.

Lemma push_step h s p : Inv h s -> pk_ok p ->
  Inv (h ++ [p]) (fst (push_packet s p)) /\
  forall f, snd (push_packet s p) = Some f <-> exists h0 run, h ++ [p] = h0 ++ run /\ complete_frame h0 run f.
Proof.
  intros I Hp. rewrite push_packet_eq. destruct (open_frame_spec h s p I Hp) as (E1 & h0 & run & Eh & O & B & C).
  cbv zeta. rewrite E1. destruct (add_packet_spec h h0 run p _ _ Eh Hp O B C) as (O' & B' & C' & LM & EL).
  set (s2 := add_packet (open_frame s p) p) in *. clearbody s2. clear O B C E1.
  assert (h ++ [p] = h0 ++ run ++ [p]) as Eh' by (rewrite Eh; now rewrite app_assoc).
  assert (exists first t, run ++ [p] = first :: t) as (first & t & Er) by (destruct run; cbn; eauto).
  pose proof (o_one _ _ _ _ O') as One.
  assert (forall h1 run1 f, h ++ [p] = h1 ++ run1 -> complete_frame h1 run1 f -> h1 = h0 /\ run1 = run ++ [p]) as U.
  { intros h1 run1 f E (A & _). apply (one_frame_unique h1 h0 run1 (run ++ [p]) A One). congruence. }
  destruct (marked p) eqn:Mp.
  - destruct s2 as [a cm hc hf ts ef el pc ok lm hm mt fe les fem fdr prc brc gaps tl].
    destruct O' as [O1 _ O3 O4 O5 O6 O7 O8], B' as [B1 B2 B3 B4 B5 B6 B7], C' as [C1 C2]. cbn in *. subst hf lm.
    cbn [finalize_frame negb]. rewrite andb_false_r. cbn [negb]. rewrite andb_true_r.
    assert (frames_in (h ++ [p]) = fem + fdr + 1) as Fr by lia.
    destruct ok; cbn [andb].
    + destruct (proj1 O7 eq_refl) as (NG & LI). destruct (lead_in h0 (run ++ [p])) as [hd|] eqn:Li; [|congruence]. cbn [opt_bytes] in O8.
      destruct a as [|b x]; cbn [negb fst snd out_frame].
      * split.
        { split; [constructor; cbn; auto; lia|]. split; [constructor; cbn; auto|]. cbn. rewrite lastp_snoc. auto. }
        intros f. split; [discriminate|]. intros (h1 & run1 & E & CF). destruct (U _ _ _ E CF) as [-> ->].
        destruct CF as (_ & _ & f1 & l1 & hd1 & _ & _ & _ & L1 & NE & _). rewrite Li in L1. apply Some_inj in L1. subst hd1. congruence.
      * split.
        { split; [constructor; cbn; auto; lia|]. split; [constructor; cbn; auto|]. cbn. rewrite lastp_snoc. auto. }
        assert (Frame (b :: x) ts ef el pc hm mt = frame_of h0 (run ++ [p]) hd first p) as Ef.
        { unfold frame_of. rewrite <- O8, <- Eh', <- B5, <- O6, <- O5, <- EL. destruct (O3 _ _ Er) as [-> ->]. reflexivity. }
        rewrite Ef. intros f. split.
        -- intros E. apply Some_inj in E. subst f. exists h0, (run ++ [p]). split; [exact Eh'|]. split; [exact One|]. split; [exact NG|].
           exists first, p, hd. split; [now exists t|]. split; [apply lastp_snoc|]. split; [exact Mp|]. split; [exact Li|]. split; [rewrite <- O8; discriminate|reflexivity].
        -- intros (h1 & run1 & E & CF). destruct (U _ _ _ E CF) as [-> ->]. destruct CF as (_ & _ & f1 & l1 & hd1 & (t1 & F1) & F2 & _ & L1 & NE & ->).
           rewrite Li in L1. apply Some_inj in L1. subst hd1. rewrite lastp_snoc in F2. apply Some_inj in F2. subst l1. rewrite Er in F1. injection F1 as -> _. reflexivity.
    + split.
      { cbn [fst]. split; [constructor; cbn; auto; lia|]. split; [constructor; cbn; auto|]. cbn. rewrite lastp_snoc. auto. }
      intros f. cbn [snd out_frame]. split; [discriminate|]. intros (h1 & run1 & E & CF). destruct (U _ _ _ E CF) as [-> ->].
      destruct CF as (_ & NG & f1 & l1 & hd1 & _ & _ & _ & L1 & _). assert (false = true) as X by (apply O7; split; [exact NG|congruence]). discriminate X.
  - cbn [fst snd out_frame]. split.
    + rewrite Z.sub_0_r in B'. split; [exact B'|]. split; [exact C'|]. rewrite (o_have _ _ _ _ O'). exists h0, (run ++ [p]), p.
      split; [exact Eh'|]. split; [exact O'|]. split; [apply lastp_snoc|]. auto.
    + intros f. split; [discriminate|]. intros (h1 & run1 & E & CF). destruct (U _ _ _ E CF) as [-> ->].
      destruct CF as (_ & _ & f1 & l1 & hd1 & _ & F2 & M1 & _). rewrite lastp_snoc in F2. apply Some_inj in F2. congruence.
Qed.
Lemma after_snoc h p : after (h ++ [p]) = fst (push_packet (after h) p).
Proof. unfold after. now rewrite fold_left_app. Qed.
Lemma after_inv h : Forall pk_ok h -> Inv h (after h).
Proof.
  induction h as [|p h IH] using rev_ind; intros H; [exact inv0|]. apply Forall_app in H as [H Hp]. inversion Hp; subst.
  rewrite after_snoc. now apply push_step; [apply IH|].
Qed.

(** ** C42 *)

(** A push hands out a frame exactly when the packet completes one, and it is
    the frame made of the packets received since its start. *)
Theorem C42_frames : forall h p f, Forall pk_ok (h ++ [p]) ->
  snd (push_packet (after h) p) = Some f <-> exists h0 run, h ++ [p] = h0 ++ run /\ complete_frame h0 run f.
Proof.
  intros h p f H. apply Forall_app in H as [H Hp]. inversion Hp; subst. now apply push_step; [apply after_inv|].
Qed.
Print Assumptions C42_frames.

(** The frames handed out so far. *)
Fixpoint handed_out (s : handler) (h : list packet) : list frame :=
  match h with
  | [] => []
  | p :: t => let '(s', o) := push_packet s p in match o with Some f => f :: handed_out s' t | None => handed_out s' t end
  end.
Lemma handed_out_snoc h p : forall s, handed_out s (h ++ [p]) = handed_out s h ++
  match snd (push_packet (fold_left (fun s p => fst (push_packet s p)) h s) p) with Some f => [f] | None => [] end.
Proof.
  induction h as [|q h IH]; intros s; cbn [app handed_out fold_left].
  - destruct (push_packet s p) as [s' [f|]]; reflexivity.
  - destruct (push_packet s q) as [s' [f|]]; cbn [fst]; now rewrite IH.
Qed.
Definition one {A} (o : option A) : Z := match o with Some _ => 1 | None => 0 end.
Lemma finalize_count s : frames_emitted (fst (finalize_frame s)) = frames_emitted s + one (snd (finalize_frame s)).
Proof.
  destruct s as [a cm hc hf ts ef el pc ok lm hm mt fe les fem fdr prc brc gaps tl]. unfold finalize_frame.
  destruct hf; cbn [negb]; [|cbn; lia]. destruct ok, lm, a; cbn; lia.
Qed.
Lemma add_packet_emitted s p : frames_emitted (add_packet s p) = frames_emitted s.
Proof.
  destruct s as [a cm hc hf ts ef el pc ok lm hm mt fe les fem fdr prc brc gaps tl]. unfold add_packet, track_sequence.
  destruct fe; [|destruct (_ =? _)]; destruct (p_kind p); [destruct (m_r m && _)| |destruct (m_r m && _)| |destruct (m_r m && _)|]; reflexivity.
Qed.
Lemma open_frame_emitted s p : (if have_frame s && negb (stamp p =? current_ts s) then snd (finalize_frame s) else None) = None ->
  frames_emitted (open_frame s p) = frames_emitted s.
Proof.
  destruct s as [a cm hc hf ts ef el pc ok lm hm mt fe les fem fdr prc brc gaps tl]. cbn [have_frame current_ts]. unfold open_frame.
  destruct hf; cbn [andb].
  - destruct (negb (stamp p =? ts)); cbn [have_frame negb]; [|reflexivity]. unfold finalize_frame; cbn [negb].
    destruct ok, lm, a; cbn; try discriminate; destruct (p_kind p); reflexivity.
  - cbn. destruct (p_kind p); reflexivity.
Qed.

(** The counters tell the truth. *)
Theorem C42_counters : forall h, Forall pk_ok h ->
  let s := after h in
  frames_emitted s = zlen (handed_out handler0 h) /\
  frames_emitted s + frames_dropped s = frames_in h /\
  packets_received s = zlen h /\ bytes_received s = zlen (concat (map p_bytes h)) /\ seq_gaps s = gaps_in h.
Proof.
  intros h H. pose proof (after_inv h H) as ([B1 B2 B3 B4 B5 B6 B7] & [C1 C2] & _). cbv zeta. conj.
  clear - H. induction h as [|p h IH] using rev_ind; [reflexivity|]. apply Forall_app in H as [H Hp]. inversion Hp; subst.
  rewrite handed_out_snoc, after_snoc. fold (after h). rewrite zlen_app, <- (IH H). rewrite push_packet_eq.
  destruct (open_frame_spec h (after h) p (after_inv h H) ltac:(assumption)) as (E & _). cbv zeta. rewrite E.
  pose proof (finalize_count (add_packet (open_frame (after h) p) p)) as Fc. rewrite add_packet_emitted, open_frame_emitted in Fc by exact E.
  destruct (marked p); [|cbn [fst snd out_frame]; rewrite add_packet_emitted, open_frame_emitted by exact E; change (zlen (@nil frame)) with 0; lia].
  destruct (finalize_frame (add_packet (open_frame (after h) p) p)) as [s3 o] in Fc |- *; cbn [fst snd] in *. destruct o; cbn [out_frame one] in *; rewrite ?zlen_cons, ?zlen_nil; lia.
Qed.
Print Assumptions C42_counters.

(** reset() forgets everything. *)
Theorem C42_reset : forall s, reset s = after [].
Proof. reflexivity. Qed.

(** From bytes: every datagram is handled without undefined behaviour, and is
    a packet exactly when it consists of an RTP header, a main or body packet
    header and codestream bytes. *)
Definition datagram (p : packet) (d : list Z) : Prop :=
  exists csrcs x, rtp_ok (p_rtp p) csrcs x /\
  match p_kind p with
  | KMain m => main_ok m /\ d = rtp_bytes (p_rtp p) csrcs x ++ main_bytes m ++ p_bytes p
  | KBody b => body_ok b /\ d = rtp_bytes (p_rtp p) csrcs x ++ body_bytes b ++ p_bytes p
  end.
Theorem C42_datagram : forall d, bytes_ok d -> exists o, parse_datagram d = Ret o /\
  (forall p, o = Some p <-> datagram p d) /\ (forall p, o = Some p -> pk_ok p) /\
  forall s, on_datagram s d = Ret (match o with Some p => push_packet s p | None => (s, None) end).
Proof.
  intros d B. assert (exists o, parse_datagram d = Ret o /\ (forall p, o = Some p <-> datagram p d)) as (o & E & K).
  { unfold parse_datagram. destruct (Z.ltb_spec (zlen d) 12) as [L|L].
    { exists None. split; [reflexivity|]. intros p. split; [discriminate|]. intros (c & x & _ & Hd). exfalso.
      assert (exists t, d = rtp_bytes (p_rtp p) c x ++ t) as (t & ->) by (destruct (p_kind p); destruct Hd as [_ ->]; eauto).
      rewrite zlen_app, rtp_bytes_len in L. pose proof (zlen_nonneg c). pose proof (zlen_nonneg x). pose proof (zlen_nonneg t). lia. }
    destruct (C41_rtp d B) as (r & -> & KR). cbn [bind].
    assert (forall p, datagram p d -> r = Some (p_rtp p) /\ match p_kind p with KMain m => main_ok m /\ zskip (h_payload_offset (p_rtp p)) d = main_bytes m ++ p_bytes p
                                        | KBody b => body_ok b /\ zskip (h_payload_offset (p_rtp p)) d = body_bytes b ++ p_bytes p end) as KD.
    { intros p (c & x & Ho & Hd). pose proof Ho as (_ & _ & _ & _ & _ & _ & _ & ->). destruct (p_kind p); destruct Hd as [Hk Hd].
      - split; [apply KR; eauto|]. split; [exact Hk|]. rewrite Hd. now apply zskip_app.
      - split; [apply KR; eauto|]. split; [exact Hk|]. rewrite Hd. now apply zskip_app. }
    assert (forall p t, r = Some (p_rtp p) -> zskip (h_payload_offset (p_rtp p)) d = t -> 
       match p_kind p with KMain m => main_ok m /\ t = main_bytes m ++ p_bytes p | KBody b => body_ok b /\ t = body_bytes b ++ p_bytes p end -> datagram p d) as KD'.
    { intros p t Er Et Hk. apply KR in Er as (c & x & pl & Ho & Hd). exists c, x. split; [exact Ho|]. pose proof Ho as (_ & _ & _ & _ & _ & _ & _ & Eo).
      rewrite Hd, Eo, zskip_app in Et by reflexivity. subst pl. destruct (p_kind p); destruct Hk as [Hk ->]; auto. }
    destruct r as [rtp|]; [|exists None; split; [reflexivity|]; intros p; split; [discriminate|]; intros Hd; now destruct (KD p Hd)].
    set (payload := zskip (h_payload_offset rtp) d) in *.
    assert (forall p, datagram p d -> p_rtp p = rtp /\ 8 <= zlen payload) as K8.
    { intros p Hd. destruct (KD p Hd) as [Er Hk]. apply Some_inj in Er. subst rtp. split; [reflexivity|].
      unfold payload. destruct (p_kind p); destruct Hk as [_ ->]; rewrite zlen_app; [change (zlen (main_bytes m)) with 8|change (zlen (body_bytes b)) with 8];
      pose proof (zlen_nonneg (p_bytes p)); lia. }
    destruct (Z.leb_spec (zlen d) (h_payload_offset rtp)) as [L1|L1].
    { exists None. split; [reflexivity|]. intros p. split; [discriminate|]. intros Hd. destruct (K8 p Hd) as [_ L8]. unfold payload in L8. rewrite zskip_all in L8 by exact L1. change (zlen (@nil Z)) with 0 in L8. lia. }
    destruct (Z.ltb_spec (zlen payload) 8) as [L2|L2].
    { exists None. split; [reflexivity|]. intros p. split; [discriminate|]. intros Hd. destruct (K8 p Hd) as [_ L8]. lia. }
    assert (bytes_ok payload) as Bp by now apply bytes_ok_zskip.
    rewrite rd_in by lia. cbn [bind]. pose proof (bytes_ok_nth payload 0 Bp ltac:(lia)) as H0. pose proof (b_233 _ H0) as F0.
    assert (forall m t, main_ok m -> payload = main_bytes m ++ t -> Z.shiftr (znth 0 payload 0) 6 <> 0) as MH.
    { intros m t (M1 & M2 & M3 & M4 & _) Ep. unfold bits in *. change (2 ^ 2) with 4 in *. change (2 ^ 3) with 8 in *.
      assert (znth 0 payload 0 = m_mh m * 64 + m_tp m * 8 + m_ordh m) as Ez by (rewrite Ep; reflexivity). lia. }
    assert (forall m t, body_ok m -> payload = body_bytes m ++ t -> Z.shiftr (znth 0 payload 0) 6 = 0) as BH.
    { intros m t (M1 & M2 & _) Ep. unfold bits in *. change (2 ^ 3) with 8 in *.
      assert (znth 0 payload 0 = b_tp m * 8 + b_res m) as Ez by (rewrite Ep; reflexivity). lia. }
    destruct (Z.eqb_spec (Z.shiftr (znth 0 payload 0) 6) 0) as [M|M].
    - destruct (C41_body payload Bp) as (ob & -> & KB). cbn [bind]. eexists. split; [reflexivity|]. intros p. split.
      + destruct ob as [b|]; [|discriminate]. intros E. apply Some_inj in E. subst p. destruct (proj1 (KB b) eq_refl) as (Hb & rest & Er).
        apply (KD' _ payload); [reflexivity|reflexivity|]. cbn [p_kind p_bytes]. split; [exact Hb|]. rewrite Er at 1. f_equal. rewrite Er. symmetry. now apply zskip_app.
      + intros Hd. destruct (KD p Hd) as [Er Hk]. apply Some_inj in Er. destruct p as [pr pk pb]. cbn [p_rtp p_kind p_bytes] in *. subst pr. destruct pk as [m|b].
        * destruct Hk as [Hm Em]. now destruct (MH m pb Hm Em).
        * destruct Hk as [Hm Em]. assert (ob = Some b) as -> by (apply KB; eauto). f_equal. fold payload in Em. rewrite Em. rewrite zskip_app by reflexivity. reflexivity.
    - destruct (C41_main payload Bp) as (ob & -> & KB). cbn [bind]. eexists. split; [reflexivity|]. intros p. split.
      + destruct ob as [b|]; [|discriminate]. intros E. apply Some_inj in E. subst p. destruct (proj1 (KB b) eq_refl) as (Hb & rest & Er).
        apply (KD' _ payload); [reflexivity|reflexivity|]. cbn [p_kind p_bytes]. split; [exact Hb|]. rewrite Er at 1. f_equal. rewrite Er. symmetry. now apply zskip_app.
      + intros Hd. destruct (KD p Hd) as [Er Hk]. apply Some_inj in Er. destruct p as [pr pk pb]. cbn [p_rtp p_kind p_bytes] in *. subst pr. destruct pk as [b|m].
        * destruct Hk as [Hm Em]. assert (ob = Some b) as -> by (apply KB; eauto). f_equal. fold payload in Em. rewrite Em. rewrite zskip_app by reflexivity. reflexivity.
        * destruct Hk as [Hm Em]. now destruct (M (BH m pb Hm Em)). }
  exists o. split; [exact E|]. split; [exact K|]. split.
  - intros p Ep. apply K in Ep as (c & x & (_ & _ & Hs & _) & Hk). unfold pk_ok, p_eseq. unfold bits in Hs. change (2 ^ 16) with 65536 in Hs.
    destruct (p_kind p) as [m|b]; destruct Hk as [Hm _].
    + destruct Hm as (_ & _ & _ & _ & _ & He & _). unfold bits in He. change (2 ^ 8) with 256 in He. lia.
    + destruct Hm as (_ & _ & _ & _ & He & _). unfold bits in He. change (2 ^ 8) with 256 in He. lia.
  - intros s. unfold on_datagram. now rewrite E.
Qed.
Print Assumptions C42_datagram.

(** ** Cases *)

Definition mp (seq ts : Z) (mark r : bool) (bytes : list Z) : packet :=
  Pk (Rtp false false 0 mark 96 seq ts 7 12) (KMain (Main 1 0 0 false 0 0 r false false false 0 0 0)) bytes.
Definition bp (seq ts : Z) (mark : bool) (bytes : list Z) : packet :=
  Pk (Rtp false false 0 mark 96 seq ts 7 12) (KBody (Body 0 0 false 0 0 0 0 0)) bytes.

(** Two complete frames, the second without a main header, one with a gap, one
    cut off by the next. *)
Example C42_case :
  let h := [mp 10 1 false true [1; 2]; bp 11 1 true [3]; bp 12 2 false [4]; bp 13 2 true [5];
            mp 14 3 false false [6]; bp 16 3 true [7]; mp 17 4 false false [8]; mp 18 5 true false [9]] in
  Forall pk_ok h /\ map f_bytes (handed_out handler0 h) = [[1; 2; 3]; [1; 2; 4; 5]; [9]] /\
  frames_in h = 5 /\ gaps_in h = 1 /\ frames_dropped (after h) = 2 /\ tail_loss_drops (after h) = 1.
Proof. cbv zeta. split; [repeat constructor; cbn; lia|]. vm_compute. auto. Qed.

(** Two things the frames handed out do not guarantee.  A receiver that joins
    after the first of several main packets hands out a frame without its
    beginning: the first packet of a session is taken to start a frame. *)
Theorem C42_late_join_refuted : exists sent f, one_frame [] sent /\ no_gap [] sent /\ Forall pk_ok sent /\
  (exists first rest, sent = first :: rest /\ handed_out handler0 rest = [f] /\ f_bytes f = [2; 3] /\ p_bytes first = [1]).
Proof.
  exists [mp 10 1 false false [1]; mp 11 1 false false [2]; bp 12 1 true [3]]. eexists.
  split; [apply (frame_more [] [mp 10 1 false false [1]; mp 11 1 false false [2]]); [apply (frame_more [] [mp 10 1 false false [1]]); [now apply frame_start|]|];
    (intros [K|K]; [discriminate K|now apply K])|].
  split; [|split; [repeat constructor; cbn; lia|]].
  - assert (forall a p, no_gap [] a -> follows a p -> no_gap [] (a ++ [p])) as K by (intros a p A B; apply no_gap_snoc; now split).
    apply (K [mp 10 1 false false [1]; mp 11 1 false false [2]]); [|vm_compute; reflexivity]. apply (K [mp 10 1 false false [1]]); [|vm_compute; reflexivity]. now apply no_gap_one.
  - do 2 eexists. split; [reflexivity|]. split; [vm_compute; reflexivity|]. split; reflexivity.
Qed.
Print Assumptions C42_late_join_refuted.
(** A main header that is announced for reuse and spans two main packets is
    cached only in part, so a later frame gets half a header. *)
Theorem C42_split_header_refuted : exists h f g, Forall pk_ok h /\ gaps_in h = 0 /\ handed_out handler0 h = [f; g] /\
  f_bytes f = [1; 2; 3] /\ f_bytes g = [2; 4].
Proof.
  exists [mp 10 1 false true [1]; mp 11 1 false true [2]; bp 12 1 true [3]; bp 13 2 true [4]]. do 2 eexists.
  split; [repeat constructor; cbn; lia|]. split; [reflexivity|]. split; [vm_compute; reflexivity|]. split; reflexivity.
Qed.
Print Assumptions C42_split_header_refuted.
