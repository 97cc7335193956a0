(** Theorems about the JPIP cache model and session table. *)
From Verif Require Import Base BaseLemmas Assoc Text TextProofs CacheModel CacheSpec CacheProofs.
From Verif Require Import ChannelModel ChannelSpec ChannelProofs.

(** ** C10.  A bin is held exactly when it was stated since it was last dropped. *)
Theorem C10_held_iff_stated : forall h c i, Forall stmt_ok h -> bin_ok c i ->
  (has (exec_all [] h) c i = true <->
   exists h1 h2, h = h1 ++ Have c i :: h2 /\ Forall (fun s => ~ drops c i s) h2).
Proof.
  intros h c i Hh Hb. rewrite exec_all_has by assumption. split; [| auto]. intros [H | [H _]]; [exact H | discriminate H].
Qed.
Print Assumptions C10_held_iff_stated.
Theorem C10_bytes_stated : forall h c i, Forall stmt_ok h -> bin_ok c i ->
  received_bytes (exec_all [] h) c i = stated_bytes c i false 0 h.
Proof. intros h c i Hh Hb. now rewrite exec_all_bytes. Qed.
Print Assumptions C10_bytes_stated.
(** Textual statements mean what they say, whatever model they are applied to. *)
Theorem C10_text_statements : forall ts m, Forall tstmt_ok ts -> sumZ (map bins_named ts) <= 4194304 ->
  apply m (join (map text ts)) = Ret (exec_all m (concat (map meaning ts))).
Proof. intros. now apply apply_text. Qed.
Print Assumptions C10_text_statements.
(** Texts that name more than 2^22 bins are obeyed up to that number. *)
Theorem C10_text_limit : forall ts m, Forall tstmt_ok ts ->
  apply m (join (map text ts)) = Ret (exec_all m (within 4194304 ts)).
Proof. intros. now apply apply_text_limit. Qed.
Print Assumptions C10_text_limit.
Example C10_limit_case :
  within 3 [TMain false None; TBins false true 2 4 5 None; TBins false false 0 9 12 None; TMain true None]
  = [Have 6 0; Have 2 4; Have 2 5; Have 0 9].
Proof. reflexivity. Qed.
(** And no text whatsoever makes it run on for ever or touch foreign memory. *)
Theorem C10_text_total : forall m s, exists m', apply m s = Ret m'.
Proof. exact apply_total. Qed.
Print Assumptions C10_text_total.
Example C10_case :
  let h := [Have 0 7; HavePart 0 8 100; Have 2 7; HavePart 0 8 40; Drop 0 7; HavePart 0 7 5; Have 6 0] in
  let m := exec_all [] h in
  (has m 0 7, received_bytes m 0 7, has m 2 7, received_bytes m 0 8, has m 6 0, has m 0 0) = (false, 5, true, 100, true, false).
Proof. vm_compute. reflexivity. Qed.
(** "Hm,P4-6,-P5,M3:17" *)
Example C10_text_case :
  let ts := [TMain false None; TBins false false 0 4 6 None; TBins true false 0 5 5 None; TBins false false 8 3 3 (Some 17)] in
  join (map text ts) = [72; 109; 44; 80; 52; 45; 54; 44; 45; 80; 53; 44; 77; 51; 58; 49; 55]
  /\ (let* m := apply [] (join (map text ts)) in
      Ret (map (has m 0) [3; 4; 5; 6; 7], has m 6 0, received_bytes m 8 3)) = Ret ([false; true; false; true; false], true, 17).
Proof. vm_compute. auto. Qed.

(** "Ht4-5,Hp9:3" *)
Example C10_text_case_long :
  let ts := [TBins false true 2 4 5 None; TBins false true 0 9 9 (Some 3)] in
  join (map text ts) = [72; 116; 52; 45; 53; 44; 72; 112; 57; 58; 51]
  /\ (let* m := apply [] (join (map text ts)) in
      Ret (map (has m 2) [3; 4; 5; 6], received_bytes m 0 9)) = Ret ([false; true; true; false], 3).
Proof. vm_compute. auto. Qed.

(** Beyond 2^56 keys collide: a statement about a precinct bin makes the main
    header count as held. *)
Theorem C10_large_ids_refuted : exists i, 0 <= i < 2 ^ 64 /\ has (exec_all [] [Have 0 i]) 6 0 = true.
Proof. exists (6 * 2 ^ 56). split; [lia | vm_compute; reflexivity]. Qed.
Print Assumptions C10_large_ids_refuted.

(** The text "P-1" names no bin, yet makes precinct bins 0, 1, ... count as
    held: the bin number wraps to 2^64-1 and the range loop wraps to 0. *)
Theorem C10_minus_one_refuted : exists m, apply [] [80; 45; 49] = Ret m /\ has m 0 0 = true /\ has m 0 1 = true.
Proof. exact minus_one_marks. Qed.
Print Assumptions C10_minus_one_refuted.

(** ** C11.  Formatting and parsing keeps every answer. *)
Theorem C11_text_round_trip : forall l, NoDup (map fst l) -> Forall entry_ok l -> zlen l <= 4194304 ->
  exists m, parse (format l) = Ret m /\
    forall c i, has m c i = has l c i /\ (has l c i = false -> received_bytes m c i = received_bytes l c i).
Proof. exact text_round_trip. Qed.
Print Assumptions C11_text_round_trip.
(** The hypotheses hold for any model built by statements about the bins the
    text form can name. *)
Theorem C11_reachable : forall h,
  Forall (fun s => stmt_ok s /\ match s with
                                | Have c i | Drop c i => c = 0 \/ c = 2 \/ c = 8 \/ (c = 6 /\ i = 0)
                                | HavePart c i b => (c = 0 \/ c = 2 \/ c = 8 \/ (c = 6 /\ i = 0)) /\ b < 2 ^ 64
                                | DropAll => True
                                end) h ->
  NoDup (map fst (exec_all [] h)) /\ Forall entry_ok (exec_all [] h) /\ zlen (exec_all [] h) <= zlen h.
Proof. exact reachable_formats. Qed.
Print Assumptions C11_reachable.
Example C11_case :
  let l := exec_all [] [Have 0 4; Have 0 5; Have 2 0; HavePart 0 17 99; Have 6 0; Have 0 6; HavePart 8 1 3] in
  format l = [80; 52; 45; 54; 44; 80; 49; 55; 58; 57; 57; 44; 72; 48; 44; 72; 109; 44; 77; 49; 58; 51]
  /\ (let* m := parse (format l) in Ret (map (has m 0) [4; 5; 6; 17], received_bytes m 0 17)) = Ret ([true; true; true; false], 99).
Proof. vm_compute. auto. Qed.
(** The byte count of a bin held in full is not carried. *)
Theorem C11_complete_count_refuted : exists h, Forall stmt_ok h /\
  (let* m := parse (format (exec_all [] h)) in Ret (received_bytes m 0 1)) = Ret 0 /\ received_bytes (exec_all [] h) 0 1 = 5.
Proof. exists [HavePart 0 1 5; Have 0 1]. split; [repeat constructor; lia | vm_compute; auto]. Qed.
Print Assumptions C11_complete_count_refuted.
(** Classes without a letter (tile bins, extended precincts) are dropped. *)
Theorem C11_other_class_refuted : exists h, Forall stmt_ok h /\
  (let* m := parse (format (exec_all [] h)) in Ret (has m 4 1)) = Ret false /\ has (exec_all [] h) 4 1 = true.
Proof. exists [Have 4 1]. split; [repeat constructor; lia | vm_compute; auto]. Qed.
Print Assumptions C11_other_class_refuted.

(** ** C12.  Every execution answers like the least-recently-used list. *)
Theorem C12_table_is_lru : forall maxc h s, 1 <= maxc -> runs_to (new_manager maxc) h s -> zlen h < 2 ^ 64 - 1 ->
  map snd h = fst (spec_run maxc no_sessions (map fst h)).
Proof. exact manager_refines. Qed.
Print Assumptions C12_table_is_lru.
Theorem C12_ids_never_reused : forall maxc h s, 1 <= maxc -> runs_to (new_manager maxc) h s -> zlen h < 2 ^ 64 - 1 ->
  NoDup (ids_of h).
Proof. exact fresh_ids. Qed.
Print Assumptions C12_ids_never_reused.
Theorem C12_table_bounded : forall maxc h s, 1 <= maxc -> runs_to (new_manager maxc) h s -> zlen h < 2 ^ 64 - 1 ->
  size s <= maxc.
Proof. exact size_bounded. Qed.
Print Assumptions C12_table_bounded.
(** Any sequence of calls can be run. *)
Theorem C12_never_stuck : forall maxc cs, 1 <= maxc -> zlen cs < 2 ^ 64 - 1 ->
  exists h s, runs_to (new_manager maxc) h s /\ map fst h = cs.
Proof. exact manager_runs. Qed.
Print Assumptions C12_never_stuck.
(** The id text always fits its 32-byte buffer, terminator included. *)
Theorem C12_id_fits_buffer : forall n, 0 <= n < 2 ^ 64 -> zlen (cid_text n) + 1 <= 32.
Proof. exact cid_text_len. Qed.
Print Assumptions C12_id_fits_buffer.
(** With a maximum of zero the first open erases the end iterator. *)
Theorem C12_zero_maximum_refuted : do_call (new_manager 0) Open = UB.
Proof. reflexivity. Qed.
Print Assumptions C12_zero_maximum_refuted.
(** Two slots: the third open evicts "JPH2", because "JPH1" was used since. *)
Example C12_case :
  let c1 := cid_text 1 in let c2 := cid_text 2 in let c3 := cid_text 3 in
  fst (spec_run 2 no_sessions [Open; Open; Commit c1 [{| s_class := 0; s_id := 9; s_end := 0; s_complete := true |}];
                               Open; Size; Snapshot c2; Snapshot c1; Close c3; Close c3])
  = [ACid c1; ACid c2; ADone; ACid c3; ASize 2; AModel None;
     AModel (Some (exec_all [] [Have 0 9])); ABool true; ABool false].
Proof. vm_compute. reflexivity. Qed.

(** ** C13.  Calls naming other sessions leave a session's model alone, or (only [open]) evict it. *)
Theorem C13_isolated : forall s c a s' cid, do_call s c = Ret (a, s') -> ~ names c cid -> a <> ACid cid ->
  model_in s' cid = model_in s cid \/ (c = Open /\ model_in s' cid = None).
Proof. exact isolated. Qed.
Print Assumptions C13_isolated.
Theorem C13_committed_stays_held : forall maxc h1 s1 cid sent s2 h2 s3 m, 1 <= maxc ->
  runs_to (new_manager maxc) h1 s1 -> do_call s1 (Commit cid sent) = Ret (ADone, s2) -> model_in s1 cid <> None ->
  runs_to s2 h2 s3 -> zlen h1 + zlen h2 < 2 ^ 64 - 2 ->
  Forall (fun ca => keeps cid (fst ca)) h2 -> model_in s3 cid = Some m ->
  Forall (holds m) sent.
Proof. exact committed_stays. Qed.
Print Assumptions C13_committed_stays_held.
(** [model_in] is what a snapshot returns. *)
Theorem C13_snapshot_reports : forall s cid a s', do_call s (Snapshot cid) = Ret (a, s') -> a = AModel (model_in s cid).
Proof.
  intros s cid a s' E. cbn [do_call] in E. unfold snapshot, model_in in *.
  destruct (chget (channels s) cid); apply Ret_inj in E; apply pair_inj in E as [<- _]; reflexivity.
Qed.
Print Assumptions C13_snapshot_reports.
Example C13_case :
  let c1 := cid_text 1 in let c2 := cid_text 2 in
  let bin := {| s_class := 2; s_id := 3; s_end := 40; s_complete := false |} in
  (let* (_, s1) := do_call (new_manager 2) Open in
   let* (_, s2) := do_call s1 (Commit c1 [bin]) in
   let* (_, s3) := do_call s2 Open in
   let* (_, s4) := do_call s3 (ApplyModel c1 [80; 49]) in
   let* (_, s5) := do_call s4 (Close c2) in
   Ret (model_in s1 c1, model_in s5 c1, model_in s5 c2))
  = Ret (Some [], Some (exec_all [] [HavePart 2 3 40; Have 0 1]), None)
  /\ Forall (keeps c1) [Open; ApplyModel c1 [80; 49]; Close c2].
Proof.
  split; [vm_compute; reflexivity |]. constructor; [exact I |]. constructor.
  - intros _ pre post E. destruct pre as [| a [| b [| c pre]]]; cbn in E; discriminate E.
  - constructor; [vm_compute; discriminate | constructor].
Qed.

(** ** C45 *)
Theorem C45_negotiation : forall s,
  (negotiate_transport s = Ret http_name /\ names_http s) \/ (negotiate_transport s = Ret [] /\ ~ names_http s).
Proof. exact negotiate_spec. Qed.
Print Assumptions C45_negotiation.
(** "http-tcp, http" and "http-tcp". *)
Example C45_case :
  negotiate_transport ([104; 116; 116; 112; 45; 116; 99; 112] ++ [44; 32] ++ http_name) = Ret http_name
  /\ negotiate_transport [104; 116; 116; 112; 45; 116; 99; 112] = Ret [].
Proof. vm_compute. auto. Qed.
