(** What a fetch that reports success has received. *)
From Coq Require Import String List.
From Verif Require Import Base BaseLemmas Text JppModel JppSpec JppProps ParserProofs QueryModel QueryProps.
From Verif Require Import ChunkModel ChunkProps HttpModel HttpProps FetchModel FetchProps.

Lemma recv_all : forall reads buf raw rest, recv_until_header_end reads buf = (raw, rest) -> raw ++ concat rest = buf ++ concat reads.
Proof.
  induction reads as [|r t IH]; intros buf raw rest H; cbn [recv_until_header_end] in H.
  - apply pair_inj in H as [<- <-]. reflexivity.
  - destruct (zlen buf <? 65536); [|apply pair_inj in H as [<- <-]; reflexivity].
    cbn [concat]. rewrite app_assoc. destruct (blank_line (buf ++ r)); [apply pair_inj in H as [<- <-]; reflexivity|]. now apply IH.
Qed.

Lemma chunked_loop_inv : forall reads d acc p s p' s', cd_done d = false -> chunked_loop reads d p s = Ret (true, p', s') ->
  exists res os, receive d reads acc = Ret res /\ rc_ok res = true /\ rc_body res = acc ++ concat os /\ sp_feed_all p os s = Ret (true, p', s').
Proof.
  induction reads as [|r t IH]; intros d acc p s p' s' D H; cbn [chunked_loop] in H; rewrite D in H.
  - apply Ret_inj in H. cbn [receive]. eexists. exists []. split; [reflexivity|]. split; [reflexivity|]. split; [cbn; now rewrite app_nil_r|]. cbn. now f_equal.
  - rewrite receive_cons. unfold push_chunked, feed_jpp in H. destruct (cd_feed d r) as [[[ok d'] o]| |]; cbn [bind] in H |- *; try discriminate H.
    destruct (sp_feed p o s) as [[[okj p1] s1]| |] eqn:F; cbn [bind] in H; try discriminate H.
    destruct ok; [|cbn [andb] in H; discriminate H]. destruct okj; cbn [andb] in H; [|discriminate H]. cbn [negb orb].
    destruct (cd_done d') eqn:D'.
    + assert (Ret (true, p1, s1) = Ret (true, p', s')) as E by (destruct t; cbn [chunked_loop] in H; rewrite D' in H; exact H).
      eexists. exists [o]. split; [reflexivity|]. split; [reflexivity|]. split; [cbn [rc_body concat]; now rewrite app_nil_r|].
      cbn [sp_feed_all]. rewrite F. cbn [bind]. exact E.
    + destruct (IH d' (acc ++ o) p1 s1 p' s' D' H) as (res & os & R & Ok & B & A). exists res, (o :: os).
      split; [exact R|]. split; [exact Ok|]. split; [rewrite B; cbn [concat]; now rewrite app_assoc|]. cbn [sp_feed_all]. rewrite F. exact A.
Qed.

Lemma pieces_take : forall reads togo, concat (pieces togo reads) = ztake togo (concat reads).
Proof.
  induction reads as [|r t IH]; intros togo; cbn [pieces concat].
  - unfold ztake. rewrite firstn_nil. now destruct (togo <=? 0).
  - destruct (Z.leb_spec togo 0); [now rewrite ztake_0 by lia|]. cbn [concat]. rewrite IH.
    destruct (Z.min_spec (zlen r) togo) as [[M ->]|[M ->]].
    + rewrite (ztake_all (zlen r) r) by lia. replace togo with (zlen r + (togo - zlen r)) at 2 by lia.
      rewrite <- ztake_plus by (try lia; apply zlen_nonneg). rewrite ztake_app, zskip_app by reflexivity. reflexivity.
    + rewrite Z.sub_diag, (ztake_0 0) by lia. rewrite (ztake_app_le togo r) by lia. apply app_nil_r.
Qed.
Lemma length_loop_inv : forall reads togo p s p' s', length_loop reads togo p s = Ret (true, p', s') ->
  sp_feed_all p (pieces togo reads) s = Ret (true, p', s').
Proof.
  induction reads as [|r t IH]; intros togo p s p' s' F; cbn [length_loop pieces] in *; (destruct (togo <=? 0); [exact F|]); [exact F|].
  unfold push_length, feed_jpp in F. cbn [sp_feed_all].
  destruct (sp_feed p _ s) as [[[okj p1] s1]| |]; cbn [bind] in *; try discriminate F.
  destruct okj; [|discriminate F]. now apply IH.
Qed.

(** The bytes of the body as they were read. *)
Definition as_read (first : list Z) (rest : list (list Z)) : list (list Z) := match first with [] => rest | _ => first :: rest end.

(** Success means: a complete header was received, it announces either
    chunks or a length, the transport layer found nothing wrong with the bytes
    after the header, and the message parser accepted every payload byte and
    ended between two messages; the caller's set is the parser's. *)
Theorem C52_success : forall reads s, fetch_response reads = Ret (true, s) ->
  exists raw rest b parts p,
    raw ++ concat rest = concat reads /\ blank_line raw = Some b /\
    sp_feed_all sparser0 parts dbset0 = Ret (true, p, s) /\ sp_pending p = [] /\
    ((parse_http_chunked raw = Ret (true, Some (b + 4)) /\
      exists res, receive cd_init (as_read (zskip (b + 4) raw) rest) [] = Ret res /\ rc_ok res = true /\ rc_body res = concat parts) \/
     (parse_http_chunked raw = Ret (false, Some (b + 4)) /\
      exists n, parse_http_content_length raw = Ret (n, Some (b + 4)) /\ n <> SIZE_MAX /\
                concat parts = ztake n (zskip (b + 4) raw ++ concat rest))).
Proof.
  intros reads s H. unfold fetch_response in H. destruct (recv_until_header_end reads []) as [raw rest] eqn:R.
  pose proof (recv_all _ _ _ _ R) as Ra. cbn [app] in Ra.
  destruct (zlen raw =? 0); [discriminate H|].
  unfold parse_http_chunked in H. destruct (blank_line raw) as [b|] eqn:B.
  2: { cbn [bind] in H. unfold parse_http_content_length in H. rewrite B in H. cbn [bind] in H. unfold SIZE_MAX in H. rewrite Z.eqb_refl in H. discriminate H. }
  destruct (chunked_scan _ _ _ _) as [c| |] eqn:Sc; cbn [bind] in H; try discriminate H.
  exists raw, rest, b. destruct c.
  - assert (exists p, chunked_loop (as_read (zskip (b + 4) raw) rest) cd_init sparser0 dbset0 = Ret (true, p, s) /\ sp_finish p = true) as (p & L & F).
    { unfold as_read. destruct (zskip (b + 4) raw) as [|x y].
      - cbn [bind] in H. destruct (chunked_loop rest cd_init sparser0 dbset0) as [[[ok p] s1]| |]; cbn [bind] in H; try discriminate H.
        apply Ret_inj in H. apply pair_inj in H as [H <-]. apply andb_prop in H as [-> F]. now exists p.
      - cbn [chunked_loop]. change (cd_done cd_init) with false. destruct (push_chunked cd_init sparser0 dbset0 (x :: y)) as [[[[ok d] p1] s1]| |]; cbn [bind] in H |- *; try discriminate H.
        destruct ok; [|discriminate H]. destruct (chunked_loop rest d p1 s1) as [[[ok p] s2]| |]; cbn [bind] in H; try discriminate H.
        apply Ret_inj in H. apply pair_inj in H as [H <-]. apply andb_prop in H as [-> F]. now exists p. }
    destruct (chunked_loop_inv _ cd_init [] _ _ _ _ eq_refl L) as (res & os & Rc & Ok & Bo & A).
    exists os, p. split; [exact Ra|]. split; [exact B|]. split; [exact A|]. split.
    + unfold sp_finish in F. apply Z.eqb_eq in F. now apply zlen_0 in F.
    + left. split; [unfold parse_http_chunked; rewrite B, Sc; reflexivity|]. exists res. split; [exact Rc|]. split; [exact Ok|]. exact Bo.
  - unfold parse_http_content_length in H. rewrite B in H. destruct (length_scan _ _ _ _) as [n| |] eqn:Ls; cbn [bind] in H; try discriminate H.
    destruct (Z.eqb_spec n SIZE_MAX) as [|N]; [discriminate H|].
    assert (exists p, length_loop (as_read (zskip (b + 4) raw) rest) n sparser0 dbset0 = Ret (true, p, s) /\ sp_finish p = true) as (p & L & F).
    { unfold as_read. destruct (zskip (b + 4) raw) as [|x y].
      - cbn [bind] in H. destruct (length_loop rest n sparser0 dbset0) as [[[ok p] s1]| |]; cbn [bind] in H; try discriminate H.
        apply Ret_inj in H. apply pair_inj in H as [H <-]. apply andb_prop in H as [-> F]. now exists p.
      - cbn [length_loop]. destruct (Z.leb_spec n 0) as [Hn|Hn].
        + unfold push_length, feed_jpp in H. rewrite ztake_0 in H by (pose proof (zlen_nonneg (x :: y)); lia).
          destruct (sp_feed sparser0 [] dbset0) as [[[ok p1] s1]| |] eqn:E; cbn [bind] in H; try discriminate H.
          vm_compute in E. apply Ret_inj in E. apply pair_inj in E as [E <-]. apply pair_inj in E as [<- <-].
          match type of H with context [length_loop rest ?k ?a ?d] => assert (length_loop rest k a d = Ret (true, a, d)) as Y end.
          { destruct rest; cbn [length_loop]; destruct (Z.leb_spec (n - Z.min (zlen (x :: y)) n) 0) as [_|Q]; try reflexivity; pose proof (zlen_nonneg (x :: y)); lia. }
          rewrite Y in H. cbn [bind] in H. apply Ret_inj in H. apply pair_inj in H as [H <-]. eexists. split; [reflexivity|]. reflexivity.
        + destruct (push_length n sparser0 dbset0 (x :: y)) as [[[[ok togo] p1] s1]| |]; cbn [bind] in H |- *; try discriminate H.
          destruct ok; [|discriminate H]. destruct (length_loop rest togo p1 s1) as [[[ok p] s2]| |]; cbn [bind] in H; try discriminate H.
          apply Ret_inj in H. apply pair_inj in H as [H <-]. apply andb_prop in H as [-> F]. now exists p. }
    exists (pieces n (as_read (zskip (b + 4) raw) rest)), p. split; [exact Ra|]. split; [exact B|]. split; [now apply length_loop_inv|]. split.
    + unfold sp_finish in F. apply Z.eqb_eq in F. now apply zlen_0 in F.
    + right. split; [unfold parse_http_chunked; rewrite B, Sc; reflexivity|]. exists n. split; [unfold parse_http_content_length; rewrite B, Ls; reflexivity|]. split; [exact N|]. rewrite pieces_take. f_equal. unfold as_read. now destruct (zskip (b + 4) raw).
Qed.
Print Assumptions C52_success.

(** Failures: nothing received; no length and no chunks announced; a message
    cut by the end of the connection; a malformed message.  And a success. *)
Example C52_success_case :
  let ok := txt "HTTP/1.1 200 OK" ++ [13; 10] in
  let len := txt "Content-Length: 6" ++ [13; 10; 13; 10] in
  fetch_response [] = Ret (false, dbset0) /\
  fetch_response [ok ++ [13; 10]] = Ret (false, dbset0) /\
  (exists s, fetch_response [ok ++ len; [96+16; 6; 0; 0; 1]] = Ret (false, s)) /\
  (exists s, fetch_response [ok ++ len; [96+16; 6]; [0; 0; 1; 7]] = Ret (true, s) /\ ds_get s 6 0 = [7]).
Proof. cbv zeta. repeat split; [vm_compute; reflexivity..| |]; eexists; [|split]; vm_compute; reflexivity. Qed.
