(** A response arrives as it was sent, however the network cuts it. *)
From Coq Require Import String List.
From Verif Require Import Base BaseLemmas Text JppModel JppSpec JppProps ParserProofs QueryModel QueryProps.
From Verif Require Import ChunkModel ChunkProps HttpModel HttpProps FetchModel.

(** ** The header *)

Lemma blank_line_app q x : forall i, blank_line q = Some i -> blank_line (q ++ x) = Some i.
Proof.
  induction q as [|c q IH]; intros i; cbn [blank_line app].
  - destruct (seq_eqb _ _) eqn:E; [apply seq_eqb_eq in E; discriminate E|discriminate].
  - destruct (seq_eqb (ztake 4 (c :: q)) _) eqn:E.
    + intros H. apply seq_eqb_eq in E. assert (4 <= zlen (c :: q)) as L.
      { apply (f_equal zlen) in E. unfold ztake, zlen in *. rewrite firstn_length in E. cbn [length] in *. lia. }
      change (c :: q ++ x) with ((c :: q) ++ x). rewrite ztake_app_le by exact L. rewrite E. exact H.
    + destruct (blank_line q) as [j|] eqn:B; [|discriminate]. intros H. pose proof (blank_bound q j B).
      change (c :: q ++ x) with ((c :: q) ++ x). rewrite ztake_app_le by (rewrite zlen_cons; lia). rewrite E, (IH j eq_refl). exact H.
Qed.

Lemma recv_header head : 4 <= zlen head <= 65536 -> forall reads buf rest,
  blank_line (head ++ rest) = Some (zlen head - 4) -> buf ++ concat reads = head ++ rest -> blank_line buf = None -> zlen buf < zlen head ->
  exists first t, recv_until_header_end reads buf = (head ++ first, t) /\ first ++ concat t = rest.
Proof.
  intros Hh. induction reads as [|r t IH]; intros buf rest B E N L.
  - exfalso. cbn [concat] in E. rewrite app_nil_r in E. apply (f_equal zlen) in E. rewrite zlen_app in E. pose proof (zlen_nonneg rest). lia.
  - cbn [recv_until_header_end concat] in *. replace (zlen buf <? 65536) with true by lia. rewrite app_assoc in E.
    destruct (blank_line (buf ++ r)) as [i|] eqn:Bi.
    + pose proof (blank_line_app _ (concat t) i Bi) as Bj. rewrite E, B in Bj. apply Some_inj in Bj. pose proof (blank_bound _ _ Bi) as Hb.
      exists (zskip (zlen head) (buf ++ r)), t.
      assert (buf ++ r = head ++ zskip (zlen head) (buf ++ r)) as E2.
      { assert (ztake (zlen head) (buf ++ r) = head) as E3.
        { rewrite <- (ztake_app_le (zlen head) (buf ++ r) (concat t)) by lia. rewrite E. now apply ztake_app. }
        rewrite <- E3 at 1. symmetry. apply ztake_zskip. }
      split; [f_equal; exact E2|]. rewrite E2, <- app_assoc in E. now apply app_inv_head in E.
    + apply IH; [exact B|exact E|exact Bi|].
      destruct (Z_lt_le_dec (zlen (buf ++ r)) (zlen head)) as [|G]; [assumption|exfalso].
      (* the blank line would have been found *)
      assert (exists y, buf ++ r = head ++ y) as (y & Ey).
      { exists (zskip (zlen head) (buf ++ r)). assert (ztake (zlen head) (buf ++ r) = head) as E3.
        { rewrite <- (ztake_app_le (zlen head) (buf ++ r) (concat t)) by lia. rewrite E. now apply ztake_app. }
        rewrite <- E3 at 1. symmetry. apply ztake_zskip. }
      (* a first blank line at [zlen head - 4] lies inside [head] *)
      assert (forall a z i, blank_line (a ++ z) = Some i -> i + 4 <= zlen a -> blank_line a = Some i) as K.
      { clear. induction a as [|c a IH]; intros z i H Hi.
        - pose proof (blank_bound _ _ H). change (zlen (@nil Z)) with 0 in Hi. lia.
        - pose proof (blank_bound _ _ H) as [H0 _]. cbn [app blank_line] in *.
          assert (ztake 4 (c :: a ++ z) = ztake 4 (c :: a)) as T by (change (c :: a ++ z) with ((c :: a) ++ z); apply ztake_app_le; lia).
          rewrite T in H. destruct (seq_eqb _ _); [exact H|]. destruct (blank_line (a ++ z)) as [j|] eqn:Bz; [|discriminate].
          cbn [option_map] in H. apply Some_inj in H. rewrite zlen_cons in Hi. rewrite (IH z j Bz) by lia. cbn [option_map]. f_equal. exact H. }
      pose proof (K head rest _ B ltac:(lia)) as Bh. rewrite Ey in Bi. rewrite (blank_line_app head y _ Bh) in Bi. discriminate Bi.
Qed.

(** ** The body *)

(** The payloads handed on for each read. *)
Fixpoint outputs (d : cdec) (reads : list (list Z)) : out (list (list Z)) :=
  match reads with
  | [] => Ret []
  | r :: t =>
    let* (x, o) := cd_feed d r in
    let '(ok, d) := x in
    if negb ok || cd_done d then Ret [o] else let* os := outputs d t in Ret (o :: os)
  end.
Lemma receive_outputs : forall reads d acc res, receive d reads acc = Ret res ->
  exists os, outputs d reads = Ret os /\ rc_body res = acc ++ concat os.
Proof.
  induction reads as [|r t IH]; intros d acc res H.
  - cbn [receive] in H. apply Ret_inj in H. subst res. exists []. split; [reflexivity|]. cbn [rc_body concat]. now rewrite app_nil_r.
  - rewrite receive_cons in H. cbn [outputs]. destruct (cd_feed d r) as [[[ok d'] o]| |]; cbn [bind] in *; try discriminate.
    destruct (negb ok || cd_done d').
    + apply Ret_inj in H. subst res. exists [o]. split; [reflexivity|]. cbn [rc_body concat]. now rewrite app_nil_r.
    + destruct (IH _ _ _ H) as (os & -> & E). exists (o :: os). split; [reflexivity|]. rewrite E. cbn [concat]. now rewrite app_assoc.
Qed.

(** If the transport accepts everything and the message parser accepts the
    payloads, the loop is the message parser on the payloads. *)
Lemma chunked_loop_outputs : forall reads d acc res os p s p' s',
  cd_done d = false -> receive d reads acc = Ret res -> rc_ok res = true -> outputs d reads = Ret os ->
  sp_feed_all p os s = Ret (true, p', s') -> chunked_loop reads d p s = Ret (true, p', s').
Proof.
  induction reads as [|r t IH]; intros d acc res os p s p' s' Hd R Ok O F; cbn [chunked_loop]; rewrite Hd.
  - cbn [outputs] in O. apply Ret_inj in O. subst os. exact F.
  - rewrite receive_cons in R. cbn [outputs] in O. unfold push_chunked. destruct (cd_feed d r) as [[[ok d'] o]| |]; cbn [bind] in *; try discriminate.
    destruct ok.
    + cbn [negb orb] in *. destruct (cd_done d') eqn:D.
      * apply Ret_inj in O. subst os. cbn [sp_feed_all] in F. unfold feed_jpp.
        destruct (sp_feed p o s) as [[[okj p1] s1]| |]; cbn [bind] in *; try discriminate.
        destruct okj; cbn [andb]; [|discriminate]. destruct t; cbn [chunked_loop]; rewrite D; exact F.
      * destruct (outputs d' t) as [os'| |] eqn:O'; cbn [bind] in O; try discriminate. apply Ret_inj in O. subst os. cbn [sp_feed_all] in F. unfold feed_jpp.
        destruct (sp_feed p o s) as [[[okj p1] s1]| |]; cbn [bind] in *; try discriminate.
        destruct okj; cbn [andb]; [|discriminate]. eapply IH; eassumption.
    + cbn [negb orb] in R. apply Ret_inj in R. subst res. discriminate Ok.
Qed.

(** The pieces of a body of known length. *)
Fixpoint pieces (togo : Z) (reads : list (list Z)) : list (list Z) :=
  if togo <=? 0 then [] else
  match reads with
  | [] => []
  | r :: t => ztake (Z.min (zlen r) togo) r :: pieces (togo - Z.min (zlen r) togo) t
  end.
Lemma pieces_concat : forall reads togo rest, 0 <= togo -> togo <= zlen (concat reads) ->
  rest = ztake togo (concat reads) -> concat (pieces togo reads) = rest.
Proof.
  induction reads as [|r t IH]; intros togo rest H0 H ->.
  - cbn [concat] in H. change (zlen (@nil Z)) with 0 in H. cbn [pieces]. unfold ztake. cbn [concat]. rewrite firstn_nil. now destruct (togo <=? 0).
  - cbn [pieces]. destruct (Z.leb_spec togo 0); [now rewrite ztake_0 by lia|]. cbn [concat] in *. rewrite zlen_app in H.
    destruct (Z.min_spec (zlen r) togo) as [[M ->]|[M ->]].
    + rewrite (ztake_all (zlen r) r) by lia. rewrite (IH (togo - zlen r) _ ltac:(lia) ltac:(lia) eq_refl).
      replace togo with (zlen r + (togo - zlen r)) at 2 by lia. rewrite <- ztake_plus by (try lia; apply zlen_nonneg).
      rewrite ztake_app, zskip_app by reflexivity. reflexivity.
    + rewrite Z.sub_diag. rewrite (ztake_app_le togo r) by lia.
      replace (pieces 0 t) with (@nil (list Z)) by (destruct t; reflexivity). cbn [concat]. apply app_nil_r.
Qed.
Lemma length_loop_pieces : forall reads togo p s p' s', sp_feed_all p (pieces togo reads) s = Ret (true, p', s') ->
  length_loop reads togo p s = Ret (true, p', s').
Proof.
  induction reads as [|r t IH]; intros togo p s p' s' F; cbn [length_loop pieces] in *; (destruct (togo <=? 0); [exact F|]); [exact F|].
  unfold push_length, feed_jpp. cbn [sp_feed_all] in F.
  destruct (sp_feed p _ s) as [[[okj p1] s1]| |]; cbn [bind] in *; try discriminate.
  destruct okj; [|discriminate]. now apply IH.
Qed.

(** ** The response *)

(** Transport of a message stream that the client's parser accepts: for every
    way [stream] may be cut, [result] is the outcome. *)
Definition accepted (stream : list Z) (s : dbset) : Prop :=
  forall pieces, concat pieces = stream -> exists p, sp_feed_all sparser0 pieces dbset0 = Ret (true, p, s) /\ sp_finish p = true.

Theorem fetch_chunked : forall stream s tid cnew extra head chunks reads,
  accepted stream s -> fits tid cnew -> Forall extra_line extra ->
  format_jpp_response_headers_chunked tid cnew (lines extra) = Ret head -> zlen head <= 65536 ->
  Forall chunk_ok chunks -> concat chunks = stream ->
  concat reads = head ++ frame chunks -> fetch_response reads = Ret (true, s).
Proof.
  intros stream s tid cnew extra head chunks reads A F X H L C S E.
  destruct (C19_chunked_response_partial tid cnew extra F X) as (head' & H' & P). rewrite H in H'. apply Ret_inj in H'. subst head'.
  assert (forall y, blank_line (head ++ y) = Some (zlen head - 4)) as B.
  { intros y. specialize (P y). unfold parse_http_chunked in P. destruct (blank_line (head ++ y)) as [b|]; [|discriminate P].
    destruct (chunked_scan _ _ _ _); cbn [bind] in P; try discriminate P. apply Ret_inj in P. apply pair_inj in P as [_ P]. apply Some_inj in P. f_equal. lia. }
  assert (4 <= zlen head) as L4 by (pose proof (blank_bound _ _ (B [])); lia).
  destruct (recv_header head ltac:(lia) reads [] (frame chunks) (B _) E eq_refl) as (first & t & R & Rt); [change (zlen (@nil Z)) with 0; lia|].
  unfold fetch_response. rewrite R. rewrite zlen_app. pose proof (zlen_nonneg first). replace (zlen head + zlen first =? 0) with false by lia.
  rewrite P. cbn [bind]. rewrite zskip_app by reflexivity.
  (* the reads of the body *)
  set (body := match first with [] => t | _ => first :: t end).
  assert (concat body = frame chunks) as Eb by (unfold body; destruct first; exact Rt).
  pose proof (C17_received chunks [] body C ltac:(now rewrite app_nil_r)) as Rc.
  destruct (receive_outputs _ _ _ _ Rc) as (os & O & Oc). cbn [rc_body app] in Oc.
  destruct (A os) as (p & Fd & Fi); [congruence|].
  pose proof (chunked_loop_outputs body cd_init [] _ os sparser0 dbset0 p s eq_refl Rc eq_refl O Fd) as Lp.
  destruct first as [|c first]; unfold body in Lp.
  - cbn [bind]. rewrite Lp. cbn [bind]. rewrite Fi. reflexivity.
  - cbn [chunked_loop cd_done cd_init] in Lp. destruct (push_chunked cd_init sparser0 dbset0 (c :: first)) as [[[[ok d] p1] s1]| |]; cbn [bind] in *; try discriminate.
    destruct ok; [|discriminate Lp]. rewrite Lp. cbn [bind]. rewrite Fi. reflexivity.
Qed.

Theorem fetch_length : forall stream s tid cnew extra resp head reads,
  accepted stream s -> fits tid cnew -> Forall extra_line extra -> zlen stream < two64 - 1 ->
  format_jpp_response stream tid cnew (lines extra) = Ret resp -> resp = head ++ stream -> zlen head <= 65536 ->
  concat reads = resp -> fetch_response reads = Ret (true, s).
Proof.
  intros stream s tid cnew extra resp head reads A F X N H Hr L E.
  destruct (C19_response_partial stream tid cnew extra F X ltac:(lia)) as (head' & H' & P). rewrite H, Hr in H'. apply Ret_inj in H'. apply app_inv_tail in H'. subst head'.
  assert (forall y, blank_line (head ++ y) = Some (zlen head - 4)) as B.
  { intros y. destruct (P y) as [_ Py]. unfold parse_http_chunked in Py. destruct (blank_line (head ++ y)) as [b|]; [|discriminate Py].
    destruct (chunked_scan _ _ _ _); cbn [bind] in Py; try discriminate Py. apply Ret_inj in Py. apply pair_inj in Py as [_ Py]. apply Some_inj in Py. f_equal. lia. }
  assert (4 <= zlen head) as L4 by (pose proof (blank_bound _ _ (B [])); lia).
  rewrite Hr in E.
  destruct (recv_header head ltac:(lia) reads [] stream (B _) E eq_refl) as (first & t & R & Rt); [change (zlen (@nil Z)) with 0; lia|].
  unfold fetch_response. rewrite R. rewrite zlen_app. pose proof (zlen_nonneg first). replace (zlen head + zlen first =? 0) with false by lia.
  destruct (P first) as [P1 P2]. rewrite P2. cbn [bind]. rewrite P1. cbn [bind]. unfold SIZE_MAX. pose proof (zlen_nonneg stream).
  replace (zlen stream =? two64 - 1) with false by lia. rewrite zskip_app by reflexivity.
  set (body := match first with [] => t | _ => first :: t end).
  assert (concat body = stream) as Eb by (unfold body; destruct first; exact Rt).
  destruct (A (pieces (zlen stream) body)) as (p & Fd & Fi).
  { apply pieces_concat; [lia|rewrite Eb; lia|]. rewrite Eb. now rewrite ztake_all by lia. }
  pose proof (length_loop_pieces _ _ _ _ _ _ Fd) as Lp.
  destruct first as [|c first]; unfold body in Lp.
  - cbn [bind]. rewrite Lp. cbn [bind]. rewrite Fi. reflexivity.
  - cbn [length_loop] in Lp. destruct (Z.leb_spec (zlen stream) 0).
    + exfalso. apply (f_equal zlen) in Rt. cbn [app] in Rt. rewrite zlen_cons in Rt. pose proof (zlen_nonneg (first ++ concat t)). lia.
    + destruct (push_length (zlen stream) sparser0 dbset0 (c :: first)) as [[[[ok d] p1] s1]| |]; cbn [bind] in *; try discriminate.
      destruct ok; [|discriminate Lp]. rewrite Lp. cbn [bind]. rewrite Fi. reflexivity.
Qed.

(** ** C52 *)

(** What the client holds when it has received exactly the data-bins [bs]. *)
Definition holds_exactly (s : dbset) (bs : list bin) (reason : Z) : Prop :=
  ds_eor s = Some reason /\
  (forall b, In b bs -> ds_get s (b_class b) (b_id b) = b_data b /\ ds_is_complete s (b_class b) (b_id b) = true) /\
  (forall cl id, ~ In (cl, id) (map (fun b => (b_class b, b_id b)) bs) -> ds_contains s cl id = false).

Lemma holds_exactly_intro bs reason s : ds_eor s = Some reason ->
  (forall b, In b bs -> ds_get s (b_class b) (b_id b) = b_data b /\ ds_is_complete s (b_class b) (b_id b) = true) ->
  (forall k, ~ In k (map bin_key bs) -> lookup (ds_bins s) k = lookup (ds_bins dbset0) k) -> holds_exactly s bs reason.
Proof.
  intros Eo Hb Ho. split; [exact Eo|]. split; [exact Hb|]. intros cl id K. unfold ds_contains.
  rewrite (Ho (cl, id)) by exact K. reflexivity.
Qed.

(** Whatever data-bins the server sends, however it divides the stream into
    HTTP chunks, and wherever the network divides what it sends, the client
    reports success and holds exactly those data-bins. *)
Theorem C52_fetch_chunked : forall bs reason tid cnew extra,
  Forall bin_ok bs -> NoDup (map bin_key bs) -> 0 <= reason < 256 -> fits tid cnew -> Forall extra_line extra ->
  exists body c head, emit_bins bs ctx0 = Ret (body, c) /\
  format_jpp_response_headers_chunked tid cnew (lines extra) = Ret head /\
  (zlen head <= 65536 ->
   exists s, holds_exactly s bs reason /\
   forall chunks reads, Forall chunk_ok chunks -> concat chunks = body ++ emit_eor reason ->
     concat reads = head ++ frame chunks -> fetch_response reads = Ret (true, s)).
Proof.
  intros bs reason tid cnew extra B N R F X.
  destruct (C05_emitted_bins_received bs reason dbset0 B N R eq_refl (fun _ _ => eq_refl)) as (x & c & Em & s & Pa & Eo & Hb & Ho).
  destruct (C19_chunked_response_partial tid cnew extra F X) as (head & H & _).
  exists x, c, head. split; [exact Em|]. split; [exact H|]. intros L. exists s. split.
  - now apply holds_exactly_intro.
  - intros chunks reads C Cc Er. eapply fetch_chunked; try eassumption.
    intros ps Eps. eapply (C06_emitted_response_any_chunking bs reason dbset0); try eassumption; reflexivity.
Qed.
Print Assumptions C52_fetch_chunked.

(** The same for a response whose length is announced. *)
Theorem C52_fetch_length : forall bs reason tid cnew extra,
  Forall bin_ok bs -> NoDup (map bin_key bs) -> 0 <= reason < 256 -> fits tid cnew -> Forall extra_line extra ->
  exists body c, emit_bins bs ctx0 = Ret (body, c) /\
  (zlen (body ++ emit_eor reason) < two64 - 1 ->
   exists head, format_jpp_response (body ++ emit_eor reason) tid cnew (lines extra) = Ret (head ++ body ++ emit_eor reason) /\
   (zlen head <= 65536 ->
    exists s, holds_exactly s bs reason /\
    forall reads, concat reads = head ++ body ++ emit_eor reason -> fetch_response reads = Ret (true, s))).
Proof.
  intros bs reason tid cnew extra B N R F X.
  destruct (C05_emitted_bins_received bs reason dbset0 B N R eq_refl (fun _ _ => eq_refl)) as (x & c & Em & s & Pa & Eo & Hb & Ho).
  exists x, c. split; [exact Em|]. intros Hl.
  destruct (C19_response_partial (x ++ emit_eor reason) tid cnew extra F X ltac:(lia)) as (head & H & _).
  exists head. split; [exact H|]. intros L. exists s. split.
  - now apply holds_exactly_intro.
  - intros reads Er. eapply fetch_length; try eassumption; [|reflexivity].
    intros ps Eps. eapply (C06_emitted_response_any_chunking bs reason dbset0); try eassumption; reflexivity.
Qed.
Print Assumptions C52_fetch_length.

(** "Success means complete" is false: a connection closed between two
    messages, here inside the second of two announced chunks, is reported as
    success although neither the last chunk nor the end of the response has
    arrived. *)
Theorem C52_early_close_refuted :
  let body := [96+16; 6; 0; 0; 1; 7; 96+17; 6; 0; 0; 1; 8] ++ emit_eor 1 in
  exists head all s, format_jpp_response_headers_chunked (txt "1") [] [] = Ret head /\
  fetch_response [head ++ frame [body]] = Ret (true, all) /\ ds_get all 6 0 = [7] /\ ds_get all 6 1 = [8] /\ ds_eor all = Some 1 /\
  fetch_response [ztake (zlen head + 9) (head ++ frame [body])] = Ret (true, s) /\
  ds_get s 6 0 = [7] /\ ds_contains s 6 1 = false /\ ds_eor s = None.
Proof.
  cbv zeta. destruct (format_jpp_response_headers_chunked (txt "1") [] []) as [head| |] eqn:H; [|vm_compute in H; discriminate H..].
  vm_compute in H. apply Ret_inj in H. subst head. do 3 eexists. split; [reflexivity|].
  do 3 (split; [vm_compute; reflexivity|]). split; [vm_compute; reflexivity|]. do 3 (split; [vm_compute; reflexivity|]). vm_compute. reflexivity.
Qed.
Print Assumptions C52_early_close_refuted.

(** A case for the hypotheses: two data-bins, the header cut inside its blank
    line, the body in single bytes. *)
Example C52_case :
  let bs := [mkBin 6 0 [1; 2; 3]; mkBin 0 5 []] in
  exists head body c s, Forall bin_ok bs /\ NoDup (map bin_key bs) /\
  fits (txt "image.j2c") [] /\ format_jpp_response_headers_chunked (txt "image.j2c") [] [] = Ret head /\ zlen head <= 65536 /\
  emit_bins bs ctx0 = Ret (body, c) /\
  fetch_response (map (fun b => [b]) (head ++ frame [body; emit_eor 2])) = Ret (true, s) /\ ds_get s 6 0 = [1; 2; 3].
Proof.
  cbv zeta. destruct (format_jpp_response_headers_chunked (txt "image.j2c") [] []) as [head| |] eqn:H; [|vm_compute in H; discriminate H..].
  vm_compute in H. apply Ret_inj in H. subst head. do 4 eexists.
  split; [repeat constructor; cbn [b_class b_id]; unfold u64, byte_ok; try lia; vm_compute; auto|].
  split; [repeat constructor; cbn; intuition discriminate|].
  split; [split; [repeat constructor; vm_compute; intuition discriminate|split; [vm_compute; discriminate|split; [constructor|vm_compute; discriminate]]]|].
  split; [reflexivity|]. split; [vm_compute; discriminate|]. split; [vm_compute; reflexivity|]. split; vm_compute; reflexivity.
Qed.
