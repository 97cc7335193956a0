(** The response headers the server writes are the ones the client reads, and
    what long or hostile texts do. *)
From Coq Require Import String Ascii List.
From Verif Require Import Base BaseLemmas Text TextProofs ChunkModel QueryModel QueryProps HttpModel.

(** ** Specification *)

(** Text without line ends or terminators. *)
Definition clean (s : list Z) : Prop := Forall (fun c => c <> CR /\ c <> LF /\ c <> 0) s.
Definition lines (ls : list (list Z)) : list Z := concat (map (fun l => l ++ CRLF) ls).
(** Any number of additional header lines; none of them another length or
    transfer encoding. *)
Definition starts (p l : list Z) : Prop := exists t, l = p ++ t.
Definition extra_line (l : list Z) : Prop :=
  l <> [] /\ clean l /\ ~ starts (txt "Transfer-Encoding:") l /\ ~ starts (txt "transfer-encoding:") l.

(** ** Lemmas *)

Lemma clean_app a b : clean a -> clean b -> clean (a ++ b).
Proof. intros. apply Forall_app. now split. Qed.
Lemma clean_dec n : 0 <= n -> clean (dec n).
Proof. intros H. destruct (dec_spec n H) as (F & _). eapply Forall_impl; [|exact F]. cbv beta. unfold is_digit, CR, LF. intros c Hc. lia. Qed.
Ltac ne_lit := let U := fresh in intros U; discriminate U.
Ltac clean_lit := repeat (constructor; [split; [ne_lit|split; ne_lit]|]); constructor.
Lemma c_str_clean s : clean s -> c_str s = s.
Proof.
  intros H. unfold c_str. rewrite <- (app_nil_r s) at 1. apply take_while_app; [|exact I].
  eapply Forall_impl; [|exact H]. cbv beta. intros c Hc. replace (c =? 0) with false by lia. reflexivity.
Qed.
Lemma printed_fits n t : zlen t < n -> printed n t = Ret t.
Proof. intros H. unfold printed. replace (zlen t <? n) with true by lia. reflexivity. Qed.

Lemma seq_eqb_neq a b : a <> b -> seq_eqb a b = false.
Proof. intros H. destruct (seq_eqb a b) eqn:E; [|reflexivity]. apply seq_eqb_eq in E. congruence. Qed.
Lemma seq_eqb_refl a : seq_eqb a a = true. Proof. now apply seq_eqb_eq. Qed.

Lemma ztake_cons {A} n (x : A) l : 0 < n -> ztake n (x :: l) = x :: ztake (n - 1) l.
Proof. intros H. unfold ztake. destruct (Z.to_nat n) eqn:E; [lia|]. cbn [firstn]. f_equal. f_equal. lia. Qed.
Lemma blank_skip c s : c <> CR -> blank_line (c :: s) = option_map (fun i => 1 + i) (blank_line s).
Proof.
  intros H. cbn [blank_line]. rewrite seq_eqb_neq; [reflexivity|]. rewrite ztake_cons by lia. congruence.
Qed.
Lemma blank_clean l s : Forall (fun c => c <> CR) l -> blank_line (l ++ s) = option_map (fun i => zlen l + i) (blank_line s).
Proof.
  induction 1 as [|c l Hc _ IH]; cbn [app].
  - destruct (blank_line s); reflexivity.
  - rewrite blank_skip by exact Hc. rewrite IH. destruct (blank_line s); [|reflexivity]. cbn [option_map]. rewrite zlen_cons. f_equal. lia.
Qed.
Lemma clean_no_cr l : clean l -> Forall (fun c => c <> CR) l.
Proof. intros H. eapply Forall_impl; [|exact H]. cbv beta. tauto. Qed.
(** The blank line is found behind the last of the lines. *)
Lemma blank_lines : forall ls l s, Forall (fun l => l <> [] /\ clean l) (l :: ls) ->
  blank_line (lines (l :: ls) ++ CRLF ++ s) = Some (zlen (lines (l :: ls)) - 2).
Proof.
  induction ls as [|l2 ls IH]; intros l s H; inversion H as [|? ? [L1 L2] H']; subst; unfold lines in *; cbn [map concat] in *.
  - rewrite app_nil_r, <- app_assoc, blank_clean by now apply clean_no_cr. rewrite zlen_app. change (zlen CRLF) with 2.
    change (blank_line (CRLF ++ CRLF ++ s)) with (Some 0). cbn [option_map]. f_equal. lia.
  - rewrite <- app_assoc, <- app_assoc. rewrite blank_clean by now apply clean_no_cr.
    specialize (IH l2 s H'). set (t := (l2 ++ CRLF) ++ concat (map (fun l => l ++ CRLF) ls)) in *.
    assert (exists c t', t ++ CRLF ++ s = c :: t' /\ c <> CR) as (c & t' & E & C).
    { inversion H' as [|? ? [M1 M2] _]; subst. destruct l2 as [|c l2]; [congruence|]. inversion M2; subst. eexists _, _. split; [reflexivity|tauto]. }
    unfold CRLF at 1. cbn [app]. rewrite E in *.
    assert (blank_line (CR :: LF :: c :: t') = option_map (fun i => 2 + i) (blank_line (c :: t'))) as ->.
    { cbn [blank_line]. rewrite seq_eqb_neq; [|rewrite !ztake_cons by lia; congruence].
      rewrite (seq_eqb_neq (ztake 4 (LF :: c :: t'))); [|rewrite ztake_cons by lia; discriminate].
      destruct (if seq_eqb (ztake 4 (c :: t')) [CR; LF; CR; LF] then _ else _); cbn [option_map]; [f_equal; lia|reflexivity]. }
    rewrite IH. cbn [option_map]. f_equal. rewrite zlen_app, (zlen_app l). change (zlen CRLF) with 2. lia.
Qed.

(** Stepping over a line. *)
Lemma line_here pre l post b : clean l -> zlen pre + zlen l + 1 < b -> b <= zlen (pre ++ l ++ CRLF ++ post) ->
  line_at (pre ++ l ++ CRLF ++ post) b (zlen pre) = l ++ [CR].
Proof.
  intros C H1 H2. unfold line_at. rewrite zskip_app by reflexivity.
  rewrite app_assoc. replace (b - zlen pre) with (zlen (l ++ CRLF) + (b - zlen pre - zlen (l ++ CRLF))) by lia.
  pose proof (zlen_nonneg l). assert (zlen (l ++ CRLF) = zlen l + 2) as L by (rewrite zlen_app; reflexivity).
  rewrite <- ztake_plus by lia. rewrite ztake_app, zskip_app by reflexivity.
  set (q := ztake _ _). unfold CRLF. replace ((l ++ [CR; LF]) ++ q) with ((l ++ [CR]) ++ LF :: q) by (rewrite <- !app_assoc; reflexivity).
  apply take_while_app; [|reflexivity]. apply Forall_app. split; [|constructor; [reflexivity|constructor]].
  eapply Forall_impl; [|exact C]. cbv beta. intros c Hc. replace (c =? LF) with false by lia. reflexivity.
Qed.
(** The last line, which ends at the blank line. *)
Lemma last_line_here pre l post : clean l ->
  line_at (pre ++ l ++ CRLF ++ post) (zlen pre + zlen l) (zlen pre) = l.
Proof.
  intros C. unfold line_at. rewrite zskip_app by reflexivity. replace (zlen pre + zlen l - zlen pre) with (zlen l) by lia.
  rewrite ztake_app by reflexivity. rewrite <- (app_nil_r l) at 1. apply take_while_app; [|exact I].
  eapply Forall_impl; [|exact C]. cbv beta. intros c Hc. replace (c =? LF) with false by lia. reflexivity.
Qed.

Lemma ztake_starts n l p x : zlen p = n -> n < zlen (l ++ x) -> zlen x <= 1 -> ztake n (l ++ x) = p -> starts p l.
Proof.
  intros L H X E. rewrite zlen_app in H. rewrite ztake_app_le in E by lia. exists (zskip n l). rewrite <- E. symmetry. apply ztake_zskip.
Qed.

(** A line that is no Transfer-Encoding is skipped. *)
Lemma chunked_skip_line fuel data b pos line l x : line_at data b pos = line -> line = l ++ x -> zlen x <= 1 ->
  ~ starts (txt "Transfer-Encoding:") l -> ~ starts (txt "transfer-encoding:") l -> pos < b ->
  chunked_scan (S fuel) data b pos = chunked_scan fuel data b (pos + zlen line + 1).
Proof.
  intros E El X N1 N2 P. cbn [chunked_scan]. replace (pos <? b) with true by lia. rewrite E.
  destruct (Z.ltb_spec 18 (zlen line)); [|reflexivity]. cbn [andb].
  rewrite !seq_eqb_neq; [reflexivity| |]; intros T; rewrite El in T, H.
  - apply N2. eapply ztake_starts; [| |exact X|exact T]; [reflexivity|lia].
  - apply N1. eapply ztake_starts; [| |exact X|exact T]; [reflexivity|lia].
Qed.
Lemma length_skip_line fuel data b pos line l x : line_at data b pos = line -> line = l ++ x -> zlen x <= 1 ->
  ~ starts (txt "Content-Length:") l -> ~ starts (txt "content-length:") l -> pos < b ->
  length_scan (S fuel) data b pos = length_scan fuel data b (pos + zlen line + 1).
Proof.
  intros E El X N1 N2 P. cbn [length_scan]. replace (pos <? b) with true by lia. rewrite E.
  destruct (Z.ltb_spec 16 (zlen line)); [|reflexivity]. cbn [andb].
  rewrite !seq_eqb_neq; [reflexivity| |]; intros T; rewrite El in T, H.
  - apply N2. eapply ztake_starts; [| |exact X|exact T]; [reflexivity|lia].
  - apply N1. eapply ztake_starts; [| |exact X|exact T]; [reflexivity|lia].
Qed.

Lemma lines_cons l ls : lines (l :: ls) = l ++ CRLF ++ lines ls.
Proof. unfold lines. cbn [map concat]. now rewrite <- app_assoc. Qed.
Lemma lines_app a b : lines (a ++ b) = lines a ++ lines b.
Proof. unfold lines. now rewrite map_app, concat_app. Qed.
Lemma lines_ge ls : 2 * Z.of_nat (length ls) <= zlen (lines ls).
Proof.
  induction ls as [|l ls IH]; [cbn; lia|]. rewrite lines_cons, !zlen_app. change (zlen CRLF) with 2. cbn [length]. pose proof (zlen_nonneg l). lia.
Qed.
Definition head_line (l : list Z) : Prop := l <> [] /\ clean l.

(** Scanning lines none of which is a Transfer-Encoding. *)
Lemma chunked_none s : forall ls fuel pre, Forall extra_line ls -> (length ls < fuel)%nat ->
  chunked_scan fuel (pre ++ lines ls ++ s) (zlen (pre ++ lines ls) - 2) (zlen pre) = Ret false.
Proof.
  induction ls as [|l ls IH]; intros fuel pre H Hf; (destruct fuel as [|fuel]; [cbn in Hf; lia|]).
  - cbn [chunked_scan]. rewrite zlen_app. change (zlen (lines [])) with 0. replace (zlen pre <? _) with false by lia. reflexivity.
  - inversion H as [|? ? (X1 & X2 & X3 & X4) H']; subst. rewrite lines_cons, <- !app_assoc.
    assert (zlen (pre ++ l ++ CRLF ++ lines ls) = zlen pre + zlen l + 2 + zlen (lines ls)) as L by (rewrite !zlen_app; change (zlen CRLF) with 2; lia).
    assert (0 < zlen l) as Lp by (destruct l as [|x t]; [congruence|rewrite zlen_cons; pose proof (zlen_nonneg t); lia]).
    pose proof (zlen_nonneg (lines ls)). pose proof (zlen_nonneg pre).
    destruct ls as [|l2 ls].
    + change (zlen (lines [])) with 0 in L. erewrite chunked_skip_line with (l := l) (x := []);
        [|rewrite L; replace (zlen pre + zlen l + 2 + 0 - 2) with (zlen pre + zlen l) by lia; apply last_line_here; exact X2
         |now rewrite app_nil_r|cbn; lia|exact X3|exact X4|lia].
      destruct fuel as [|fuel]; [cbn in Hf; lia|]. cbn [chunked_scan]. rewrite L. replace (_ <? _) with false by lia. reflexivity.
    + pose proof (lines_ge (l2 :: ls)) as G. cbn [length] in G.
      assert (line_at (pre ++ l ++ CRLF ++ lines (l2 :: ls) ++ s) (zlen (pre ++ l ++ CRLF ++ lines (l2 :: ls)) - 2) (zlen pre) = l ++ [CR]) as E.
      { apply line_here; [exact X2| |].
        - rewrite L. inversion H' as [|? ? (Y & _) _]; subst. rewrite lines_cons, !zlen_app. change (zlen CRLF) with 2.
          assert (0 < zlen l2) by (destruct l2 as [|y u]; [congruence|rewrite zlen_cons; pose proof (zlen_nonneg u); lia]).
          pose proof (zlen_nonneg (lines ls)). lia.
        - rewrite L, !zlen_app. change (zlen CRLF) with 2. pose proof (zlen_nonneg s). lia. }
      erewrite chunked_skip_line with (l := l) (x := [CR]); [|exact E|reflexivity|cbn; lia|exact X3|exact X4|lia].
      replace (zlen pre + zlen (l ++ [CR]) + 1) with (zlen (pre ++ l ++ CRLF)) by (rewrite !zlen_app; change (zlen CRLF) with 2; change (zlen [CR]) with 1; lia).
      replace (pre ++ l ++ CRLF ++ lines (l2 :: ls) ++ s) with ((pre ++ l ++ CRLF) ++ lines (l2 :: ls) ++ s) by (rewrite <- !app_assoc; reflexivity).
      replace (pre ++ l ++ CRLF ++ lines (l2 :: ls)) with ((pre ++ l ++ CRLF) ++ lines (l2 :: ls)) by (rewrite <- !app_assoc; reflexivity).
      apply IH; [exact H'|cbn in *; lia].
Qed.

Lemma strtoull_in_dec n c s : 0 <= n < two64 -> is_digit c = false -> strtoull_in (dec n ++ c :: s) = Ret n.
Proof.
  intros H Hc. unfold strtoull_in. rewrite strtoull_dec by assumption. cbn [fst].
  destruct (dec_spec n ltac:(lia)) as (F & N & _). destruct (dec n) as [|d ds] eqn:E; [congruence|].
  assert (is_digit d = true) as D by now inversion F.
  assert (take_while is_space ((d :: ds) ++ c :: s) = []) as ->.
  { cbn [app take_while]. unfold is_digit in D. unfold is_space. replace (_ || _) with false by lia. reflexivity. }
  change (zlen (@nil Z)) with 0. rewrite zskip_0. cbn [app].
  unfold is_digit in D. replace ((d =? 45) || (d =? 43)) with false by lia.
  change (d :: ds ++ c :: s) with ((d :: ds) ++ c :: s). rewrite take_while_app by assumption. rewrite zskip_app by reflexivity. reflexivity.
Qed.
Lemma length_hit fuel pre n post b : 0 <= n < two64 ->
  zlen pre + zlen (txt "Content-Length: " ++ dec n) + 1 < b -> b <= zlen (pre ++ (txt "Content-Length: " ++ dec n) ++ CRLF ++ post) ->
  length_scan (S fuel) (pre ++ (txt "Content-Length: " ++ dec n) ++ CRLF ++ post) b (zlen pre) = Ret n.
Proof.
  intros Hn H1 H2. cbn [length_scan]. replace (zlen pre <? b) with true by (pose proof (zlen_nonneg (txt "Content-Length: " ++ dec n)); lia).
  rewrite line_here; [|apply clean_app; [clean_lit|apply clean_dec; lia]|assumption|assumption].
  assert (16 <? zlen ((txt "Content-Length: " ++ dec n) ++ [CR]) = true) as ->.
  { rewrite !zlen_app. change (zlen (txt "Content-Length: ")) with 16. change (zlen [CR]) with 1. pose proof (zlen_nonneg (dec n)). lia. }
  change (txt "Content-Length: ") with (txt "Content-Length:" ++ [32]). rewrite <- !app_assoc.
  rewrite ztake_app by reflexivity. rewrite seq_eqb_refl. cbn [andb orb].
  rewrite (zskip_app 15 (txt "Content-Length:") ([32] ++ dec n ++ [CR])) by reflexivity.
  assert (take_while is_blank ([32] ++ dec n ++ [CR]) = [32]) as ->.
  { apply take_while_app; [constructor; [reflexivity|constructor]|]. destruct (dec_spec n ltac:(lia)) as (F & N & _).
    destruct (dec n) as [|d ds]; [congruence|]. inversion F; subst. cbn. unfold is_digit in *. unfold is_blank. lia. }
  replace (pre ++ txt "Content-Length:" ++ [32] ++ dec n ++ CRLF ++ post) with ((pre ++ txt "Content-Length:" ++ [32]) ++ dec n ++ CRLF ++ post)
    by (rewrite <- !app_assoc; reflexivity).
  rewrite zskip_app by (rewrite !zlen_app; change (zlen (txt "Content-Length:")) with 15; change (zlen [32]) with 1; lia).
  unfold CRLF. cbn [app]. apply strtoull_in_dec; [exact Hn|reflexivity].
Qed.

(** ** The headers the server writes *)

Definition fits (tid cnew : list Z) : Prop := clean tid /\ zlen tid <= 243 /\ clean cnew /\ zlen cnew <= 498.
Definition opt_lines (tid cnew : list Z) (extra : list (list Z)) : list (list Z) :=
  match tid with [] => [] | _ => [txt "JPIP-tid: " ++ tid] end ++
  match cnew with [] => [] | _ => [txt "JPIP-cnew: " ++ cnew] end ++ extra.
Lemma opt_headers_lines tid cnew extra : fits tid cnew ->
  opt_headers tid cnew (lines extra) = Ret (lines (opt_lines tid cnew extra) ++ CRLF).
Proof.
  intros (C1 & L1 & C2 & L2). unfold opt_headers, opt_lines. rewrite !c_str_clean by assumption.
  assert (printed 256 (txt "JPIP-tid: " ++ tid ++ CRLF) = Ret (lines [txt "JPIP-tid: " ++ tid])) as ->.
  { rewrite printed_fits by (rewrite !zlen_app; change (zlen (txt "JPIP-tid: ")) with 10; change (zlen CRLF) with 2; lia).
    unfold lines. cbn [map concat]. now rewrite app_nil_r, <- app_assoc. }
  assert (printed 512 (txt "JPIP-cnew: " ++ cnew ++ CRLF) = Ret (lines [txt "JPIP-cnew: " ++ cnew])) as ->.
  { rewrite printed_fits by (rewrite !zlen_app; change (zlen (txt "JPIP-cnew: ")) with 11; change (zlen CRLF) with 2; lia).
    unfold lines. cbn [map concat]. now rewrite app_nil_r, <- app_assoc. }
  destruct tid, cnew; cbn [bind]; rewrite ?lines_app; cbn [app]; rewrite <- ?app_assoc; reflexivity.
Qed.
Lemma opt_lines_ok tid cnew extra : fits tid cnew -> Forall extra_line extra -> Forall extra_line (opt_lines tid cnew extra).
Proof.
  intros (C1 & L1 & C2 & L2) H. unfold opt_lines. repeat (apply Forall_app; split); [| |exact H].
  - destruct tid as [|c t]; constructor; [|constructor]. split; [discriminate|].
    split; [apply clean_app; [clean_lit|exact C1]|]. split; intros [u U]; discriminate U.
  - destruct cnew as [|c t]; constructor; [|constructor]. split; [discriminate|].
    split; [apply clean_app; [clean_lit|exact C2]|]. split; intros [u U]; discriminate U.
Qed.
Lemma extra_head l : extra_line l -> head_line l. Proof. intros (A & B & _). now split. Qed.
Ltac lit_line := split; [discriminate|]; split; [clean_lit|]; split; intros [u U]; discriminate U.

Lemma dec_len64 n : 0 <= n < two64 -> zlen (dec n) <= 65.
Proof.
  intros H. unfold dec. assert (forall fuel n acc, zlen (dec_digits fuel n acc) <= zlen acc + Z.of_nat fuel) as G.
  { induction fuel as [|f IH]; intros m acc; cbn [dec_digits]; [lia|]. destruct (m <? 10); [rewrite zlen_cons; lia|].
    specialize (IH (m / 10) (48 + m mod 10 :: acc)). rewrite zlen_cons in IH. lia. }
  specialize (G (S (Z.to_nat (Z.log2 n))) n []). change (zlen (@nil Z)) with 0 in G.
  assert (Z.log2 n <= 63).
  { destruct (Z.eq_dec n 0) as [->|N]; [cbn; lia|]. apply Z.lt_succ_r. apply Z.log2_lt_pow2; [lia|]. change (2 ^ Z.succ 63) with two64. lia. }
  lia.
Qed.

(** A response with a length: what is sent is a header that ends at the first
    blank line, and the body; the client finds the body's length and where it
    starts, however much of the body it has received, and does not take it for a
    chunked one. *)
Theorem C19_response_partial : forall body tid cnew extra, fits tid cnew -> Forall extra_line extra -> zlen body < two64 ->
  exists head, format_jpp_response body tid cnew (lines extra) = Ret (head ++ body) /\
    forall received, parse_http_content_length (head ++ received) = Ret (zlen body, Some (zlen head)) /\
                     parse_http_chunked (head ++ received) = Ret (false, Some (zlen head)).
Proof.
  intros body tid cnew extra F E B. pose proof (zlen_nonneg body) as B0.
  set (n := zlen body) in *. assert (0 <= n < two64) as Hn by lia.
  set (L1 := [txt "HTTP/1.1 200 OK"; txt "Content-Type: image/jpp-stream"]).
  set (L2 := [txt "Access-Control-Allow-Origin: *"; txt "Connection: close"] ++ opt_lines tid cnew extra).
  set (cl := txt "Content-Length: " ++ dec n).
  set (head := lines (L1 ++ [cl] ++ L2) ++ CRLF).
  exists head.
  assert (Forall extra_line (L1 ++ [cl] ++ L2)) as X.
  { apply Forall_app. split; [constructor; [lit_line|constructor; [lit_line|constructor]]|]. apply Forall_app. split.
    - constructor; [|constructor]. unfold cl. split; [discriminate|]. split; [apply clean_app; [clean_lit|apply clean_dec; lia]|].
      split; intros [u U]; discriminate U.
    - constructor; [lit_line|constructor; [lit_line|]]. now apply opt_lines_ok. }
  assert (forall got, blank_line (head ++ got) = Some (zlen head - 4)) as Bl.
  { intros got. unfold head. rewrite <- app_assoc. change (L1 ++ [cl] ++ L2) with (txt "HTTP/1.1 200 OK" :: txt "Content-Type: image/jpp-stream" :: cl :: L2).
    rewrite blank_lines; [|eapply Forall_impl; [|exact X]; apply extra_head].
    f_equal. rewrite zlen_app. change (zlen CRLF) with 2. lia. }
  split; [|intros got; split].
  - unfold format_jpp_response. fold n.
    rewrite printed_fits.
    + cbn [bind]. rewrite opt_headers_lines by exact F. cbn [bind]. f_equal. unfold head, L1, L2. rewrite !lines_app.
      unfold cl, lines. cbn [map concat app]. rewrite ?app_nil_r, <- ?app_assoc. reflexivity.
    + rewrite !zlen_app. pose proof (dec_len64 n Hn). 
      repeat match goal with |- context [zlen (txt ?s)] => let v := eval vm_compute in (zlen (txt s)) in change (zlen (txt s)) with v end.
      change (zlen CRLF) with 2. lia.
  - unfold parse_http_content_length. rewrite Bl.
    assert (length_scan (S (length (head ++ got))) (head ++ got) (zlen head - 4) 0 = Ret n) as ->.
    { assert (exists f, length (head ++ got) = S (S f)) as (f & ->).
      { assert (2 <= length head)%nat as G.
        { unfold head. rewrite app_length. cbn [length CRLF]. lia. }
        exists (length head + length got - 2)%nat. rewrite app_length. lia. }
      set (post := lines L2 ++ CRLF ++ got).
      assert (head ++ got = [] ++ txt "HTTP/1.1 200 OK" ++ CRLF ++ lines (txt "Content-Type: image/jpp-stream" :: cl :: L2) ++ CRLF ++ got) as D0
        by (unfold head; cbn [app L1]; rewrite lines_cons, <- !app_assoc; reflexivity).
      assert (head ++ got = (txt "HTTP/1.1 200 OK" ++ CRLF) ++ txt "Content-Type: image/jpp-stream" ++ CRLF ++ cl ++ CRLF ++ post) as D1
        by (rewrite D0; rewrite !lines_cons; unfold post; rewrite <- !app_assoc; reflexivity).
      assert (head ++ got = (txt "HTTP/1.1 200 OK" ++ CRLF ++ txt "Content-Type: image/jpp-stream" ++ CRLF) ++ cl ++ CRLF ++ post) as D2
        by (rewrite D1; rewrite <- !app_assoc; reflexivity).
      assert (zlen head = 17 + 32 + zlen cl + 2 + zlen (lines L2) + 2) as Lh.
      { unfold head. cbn [app L1]. rewrite zlen_app, !lines_cons, !zlen_app. change (zlen CRLF) with 2.
        change (zlen (txt "HTTP/1.1 200 OK")) with 15. change (zlen (txt "Content-Type: image/jpp-stream")) with 30. lia. }
      assert (49 <= zlen (lines L2)).
      { unfold L2. rewrite lines_app, zlen_app. pose proof (zlen_nonneg (lines (opt_lines tid cnew extra))).
        replace (zlen (lines [txt "Access-Control-Allow-Origin: *"; txt "Connection: close"])) with 51 by reflexivity. lia. }
      pose proof (zlen_nonneg cl).
      pose proof (zlen_nonneg got).
      assert (zlen (head ++ got) = zlen head + zlen got) as La by (rewrite zlen_app; reflexivity).
      erewrite length_skip_line with (l := txt "HTTP/1.1 200 OK") (x := [CR]); [| |reflexivity|cbn; lia|
         intros [u U]; discriminate U|intros [u U]; discriminate U|lia].
      2:{ rewrite D0. change 0 with (zlen (@nil Z)). apply line_here; [clean_lit| |].
          - change (zlen (txt "HTTP/1.1 200 OK")) with 15. change (zlen (@nil Z)) with 0. lia.
          - rewrite <- D0. lia. }
      change (0 + zlen (txt "HTTP/1.1 200 OK" ++ [CR]) + 1) with (zlen (txt "HTTP/1.1 200 OK" ++ CRLF)).
      erewrite length_skip_line with (l := txt "Content-Type: image/jpp-stream") (x := [CR]); [| |reflexivity|cbn; lia| | |].
      2:{ rewrite D1. apply line_here; [clean_lit| |].
          - change (zlen (txt "HTTP/1.1 200 OK" ++ CRLF)) with 17. change (zlen (txt "Content-Type: image/jpp-stream")) with 30. lia.
          - rewrite <- D1. lia. }
      2:{ intros [t T]. discriminate T. }
      2:{ intros [t T]. discriminate T. }
      2:{ change (zlen (txt "HTTP/1.1 200 OK" ++ CRLF)) with 17. lia. }
      change (zlen (txt "HTTP/1.1 200 OK" ++ CRLF) + zlen (txt "Content-Type: image/jpp-stream" ++ [CR]) + 1)
        with (zlen (txt "HTTP/1.1 200 OK" ++ CRLF ++ txt "Content-Type: image/jpp-stream" ++ CRLF)).
      rewrite D2. unfold cl. apply length_hit; [exact Hn| |].
      - fold cl. change (zlen (txt "HTTP/1.1 200 OK" ++ CRLF ++ txt "Content-Type: image/jpp-stream" ++ CRLF)) with 49. lia.
      - fold cl. rewrite <- D2. lia. }
    cbn [bind]. do 3 f_equal. lia.
  - unfold parse_http_chunked. rewrite Bl.
    assert (chunked_scan (S (length (head ++ got))) (head ++ got) (zlen head - 4) 0 = Ret false) as ->.
    { unfold head at 3. rewrite zlen_app. change (zlen CRLF) with 2. replace (zlen (lines (L1 ++ [cl] ++ L2)) + 2 - 4) with (zlen ([] ++ lines (L1 ++ [cl] ++ L2)) - 2) by (cbn [app]; lia).
      change 0 with (zlen (@nil Z)). replace (head ++ got) with ([] ++ lines (L1 ++ [cl] ++ L2) ++ CRLF ++ got) at 2 by (unfold head; rewrite <- app_assoc; reflexivity).
      apply chunked_none; [exact X|]. pose proof (lines_ge (L1 ++ [cl] ++ L2)) as G. unfold head. rewrite !(app_length (_ ++ _)), (app_length (lines _)). unfold zlen in G. lia. }
    cbn [bind]. do 3 f_equal. lia.
Qed.
Print Assumptions C19_response_partial.

Lemma chunked_hit fuel pre post b : zlen pre + 27 < b -> b <= zlen (pre ++ txt "Transfer-Encoding: chunked" ++ CRLF ++ post) ->
  chunked_scan (S fuel) (pre ++ txt "Transfer-Encoding: chunked" ++ CRLF ++ post) b (zlen pre) = Ret true.
Proof.
  intros H1 H2. cbn [chunked_scan]. replace (zlen pre <? b) with true by lia.
  rewrite line_here; [reflexivity|clean_lit| |exact H2]. change (zlen (txt "Transfer-Encoding: chunked")) with 26. lia.
Qed.

(** A chunked response: the client finds where the chunks start. *)
Theorem C19_chunked_response_partial : forall tid cnew extra, fits tid cnew -> Forall extra_line extra ->
  exists head, format_jpp_response_headers_chunked tid cnew (lines extra) = Ret head /\
    forall body, parse_http_chunked (head ++ body) = Ret (true, Some (zlen head)).
Proof.
  intros tid cnew extra F E.
  set (L2 := [txt "Access-Control-Allow-Origin: *"; txt "Connection: close"] ++ opt_lines tid cnew extra).
  set (L := txt "HTTP/1.1 200 OK" :: txt "Content-Type: image/jpp-stream" :: txt "Transfer-Encoding: chunked" :: L2).
  set (head := lines L ++ CRLF). exists head. split.
  - unfold format_jpp_response_headers_chunked. rewrite printed_fits by (vm_compute; reflexivity).
    cbn [bind]. rewrite opt_headers_lines by exact F. cbn [bind]. unfold head, L, L2. rewrite !lines_cons, lines_app.
    reflexivity.
  - intros body.
    assert (Forall head_line L) as X.
    { constructor; [split; [discriminate|clean_lit]|]. constructor; [split; [discriminate|clean_lit]|]. constructor; [split; [discriminate|clean_lit]|].
      constructor; [split; [discriminate|clean_lit]|]. constructor; [split; [discriminate|clean_lit]|].
      eapply Forall_impl; [|apply opt_lines_ok; [exact F|exact E]]. apply extra_head. }
    assert (blank_line (head ++ body) = Some (zlen head - 4)) as Bl.
    { unfold head. rewrite <- app_assoc. unfold L at 1. rewrite blank_lines by exact X. fold L.
      f_equal. rewrite zlen_app. change (zlen CRLF) with 2. lia. }
    unfold parse_http_chunked. rewrite Bl.
    assert (exists f, length (head ++ body) = S (S f)) as (f & ->).
    { assert (2 <= length head)%nat as G. { unfold head. rewrite app_length. cbn [length CRLF]. lia. }
      exists (length head + length body - 2)%nat. rewrite app_length. lia. }
    set (post := lines L2 ++ CRLF ++ body).
    assert (head ++ body = [] ++ txt "HTTP/1.1 200 OK" ++ CRLF ++ txt "Content-Type: image/jpp-stream" ++ CRLF ++ txt "Transfer-Encoding: chunked" ++ CRLF ++ post) as D0
      by (unfold head, L, post; rewrite !lines_cons, <- !app_assoc; reflexivity).
    assert (head ++ body = (txt "HTTP/1.1 200 OK" ++ CRLF) ++ txt "Content-Type: image/jpp-stream" ++ CRLF ++ txt "Transfer-Encoding: chunked" ++ CRLF ++ post) as D1
      by (rewrite D0; rewrite <- !app_assoc; reflexivity).
    assert (head ++ body = (txt "HTTP/1.1 200 OK" ++ CRLF ++ txt "Content-Type: image/jpp-stream" ++ CRLF) ++ txt "Transfer-Encoding: chunked" ++ CRLF ++ post) as D2
      by (rewrite D1; rewrite <- !app_assoc; reflexivity).
    assert (zlen head = 17 + 32 + 26 + 2 + zlen (lines L2) + 2) as Lh.
    { unfold head, L. rewrite zlen_app, !lines_cons, !zlen_app. change (zlen CRLF) with 2.
      change (zlen (txt "HTTP/1.1 200 OK")) with 15. change (zlen (txt "Content-Type: image/jpp-stream")) with 30.
      change (zlen (txt "Transfer-Encoding: chunked")) with 26. lia. }
    assert (49 <= zlen (lines L2)).
    { unfold L2. rewrite lines_app, zlen_app. pose proof (zlen_nonneg (lines (opt_lines tid cnew extra))).
      replace (zlen (lines [txt "Access-Control-Allow-Origin: *"; txt "Connection: close"])) with 51 by reflexivity. lia. }
    assert (zlen (head ++ body) = zlen head + zlen body) as La by (rewrite zlen_app; reflexivity). pose proof (zlen_nonneg body).
    assert (chunked_scan (S (S (S f))) (head ++ body) (zlen head - 4) 0 = Ret true) as ->; [|cbn [bind]; do 3 f_equal; lia].
    erewrite chunked_skip_line with (l := txt "HTTP/1.1 200 OK") (x := [CR]); [| |reflexivity|cbn; lia|
       intros [u U]; discriminate U|intros [u U]; discriminate U|lia].
    2:{ rewrite D0. change 0 with (zlen (@nil Z)). apply line_here; [clean_lit| |].
        - change (zlen (txt "HTTP/1.1 200 OK")) with 15. change (zlen (@nil Z)) with 0. lia.
        - rewrite <- D0. lia. }
    change (0 + zlen (txt "HTTP/1.1 200 OK" ++ [CR]) + 1) with (zlen (txt "HTTP/1.1 200 OK" ++ CRLF)).
    erewrite chunked_skip_line with (l := txt "Content-Type: image/jpp-stream") (x := [CR]); [| |reflexivity|cbn; lia| | |].
    2:{ rewrite D1. apply line_here; [clean_lit| |].
        - change (zlen (txt "HTTP/1.1 200 OK" ++ CRLF)) with 17. change (zlen (txt "Content-Type: image/jpp-stream")) with 30. lia.
        - rewrite <- D1. lia. }
    2:{ intros [t T]. discriminate T. }
    2:{ intros [t T]. discriminate T. }
    2:{ change (zlen (txt "HTTP/1.1 200 OK" ++ CRLF)) with 17. lia. }
    change (zlen (txt "HTTP/1.1 200 OK" ++ CRLF) + zlen (txt "Content-Type: image/jpp-stream" ++ [CR]) + 1)
      with (zlen (txt "HTTP/1.1 200 OK" ++ CRLF ++ txt "Content-Type: image/jpp-stream" ++ CRLF)).
    rewrite D2. apply chunked_hit.
    + change (zlen (txt "HTTP/1.1 200 OK" ++ CRLF ++ txt "Content-Type: image/jpp-stream" ++ CRLF)) with 49. lia.
    + rewrite <- D2. lia.
Qed.
Print Assumptions C19_chunked_response_partial.

(** Error responses with any reason of up to 380 characters are written whole
    and end at their only blank line. *)
Theorem C19_error_response_partial : forall status reason, 0 <= status < 1000 -> clean reason -> zlen reason <= 380 ->
  exists text, format_error_response status reason = Ret text /\ blank_line text = Some (zlen text - 4).
Proof.
  intros st reason S C L. assert (zlen (dec st) <= 10) as Ld.
  { unfold dec. assert (forall fuel n acc, zlen (dec_digits fuel n acc) <= zlen acc + Z.of_nat fuel) as G.
    { induction fuel as [|f IH]; intros m acc; cbn [dec_digits]; [lia|]. destruct (m <? 10); [rewrite zlen_cons; lia|].
      specialize (IH (m / 10) (48 + m mod 10 :: acc)). rewrite zlen_cons in IH. lia. }
    specialize (G (Datatypes.S (Z.to_nat (Z.log2 st))) st []). change (zlen (@nil Z)) with 0 in G.
    assert (Z.log2 st <= 9). { change 9 with (Z.log2 1000). apply Z.log2_le_mono. lia. } lia. }
  unfold format_error_response. rewrite c_str_clean by exact C. rewrite printed_fits.
  2:{ rewrite !zlen_app. repeat match goal with |- context [zlen (txt ?s)] => let v := eval vm_compute in (zlen (txt s)) in change (zlen (txt s)) with v end.
      change (zlen CRLF) with 2. change (zlen [32]) with 1. lia. }
  eexists. split; [reflexivity|].
  replace (txt "HTTP/1.1 " ++ dec st ++ [32] ++ reason ++ CRLF ++ txt "Content-Length: 0" ++ CRLF ++
    txt "Access-Control-Allow-Origin: *" ++ CRLF ++ txt "Connection: close" ++ CRLF ++ CRLF)
    with (lines [txt "HTTP/1.1 " ++ dec st ++ [32] ++ reason; txt "Content-Length: 0"; txt "Access-Control-Allow-Origin: *"; txt "Connection: close"] ++ CRLF ++ [])
    by (unfold lines; cbn [map concat]; rewrite <- !app_assoc; reflexivity).
  rewrite blank_lines.
  - f_equal. rewrite !zlen_app. change (zlen CRLF) with 2. change (zlen (@nil Z)) with 0. lia.
  - constructor; [split; [discriminate|apply clean_app; [clean_lit|apply clean_app; [apply clean_dec; lia|apply clean_app; [clean_lit|exact C]]]]|].
    constructor; [split; [discriminate|clean_lit]|]. constructor; [split; [discriminate|clean_lit]|]. constructor; [split; [discriminate|clean_lit]|]. constructor.
Qed.
Print Assumptions C19_error_response_partial.

(** The limits are real: a 245-character target name (file systems allow 255)
    makes the server copy stack bytes from behind its buffer; with 244 the
    header line is sent with a NUL in place of its line feed. *)
Theorem C19_long_name_refuted : forall body cnew extra,
  format_jpp_response body (repeat 97 245) cnew extra = UB \/ zlen body >= two64.
Proof.
  intros body cnew extra. destruct (Z_lt_le_dec (zlen body) two64) as [B|B]; [left|right; lia].
  unfold format_jpp_response. pose proof (zlen_nonneg body). rewrite printed_fits.
  - cbn [bind]. unfold opt_headers. assert (printed 256 (txt "JPIP-tid: " ++ c_str (repeat 97 245) ++ CRLF) = UB) as E by (vm_compute; reflexivity).
    change (match repeat 97 245 with [] => Ret [] | _ :: _ => printed 256 (txt "JPIP-tid: " ++ c_str (repeat 97 245) ++ CRLF) end)
      with (printed 256 (txt "JPIP-tid: " ++ c_str (repeat 97 245) ++ CRLF)). rewrite E. reflexivity.
  - rewrite !zlen_app. pose proof (dec_len64 (zlen body) ltac:(lia)).
    repeat match goal with |- context [zlen (txt ?s)] => let v := eval vm_compute in (zlen (txt s)) in change (zlen (txt s)) with v end.
    change (zlen CRLF) with 2. lia.
Qed.
Print Assumptions C19_long_name_refuted.
Example C19_244 : opt_headers (repeat 97 244) [] [] = Ret (txt "JPIP-tid: " ++ repeat 97 244 ++ [CR; 0] ++ CRLF).
Proof. vm_compute. reflexivity. Qed.

(** ** Any bytes *)

Lemma take_while_len p s : zlen (take_while p s) <= zlen s.
Proof. induction s as [|c s IH]; cbn [take_while]; [lia|]. destruct (p c); rewrite ?zlen_cons; [lia|]. change (zlen (@nil Z)) with 0. pose proof (zlen_nonneg s). lia. Qed.
Lemma line_at_len data b pos : 0 <= pos < b -> zlen (line_at data b pos) <= b - pos.
Proof.
  intros H. unfold line_at. pose proof (take_while_len (fun c => negb (c =? LF)) (ztake (b - pos) (zskip pos data))) as G.
  assert (zlen (ztake (b - pos) (zskip pos data)) <= b - pos); [|lia]. unfold ztake, zlen. rewrite firstn_length. lia.
Qed.
Lemma chunked_scan_total data b : forall fuel pos, 0 <= pos -> (Z.to_nat (b - pos) < fuel)%nat -> exists r, chunked_scan fuel data b pos = Ret r.
Proof.
  induction fuel as [|fuel IH]; intros pos Hp Hf; [lia|]. cbn [chunked_scan]. destruct (Z.ltb_spec pos b); [|eauto].
  pose proof (zlen_nonneg (line_at data b pos)).
  destruct (IH (pos + zlen (line_at data b pos) + 1)) as (r & ->); [lia|lia|].
  destruct (_ && _); [|eauto]. destruct (has_chunked _); eauto.
Qed.
Lemma blank_bound s : forall i, blank_line s = Some i -> 0 <= i /\ i + 4 <= zlen s.
Proof.
  induction s as [|c s IH]; intros i; cbn [blank_line]; destruct (seq_eqb _ _) eqn:E.
  - apply seq_eqb_eq in E. discriminate E.
  - discriminate.
  - intros [= <-]. apply seq_eqb_eq in E. apply (f_equal zlen) in E. unfold ztake, zlen in E. rewrite firstn_length in E. cbn [length] in E. unfold zlen. cbn [length]. lia.
  - destruct (blank_line s) as [j|]; [|discriminate]. cbn [option_map]. intros H. apply Some_inj in H. destruct (IH j eq_refl). rewrite zlen_cons. lia.
Qed.
(** Looking for the encoding is safe on any bytes, and a body start it reports
    lies inside them. *)
Theorem C19_chunked_any_bytes : forall data, exists c h, parse_http_chunked data = Ret (c, h) /\ forall e, h = Some e -> 4 <= e <= zlen data.
Proof.
  intros data. unfold parse_http_chunked. destruct (blank_line data) as [b|] eqn:E; [|exists false, None; split; [reflexivity|discriminate]].
  destruct (blank_bound data b E). destruct (chunked_scan_total data b (S (length data)) 0) as (r & ->); [lia|unfold zlen in *; lia|].
  cbn [bind]. exists r, (Some (b + 4)). split; [reflexivity|]. intros e [= <-]. lia.
Qed.
Print Assumptions C19_chunked_any_bytes.

(** Looking for the length is not: a header with an empty length makes the
    number parser skip the blank line as white space and read past the end. *)
Theorem C19_empty_length_refuted : exists data, bytes_ok data /\ parse_http_content_length data = UB.
Proof.
  exists (txt "HTTP/1.1 200 OK" ++ CRLF ++ txt "Content-Length:  " ++ CRLF ++ CRLF).
  split; [|vm_compute; reflexivity]. unfold bytes_ok. vm_compute. repeat (constructor; [split; [intros H; discriminate H|reflexivity]|]). constructor.
Qed.
Print Assumptions C19_empty_length_refuted.

(** With one terminating NUL behind the bytes it would be safe. *)
Lemma skip_tail p s : p 0 = false -> exists s', zskip (zlen (take_while p (s ++ [0]))) (s ++ [0]) = s' ++ [0].
Proof.
  intros P. induction s as [|c s IH]; cbn [app take_while].
  - rewrite P. exists []. reflexivity.
  - destruct (p c); [|exists (c :: s); reflexivity]. destruct IH as (s' & E). exists s'. rewrite <- E. rewrite zlen_cons.
    unfold zskip. replace (Z.to_nat (1 + _)) with (S (Z.to_nat (zlen (take_while p (s ++ [0]))))) by (pose proof (zlen_nonneg (take_while p (s ++ [0]))); lia). reflexivity.
Qed.
Lemma strtoull_in_terminated s : exists n, strtoull_in (s ++ [0]) = Ret n.
Proof.
  unfold strtoull_in. destruct (skip_tail is_space s eq_refl) as (s1 & ->).
  assert (exists s2, match s1 ++ [0] with c :: t => if (c =? 45) || (c =? 43) then t else s1 ++ [0] | [] => [] end = s2 ++ [0]) as (s2 & ->).
  { destruct s1 as [|c s1]; cbn [app]; [exists []; reflexivity|]. destruct (_ || _); [exists s1; reflexivity|exists (c :: s1); reflexivity]. }
  destruct (skip_tail is_digit s2 eq_refl) as (s3 & ->). destruct s3; cbn [app]; eauto.
Qed.
Lemma length_scan_total data b : b <= zlen data -> forall fuel pos, 0 <= pos -> (Z.to_nat (b - pos) < fuel)%nat ->
  exists r, length_scan fuel (data ++ [0]) b pos = Ret r.
Proof.
  intros Hb. induction fuel as [|fuel IH]; intros pos Hp Hf; [lia|]. cbn [length_scan]. destruct (Z.ltb_spec pos b); [|eauto].
  pose proof (zlen_nonneg (line_at (data ++ [0]) b pos)) as P.
  destruct (IH (pos + zlen (line_at (data ++ [0]) b pos) + 1)) as (r & ->); [lia|lia|].
  destruct (Z.ltb_spec 16 (zlen (line_at (data ++ [0]) b pos))) as [G|]; cbn [andb]; [|eauto]. destruct (_ || _); [|eauto].
  pose proof (line_at_len (data ++ [0]) b pos ltac:(lia)) as L. set (line := line_at _ _ _) in *.
  pose proof (take_while_len is_blank (zskip 15 line)) as T. rewrite zlen_zskip in T by lia. pose proof (zlen_nonneg (take_while is_blank (zskip 15 line))).
  rewrite zskip_app_le by lia. apply strtoull_in_terminated.
Qed.
Theorem C19_terminated_any_bytes : forall data, exists r, parse_http_content_length (data ++ [0]) = Ret r.
Proof.
  intros data. unfold parse_http_content_length. destruct (blank_line (data ++ [0])) as [b|] eqn:E; [|eauto].
  destruct (blank_bound _ b E) as [B1 B2]. rewrite zlen_app in B2. change (zlen [0]) with 1 in B2.
  destruct (length_scan_total data b ltac:(lia) (S (length (data ++ [0]))) 0) as (r & ->); [lia|rewrite app_length; unfold zlen in *; lia|].
  cbn [bind]. eauto.
Qed.
Print Assumptions C19_terminated_any_bytes.

Example C19_case :
  fits (txt "image.jph") (txt "cid=7,path=jpip,transport=http") /\ Forall extra_line [txt "Cache-Control: no-cache"; txt "JPIP-qid: 3"] /\
  format_jpp_response [1; 2; 3] (txt "image.jph") [] (lines [txt "JPIP-qid: 3"]) =
  Ret (txt "HTTP/1.1 200 OK" ++ CRLF ++ txt "Content-Type: image/jpp-stream" ++ CRLF ++ txt "Content-Length: 3" ++ CRLF ++
       txt "Access-Control-Allow-Origin: *" ++ CRLF ++ txt "Connection: close" ++ CRLF ++ txt "JPIP-tid: image.jph" ++ CRLF ++
       txt "JPIP-qid: 3" ++ CRLF ++ CRLF ++ [1; 2; 3]).
Proof.
  split; [|split].
  - split; [clean_lit|]. split; [vm_compute; discriminate|]. split; [clean_lit|]. vm_compute; discriminate.
  - constructor; [lit_line|]. constructor; [lit_line|]. constructor.
  - vm_compute. reflexivity.
Qed.
