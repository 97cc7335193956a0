(** C17 for peers other than the project's own server: any conforming chunked
    body (RFC 9112, 7.1) without trailer fields is decoded. *)
From Verif Require Import Base BaseLemmas Text TextProofs Be ChunkModel ChunkProps.

(** ** Specification *)

(** A hexadecimal digit in either case. *)
Definition digit (d c : Z) : Prop :=
  (0 <= d < 10 /\ c = 48 + d) \/ (10 <= d < 16 /\ (c = 97 + (d - 10) \/ c = 65 + (d - 10))).
(** 1*HEXDIG, leading zeros allowed. *)
Definition spells (ds : list Z) (n : Z) : Prop :=
  exists vs, vs <> [] /\ Forall2 digit vs ds /\ fold_left (fun a v => 16 * a + v) vs 0 = n.
(** Chunk extensions: nothing, or a semicolon and anything up to the line end. *)
Definition extension (e : list Z) : Prop :=
  e = [] \/ exists t, e = 59 :: t /\ Forall (fun c => c <> CR /\ c <> LF) t.
Definition size_line (n : Z) (l : list Z) : Prop :=
  exists ds e, l = ds ++ e ++ [CR; LF] /\ spells ds n /\ extension e.
(** [coding w b]: the bytes [w] are a chunked coding of the body [b]. *)
Inductive coding : list Z -> list Z -> Prop :=
| coding_last l : size_line 0 l -> coding (l ++ [CR; LF]) []
| coding_chunk l c w b : c <> [] -> zlen c < two64 -> size_line (zlen c) l -> coding w b ->
    coding (l ++ c ++ [CR; LF] ++ w) (c ++ b).

(** ** Digits *)

Lemma digit_val d c : digit d c -> hex_val c = Some d /\ 0 <= d < 16 /\ c <> CR /\ c <> LF /\ c <> 59.
Proof.
  unfold digit, hex_val, CR, LF. intros [[H ->]|[H [->| ->]]].
  - replace ((48 <=? 48 + d) && (48 + d <=? 57)) with true by lia. split; [f_equal; lia|lia].
  - replace ((48 <=? 97 + (d - 10)) && (97 + (d - 10) <=? 57)) with false by lia.
    replace ((97 <=? 97 + (d - 10)) && (97 + (d - 10) <=? 102)) with true by lia. split; [f_equal; lia|lia].
  - replace ((48 <=? 65 + (d - 10)) && (65 + (d - 10) <=? 57)) with false by lia.
    replace ((97 <=? 65 + (d - 10)) && (65 + (d - 10) <=? 102)) with false by lia.
    replace ((65 <=? 65 + (d - 10)) && (65 + (d - 10) <=? 70)) with true by lia. split; [f_equal; lia|lia].
Qed.

Lemma fold_ge vs : forall a, 0 <= a -> Forall (fun v => 0 <= v < 16) vs ->
  a <= fold_left (fun a v => 16 * a + v) vs a.
Proof.
  induction vs as [|v vs IH]; intros a Ha Hv; cbn [fold_left]; [lia|].
  inversion Hv; subst. specialize (IH (16 * a + v) ltac:(lia) ltac:(assumption)). lia.
Qed.

Lemma digits_range vs ds : Forall2 digit vs ds -> Forall (fun v => 0 <= v < 16) vs /\
  Forall (fun c => c <> CR /\ c <> LF /\ c <> 59) ds.
Proof.
  induction 1 as [|d c vs ds H _ [I1 I2]]; [split; constructor|].
  apply digit_val in H. split; constructor; tauto.
Qed.

Lemma sizes_ok vs ds : Forall2 digit vs ds -> forall a, 0 <= a ->
  fold_left (fun a v => 16 * a + v) vs a < two64 ->
  stream_size ds a = Some (fold_left (fun a v => 16 * a + v) vs a) /\
  checked ds a = Some (fold_left (fun a v => 16 * a + v) vs a).
Proof.
  induction 1 as [|d c vs ds Hd H2 IH]; intros a Ha Hb; cbn [stream_size checked fold_left] in *; [split; reflexivity|].
  destruct (digit_val d c Hd) as (E & Hr & _). rewrite E.
  destruct (digits_range _ _ H2) as [Hv _].
  pose proof (fold_ge vs (16 * a + d) ltac:(lia) Hv) as G.
  unfold two64 in *. change ((2 ^ 64 - 1) / 16) with 1152921504606846975.
  change (2 ^ 64) with 18446744073709551616 in *.
  replace (1152921504606846975 <? a) with false by lia.
  rewrite (lor_shift_add _ _ 4) by lia. change (2 ^ 4) with 16.
  rewrite wrap64_small by (unfold two64; change (2 ^ 64) with 18446744073709551616; lia).
  replace (a * 16 + d) with (16 * a + d) by lia. apply IH; [lia|assumption].
Qed.

Lemma spells_ok ds n : spells ds n -> n < two64 -> ds <> [] /\ stream_size ds 0 = Some n /\ checked ds 0 = Some n /\
  Forall (fun c => c <> CR /\ c <> LF /\ c <> 59) ds.
Proof.
  intros (vs & Hn & H2 & <-) Hb. destruct (sizes_ok vs ds H2 0 ltac:(lia) Hb) as [E1 E2].
  split; [|split; [assumption|split; [assumption|apply (digits_range _ _ H2)]]].
  intros ->. inversion H2; subst. congruence.
Qed.

Lemma extension_line e : extension e -> Forall (fun c => c <> CR /\ c <> LF) e.
Proof. intros [->|(t & -> & H)]; constructor; [unfold CR, LF; lia|assumption]. Qed.

(** ** The streaming decoder *)

Lemma take_while_prefix (p : Z -> bool) ds r : Forall (fun c => p c = true) ds ->
  match r with [] => True | x :: _ => p x = false end -> take_while p (ds ++ r) = ds.
Proof. intros. now apply take_while_app. Qed.

Lemma turn_size_line n sl r o l : size_line n sl -> 0 <= n < two64 ->
  turn_size (Cd (sl ++ r) false l false false false) o =
  Next (if n =? 0 then Cd r false l false false true else Cd r false n true false false) o.
Proof.
  intros (ds & e & -> & Hs & He) Hn. destruct (spells_ok ds n Hs ltac:(lia)) as (NE & V & _ & F).
  pose proof (extension_line e He) as Fe.
  unfold turn_size. cbn [cd_rest cd_done cd_left cd_in cd_crlf cd_final].
  assert (T : take_while (fun c => negb (c =? LF)) ((ds ++ e ++ [CR; LF]) ++ r) = (ds ++ e) ++ [CR]).
  { replace ((ds ++ e ++ [CR; LF]) ++ r) with (((ds ++ e) ++ [CR]) ++ LF :: r) by (rewrite <- !app_assoc; reflexivity).
    apply take_while_app; [|reflexivity]. repeat (apply Forall_app; split).
    - eapply Forall_impl; [|exact F]. intros c Hc. cbv beta in *. replace (c =? LF) with false by lia. reflexivity.
    - eapply Forall_impl; [|exact Fe]. intros c Hc. cbv beta in *. replace (c =? LF) with false by lia. reflexivity.
    - constructor; [reflexivity|constructor]. }
  rewrite T. set (de := ds ++ e) in *.
  assert (0 < zlen de) as Lp.
  { unfold de. rewrite zlen_app. pose proof (zlen_pos ds NE). pose proof (zlen_nonneg e). lia. }
  assert (D : (ds ++ e ++ [CR; LF]) ++ r = (de ++ [CR; LF]) ++ r) by (unfold de; rewrite <- !app_assoc; reflexivity).
  rewrite D.
  assert (zlen ((de ++ [CR; LF]) ++ r) = zlen de + 2 + zlen r) as -> by (rewrite !zlen_app; change (zlen [CR; LF]) with 2; lia).
  assert (zlen (de ++ [CR]) = zlen de + 1) as -> by (rewrite !zlen_app; reflexivity).
  pose proof (zlen_nonneg r). replace (zlen de + 2 + zlen r <=? zlen de + 1) with false by lia.
  rewrite znth_app_r by lia. replace (zlen de + 1 - 1 - zlen de) with 0 by lia. change (znth 0 [CR] 0) with CR.
  change (negb (CR =? CR)) with false. replace ((zlen de + 1 =? 0) || false) with false by lia.
  replace (zlen de + 1 - 1) with (zlen de) by lia. rewrite ztake_app by reflexivity.
  assert (take_while (fun c => negb (c =? 59)) de = ds) as ->.
  { unfold de. apply take_while_prefix.
    - eapply Forall_impl; [|exact F]. intros c Hc. cbv beta in *. replace (c =? 59) with false by lia. reflexivity.
    - destruct He as [->|(t & -> & _)]; [exact I|reflexivity]. }
  rewrite V. destruct ds as [|d ds']; [congruence|].
  assert (zskip (zlen de + 1 + 1) ((de ++ [CR; LF]) ++ r) = r) as ->.
  { apply zskip_app. rewrite zlen_app. change (zlen [CR; LF]) with 2. lia. }
  destruct (n =? 0); reflexivity.
Qed.

Lemma coding_len w b : coding w b -> 2 <= zlen w.
Proof.
  induction 1 as [l _|l c w b _ _ _ _ IH]; rewrite ?zlen_app; change (zlen [CR; LF]) with 2.
  - pose proof (zlen_nonneg l). lia.
  - pose proof (zlen_nonneg l). pose proof (zlen_nonneg c). lia.
Qed.

Lemma stream_coding tail w b : coding w b -> forall fuel acc o l, (length w <= fuel)%nat ->
  exists l', match turn_size (Cd (w ++ tail) false l false false false) o with
  | Stop ok s o => Ret (ok, s, acc ++ o)
  | Next s o => feed_loop fuel s (acc ++ o)
  end = Ret (true, Cd tail true l' false false false, acc ++ o ++ b).
Proof.
  induction 1 as [sl Hs|sl c w b Nc Hc Hs Hw IH]; intros fuel acc o l Hf.
  - exists l. rewrite <- app_assoc. rewrite (turn_size_line 0) by (try assumption; unfold two64; lia).
    change (0 =? 0) with true. cbv iota.
    destruct fuel as [|fuel]; [rewrite app_length in Hf; cbn in Hf; lia|].
    cbn [feed_loop]. unfold turn_chunk, turn_crlf, turn_final.
    cbn [cd_rest cd_done cd_left cd_in cd_crlf cd_final app].
    assert (zlen (CR :: LF :: tail) <? 2 = false) as -> by (rewrite !zlen_cons; pose proof (zlen_nonneg tail); lia).
    change (negb (znth 0 (CR :: LF :: tail) 0 =? CR) || negb (znth 0 (CR :: LF :: tail) 1 =? LF)) with false.
    change (zskip 2 (CR :: LF :: tail)) with tail. cbv iota. rewrite !app_nil_r. reflexivity.
  - pose proof (zlen_pos c Nc) as Pc. rewrite <- !app_assoc.
    rewrite (turn_size_line (zlen c)) by (try assumption; lia). replace (zlen c =? 0) with false by lia.
    assert (Hf' : (length w < fuel)%nat).
    { rewrite !app_length in Hf. cbn [length] in Hf. unfold zlen in Pc. lia. }
    destruct fuel as [|fuel]; [lia|]. cbn [feed_loop].
    assert (turn_chunk (Cd (c ++ [CR; LF] ++ w ++ tail) false (zlen c) true false false) =
            turn_size (Cd (w ++ tail) false 0 false false false) c) as ->.
    { unfold turn_chunk. cbn [cd_rest cd_done cd_left cd_in cd_crlf cd_final].
      assert (zlen (c ++ [CR; LF] ++ w ++ tail) = zlen c + 2 + zlen (w ++ tail)) as ->
        by (rewrite zlen_app, (zlen_app [CR; LF]); change (zlen [CR; LF]) with 2; lia).
      pose proof (zlen_nonneg (w ++ tail)).
      replace (zlen c + 2 + zlen (w ++ tail) =? 0) with false by lia.
      replace (Z.min (zlen c) (zlen c + 2 + zlen (w ++ tail))) with (zlen c) by lia.
      rewrite Z.sub_diag. change (0 =? 0) with true. cbv iota. rewrite ztake_app, zskip_app by reflexivity.
      unfold turn_crlf. cbn [cd_rest cd_done cd_left cd_in cd_crlf cd_final].
      assert (zlen ([CR; LF] ++ w ++ tail) <? 2 = false) as -> by (rewrite zlen_app; change (zlen [CR; LF]) with 2; lia).
      reflexivity. }
    destruct (IH fuel (acc ++ o) c 0 ltac:(lia)) as (l' & E). exists l'.
    destruct (turn_size _ c) as [ok s' o'|s' o']; rewrite E; rewrite <- !app_assoc; reflexivity.
Qed.

(** The streaming decoder, for any cut of the bytes into reads. *)
Theorem C17_received_any_coding : forall w b tail reads, coding w b -> concat reads = w ++ tail ->
  receive cd_init reads [] = Ret (Rcv true true b tail).
Proof.
  intros w b tail reads Hc E. pose proof (coding_len w b Hc) as Lw.
  assert (reads <> []) as N.
  { intros ->. apply (f_equal zlen) in E. rewrite zlen_app in E. pose proof (zlen_nonneg tail).
    change (zlen (concat [])) with 0 in E. lia. }
  destruct (C17_cut_independent reads [w ++ tail] N) as [-> _]; [discriminate|cbn [concat]; now rewrite app_nil_r|].
  rewrite receive_cons. unfold cd_feed. rewrite set_more. cbn [feed_loop].
  assert (turn_chunk (more cd_init (w ++ tail)) = turn_size (Cd (w ++ tail) false 0 false false false) []) as -> by reflexivity.
  destruct (stream_coding tail w b Hc (length (cd_rest (more cd_init (w ++ tail)))) [] [] 0) as (l' & S).
  { cbn [more set_rest cd_rest cd_init app]. rewrite app_length. lia. }
  rewrite S. cbn [bind app]. cbn [negb orb cd_done cd_rest concat app]. rewrite app_nil_r. reflexivity.
Qed.
Print Assumptions C17_received_any_coding.

(** ** The batch decoder *)

Lemma find_semi_prefix : forall ds fuel pre post stop, (length ds < fuel)%nat -> Forall (fun c => c <> 59) ds ->
  zlen pre + zlen ds <= stop ->
  (zlen pre + zlen ds = stop \/ exists t, post = 59 :: t) ->
  find_semi fuel (pre ++ ds ++ post) (zlen pre) stop = Ret (zlen pre + zlen ds).
Proof.
  induction ds as [|d ds IH]; intros fuel pre post stop Hf Hd Hle Hst; (destruct fuel as [|fuel]; [cbn in Hf; lia|]); cbn [find_semi app].
  - change (zlen (@nil Z)) with 0 in *. rewrite Z.add_0_r in *.
    destruct (Z.ltb_spec (zlen pre) stop) as [Hlt|]; [|reflexivity].
    destruct Hst as [?|(t & ->)]; [lia|]. rewrite rd_be by reflexivity. cbn [bind]. reflexivity.
  - inversion Hd; subst. rewrite zlen_cons in *. pose proof (zlen_nonneg ds).
    replace (zlen pre <? stop) with true by lia.
    rewrite rd_be by reflexivity. cbn [bind]. replace (d =? 59) with false by lia. cbn [negb].
    replace (pre ++ d :: ds ++ post) with ((pre ++ [d]) ++ ds ++ post) by (rewrite <- app_assoc; reflexivity).
    assert (L1 : zlen (pre ++ [d]) = zlen pre + 1) by (rewrite zlen_app; reflexivity).
    rewrite <- L1. rewrite IH; [f_equal; lia|cbn in Hf; lia|assumption|lia|].
    destruct Hst as [?|?]; [left; lia|right; assumption].
Qed.

Lemma chunk_loop_line fuel pre n sl post acc : size_line n sl -> 0 <= n < two64 ->
  let data := pre ++ sl ++ post in
  let i := zlen (pre ++ sl) in
  chunk_loop (S fuel) data (zlen pre) acc =
  if n =? 0 then let* ok := skip_trailers (S (length data)) data i in if ok then ret acc else throw
  else if (zlen data - i <? n) || (zlen data - i - n <? 2) then throw
  else
    let* a := rd data (i + n) in let* b := rd data (i + n + 1) in
    if negb (a =? CR) || negb (b =? LF) then throw else chunk_loop fuel data (i + n + 2) (acc ++ ztake n (zskip i data)).
Proof.
  intros (ds & e & -> & Hs & He) Hn data i. destruct (spells_ok ds n Hs ltac:(lia)) as (NE & _ & V & F).
  pose proof (extension_line e He) as Fe.
  assert (D : data = pre ++ (ds ++ e) ++ CR :: LF :: post) by (unfold data; rewrite <- !app_assoc; reflexivity).
  assert (I : i = zlen pre + zlen (ds ++ e) + 2) by (unfold i; rewrite !zlen_app; change (zlen [CR; LF]) with 2; lia).
  assert (D' : data = pre ++ ds ++ e ++ CR :: LF :: post) by (rewrite D, <- !app_assoc; reflexivity).
  clearbody i data. subst i.
  pose proof (zlen_pos ds NE). pose proof (zlen_nonneg pre). pose proof (zlen_nonneg post). pose proof (zlen_nonneg e).
  assert (Le : zlen (ds ++ e) = zlen ds + zlen e) by apply zlen_app.
  assert (zlen data = zlen pre + zlen (ds ++ e) + 2 + zlen post) as L by (rewrite D; rewrite zlen_app, (zlen_app (ds ++ e)), !zlen_cons; lia).
  assert (E1 : find_crlf (S (length data)) data (zlen pre) = Ret (zlen pre + zlen (ds ++ e))).
  { rewrite D. apply find_crlf_at; [apply app_len_le|]. apply Forall_app. split.
    - eapply Forall_impl; [|exact F]. cbv beta. tauto.
    - eapply Forall_impl; [|exact Fe]. cbv beta. tauto. }
  assert (E2 : find_semi (S (length data)) data (zlen pre) (zlen pre + zlen (ds ++ e)) = Ret (zlen pre + zlen ds)).
  { rewrite D'. apply find_semi_prefix; [apply app_len_le| |lia|].
    - eapply Forall_impl; [|exact F]. cbv beta. tauto.
    - destruct He as [->|(t & -> & _)]; [left; rewrite app_nil_r; reflexivity|right; eexists; reflexivity]. }
  assert (E3 : read_size (S (length data)) data (zlen pre) (zlen pre + zlen ds) 0 = Ret (checked ds 0)).
  { rewrite D'. apply read_size_at. apply app_len_le. }
  cbn [chunk_loop]. replace (zlen pre <? zlen data) with true by lia.
  rewrite E1. cbn [bind]. replace (zlen data <=? zlen pre + zlen (ds ++ e) + 1) with false by lia.
  rewrite E2. cbn [bind]. rewrite E3, V. cbn [bindx bind].
  replace (zlen pre + zlen ds <=? zlen pre) with false by lia. reflexivity.
Qed.

Lemma chunk_loop_coding w b : coding w b -> forall fuel pre tail acc, (length w <= fuel)%nat ->
  chunk_loop fuel (pre ++ w ++ tail) (zlen pre) acc = ret (acc ++ b).
Proof.
  induction 1 as [sl Hs|sl c w b Nc Hc Hs Hw IH]; intros fuel pre tail acc Hf.
  - destruct fuel as [|fuel]; [rewrite app_length in Hf; cbn in Hf; lia|].
    rewrite <- app_assoc. rewrite (chunk_loop_line fuel pre 0) by (try assumption; unfold two64; lia).
    change (0 =? 0) with true. cbv iota.
    set (p := pre ++ sl). rewrite app_assoc. fold p. cbn [skip_trailers app].
    pose proof (zlen_nonneg tail). replace (zlen p + 1 <? zlen (p ++ CR :: LF :: tail)) with true by (rewrite zlen_app, !zlen_cons; lia).
    rewrite rd_be by reflexivity. cbn [bind].
    replace (p ++ CR :: LF :: tail) with ((p ++ [CR]) ++ LF :: tail) by (rewrite <- app_assoc; reflexivity).
    rewrite rd_be by (rewrite zlen_app; reflexivity). cbn [bind]. rewrite app_nil_r. reflexivity.
  - pose proof (zlen_pos c Nc) as Pc.
    assert (Hf' : (length w < fuel)%nat).
    { rewrite !app_length in Hf. cbn [length] in Hf. unfold zlen in Pc. lia. }
    destruct fuel as [|fuel]; [lia|]. rewrite <- !app_assoc.
    rewrite (chunk_loop_line fuel pre (zlen c)) by (try assumption; lia). replace (zlen c =? 0) with false by lia.
    set (p := pre ++ sl). rewrite (app_assoc pre). fold p.
    set (post := [CR; LF] ++ w ++ tail). pose proof (zlen_nonneg (w ++ tail)).
    assert (zlen post = 2 + zlen (w ++ tail)) as Lp by (unfold post; rewrite zlen_app; reflexivity).
    assert (zlen (p ++ c ++ post) = zlen p + zlen c + zlen post) as L by (rewrite !zlen_app; lia).
    rewrite L. replace ((_ <? zlen c) || _) with false by lia.
    rewrite zskip_app, ztake_app by reflexivity.
    assert (rd (p ++ c ++ post) (zlen p + zlen c) = Ret CR) as ->.
    { rewrite app_assoc. unfold post. cbn [app]. apply rd_be. apply zlen_app. }
    assert (rd (p ++ c ++ post) (zlen p + zlen c + 1) = Ret LF) as ->.
    { unfold post. cbn [app]. replace (p ++ c ++ CR :: LF :: w ++ tail) with ((p ++ c ++ [CR]) ++ LF :: w ++ tail)
        by (rewrite <- !app_assoc; reflexivity). apply rd_be. rewrite !zlen_app. change (zlen [CR]) with 1. lia. }
    cbn [bind]. change (negb (CR =? CR) || negb (LF =? LF)) with false. cbv iota.
    replace (p ++ c ++ post) with ((p ++ c ++ [CR; LF]) ++ w ++ tail) by (unfold post; rewrite <- !app_assoc; reflexivity).
    replace (zlen p + zlen c + 2) with (zlen (p ++ c ++ [CR; LF])) by (rewrite !zlen_app; change (zlen [CR; LF]) with 2; lia).
    rewrite IH by lia. rewrite <- app_assoc. reflexivity.
Qed.

Theorem C17_batch_any_coding : forall w b tail, coding w b -> decode_chunked_body (w ++ tail) = ret b.
Proof.
  intros w b tail Hc. unfold decode_chunked_body.
  rewrite (chunk_loop_coding w b Hc _ [] tail []); [reflexivity|].
  cbn [app]. rewrite app_length. lia.
Qed.
Print Assumptions C17_batch_any_coding.

(** "1F;q\r\n" (upper case, an extension), then "00\r\n\r\n". *)
Example C17_any_coding_case :
  coding ([49; 70; 59; 113; 13; 10] ++ repeat 7 31 ++ [13; 10] ++ [48; 48; 13; 10] ++ [13; 10]) (repeat 7 31 ++ []).
Proof.
  apply coding_chunk; [discriminate|reflexivity| |].
  - exists [49; 70], [59; 113]. split; [reflexivity|]. split.
    + exists [1; 15]. split; [discriminate|]. split; [|reflexivity]. unfold digit. repeat constructor; lia.
    + right. exists [113]. split; [reflexivity|]. repeat constructor; discriminate.
  - apply coding_last. exists [48; 48], []. split; [reflexivity|]. split; [|left; reflexivity].
    exists [0; 0]. split; [discriminate|]. split; [|reflexivity]. unfold digit. repeat constructor; lia.
Qed.

(** Trailer fields after the last chunk: the batch decoder skips them, the
    streaming decoder refuses the body. *)
Definition with_trailer : list Z := [48; 13; 10; 97; 58; 98; 13; 10; 13; 10].
Theorem C17_trailer_refuted :
  decode_chunked_body with_trailer = ret [] /\
  exists r, receive cd_init [with_trailer] [] = Ret r /\ rc_ok r = false.
Proof. split; [vm_compute; reflexivity|]. eexists. split; [vm_compute; reflexivity|reflexivity]. Qed.
Print Assumptions C17_trailer_refuted.
