(** Reading back tile-parts. *)
From Verif Require Import Base BaseLemmas SourceModel MarkerModel MarkerSafe MarkerRound HeaderRound MarkerSpec TileModel TileSpec.

(** ** Numbers and fields *)
Lemma be16_w16 v : in_word v -> be16 v = w16 v. Proof. intros. rewrite w16_in by assumption. reflexivity. Qed.
Lemma be32_w32 v : in_dword v -> be32 v = w32 v.
Proof.
  unfold in_dword. intros H. rewrite w32_in by (rewrite two32_val; lia). unfold be32. rewrite !be16_w16; [reflexivity| |]; unfold in_word.
  - apply Z.mod_pos_bound. lia.
  - split; [apply Z.div_pos; lia|apply Z.div_lt_upper_bound; lia].
Qed.
Lemma zlen_be16 v : zlen (be16 v) = 2. Proof. reflexivity. Qed.
Lemma zlen_be32 v : zlen (be32 v) = 4. Proof. reflexivity. Qed.
Lemma flat_w8_id l : Forall in_byte l -> flat_map w8 l = l.
Proof. induction 1 as [|a l Ha Hl IH]; [reflexivity|]. cbn [flat_map]. rewrite IH, w8_in by exact Ha. reflexivity. Qed.
Lemma flat_be16 l : Forall in_word l -> flat_map be16 l = flat_map w16 l.
Proof. induction 1 as [|a l Ha Hl IH]; [reflexivity|]. cbn [flat_map]. rewrite IH, be16_w16 by exact Ha. reflexivity. Qed.

Lemma At_start lm (b tl : list Z) : zlen b <= lm -> At lm (b ++ tl) 0 b.
Proof. intros. split; [lia|]. split; [lia|]. exists tl. apply zskip_0. Qed.
Lemma byte_cons lm g p v l : At lm g p (v :: l) -> fbyte lm g p = ret (p + 1, v) /\ At lm g (p + 1) l.
Proof. apply byte_at. Qed.
Lemma word_be16 lm g p v l : in_word v -> At lm g p (be16 v ++ l) -> fword lm g p = ret (p + 2, v) /\ At lm g (p + 2) l.
Proof. intros Hv H. rewrite be16_w16 in H by exact Hv. apply word_w16; assumption. Qed.
Lemma dword_be32 lm g p v l : in_dword v -> At lm g p (be32 v ++ l) -> fdword lm g p = ret (p + 4, v) /\ At lm g (p + 4) l.
Proof. intros Hv H. rewrite be32_w32 in H by exact Hv. apply dword_w32; assumption. Qed.
Lemma comp_at lm g C p c l : in_comp C c -> At lm g p (comp C c ++ l) ->
  comp_index lm g C p = ret (p + (comp_len C - 2), c) /\ At lm g (p + (comp_len C - 2)) l.
Proof.
  unfold in_comp, comp, comp_index, comp_len. destruct (C <? 257); intros Hc H.
  - apply byte_at in H. exact H.
  - apply word_be16 in H; [exact H|exact Hc].
Qed.
Lemma zlen_comp C c : zlen (comp C c) = comp_len C - 2. Proof. unfold comp, comp_len. destruct (C <? 257); reflexivity. Qed.
Lemma comp_len_range C : 3 <= comp_len C <= 4. Proof. unfold comp_len. destruct (C <? 257); lia. Qed.
Lemma bytes_all lm g p l : Forall in_byte l -> At lm g p l -> loop lm (zlen l) (fbyte lm g) p = ret (p + zlen l, l).
Proof. intros Hl H. assert (H' : At lm g p (flat_map w8 l ++ [])) by (rewrite flat_w8_id, app_nil_r by exact Hl; exact H). apply loop_bytes in H' as [E _]; [exact E|exact Hl]. Qed.
Lemma words_all lm g p l : Forall in_word l -> At lm g p (flat_map be16 l) -> loop lm (zlen l) (fword lm g) p = ret (p + 2 * zlen l, l).
Proof. intros Hl H. assert (H' : At lm g p (flat_map w16 l ++ [])) by (rewrite app_nil_r, <- flat_be16 by exact Hl; exact H). apply loop_words in H' as [E _]; [exact E|exact Hl]. Qed.
Lemma flat_be16_len l : zlen (flat_map be16 l) = 2 * zlen l.
Proof. induction l; [reflexivity|]. cbn [flat_map]. rewrite zlen_app, zlen_cons, IHl, zlen_be16. ring. Qed.
Lemma land31 v : 0 <= v -> Z.land v 31 = v mod 32. Proof. intros. change 31 with (Z.ones 5). rewrite Z.land_ones by lia. reflexivity. Qed.
Lemma wrap64_id v : 0 <= v < 65536 -> wrap64 v = v.
Proof. intros. unfold wrap64. apply Z.mod_small. change two64 with 18446744073709551616. lia. Qed.

(** ** Segments *)
Lemma cod_seg x tl : in_byte (Scod x) -> in_dword (SGcod x) -> Forall in_byte (SPcod x) -> 5 <= zlen (SPcod x) -> znth 0 (SPcod x) 0 <= 32 ->
  parse_cod (2 + zlen ([Scod x] ++ be32 (SGcod x) ++ SPcod x)) (([Scod x] ++ be32 (SGcod x) ++ SPcod x) ++ tl) = ret x.
Proof.
  intros H1 H2 H3 H4 H5. rewrite be32_w32 by exact H2. apply (cod_round x _ tl).
  - repeat split; try assumption; try apply H1; try apply H2.
  - rewrite !zlen_app, zlen_w32. change (zlen [Scod x]) with 1. ring.
  - unfold cod_body. rewrite flat_w8_id, w8_in by assumption. reflexivity.
Qed.
Lemma coc_seg C x tl : in_comp C (Ccoc x) -> in_byte (Scoc x) -> Forall in_byte (SPcoc x) -> zlen (SPcoc x) < 65534 ->
  parse_coc (2 + zlen (comp C (Ccoc x) ++ [Scoc x] ++ SPcoc x)) ((comp C (Ccoc x) ++ [Scoc x] ++ SPcoc x) ++ tl) C = ret x.
Proof.
  intros H1 H2 H3 Hm. set (b := comp C (Ccoc x) ++ [Scoc x] ++ SPcoc x). set (lm := 2 + zlen b).
  assert (El : lm = comp_len C + 1 + zlen (SPcoc x)) by (unfold lm, b; rewrite !zlen_app, zlen_comp; change (zlen [Scoc x]) with 1; ring).
  pose proof (At_start lm b tl ltac:(lia)) as H. unfold b in H at 2. unfold parse_coc.
  apply comp_at in H as [-> H]; [|exact H1]. cbn [bindx ret]. cbn [app] in H. apply byte_at in H as [-> H]. cbn [bindx ret].
  pose proof (zlen_nonneg (SPcoc x)). replace (lm - (comp_len C + 1)) with (zlen (SPcoc x)) by lia. rewrite wrap64_id by lia.
  rewrite bytes_all by assumption. cbn [bindx ret]. destruct x; reflexivity.
Qed.
Lemma qcd_seg x tl : steps_fit (Sqcd x) (SPqcd x) ->
  parse_qcd (2 + zlen ([Sqcd x] ++ steps (Sqcd x) (SPqcd x))) (([Sqcd x] ++ steps (Sqcd x) (SPqcd x)) ++ tl) = ret x.
Proof.
  intros [H1 H2]. set (b := [Sqcd x] ++ steps (Sqcd x) (SPqcd x)). set (lm := 2 + zlen b).
  pose proof (At_start lm b tl ltac:(lia)) as H. unfold b in H at 2. unfold parse_qcd. cbn [app] in H. apply byte_at in H as [-> H]. cbn [bindx ret].
  unfold in_byte in H1. rewrite land31 by lia. pose proof (zlen_nonneg (SPqcd x)).
  assert (El : lm = 3 + zlen (steps (Sqcd x) (SPqcd x))) by (unfold lm, b; rewrite zlen_app; change (zlen [Sqcd x]) with 1; ring). unfold steps in *. destruct (Sqcd x mod 32 =? 0).
  - replace (lm - 3) with (zlen (SPqcd x)) by lia. replace (zlen (SPqcd x) <? 0) with false by lia. rewrite bytes_all by assumption. cbn [bindx ret]. destruct x; reflexivity.
  - rewrite flat_be16_len in El. replace (lm - 3) with (zlen (SPqcd x) * 2) by lia. replace (zlen (SPqcd x) * 2 <? 0) with false by lia. rewrite Z.div_mul by lia. rewrite words_all by assumption. cbn [bindx ret]. destruct x; reflexivity.
Qed.
Lemma qcc_seg C x tl : in_comp C (Cqcc x) -> steps_fit (Sqcc x) (SPqcc x) -> zlen (steps (Sqcc x) (SPqcc x)) < 65534 ->
  parse_qcc (2 + zlen (comp C (Cqcc x) ++ [Sqcc x] ++ steps (Sqcc x) (SPqcc x))) ((comp C (Cqcc x) ++ [Sqcc x] ++ steps (Sqcc x) (SPqcc x)) ++ tl) C = ret x.
Proof.
  intros H0 [H1 H2] Hm. set (b := comp C (Cqcc x) ++ [Sqcc x] ++ steps (Sqcc x) (SPqcc x)). set (lm := 2 + zlen b).
  assert (El : lm = comp_len C + 1 + zlen (steps (Sqcc x) (SPqcc x))) by (unfold lm, b; rewrite !zlen_app, zlen_comp; change (zlen [Sqcc x]) with 1; ring).
  pose proof (At_start lm b tl ltac:(lia)) as H. unfold b in H at 2. unfold parse_qcc.
  apply comp_at in H as [-> H]; [|exact H0]. cbn [bindx ret]. cbn [app] in H. apply byte_at in H as [-> H]. cbn [bindx ret]. cbv zeta.
  unfold in_byte in H1. rewrite land31 by lia. pose proof (zlen_nonneg (SPqcc x)). unfold steps in *. destruct (Sqcc x mod 32 =? 0).
  - replace (lm - (comp_len C + 1)) with (zlen (SPqcc x)) by lia. rewrite wrap64_id by lia. rewrite bytes_all by assumption. cbn [bindx ret]. destruct x; reflexivity.
  - rewrite flat_be16_len in *. replace (lm - (comp_len C + 1)) with (zlen (SPqcc x) * 2) by lia. rewrite Z.quot_mul by lia. rewrite wrap64_id by lia. rewrite words_all by assumption. cbn [bindx ret]. destruct x; reflexivity.
Qed.
Lemma rgn_seg C x tl : in_comp C (Crgn x) ->
  parse_rgn (2 + zlen (comp C (Crgn x) ++ [Srgn x; SPrgn x])) ((comp C (Crgn x) ++ [Srgn x; SPrgn x]) ++ tl) C = ret x.
Proof.
  intros H1. set (b := comp C (Crgn x) ++ [Srgn x; SPrgn x]). set (lm := 2 + zlen b).
  pose proof (At_start lm b tl ltac:(lia)) as H. unfold b in H at 2. unfold parse_rgn.
  apply comp_at in H as [-> H]; [|exact H1]. cbn [bindx ret]. apply byte_at in H as [-> H]. cbn [bindx ret]. apply byte_at in H as [-> H]. cbn [bindx ret]. destruct x; reflexivity.
Qed.
Lemma poc_len C p : zlen (order_change C p) = if C <? 257 then 7 else 9.
Proof. unfold order_change. rewrite !zlen_app, !zlen_comp, zlen_be16. unfold comp_len. destruct (C <? 257); reflexivity. Qed.
Lemma pocs_len C l : zlen (flat_map (order_change C) l) = zlen l * (if C <? 257 then 7 else 9).
Proof. induction l as [|p l IH]; [reflexivity|]. cbn [flat_map]. rewrite zlen_app, zlen_cons, IH, poc_len. ring. Qed.
Lemma poc_seg C l tl : Forall (poc_fits C) l ->
  parse_poc (2 + zlen (flat_map (order_change C) l)) (flat_map (order_change C) l ++ tl) C = ret l.
Proof.
  intros Hl. set (b := flat_map (order_change C) l). set (lm := 2 + zlen b).
  pose proof (At_start lm b tl ltac:(lia)) as H. unfold parse_poc.
  assert (En : (if C <? 257 then (lm - 2) / 7 else (lm - 2) / 9) = zlen l).
  { unfold lm, b. replace (2 + zlen (flat_map (order_change C) l) - 2) with (zlen (flat_map (order_change C) l)) by ring. rewrite pocs_len. destruct (C <? 257); apply Z.div_mul; lia. }
  rewrite En. assert (H' : At lm (b ++ tl) 0 (flat_map (order_change C) l ++ [])) by (rewrite app_nil_r; exact H).
  destruct (loop_at lm (b ++ tl) (poc_entry lm (b ++ tl) C) (order_change C) (poc_fits C)) with (xs := l) (p := 0) (l := @nil Z) as [E _]; try assumption.
  - intros a p k (F1 & F2 & F3 & F4 & F5 & F6) Ha. pose proof (comp_len_range C). pose proof (poc_len C a) as Epl. split; [|rewrite Epl; destruct (C <? 257); lia].
    unfold order_change in Ha. rewrite <- !app_assoc in Ha. cbn [app] in Ha. unfold poc_entry.
    apply byte_at in Ha as [-> Ha]. cbn [bindx ret]. apply comp_at in Ha as [-> Ha]; [|exact F2]. cbn [bindx ret]. apply word_be16 in Ha as [-> Ha]; [|exact F3]. cbn [bindx ret].
    apply byte_at in Ha as [-> Ha]. cbn [bindx ret]. apply comp_at in Ha as [-> Ha]; [|exact F5]. cbn [bindx ret]. apply byte_at in Ha as [-> Ha]. cbn [bindx ret].
    rewrite Epl. unfold comp_len. match goal with |- ret (?q, _) = ret (?r, _) => replace q with r by (destruct (C <? 257); lia) end. destruct a; reflexivity.
  - intros a _. rewrite poc_len. destruct (C <? 257); lia.
  - rewrite E. reflexivity.
Qed.
Lemma raw_seg z b tl : zlen b < 65533 -> parse_raw (2 + zlen (z :: b)) ((z :: b) ++ tl) = ret (z, 1, zlen b).
Proof.
  intros Hm. pose proof (At_start (2 + zlen (z :: b)) (z :: b) tl ltac:(lia)) as H. unfold parse_raw. apply byte_at in H as [-> H]. cbn [bindx ret].
  rewrite zlen_cons. pose proof (zlen_nonneg b). rewrite Z.mod_small by lia. replace (2 + (1 + zlen b) - 3) with (zlen b) by ring. reflexivity.
Qed.
Lemma com_seg x tl : in_word (Rcom x) -> Forall in_byte (Ccom x) -> zlen (Ccom x) < 65534 ->
  parse_com (2 + zlen (be16 (Rcom x) ++ Ccom x)) ((be16 (Rcom x) ++ Ccom x) ++ tl) = ret x.
Proof.
  intros H1 H2 Hm. set (b := be16 (Rcom x) ++ Ccom x). set (lm := 2 + zlen b).
  assert (El : lm = 4 + zlen (Ccom x)) by (unfold lm, b; rewrite zlen_app, zlen_be16; ring).
  pose proof (At_start lm b tl ltac:(lia)) as H. unfold b in H at 2. unfold parse_com. apply word_be16 in H as [-> H]; [|exact H1]. cbn [bindx ret].
  pose proof (zlen_nonneg (Ccom x)). replace (lm - 4) with (zlen (Ccom x)) by lia. rewrite wrap64_id by lia. rewrite bytes_all by assumption. cbn [bindx ret]. destruct x; reflexivity.
Qed.

(** What a segment that starts at [p] is read as. *)
Definition meaning (p : Z) (h : hseg) : list seg :=
  match h with
  | HCod x => [SCod x] | HCoc x => [SCoc x] | HQcd x => [SQcd x] | HQcc x => [SQcc x] | HRgn x => [SRgn x] | HPoc l => [SPoc l]
  | HPlt z b => [SPlt (z, p + 5, zlen b)] | HPpt z b => [SPpt (z, p + 5, zlen b)] | HCom x => [SCom x] | HOther _ _ => [] | HBare _ => []
  end.
Definition known (h : hseg) : bool := match h with HOther _ _ | HBare _ => false | _ => true end.
Lemma known_seg C h : known h = true -> hseg_fits C h ->
  exists f x, tile_parser (hseg_code h) C = Some f /\ hseg_code h <> M_SOD /\ in_word (hseg_code h)
    /\ hseg_bytes C h = be16 (hseg_code h) ++ be16 (2 + zlen (hseg_data C h)) ++ hseg_data C h
    /\ (forall p tl, f (2 + zlen (hseg_data C h)) (p + 4) (hseg_data C h ++ tl) = ret (x p)) /\ forall p, meaning p h = [x p].
Proof.
  intros Hk [Hl Hf]. destruct h; try discriminate Hk; cbn [hseg_data] in *.
  - exists (fun lmar _ g => smap SCod (parse_cod lmar g)), (fun _ => SCod x). split; [reflexivity|]. split; [discriminate|]. split; [split; discriminate || reflexivity|].
    split; [reflexivity|]. split; [|reflexivity]. intros p tl. unfold smap. destruct Hf as (F1 & F2 & F3 & F4 & F5). cbn [hseg_data]. rewrite cod_seg by assumption. reflexivity.
  - exists (fun lmar _ g => smap SCoc (parse_coc lmar g C)), (fun _ => SCoc x). split; [reflexivity|]. split; [discriminate|]. split; [split; discriminate || reflexivity|].
    split; [reflexivity|]. split; [|reflexivity]. intros p tl. unfold smap. destruct Hf as (F1 & F2 & F3). rewrite !zlen_app in Hl. pose proof (zlen_nonneg (comp C (Ccoc x))). change (zlen [Scoc x]) with 1 in Hl. rewrite coc_seg by (assumption || lia). reflexivity.
  - exists (fun lmar _ g => smap SQcd (parse_qcd lmar g)), (fun _ => SQcd x). split; [reflexivity|]. split; [discriminate|]. split; [split; discriminate || reflexivity|].
    split; [reflexivity|]. split; [|reflexivity]. intros p tl. unfold smap. rewrite qcd_seg by assumption. reflexivity.
  - exists (fun lmar _ g => smap SQcc (parse_qcc lmar g C)), (fun _ => SQcc x). split; [reflexivity|]. split; [discriminate|]. split; [split; discriminate || reflexivity|].
    split; [reflexivity|]. split; [|reflexivity]. intros p tl. unfold smap. destruct Hf as (F1 & F2). rewrite !zlen_app in Hl. pose proof (zlen_nonneg (comp C (Cqcc x))). change (zlen [Sqcc x]) with 1 in Hl. rewrite qcc_seg by (assumption || lia). reflexivity.
  - exists (fun lmar _ g => smap SRgn (parse_rgn lmar g C)), (fun _ => SRgn x). split; [reflexivity|]. split; [discriminate|]. split; [split; discriminate || reflexivity|].
    split; [reflexivity|]. split; [|reflexivity]. intros p tl. unfold smap. rewrite rgn_seg by apply Hf. reflexivity.
  - exists (fun lmar _ g => smap SPoc (parse_poc lmar g C)), (fun _ => SPoc l). split; [reflexivity|]. split; [discriminate|]. split; [split; discriminate || reflexivity|].
    split; [reflexivity|]. split; [|reflexivity]. intros p tl. unfold smap. rewrite poc_seg by exact Hf. reflexivity.
  - exists (fun lmar base g => smap (fun x => SPlt (raw_at base x)) (parse_raw lmar g)), (fun p => SPlt (z, p + 5, zlen b)). split; [reflexivity|]. split; [discriminate|]. split; [split; discriminate || reflexivity|].
    split; [reflexivity|]. split; [|reflexivity]. intros p tl. unfold smap. rewrite zlen_cons in Hl. rewrite raw_seg by lia. cbn [bindx ret raw_at]. replace (p + 4 + 1) with (p + 5) by ring. reflexivity.
  - exists (fun lmar base g => smap (fun x => SPpt (raw_at base x)) (parse_raw lmar g)), (fun p => SPpt (z, p + 5, zlen b)). split; [reflexivity|]. split; [discriminate|]. split; [split; discriminate || reflexivity|].
    split; [reflexivity|]. split; [|reflexivity]. intros p tl. unfold smap. rewrite zlen_cons in Hl. rewrite raw_seg by lia. cbn [bindx ret raw_at]. replace (p + 4 + 1) with (p + 5) by ring. reflexivity.
  - exists (fun lmar _ g => smap SCom (parse_com lmar g)), (fun _ => SCom x). split; [reflexivity|]. split; [discriminate|]. split; [split; discriminate || reflexivity|].
    split; [reflexivity|]. split; [|reflexivity]. intros p tl. unfold smap. destruct Hf as (F1 & F2). rewrite zlen_app, zlen_be16 in Hl. rewrite com_seg by (assumption || lia). reflexivity.
Qed.

(** ** Headers *)
Lemma zskip_at (d : list Z) p a tl : 0 <= p -> zskip p d = a ++ tl -> zskip (p + zlen a) d = tl.
Proof.
  intros Hp E. pose proof (zlen_nonneg a). replace (p + zlen a) with (zlen a + p) by ring. rewrite <- zskip_zskip by lia. rewrite E. apply zskip_app. reflexivity.
Qed.
Lemma word_be16_at d p v tl : in_word v -> 0 <= p -> zskip p d = be16 v ++ tl -> word_at d p = v /\ zskip (p + 2) d = tl /\ p + 2 <= zlen d.
Proof. intros Hv Hp E. rewrite be16_w16 in E by exact Hv. exact (word_w16_at d p v tl Hv Hp E). Qed.
Lemma other_parser C code : ~ In code [65362; 65363; 65368; 65372; 65373; 65374; 65375; 65377; 65380; 65427] -> tile_parser code C = None.
Proof.
  intros H. cbn [In] in H. unfold tile_parser, M_COD, M_COC, M_PLT, M_QCD, M_QCC, M_RGN, M_POC, M_PPT, M_COM.
  repeat match goal with |- context[code =? ?k] => destruct (Z.eqb_spec code k); [exfalso; apply H; subst; tauto|] end. reflexivity.
Qed.
Lemma zlen_hseg C h : zlen (hseg_bytes C h) = if match h with HBare _ => true | _ => false end then 2 else 4 + zlen (hseg_data C h).
Proof. destruct h; cbn [hseg_bytes]; rewrite ?zlen_app, ?zlen_be16; try ring; reflexivity. Qed.

Section At.
Context (d : list Z) (n C : Z) (Hd : n <= zlen d) (H32 : n <= two32 - 65552).

Lemma hseg_step p h tl fuel segs count : hseg_fits C h -> 0 <= p -> zskip p d = hseg_bytes C h ++ tl -> p + zlen (hseg_bytes C h) <= n ->
  0 <= count -> count + zlen (hseg_bytes C h) < two32 ->
  read_part_header (S fuel) (Src (Some d) p n) C segs count
  = read_part_header fuel (Src (Some d) (p + zlen (hseg_bytes C h)) n) C (segs ++ meaning p h) (count + zlen (hseg_bytes C h)).
Proof.
  intros Hf Hp E Hn Hc Hc2. pose proof two32_val. destruct (known h) eqn:Hk.
  - destruct (known_seg C h Hk Hf) as (f & x & Ep & Hsod & Hw & Eb & Ex & Em). rewrite zlen_hseg in *.
    assert (Hkb : match h with HBare _ => true | _ => false end = false) by (destruct h; try discriminate; reflexivity). rewrite Hkb in *. cbv iota in *.
    rewrite Eb in E. rewrite <- !app_assoc in E. destruct Hf as [Hl _]. pose proof (zlen_nonneg (hseg_data C h)).
    destruct (word_be16_at d p _ _ Hw Hp E) as (Ew & E2 & _).
    destruct (word_be16_at d (p + 2) (2 + zlen (hseg_data C h)) _ ltac:(unfold in_word; lia) ltac:(lia) E2) as (EL & E4 & _). replace (p + 2 + 2) with (p + 4) in E4 by ring.
    cbn [read_part_header]. rewrite lift_word by lia. replace (n - 2 <? p) with false by lia. cbn [bindx ret]. rewrite Ew.
    replace (hseg_code h =? M_SOD) with false by lia. rewrite Ep. rewrite open_eq by lia. rewrite EL. cbv zeta.
    replace ((2 + zlen (hseg_data C h) <? 2) || (n <? p + 2 + (2 + zlen (hseg_data C h)))) with false by lia. cbn [bindx ret].
    replace (p + 2 + 2) with (p + 4) by ring. rewrite E4.
    assert (Eg : ztake (2 + zlen (hseg_data C h)) (hseg_data C h ++ tl) = hseg_data C h ++ ztake 2 tl).
    { replace (2 + zlen (hseg_data C h)) with (zlen (hseg_data C h) + 2) by ring. rewrite <- ztake_plus by lia. rewrite ztake_app by reflexivity. rewrite zskip_app by reflexivity. reflexivity. }
    rewrite Eg, Ex. cbn [bindx ret]. rewrite Em. rewrite wrap32_id by lia.
    replace (p + 2 + (2 + zlen (hseg_data C h))) with (p + (4 + zlen (hseg_data C h))) by ring. replace (count + (2 + zlen (hseg_data C h)) + 2) with (count + (4 + zlen (hseg_data C h))) by ring. reflexivity.
  - destruct h as [| | | | | | | | |code b|code]; try discriminate Hk; destruct Hf as [Hl Hf]; cbn [hseg_data hseg_bytes hseg_code meaning] in *; rewrite app_nil_r.
    + destruct Hf as (Hw & Hnb & Hin). rewrite <- !app_assoc in E. rewrite !zlen_app, !zlen_be16 in *. pose proof (zlen_nonneg b).
      destruct (word_be16_at d p _ _ Hw Hp E) as (Ew & E2 & _).
      destruct (word_be16_at d (p + 2) (2 + zlen b) _ ltac:(unfold in_word; lia) ltac:(lia) E2) as (EL & E4 & _).
      cbn [read_part_header]. rewrite lift_word by lia. replace (n - 2 <? p) with false by lia. cbn [bindx ret]. rewrite Ew.
      replace (code =? M_SOD) with false. 2: { symmetry. apply Z.eqb_neq. intros ->. apply Hin. cbn. tauto. }
      rewrite other_parser by exact Hin. rewrite skip_eq by lia. rewrite EL. cbv zeta. rewrite Z.max_r by lia.
      replace (n <? p + 2 + (2 + zlen b)) with false by lia. cbn [bindx ret]. rewrite wrap32_id by lia.
      replace (p + 2 + (2 + zlen b)) with (p + (2 + (2 + zlen b))) by ring. replace (count + 2 + (2 + zlen b)) with (count + (2 + (2 + zlen b))) by ring. reflexivity.
    + destruct (word_be16_at d p code tl ltac:(unfold in_word; lia) Hp E) as (Ew & _ & _). rewrite zlen_be16 in *.
      cbn [read_part_header]. rewrite lift_word by lia. replace (n - 2 <? p) with false by lia. cbn [bindx ret]. rewrite Ew.
      replace (code =? M_SOD) with false by (unfold M_SOD; lia). rewrite other_parser by (cbn [In]; lia).
      unfold skip_unknown. replace ((code <? 65328) || (65343 <? code)) with false by lia. cbn [bindx ret]. rewrite wrap32_id by lia. rewrite Z.add_0_r. reflexivity.
Qed.

Fixpoint meanings (p : Z) (l : list hseg) : list seg :=
  match l with [] => [] | h :: l => meaning p h ++ meanings (p + zlen (hseg_bytes C h)) l end.

Lemma header_step : forall l p tl fuel segs count, Forall (hseg_fits C) l -> 0 <= p -> zskip p d = flat_map (hseg_bytes C) l ++ [255; 147] ++ tl ->
  p + zlen (flat_map (hseg_bytes C) l) + 2 <= n -> 0 <= count -> count + zlen (flat_map (hseg_bytes C) l) < two32 -> (length l < fuel)%nat ->
  read_part_header fuel (Src (Some d) p n) C segs count
  = ret (Src (Some d) (p + zlen (flat_map (hseg_bytes C) l) + 2) n, (segs ++ meanings p l, count + zlen (flat_map (hseg_bytes C) l))).
Proof.
  induction l as [|h l IH]; intros p tl fuel segs count Hl Hp E Hn Hc Hc2 Hf.
  - cbn [flat_map app meanings] in *. change (zlen (@nil Z)) with 0 in *. destruct fuel; [lia|]. pose proof two32_val.
    destruct (word_be16_at d p 65427 tl ltac:(unfold in_word; lia) Hp E) as (Ew & _ & _).
    cbn [read_part_header]. rewrite lift_word by lia. replace (n - 2 <? p) with false by lia. cbn [bindx ret]. rewrite Ew. unfold M_SOD. rewrite Z.eqb_refl, app_nil_r, !Z.add_0_r. reflexivity.
  - inversion Hl as [|? ? Hh Hl']; subst. cbn [flat_map length meanings] in *. rewrite <- app_assoc in E. rewrite zlen_app in *.
    pose proof (zlen_nonneg (hseg_bytes C h)). pose proof (zlen_nonneg (flat_map (hseg_bytes C) l)). destruct fuel; [lia|].
    rewrite (hseg_step p h _ fuel segs count Hh Hp E) by lia.
    rewrite (IH _ tl fuel) by (try assumption; try lia; apply (zskip_at d p _ _ Hp E)). rewrite <- app_assoc, !Z.add_assoc. reflexivity.
Qed.
End At.

Lemma window_at d p a tl : 0 <= p -> p + zlen a <= zlen d -> zskip p d = a ++ tl -> window d p (zlen a) a.
Proof. intros Hp Hl E. split; [reflexivity|]. split; [exact Hp|]. split; [exact Hl|]. rewrite E. apply ztake_app. reflexivity. Qed.
Lemma skipped_len (d : list Z) p a tl : 0 <= p -> a <> [] -> zskip p d = a ++ tl -> p + zlen a <= zlen d.
Proof.
  intros Hp Ha E. destruct (Z_le_gt_dec p (zlen d)) as [H|H].
  - assert (Hl : zlen (zskip p d) = zlen a + zlen tl) by (rewrite E; apply zlen_app). rewrite zlen_zskip in Hl by lia. pose proof (zlen_nonneg tl). lia.
  - rewrite zskip_all in E by lia. destruct a; [contradiction|discriminate].
Qed.
Lemma header_found_at d C : forall l p tl, Forall (hseg_fits C) l -> 0 <= p -> zskip p d = flat_map (hseg_bytes C) l ++ tl -> header_found d l (meanings C p l).
Proof.
  induction l as [|h l IH]; intros p tl Hl Hp E; [reflexivity|]. inversion Hl as [|? ? Hh Hl']; subst. cbn [flat_map meanings] in *. rewrite <- app_assoc in E.
  pose proof (zlen_nonneg (hseg_bytes C h)). assert (IH' := IH (p + zlen (hseg_bytes C h)) tl Hl' ltac:(lia) (zskip_at d p _ _ Hp E)).
  assert (Hraw : forall z b code, hseg_bytes C h = be16 code ++ be16 (2 + zlen (z :: b)) ++ z :: b -> window d (p + 5) (zlen b) b).
  { intros z b code Eb. rewrite Eb in E. rewrite <- !app_assoc in E. change (be16 code ++ be16 (2 + zlen (z :: b)) ++ (z :: b) ++ flat_map (hseg_bytes C) l ++ tl) with ((be16 code ++ be16 (2 + zlen (z :: b)) ++ [z]) ++ b ++ flat_map (hseg_bytes C) l ++ tl) in E.
    assert (Hne : be16 code ++ be16 (2 + zlen (z :: b)) ++ [z] <> []) by (unfold be16; discriminate). pose proof (skipped_len d p _ _ Hp Hne E) as Hlen. change (zlen (be16 code ++ be16 (2 + zlen (z :: b)) ++ [z])) with 5 in Hlen.
    assert (E5 := zskip_at d p _ _ Hp E). change (zlen (be16 code ++ be16 (2 + zlen (z :: b)) ++ [z])) with 5 in E5.
    apply (window_at d (p + 5) b _ ltac:(lia)) in E5; [exact E5|]. destruct b as [|v b]; [change (zlen (@nil Z)) with 0; lia|]. apply (skipped_len d (p + 5) (v :: b) _ ltac:(lia) ltac:(discriminate) E5). }
  destruct h; cbn [meaning app header_found seg_found]; try (split; [reflexivity|exact IH']); try exact IH'.
  - split; [split; [reflexivity|]|exact IH']. apply (Hraw z b 65368). reflexivity.
  - split; [split; [reflexivity|]|exact IH']. apply (Hraw z b 65377). reflexivity.
Qed.

(** ** Tile-parts *)
Lemma zlen_part_head C v p : zlen (part_head C v p) = 14 + zlen (flat_map (hseg_bytes C) (p_header p)).
Proof. unfold part_head. rewrite !zlen_app, zlen_be16, zlen_be32. change (zlen [255; 144; 0; 10]) with 4. change (zlen [255; 147]) with 2. change (zlen [p_index p; p_count p]) with 2. ring. Qed.
Lemma headers_count C l : Forall (hseg_fits C) l -> zlen l <= zlen (flat_map (hseg_bytes C) l).
Proof.
  induction 1 as [|h l Hh Hl IH]; [reflexivity|]. cbn [flat_map]. rewrite zlen_app, zlen_cons, zlen_hseg. pose proof (zlen_nonneg (hseg_data C h)). destruct (match h with HBare _ => true | _ => false end); lia.
Qed.

Section Parts.
Context (d : list Z) (n C : Z) (Hd : n <= zlen d) (H32 : n <= two32 - 65552).

Lemma sot_step p tile psot i c tl : in_word tile -> in_dword psot -> in_byte i -> in_byte c -> 0 <= p -> p + 10 <= n ->
  zskip p d = be16 10 ++ be16 tile ++ be32 psot ++ [i; c] ++ tl ->
  read_sot (Src (Some d) p n) = ret (Src (Some d) (p + 10) n, Sot tile psot i c) /\ zskip (p + 10) d = tl.
Proof.
  intros H1 H2 H3 H4 Hp Hn E. pose proof two32_val as T. split.
  - destruct (word_be16_at d p 10 _ ltac:(unfold in_word; lia) Hp E) as (EL & E2 & _).
    unfold read_sot. rewrite open_eq by lia. rewrite EL. cbv zeta. replace ((10 <? 2) || (n <? p + 10)) with false by lia. cbn [bindx ret]. change (negb (10 =? 10)) with false. cbv iota.
    rewrite E2. set (b := be16 tile ++ be32 psot ++ [i; c]).
    replace (be16 tile ++ be32 psot ++ [i; c] ++ tl) with (b ++ tl) by (unfold b; rewrite <- !app_assoc; reflexivity).
    assert (Eg : ztake 10 (b ++ tl) = b ++ ztake 2 tl). { change 10 with (zlen b + 2). rewrite <- ztake_plus by (try apply zlen_nonneg; lia). rewrite ztake_app by reflexivity. rewrite zskip_app by reflexivity. reflexivity. }
    rewrite Eg. pose proof (At_start 10 b (ztake 2 tl) ltac:(change (zlen b) with 8; lia)) as H. unfold b in H at 2. unfold parse_sot.
    apply word_be16 in H as [-> H]; [|exact H1]. cbn [bindx ret]. apply dword_be32 in H as [-> H]; [|exact H2]. cbn [bindx ret].
    apply byte_at in H as [-> H]. cbn [bindx ret]. apply byte_at in H as [-> H]. reflexivity.
  - change 10 with (zlen (be16 10 ++ be16 tile ++ be32 psot ++ [i; c])). apply zskip_at; [exact Hp|]. rewrite E. rewrite <- !app_assoc. reflexivity.
Qed.

(** A tile-part: how far its body goes, and on. *)
Definition body_len (v head at_ : Z) : out Z :=
  if v =? 0 then eoc_offset d at_ (Z.to_nat (n - at_)) (if 2 <=? n - at_ then n - at_ - 2 else 0) else Ret (Z.min (v - head) (n - at_)).
Lemma part_step p q v tl : part_fits C q -> 0 <= p -> zskip p d = part_head C v q ++ tl -> in_dword v -> p + zlen (part_head C v q) <= n ->
  v = 0 \/ zlen (part_head C v q) <= v ->
  forall fuel tiles done, p_tile q < tiles ->
  read_parts (S fuel) (Src (Some d) p n) C tiles done =
     (let* m := body_len v (zlen (part_head C v q)) (p + zlen (part_head C v q)) in
      let? (s, _) := lift (forward_Nbytes (Src (Some d) (p + zlen (part_head C v q)) n) m) in
      read_parts fuel s C tiles (done ++ [Tp (Sot (p_tile q) v (p_index q) (p_count q)) (meanings C (p + 12) (p_header q)) (p + zlen (part_head C v q)) m])).
Proof.
  intros (F1 & F2 & F3 & F4) Hp E Hv Hn Hv0 fuel tiles done Ht. pose proof two32_val as T. unfold in_dword in Hv. rewrite zlen_part_head in *.
  pose proof (zlen_nonneg (flat_map (hseg_bytes C) (p_header q))) as Hh0. set (hl := zlen (flat_map (hseg_bytes C) (p_header q))) in *.
  unfold part_head in E. rewrite <- !app_assoc in E.
  destruct (word_be16_at d p 65424 _ ltac:(unfold in_word; lia) Hp E) as (Ew & E2 & _).
  destruct (sot_step (p + 2) (p_tile q) v (p_index q) (p_count q) _ F1 Hv F2 F3 ltac:(lia) ltac:(lia) E2) as (Es & E12). replace (p + 2 + 10) with (p + 12) in * by ring.
  cbn [read_parts]. unfold get_remaining. cbn [len pos]. rewrite wrap32_id by lia. replace (n - p <? 2) with false by lia.
  rewrite lift_word by lia. replace (n - 2 <? p) with false by lia. cbn [bindx ret]. rewrite Ew. change (65424 =? M_EOC) with false. change (negb (65424 =? M_SOT)) with false. cbv iota.
  rewrite Es. cbn [bindx ret Isot]. replace (tiles <=? p_tile q) with false by lia.
  unfold read_part. cbn [mem data]. change (2 + 10 + 2) with 14.
  assert (Hfuel : (length (p_header q) < S (length d))%nat). { pose proof (headers_count C _ F4) as Hc. fold hl in Hc. unfold zlen in Hc at 1. unfold zlen in Hd. lia. }
  rewrite (header_step d n C Hd H32 (p_header q) (p + 12) tl (S (length d)) [] 14 F4 ltac:(lia) E12) by (fold hl; lia). fold hl. cbn [bindx ret app Psot mem data pos len].
  replace (p + 12 + hl + 2) with (p + (14 + hl)) by ring.
  unfold get_remaining. cbn [len pos]. rewrite (wrap32_id (n - (p + (14 + hl)))) by lia. unfold body_len.
  destruct (v =? 0) eqn:Ev.
  - destruct (eoc_offset _ _ _ _); cbn [bind]; [|reflexivity|reflexivity].
    destruct (lift (forward_Nbytes _ _)) as [[[s1 u]|]| |]; reflexivity.
  - rewrite wrap32_id by lia. cbv zeta. cbn [bind].
    replace (if n - (p + (14 + hl)) <? v - (14 + hl) then n - (p + (14 + hl)) else v - (14 + hl)) with (Z.min (v - (14 + hl)) (n - (p + (14 + hl)))) by (destruct (Z.ltb_spec (n - (p + (14 + hl))) (v - (14 + hl))); lia).
    destruct (lift (forward_Nbytes _ _)) as [[[s1 u]|]| |]; reflexivity.
Qed.
Lemma forward_in p m : 0 <= p -> 0 <= m -> p + m <= n -> lift (forward_Nbytes (Src (Some d) p n) m) = ret (Src (Some d) (p + m) n, tt).
Proof. intros. pose proof two32_val. unfold forward_Nbytes. cbn [pos len data]. rewrite wrap32_id by lia. replace (p + m <=? n) with true by lia. reflexivity. Qed.

Lemma part_head_len0 v q : zlen (part_head C v q) = zlen (part_head C 0 q). Proof. rewrite !zlen_part_head. reflexivity. Qed.
(** What is there is found. *)
Lemma found_at p q v tl : part_fits C q -> 0 <= p -> zskip p d = part_head C v q ++ p_body q ++ tl ->
  part_found d q (Tp (Sot (p_tile q) v (p_index q) (p_count q)) (meanings C (p + 12) (p_header q)) (p + zlen (part_head C v q)) (zlen (p_body q))).
Proof.
  intros (F1 & F2 & F3 & F4) Hp E. pose proof (zlen_nonneg (part_head C v q)). split; [reflexivity|]. split; [reflexivity|]. split; [reflexivity|]. split.
  - cbn [tp_segs]. unfold part_head in E. rewrite <- !app_assoc in E.
    apply (header_found_at d C _ _ ([255; 147] ++ p_body q ++ tl) F4); [lia|]. change 12 with (zlen ([255; 144; 0; 10] ++ be16 (p_tile q) ++ be32 v ++ [p_index q; p_count q])).
    apply zskip_at; [exact Hp|]. rewrite E. rewrite <- !app_assoc. reflexivity.
  - cbn [tp_body tp_len]. assert (E2 := zskip_at d p _ _ Hp E). apply (window_at d (p + zlen (part_head C v q)) (p_body q) tl); [lia| |exact E2].
    rewrite app_assoc in E. assert (Hne : part_head C v q ++ p_body q <> []) by (unfold part_head; discriminate).
    pose proof (skipped_len d p _ _ Hp Hne E) as Hl. rewrite zlen_app in Hl. lia.
Qed.

(** All of a sequence. *)
Lemma parts_step tiles : forall l p tl fuel done, Forall (part_fits C) l -> Forall (fun q => p_tile q < tiles) l -> 0 <= p -> zskip p d = flat_map (part_bytes C) l ++ tl ->
  p + zlen (flat_map (part_bytes C) l) <= n -> (length l <= fuel)%nat ->
  exists ts, Forall2 (part_found d) l ts /\ Forall2 (fun q t => Psot (tp_sot t) = part_size C q) l ts /\
    read_parts fuel (Src (Some d) p n) C tiles done = read_parts (fuel - length l) (Src (Some d) (p + zlen (flat_map (part_bytes C) l)) n) C tiles (done ++ ts)
    /\ zskip (p + zlen (flat_map (part_bytes C) l)) d = tl.
Proof.
  induction l as [|q l IH]; intros p tl fuel done Hl Ht Hp E Hn Hf.
  - exists []. cbn [flat_map app length] in *. change (zlen (@nil Z)) with 0 in *. rewrite Z.add_0_r, app_nil_r, Nat.sub_0_r. repeat split; try constructor. exact E.
  - inversion Hl as [|? ? Hq Hl']; subst. inversion Ht as [|? ? Htq Ht']; subst. cbn [flat_map length] in *. rewrite <- app_assoc in E. rewrite zlen_app in *.
    pose proof (zlen_nonneg (part_bytes C q)). pose proof (zlen_nonneg (flat_map (part_bytes C) l)). destruct fuel; [lia|].
    unfold part_bytes at 1 in E. rewrite <- app_assoc in E. pose proof two32_val as T.
    assert (Elen : zlen (part_bytes C q) = part_size C q) by (unfold part_bytes, part_size; rewrite zlen_app, (part_head_len0 (part_size C q)); reflexivity).
    assert (Epos : zlen (part_head C (part_size C q) q) + zlen (p_body q) = part_size C q) by (unfold part_size; rewrite (part_head_len0 (part_size C q)); reflexivity).
    pose proof (zlen_nonneg (p_body q)). pose proof (zlen_part_head C (part_size C q) q) as Eh. pose proof (zlen_nonneg (flat_map (hseg_bytes C) (p_header q))).
    set (hd := zlen (part_head C (part_size C q) q)) in *.
    rewrite (part_step p q (part_size C q) _ Hq Hp E) by (unfold in_dword; fold hd; lia). fold hd. unfold body_len. replace (part_size C q =? 0) with false by lia. cbn [bind].
    replace (Z.min (part_size C q - hd) (n - (p + hd))) with (zlen (p_body q)) by lia.
    rewrite forward_in by lia. cbn [bindx ret]. replace (p + hd + zlen (p_body q)) with (p + zlen (part_bytes C q)) by lia.
    assert (E2 : zskip (p + zlen (part_bytes C q)) d = flat_map (part_bytes C) l ++ tl). { apply zskip_at; [exact Hp|]. rewrite E. unfold part_bytes at 2. rewrite <- app_assoc. reflexivity. }
    destruct (IH (p + zlen (part_bytes C q)) tl fuel (done ++ [Tp (Sot (p_tile q) (part_size C q) (p_index q) (p_count q)) (meanings C (p + 12) (p_header q)) (p + hd) (zlen (p_body q))]) Hl' Ht' ltac:(lia) E2 ltac:(lia) ltac:(lia)) as (ts & F1 & F2 & -> & E3).
    eexists (_ :: ts). split; [constructor; [exact (found_at p q _ _ Hq Hp E)|exact F1]|]. split; [constructor; [reflexivity|exact F2]|]. fold hd. cbn [Nat.sub]. rewrite <- app_assoc. cbn [app]. rewrite Z.add_assoc. split; [reflexivity|exact E3].
Qed.

Lemma end_eoc p tl fuel tiles done : 0 <= p -> p + 2 <= n -> zskip p d = [255; 217] ++ tl -> read_parts (S fuel) (Src (Some d) p n) C tiles done = ret (Src (Some d) (p + 2) n, done).
Proof.
  intros Hp Hn E. pose proof two32_val. destruct (word_be16_at d p 65497 tl ltac:(unfold in_word; lia) Hp E) as (Ew & _).
  cbn [read_parts]. unfold get_remaining. cbn [len pos]. rewrite wrap32_id by lia. replace (n - p <? 2) with false by lia. rewrite lift_word by lia. replace (n - 2 <? p) with false by lia. cbn [bindx ret]. rewrite Ew. reflexivity.
Qed.
Lemma end_short p fuel tiles done : 0 <= p <= n -> n < p + 2 -> read_parts (S fuel) (Src (Some d) p n) C tiles done = ret (Src (Some d) p n, done).
Proof. intros Hp Hn. pose proof two32_val. cbn [read_parts]. unfold get_remaining. cbn [len pos]. rewrite wrap32_id by lia. replace (n - p <? 2) with true by lia. reflexivity. Qed.
(** A last tile-part of whose body only [b] is there. *)
Lemma cut_step p q b v tl : part_fits C q -> in_dword v -> 0 <= p -> zskip p d = part_head C v q ++ b ++ tl -> n = p + zlen (part_head C v q) + zlen b ->
  zlen (part_head C v q) + zlen b <= v ->
  forall fuel tiles done, p_tile q < tiles -> exists t, part_found d (Part (p_tile q) (p_index q) (p_count q) (p_header q) b) t /\
    read_parts (S (S fuel)) (Src (Some d) p n) C tiles done = ret (Src (Some d) n n, done ++ [t]).
Proof.
  intros Hq Hv Hp E Hn Hle fuel tiles done Ht. pose proof (zlen_nonneg b). pose proof (zlen_part_head C v q) as Eh. pose proof (zlen_nonneg (flat_map (hseg_bytes C) (p_header q))).
  eexists. split; [exact (found_at p (Part (p_tile q) (p_index q) (p_count q) (p_header q) b) v tl Hq Hp E)|]. cbn [p_tile p_index p_count p_header p_body].
  change (part_head C v {| p_tile := p_tile q; p_index := p_index q; p_count := p_count q; p_header := p_header q; p_body := b |}) with (part_head C v q).
  set (hd := zlen (part_head C v q)) in *. rewrite (part_step p q v _ Hq Hp E Hv) by (fold hd; lia). fold hd. unfold body_len. replace (v =? 0) with false by lia. cbn [bind].
  replace (Z.min (v - hd) (n - (p + hd))) with (zlen b) by lia. rewrite forward_in by lia. cbn [bindx ret]. replace (p + hd + zlen b) with n by lia. rewrite end_short by lia. reflexivity.
Qed.

Lemma cons_inj {A} (a b : A) l m : a :: l = b :: m -> a = b /\ l = m. Proof. intros H. injection H as -> ->. split; reflexivity. Qed.
(** The backward search. *)
Lemma eoc_search p b tl dflt : 0 <= p -> zskip p d = b ++ [255; 217] ++ tl -> forall i, zlen b + 2 <= Z.of_nat i -> p + Z.of_nat i <= zlen d ->
  (forall j, zlen b < j -> j + 2 <= Z.of_nat i -> ~ (znth 0 d (p + j) = 255 /\ znth 0 d (p + j + 1) = 217)) -> eoc_offset d p i dflt = Ret (zlen b).
Proof.
  intros Hp E. pose proof (zlen_nonneg b). assert (E2 := zskip_at d p _ _ Hp E).
  assert (Hb : znth 0 d (p + zlen b) = 255 /\ znth 0 d (p + zlen b + 1) = 217).
  { destruct (word_be16_at d (p + zlen b) 65497 tl ltac:(unfold in_word; lia) ltac:(lia) E2) as (_ & _ & Hl).
    rewrite (zskip_cons_nth 0 d (p + zlen b)) in E2 by lia. rewrite (zskip_cons_nth 0 d (p + zlen b + 1)) in E2 by lia.
    apply cons_inj in E2 as [H1 E2]. apply cons_inj in E2 as [H2 _]. split; assumption. }
  induction i as [|i IH]; intros Hi Hl Hno; [lia|]. cbn [eoc_offset]. replace (Z.of_nat (S i) <? 2) with false by lia.
  rewrite !rd_in by lia. cbn [bind]. destruct (Z.eq_dec (Z.of_nat (S i)) (zlen b + 2)) as [Ei|Ei].
  - rewrite Ei. replace (p + (zlen b + 2) - 2) with (p + zlen b) by ring. replace (p + (zlen b + 2) - 1) with (p + zlen b + 1) by ring. destruct Hb as [-> ->]. cbn. f_equal. lia.
  - assert (Hall := Hno). specialize (Hno (Z.of_nat (S i) - 2) ltac:(lia) ltac:(lia)). replace (p + (Z.of_nat (S i) - 2)) with (p + Z.of_nat (S i) - 2) in Hno by ring. replace (p + Z.of_nat (S i) - 2 + 1) with (p + Z.of_nat (S i) - 1) in Hno by ring.
    destruct ((znth 0 d (p + Z.of_nat (S i) - 2) =? 255) && (znth 0 d (p + Z.of_nat (S i) - 1) =? 217)) eqn:Eb.
    + exfalso. apply Hno. apply andb_prop in Eb as [A B]. split; lia.
    + apply IH; [lia|lia|]. intros j H1 H2. apply Hall; lia.
Qed.
(** A last tile-part that goes up to EOC. *)
Lemma open_step p q tl : part_fits C q -> 0 <= p -> zskip p d = part_head C 0 q ++ p_body q ++ [255; 217] ++ tl -> p + zlen (part_head C 0 q) + zlen (p_body q) + 2 <= n ->
  (forall j, p + zlen (part_head C 0 q) + zlen (p_body q) < j -> j + 2 <= n -> ~ (znth 0 d j = 255 /\ znth 0 d (j + 1) = 217)) ->
  forall fuel tiles done, p_tile q < tiles -> exists t, part_found d q t /\
    read_parts (S (S fuel)) (Src (Some d) p n) C tiles done = ret (Src (Some d) (p + zlen (part_head C 0 q) + zlen (p_body q) + 2) n, done ++ [t]).
Proof.
  intros Hq Hp E Hn Hno fuel tiles done Ht. pose proof (zlen_nonneg (p_body q)). pose proof (zlen_part_head C 0 q) as Eh. pose proof (zlen_nonneg (flat_map (hseg_bytes C) (p_header q))).
  eexists. split; [exact (found_at p q 0 _ Hq Hp E)|]. set (hd := zlen (part_head C 0 q)) in *. assert (E1 := zskip_at d p _ _ Hp E). fold hd in E1.
  assert (E2 := zskip_at d (p + hd) _ _ ltac:(lia) E1).
  rewrite (part_step p q 0 _ Hq Hp E) by (unfold in_dword; fold hd; lia). fold hd. unfold body_len. replace (0 =? 0) with true by reflexivity.
  rewrite (eoc_search (p + hd) (p_body q) tl) by (try assumption; try lia; intros j H3 H4 H5; apply (Hno (p + hd + j)); try lia; exact H5).
  cbn [bind]. rewrite forward_in by lia. cbn [bindx ret]. rewrite (end_eoc _ tl) by (try assumption; lia). reflexivity.
Qed.
End Parts.

Lemma tiles_of x : grid_ok x -> exists nx ny, get_number_of_tiles x = Ret (nx, ny) /\ nx * ny = grid x /\ (65535 <? wrap32 (nx * ny)) = false.
Proof.
  intros (H1 & H2 & H3 & H4 & H5 & H6 & H7). pose proof two32_val as T. unfold grid in *. exists (cdiv (Xsiz x - XTOsiz x) (XTsiz x)), (cdiv (Ysiz x - YTOsiz x) (YTsiz x)).
  assert (forall a b, 1 <= b -> 0 <= a -> 0 <= cdiv a b) as Hnn by (intros; unfold cdiv; apply Z.div_pos; lia).
  pose proof (Hnn (Xsiz x - XTOsiz x) (XTsiz x) ltac:(lia) ltac:(lia)). pose proof (Hnn (Ysiz x - YTOsiz x) (YTsiz x) ltac:(lia) ltac:(lia)).
  split; [|split; [reflexivity|rewrite wrap32_id by nia; lia]].
  unfold get_number_of_tiles, ceil_int, cdiv. replace (XTsiz x =? 0) with false by lia. replace (YTsiz x =? 0) with false by lia. cbn [bind].
  rewrite (wrap32_id (Xsiz x - XTOsiz x)), (wrap32_id (Ysiz x - YTOsiz x)), (wrap32_id (XTsiz x - 1)), (wrap32_id (YTsiz x - 1)) by lia. rewrite !wrap32_id by lia. rewrite !Z.add_sub_assoc. reflexivity.
Qed.
Lemma read_tiles_eq s h x : header_ok h x -> read_tiles s h = read_parts (S (length (mem s))) s (Csiz x) (grid x) [].
Proof.
  intros (H1 & H2 & H3 & H4). unfold read_tiles. rewrite H1. destruct (h_cod h); [|contradiction]. destruct (h_qcd h); [|contradiction].
  destruct (tiles_of x H2) as (nx & ny & -> & <- & E). cbn [bind]. rewrite E. reflexivity.
Qed.
Lemma parts_count C l : zlen l <= zlen (flat_map (part_bytes C) l).
Proof.
  induction l as [|q l IH]; [reflexivity|]. cbn [flat_map]. rewrite zlen_app, zlen_cons. unfold part_bytes at 1. rewrite zlen_app, zlen_part_head.
  pose proof (zlen_nonneg (p_body q)). pose proof (zlen_nonneg (flat_map (hseg_bytes C) (p_header q))). lia.
Qed.
