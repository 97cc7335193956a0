(** C68, C69, C70: tile-parts are found as they were laid out; what the encoder writes is
    as long as it says. *)
From Coq Require Import Permutation.
From Verif Require Import Base BaseLemmas SourceModel MarkerModel MarkerSafe MarkerRound HeaderRound MarkerSpec MarkerProps TileModel TileSpec TileProofs TileSafe.

Lemma skip_before (a b : list Z) : zskip (zlen a) (a ++ b) = b. Proof. apply zskip_app. reflexivity. Qed.
Lemma mem_len s : zlen (mem s) = Z.of_nat (length (mem s)). Proof. reflexivity. Qed.

Lemma Forall2_imp {A B} (P Q : A -> B -> Prop) l m : (forall a b, P a b -> Q a b) -> Forall2 P l m -> Forall2 Q l m.
Proof. induction 2; constructor; auto. Qed.

(** ** Reading *)
Theorem C68_tile_parts : forall h x parts before after pad,
  let C := Csiz x in let stream := before ++ flat_map (part_bytes C) parts ++ [255; 217] ++ after in
  header_ok h x -> Forall (part_fits C) parts -> Forall (fun q => p_tile q < grid x) parts -> zlen stream <= 2 ^ 32 - 65552 ->
  exists ts, read_tiles (Src (Some (stream ++ pad)) (zlen before) (zlen stream)) h
             = ret (Src (Some (stream ++ pad)) (zlen stream - zlen after) (zlen stream), ts)
    /\ Forall2 (part_found (stream ++ pad)) parts ts /\ Forall2 (fun q t => Psot (tp_sot t) = zlen (part_bytes C q)) parts ts.
Proof.
  intros h x parts before after pad C stream Hh Hf Ht Hn. rewrite (read_tiles_eq _ _ _ Hh). fold C. set (d := stream ++ pad).
  assert (Hd : zlen stream <= zlen d) by (unfold d; rewrite zlen_app; pose proof (zlen_nonneg pad); lia). assert (H32 : zlen stream <= two32 - 65552) by exact Hn.
  assert (E : zskip (zlen before) d = flat_map (part_bytes C) parts ++ ([255; 217] ++ after ++ pad)) by (unfold d, stream; rewrite <- !app_assoc; apply skip_before).
  assert (Hl : zlen stream = zlen before + (zlen (flat_map (part_bytes C) parts) + (2 + zlen after))) by (unfold stream; rewrite !zlen_app; reflexivity).
  pose proof (zlen_nonneg before). pose proof (zlen_nonneg after). pose proof (parts_count C parts) as Hc. cbn [mem data].
  destruct (parts_step d (zlen stream) C Hd H32 (grid x) parts (zlen before) _ (S (length d)) [] Hf Ht ltac:(lia) E ltac:(lia) ltac:(unfold zlen in *; lia)) as (ts & F1 & F2 & -> & E2).
  exists ts. split; [|split; [exact F1|]].
  - assert (exists k, (S (length d) - length parts = S k)%nat) as [k ->] by (exists (length d - length parts)%nat; unfold zlen in *; lia).
    rewrite (end_eoc d (zlen stream) C Hd H32 (zlen before + zlen (flat_map (part_bytes C) parts)) (after ++ pad)) by (try exact E2; pose proof (zlen_nonneg (flat_map (part_bytes C) parts)); lia). cbn [app]. do 3 f_equal. lia.
  - eapply Forall2_imp; [|exact F2]. intros q t ->. unfold part_bytes, part_size. rewrite zlen_app, (part_head_len0 _ (_ + _)). reflexivity.
Qed.
Print Assumptions C68_tile_parts.

(** The last tile-part cut off anywhere in its body, and the stream with it. *)
Theorem C68_truncated : forall h x parts last kept lost before pad,
  let C := Csiz x in let stream := before ++ flat_map (part_bytes C) parts ++ part_head C (part_size C last) last ++ kept in
  header_ok h x -> Forall (part_fits C) (parts ++ [last]) -> Forall (fun q => p_tile q < grid x) (parts ++ [last]) ->
  p_body last = kept ++ lost -> part_size C last < 2 ^ 32 -> zlen stream <= 2 ^ 32 - 65552 ->
  exists ts, read_tiles (Src (Some (stream ++ pad)) (zlen before) (zlen stream)) h = ret (Src (Some (stream ++ pad)) (zlen stream) (zlen stream), ts)
    /\ Forall2 (part_found (stream ++ pad)) (parts ++ [Part (p_tile last) (p_index last) (p_count last) (p_header last) kept]) ts.
Proof.
  intros h x parts last kept lost before pad C stream Hh Hf Ht Hb Hs Hn. rewrite (read_tiles_eq _ _ _ Hh). fold C. set (d := stream ++ pad).
  apply Forall_app in Hf as [Hf Hf1]. inversion Hf1 as [|? ? Hfl _]; subst. apply Forall_app in Ht as [Ht Ht1]. inversion Ht1 as [|? ? Htl _]; subst.
  assert (Hd : zlen stream <= zlen d) by (unfold d; rewrite zlen_app; pose proof (zlen_nonneg pad); lia). assert (H32 : zlen stream <= two32 - 65552) by exact Hn.
  assert (E : zskip (zlen before) d = flat_map (part_bytes C) parts ++ (part_head C (part_size C last) last ++ kept ++ pad)) by (unfold d, stream; rewrite <- !app_assoc; apply skip_before).
  assert (Hl : zlen stream = zlen before + (zlen (flat_map (part_bytes C) parts) + (zlen (part_head C (part_size C last) last) + zlen kept))) by (unfold stream; rewrite !zlen_app; reflexivity).
  pose proof (zlen_nonneg before). pose proof (zlen_nonneg kept). pose proof (zlen_nonneg lost). pose proof (parts_count C parts) as Hc. cbn [mem data].
  pose proof (zlen_part_head C (part_size C last) last) as Eh. pose proof (zlen_nonneg (flat_map (hseg_bytes C) (p_header last))). pose proof (zlen_nonneg (flat_map (part_bytes C) parts)).
  destruct (parts_step d (zlen stream) C Hd H32 (grid x) parts (zlen before) _ (S (length d)) [] Hf Ht ltac:(lia) E ltac:(lia) ltac:(unfold zlen in *; lia)) as (ts & F1 & F2 & -> & E2).
  assert (exists k, (S (length d) - length parts = S (S k))%nat) as [k ->] by (exists (length d - length parts - 1)%nat; unfold zlen in *; lia).
  assert (Es : part_size C last = zlen (part_head C (part_size C last) last) + (zlen kept + zlen lost)) by (unfold part_size at 1; rewrite Hb, zlen_app, (part_head_len0 C (part_size C last)); reflexivity).
  destruct (cut_step d (zlen stream) C Hd H32 (zlen before + zlen (flat_map (part_bytes C) parts)) last kept (part_size C last) pad Hfl ltac:(unfold in_dword; lia) ltac:(lia) E2 ltac:(lia) ltac:(lia) k (grid x) ([] ++ ts) Htl) as (t & Ft & ->).
  exists (ts ++ [t]). split; [reflexivity|]. apply Forall2_app; [exact F1|]. constructor; [exact Ft|constructor].
Qed.
Print Assumptions C68_truncated.

(** The stream ends between two tile-parts, or one byte later. *)
Theorem C68_no_eoc : forall h x parts before rest pad,
  let C := Csiz x in let stream := before ++ flat_map (part_bytes C) parts ++ rest in
  header_ok h x -> Forall (part_fits C) parts -> Forall (fun q => p_tile q < grid x) parts -> zlen rest <= 1 -> zlen stream <= 2 ^ 32 - 65552 ->
  exists ts, read_tiles (Src (Some (stream ++ pad)) (zlen before) (zlen stream)) h
             = ret (Src (Some (stream ++ pad)) (zlen stream - zlen rest) (zlen stream), ts)
    /\ Forall2 (part_found (stream ++ pad)) parts ts.
Proof.
  intros h x parts before rest pad C stream Hh Hf Ht Hr Hn. rewrite (read_tiles_eq _ _ _ Hh). fold C. set (d := stream ++ pad).
  assert (Hd : zlen stream <= zlen d) by (unfold d; rewrite zlen_app; pose proof (zlen_nonneg pad); lia). assert (H32 : zlen stream <= two32 - 65552) by exact Hn.
  assert (E : zskip (zlen before) d = flat_map (part_bytes C) parts ++ (rest ++ pad)) by (unfold d, stream; rewrite <- !app_assoc; apply skip_before).
  assert (Hl : zlen stream = zlen before + (zlen (flat_map (part_bytes C) parts) + zlen rest)) by (unfold stream; rewrite !zlen_app; reflexivity).
  pose proof (zlen_nonneg before). pose proof (zlen_nonneg rest). pose proof (parts_count C parts) as Hc. pose proof (zlen_nonneg (flat_map (part_bytes C) parts)). cbn [mem data].
  destruct (parts_step d (zlen stream) C Hd H32 (grid x) parts (zlen before) _ (S (length d)) [] Hf Ht ltac:(lia) E ltac:(lia) ltac:(unfold zlen in *; lia)) as (ts & F1 & F2 & -> & E2).
  assert (exists k, (S (length d) - length parts = S k)%nat) as [k ->] by (exists (length d - length parts)%nat; unfold zlen in *; lia).
  exists ts. split; [|exact F1]. rewrite end_short by lia. cbn [app]. do 3 f_equal. lia.
Qed.
Print Assumptions C68_no_eoc.

Lemma no_pair_at (a : list Z) j : (forall u v, a <> u ++ [255; 217] ++ v) -> 0 <= j -> j + 2 <= zlen a -> ~ (znth 0 a j = 255 /\ znth 0 a (j + 1) = 217).
Proof.
  intros Hno Hj Hl [H1 H2]. apply (Hno (ztake j a) (zskip (j + 1 + 1) a)). rewrite <- H1 at 1. rewrite <- H2 at 1. rewrite <- (ztake_zskip j a) at 1. f_equal.
  rewrite (zskip_cons_nth 0 a j) by lia. rewrite (zskip_cons_nth 0 a (j + 1)) by lia. reflexivity.
Qed.
(** A last tile-part without a length: it goes up to the last EOC marker, and
    there may be anything but another one behind that. *)
Theorem C68_open_last : forall h x parts last before after pad,
  let C := Csiz x in let stream := before ++ flat_map (part_bytes C) parts ++ part_head C 0 last ++ p_body last ++ [255; 217] ++ after in
  header_ok h x -> Forall (part_fits C) (parts ++ [last]) -> Forall (fun q => p_tile q < grid x) (parts ++ [last]) ->
  (forall u v, after <> u ++ [255; 217] ++ v) -> zlen stream <= 2 ^ 32 - 65552 ->
  exists ts, read_tiles (Src (Some (stream ++ pad)) (zlen before) (zlen stream)) h
             = ret (Src (Some (stream ++ pad)) (zlen stream - zlen after) (zlen stream), ts)
    /\ Forall2 (part_found (stream ++ pad)) (parts ++ [last]) ts.
Proof.
  intros h x parts last before after pad C stream Hh Hf Ht Ha Hn. rewrite (read_tiles_eq _ _ _ Hh). fold C. set (d := stream ++ pad).
  apply Forall_app in Hf as [Hf Hf1]. inversion Hf1 as [|? ? Hfl _]; subst. apply Forall_app in Ht as [Ht Ht1]. inversion Ht1 as [|? ? Htl _]; subst.
  assert (Hd : zlen stream <= zlen d) by (unfold d; rewrite zlen_app; pose proof (zlen_nonneg pad); lia). assert (H32 : zlen stream <= two32 - 65552) by exact Hn.
  assert (E : zskip (zlen before) d = flat_map (part_bytes C) parts ++ (part_head C 0 last ++ p_body last ++ [255; 217] ++ after ++ pad)) by (unfold d, stream; rewrite <- !app_assoc; apply skip_before).
  assert (Hl : zlen stream = zlen before + (zlen (flat_map (part_bytes C) parts) + (zlen (part_head C 0 last) + (zlen (p_body last) + (2 + zlen after))))) by (unfold stream; rewrite !zlen_app; reflexivity).
  pose proof (zlen_nonneg before). pose proof (zlen_nonneg after). pose proof (zlen_nonneg (p_body last)). pose proof (parts_count C parts) as Hc. cbn [mem data].
  pose proof (zlen_part_head C 0 last) as Eh. pose proof (zlen_nonneg (flat_map (hseg_bytes C) (p_header last))). pose proof (zlen_nonneg (flat_map (part_bytes C) parts)).
  destruct (parts_step d (zlen stream) C Hd H32 (grid x) parts (zlen before) _ (S (length d)) [] Hf Ht ltac:(lia) E ltac:(lia) ltac:(unfold zlen in *; lia)) as (ts & F1 & F2 & -> & E2).
  assert (exists k, (S (length d) - length parts = S (S k))%nat) as [k ->] by (exists (length d - length parts - 1)%nat; unfold zlen in *; lia).
  set (p := zlen before + zlen (flat_map (part_bytes C) parts)) in *. set (e := p + zlen (part_head C 0 last) + zlen (p_body last)).
  assert (E3 : zskip e d = 255 :: 217 :: after ++ pad) by (unfold e; apply (zskip_at d (p + zlen (part_head C 0 last))); [lia|]; apply zskip_at; [lia|exact E2]).
  assert (Hno : forall j, e < j -> j + 2 <= zlen stream -> ~ (znth 0 d j = 255 /\ znth 0 d (j + 1) = 217)).
  { intros j Hj Hj2 [H6 H7]. assert (Hat : forall i, 0 <= i -> znth 0 d (e + i) = znth 0 (255 :: 217 :: after ++ pad) i). { intros i Hi. rewrite <- E3, znth_zskip by lia. reflexivity. }
    replace j with (e + (j - e)) in H6, H7 by ring. replace (e + (j - e) + 1) with (e + (j - e + 1)) in H7 by ring. rewrite Hat in H6, H7 by lia.
    destruct (Z.eq_dec (j - e) 1) as [E1|E1]; [rewrite E1 in H6; discriminate H6|].
    apply (no_pair_at after (j - e - 2) Ha); [lia|unfold e in *; lia|].
    change (255 :: 217 :: after ++ pad) with ([255; 217] ++ after ++ pad) in H6, H7. rewrite znth_app_r in H6, H7 by (change (zlen [255; 217]) with 2; lia). change (zlen [255; 217]) with 2 in H6, H7.
    rewrite znth_app_l in H6, H7 by (unfold e in *; lia). replace (j - e - 2 + 1) with (j - e + 1 - 2) by ring. split; assumption. }
  destruct (open_step d (zlen stream) C Hd H32 p last _ Hfl ltac:(lia) E2 ltac:(lia) Hno k (grid x) ([] ++ ts) Htl) as (t & Ft & ->).
  exists (ts ++ [t]). split; [do 3 f_equal; lia|]. apply Forall2_app; [exact F1|]. constructor; [exact Ft|constructor].
Qed.
Print Assumptions C68_open_last.

(** ** Writing *)
Lemma packets_sent t : packets t = sent_packets t.
Proof.
  unfold packets, sent_packets. generalize 0. induction (walk t) as [|i l IH]; intros k; [reflexivity|]. cbn [packets_from map sent]. rewrite IH. f_equal. unfold sop_bytes. destruct (sop t); [|reflexivity].
  rewrite <- (be16_w16 (k mod 65536)) by (unfold in_word; apply Z.mod_pos_bound; lia). reflexivity.
Qed.
Lemma sum_len_perm a b : Permutation a b -> sum_len a = sum_len b.
Proof. induction 1; cbn [sum_len fold_right] in *; unfold sum_len in *; cbn [fold_right]; lia. Qed.
Lemma sent_len s : forall l k, zlen (sent s k l) = (if s then 6 else 0) * zlen l + sum_len l.
Proof.
  induction l as [|b l IH]; intros k; [destruct s; reflexivity|]. cbn [sent]. rewrite !zlen_app, IH, zlen_cons. unfold sum_len. cbn [fold_right]. destruct s; [rewrite zlen_app; change (zlen [255; 145; 0; 4]) with 4; rewrite zlen_be16|change (zlen (@nil Z)) with 0]; lia.
Qed.
Lemma pick_all {A} (d : A) l : map (znth d l) (zseq (zlen l)) = l.
Proof.
  apply nth_ext with d d; unfold zseq; rewrite !map_length, seq_length; [unfold zlen; lia|]. intros n Hn.
  rewrite nth_indep with (d' := znth d l 0) by (rewrite !map_length, seq_length; exact Hn). rewrite map_map.
  rewrite (map_nth (fun k => znth d l (Z.of_nat k)) _ 0%nat). rewrite seq_nth by exact Hn. unfold znth. f_equal. lia.
Qed.
Lemma sum_len_nonneg l : 0 <= sum_len l.
Proof. induction l as [|b l IH]; [reflexivity|]. unfold sum_len in *. cbn [fold_right]. pose proof (zlen_nonneg b). lia. Qed.
Lemma sent_packets_len t : each_once t -> zlen (sent_packets t) = (if sop t then 6 else 0) * zlen (precincts t) + sum_len (precincts t).
Proof.
  intros H. unfold sent_packets. rewrite sent_len. apply (Permutation_map (znth [] (precincts t))) in H. rewrite pick_all in H.
  rewrite (sum_len_perm _ _ H). f_equal. f_equal. unfold zlen. rewrite (Permutation_length H). reflexivity.
Qed.
Lemma part_size_sent C i t : part_size C (sent_part i t) = 14 + zlen (sent_packets t).
Proof. reflexivity. Qed.
Lemma tile_part_size_ok t : each_once t -> layers t = 1 -> 14 + zlen (sent_packets t) < two32 -> tile_part_size t = 14 + zlen (sent_packets t).
Proof.
  intros H HL Hs. rewrite sent_packets_len in * by exact H. unfold tile_part_size, tile_length. rewrite HL, Z.mul_1_r. pose proof (sum_len_nonneg (precincts t)). pose proof (zlen_nonneg (precincts t)). pose proof two32_val.
  destruct (sop t).
  - rewrite (wrap32_id (zlen (precincts t))) by lia. rewrite (wrap32_id (sum_len (precincts t))), (wrap32_id (6 * zlen (precincts t) * 1)) by lia. rewrite wrap32_id by lia. lia.
  - rewrite Z.mul_0_r. change (wrap32 0) with 0. rewrite (wrap32_id (sum_len _)) by lia. rewrite wrap32_id by lia. lia.
Qed.
Lemma write_part_ok C i t : each_once t -> layers t = 1 -> in_word i -> 14 + zlen (sent_packets t) < two32 -> write_part i t = part_bytes C (sent_part i t).
Proof.
  intros H HL Hi Hs. unfold write_part, part_bytes. rewrite part_size_sent, tile_part_size_ok, packets_sent by assumption. unfold part_head, sent_part. cbn [p_tile p_index p_count p_header p_body flat_map].
  rewrite be16_w16 by exact Hi. rewrite be32_w32 by (unfold in_dword; rewrite two32_val in Hs; pose proof (zlen_nonneg (sent_packets t)); lia). rewrite <- !app_assoc. reflexivity.
Qed.
Lemma write_parts_ok C : forall l i, Forall each_once l -> Forall (fun t => layers t = 1) l -> 0 <= i -> i + zlen l <= 65536 -> zlen (flat_map (part_bytes C) (sent_parts i l)) < two32 ->
  write_parts i l = flat_map (part_bytes C) (sent_parts i l) /\ map tile_part_size l = map (fun q => zlen (part_bytes C q)) (sent_parts i l)
  /\ fold_right (fun t n => tile_part_size t + n) 0 l = zlen (flat_map (part_bytes C) (sent_parts i l)).
Proof.
  induction l as [|t l IH]; intros i H HL Hi Hl Hs; [repeat split|]. inversion H as [|? ? Ht H']; subst. inversion HL as [|? ? HLt HL']; subst. cbn [sent_parts flat_map write_parts map fold_right] in *.
  rewrite zlen_app, zlen_cons in *. pose proof (zlen_nonneg (flat_map (part_bytes C) (sent_parts (i + 1) l))). pose proof (zlen_nonneg l). pose proof (zlen_nonneg (part_bytes C (sent_part i t))).
  destruct (IH (i + 1) H' HL' ltac:(lia) ltac:(lia) ltac:(lia)) as (-> & -> & ->).
  assert (Ez : zlen (part_bytes C (sent_part i t)) = 14 + zlen (sent_packets t)) by (unfold part_bytes; rewrite zlen_app, zlen_part_head; reflexivity).
  rewrite (write_part_ok C) by (try assumption; unfold in_word; lia). rewrite tile_part_size_ok by (try assumption; lia). rewrite Ez. repeat split.
Qed.
Lemma sent_parts_fit C : forall l i tiles, 0 <= i -> i + zlen l <= 65536 -> i + zlen l <= tiles -> Forall (part_fits C) (sent_parts i l) /\ Forall (fun q => p_tile q < tiles) (sent_parts i l).
Proof.
  induction l as [|t l IH]; intros i tiles Hi Hl Ht; [split; constructor|]. cbn [sent_parts]. rewrite zlen_cons in *. pose proof (zlen_nonneg l). destruct (IH (i + 1) tiles ltac:(lia) ltac:(lia) ltac:(lia)) as [F1 F2].
  split; constructor; auto; [|cbn; lia]. unfold part_fits, sent_part, in_word, in_byte. cbn. repeat split; try lia. constructor.
Qed.

Theorem C70_lengths_partial : forall x0 P Q qf steps csteps tiles bytes pad,
  sizes_ok x0 -> tiles_fit x0 -> image_ok x0 -> coding_ok P -> 0 <= p_guard Q <= 7 -> steps_ok P (p_derived Q && negb qf) steps ->
  (qf = true -> forall i, 0 <= i < Csiz x0 - 1 -> steps_ok P false (znth [] csteps i)) ->
  columns x0 * rows x0 <= 10921 -> zlen tiles = columns x0 * rows x0 -> Forall each_once tiles -> Forall (fun t => layers t = 1) tiles ->
  encoder_header x0 P Q qf steps csteps (map tile_part_size tiles) = ret bytes ->
  let parts := sent_parts 0 tiles in let stream := bytes ++ flat_map (part_bytes (Csiz x0)) parts ++ [255; 217] in
  zlen stream <= 2 ^ 32 - 65552 ->
  write_to_memory bytes tiles = Ret stream /\ write_to_file bytes tiles = stream /\ codestream_size bytes tiles = zlen stream
  /\ exists h ts, parse_main (Src (Some (stream ++ pad)) 0 (zlen stream)) hdr0 = ret (Src (Some (stream ++ pad)) (zlen bytes) (zlen stream), h)
     /\ read_tiles (Src (Some (stream ++ pad)) (zlen bytes) (zlen stream)) h = ret (Src (Some (stream ++ pad)) (zlen stream) (zlen stream), ts)
     /\ Forall2 (part_found (stream ++ pad)) parts ts
     /\ finds_lengths (columns x0 * rows x0) (map (fun q => zlen (part_bytes (Csiz x0) q)) parts) h.
Proof.
  intros x0 P0 Q qf steps csteps tiles bytes pad Hok Hfit Himg Hcod Hg Hst Hcst Hmax Hnt Honce Hlay Henc parts stream Hn. set (C := Csiz x0) in *.
  assert (Hn' : zlen stream <= two32 - 65552) by exact Hn. pose proof two32_val as T.
  assert (Hls : zlen stream = zlen bytes + (zlen (flat_map (part_bytes C) parts) + 2)) by (unfold stream; rewrite !zlen_app; reflexivity). pose proof (zlen_nonneg bytes).
  destruct (write_parts_ok C tiles 0 Honce Hlay ltac:(lia) ltac:(lia) ltac:(fold parts; lia)) as (Ew & Em & Ef). fold parts in Ew, Em, Ef.
  assert (Ewf : write_to_file bytes tiles = stream) by (unfold write_to_file; rewrite Ew; reflexivity).
  assert (Esz : codestream_size bytes tiles = zlen stream) by (unfold codestream_size; rewrite Ef; lia).
  split. { unfold write_to_memory. fold (write_to_file bytes tiles). cbv zeta. rewrite Ewf, Esz, Z.ltb_irrefl, Z.sub_diag. cbn [Z.to_nat repeat]. rewrite app_nil_r. reflexivity. }
  split; [exact Ewf|]. split; [exact Esz|].
  destruct Himg as ((I1 & I2) & (I3 & I4) & I5 & I6). pose proof (so_fields _ Hok) as (S1 & S2 & S3 & S4 & S5 & S6 & S7 & S8 & S9). unfold in_dword in *.
  assert (Hcol : 1 <= columns x0) by (unfold columns; apply Z.div_le_lower_bound; lia). assert (Hrow : 1 <= rows x0) by (unfold rows; apply Z.div_le_lower_bound; lia).
  destruct tiles as [|t0 tiles]; [change (zlen (@nil coded_tile)) with 0 in Hnt; nia|].
  set (rest := zskip 2 (flat_map (part_bytes C) parts ++ [255; 217])).
  assert (Es : stream = bytes ++ [255; 144] ++ rest) by reflexivity.
  assert (Hld : Forall in_dword (map tile_part_size (t0 :: tiles))). { apply Forall_forall. intros v Hv. apply in_map_iff in Hv as (t & <- & _). unfold tile_part_size, in_dword. rewrite <- two32_val. apply wrap_range. }
  assert (Hlr : zlen stream = zlen bytes + 2 + zlen rest) by (rewrite Es, !zlen_app; change (zlen [255; 144]) with 2; ring).
  destruct (C63_header_round_trip x0 P0 Q qf steps csteps _ bytes rest pad (zlen stream) Hok Hfit Hcod Hg Hst Hcst Hmax ltac:(unfold zlen in *; rewrite map_length; exact Hnt) Hld Henc Hlr ltac:(lia)) as (h & Hp & Hsz & Hc & Hq & _ & _ & Hlen & _).
  rewrite <- Es in Hp. destruct Hsz as (x & Hx & X1 & X2 & X3 & X4 & X5 & X6 & X7 & X8 & X9 & X10). destruct Hc as (c & Hc & _). destruct Hq as (q & Hq & _).
  assert (XT : XTsiz x = fst (tile_size x0) /\ YTsiz x = snd (tile_size x0)) by (rewrite <- X7; split; reflexivity). destruct XT as [XT YT]. destruct Hfit as (_ & HfX & HfY).
  assert (Hgr : grid x = columns x0 * rows x0). { unfold grid, cdiv, columns, rows. rewrite X1, X2, X5, X6, XT, YT. reflexivity. }
  assert (Hho : header_ok h x). { split; [exact Hx|]. split; [|rewrite Hc, Hq; split; discriminate]. unfold grid_ok. rewrite Hgr, X1, X2, X5, X6, XT, YT. repeat split; lia. }
  destruct (sent_parts_fit C (t0 :: tiles) 0 (grid x) ltac:(lia) ltac:(lia) ltac:(lia)) as [F1 F2]. fold parts in F1, F2.
  assert (XC : Csiz x = C) by exact X8. rewrite <- XC in F1.
  destruct (C68_tile_parts h x parts bytes [] pad Hho F1 F2) as (ts & Hr & Hts & _). { rewrite XC. exact Hn. }
  rewrite XC in Hr, Hts. change ([255; 217] ++ []) with [255; 217] in Hr, Hts. fold stream in Hr, Hts. change (zlen (@nil Z)) with 0 in Hr. rewrite Z.sub_0_r in Hr.
  exists h, ts. split; [exact Hp|]. split; [exact Hr|]. split; [exact Hts|]. rewrite <- Em. exact Hlen.
Qed.
Print Assumptions C70_lengths_partial.

(** With several layers the lengths count every packet once, and each is sent
    once for every layer: the output runs over the buffer made for it, and in a
    file the announced length is short of the tile-part. *)
Definition two_layers : coded_tile := Coded [[1; 2; 3]; [4; 5]] [0; 1; 0; 1] 2 false.
Theorem C70_layers_refuted : forall header,
  write_to_memory header [two_layers] = UB
  /\ write_to_file header [two_layers] = header ++ [255; 144; 0; 10; 0; 0; 0; 0; 0; 19; 0; 1; 255; 147; 1; 2; 3; 4; 5; 1; 2; 3; 4; 5] ++ [255; 217].
Proof.
  intros header. split; [|reflexivity]. unfold write_to_memory. cbv zeta. change (write_parts 0 [two_layers]) with [255; 144; 0; 10; 0; 0; 0; 0; 0; 19; 0; 1; 255; 147; 1; 2; 3; 4; 5; 1; 2; 3; 4; 5].
  unfold codestream_size. change (fold_right (fun t n => tile_part_size t + n) 0 [two_layers]) with 19. rewrite !zlen_app. change (zlen [255; 217]) with 2. change (zlen [255; 144; 0; 10; 0; 0; 0; 0; 0; 19; 0; 1; 255; 147; 1; 2; 3; 4; 5; 1; 2; 3; 4; 5]) with 24.
  replace (zlen header + 19 + 2 <? zlen header + (24 + 2)) with true by lia. reflexivity.
Qed.
Print Assumptions C70_layers_refuted.

(** *** Examples *)
Definition ex_siz : siz := Siz 0 20 8 0 0 10 8 0 0 1 [(7, 1, 1)].
Definition ex_hdr : hdr := Hdr [] [SSiz ex_siz; SCod (Cod 0 256 [0; 4; 4; 64; 1]); SQcd (Qcd 32 [64])] None.
Definition ex_parts : list part :=
  [ Part 1 0 0 [HCod (Cod 1 65536 [0; 3; 3; 64; 1; 136]); HOther 65400 [7; 7; 7]; HQcd (Qcd 34 [1000]); HPlt 0 [3; 4]; HBare 65330] [255; 217; 9];
    Part 0 0 1 [HRgn (Rgn 0 0 4); HPoc [Poc 0 0 1 1 1 2]; HCom (Com 1 [65; 66])] [];
    Part 1 1 2 [] [5; 6] ].
Example ex_header_ok : header_ok ex_hdr ex_siz /\ grid ex_siz = 2.
Proof. split; [|reflexivity]. split; [reflexivity|]. split; [|split; discriminate]. unfold grid_ok. vm_compute. intuition congruence. Qed.
Example ex_parts_fit : Forall (part_fits 1) ex_parts /\ Forall (fun q => p_tile q < 2) ex_parts.
Proof.
  split; [|repeat constructor]. unfold ex_parts. repeat (apply Forall_cons || apply Forall_nil).
  all: unfold part_fits; cbn [p_tile p_index p_count p_header]; split; [unfold in_word; lia|]; split; [unfold in_byte; lia|]; split; [unfold in_byte; lia|].
  all: repeat (apply Forall_cons || apply Forall_nil); (split; [vm_compute; reflexivity|]); cbn.
  all: unfold in_byte, in_word, in_dword, in_comp, steps_fit, poc_fits; cbn.
  all: repeat match goal with |- _ /\ _ => split | |- Forall _ _ => constructor end; unfold in_byte, in_word; cbn; try lia; try (vm_compute; intuition congruence).
Qed.
Example ex_read : exists s ts, read_tiles (Src (Some ((flat_map (part_bytes 1) ex_parts ++ [255; 217]) ++ repeat 0 16)) 0 (zlen (flat_map (part_bytes 1) ex_parts) + 2)) ex_hdr = ret (s, ts)
  /\ map (fun t => (Isot (tp_sot t), zlen (tp_segs t), tp_len t)) ts = [(1, 3, 3); (0, 3, 0); (1, 0, 2)].
Proof. do 2 eexists. split; [vm_compute; reflexivity|reflexivity]. Qed.
(** The encoder's side: two tiles of one and two packets, in another order than
    that of the precincts. *)
Example ex_encoder : each_once (Coded [[1; 2; 3]; [4]] [1; 0] 1 true) /\ sent_packets (Coded [[1; 2; 3]; [4]] [1; 0] 1 true) = [255; 145; 0; 4; 0; 0; 4; 255; 145; 0; 4; 0; 1; 1; 2; 3].
Proof. split; [apply perm_swap|reflexivity]. Qed.
Example ex_encoded : exists bytes, encoder_header (Siz 0 20 8 0 0 10 8 0 0 1 [(7, 1, 1)]) ex_cod (QcdP 1 false) false ex_steps []
    (map tile_part_size [Coded [[1; 2; 3]; [4]] [1; 0] 1 true; Coded [[0]] [0] 1 false]) = ret bytes /\ codestream_size bytes [Coded [[1; 2; 3]; [4]] [1; 0] 1 true; Coded [[0]] [0] 1 false] = zlen bytes + 47.
Proof. eexists. split; vm_compute; reflexivity. Qed.

(** A last tile-part without a length in a stream that was cut: the last two
    bytes are taken for a marker and all tiles are lost. *)
Theorem C68_open_cut_refuted : exists q, part_fits 1 q /\ p_tile q < grid ex_siz /\
  read_tiles (Src (Some ((part_head 1 0 q ++ p_body q) ++ repeat 0 16)) 0 (zlen (part_head 1 0 q ++ p_body q))) ex_hdr = throw.
Proof.
  exists (Part 0 0 1 [] [1; 2; 3; 4]). split; [|split; [reflexivity|]].
  - unfold part_fits, in_word, in_byte. cbn. repeat split; try lia. constructor.
  - vm_compute. reflexivity.
Qed.
Print Assumptions C68_open_cut_refuted.

(** A length that ends before the tile-part's own header does: the rest of the
    stream is taken for the body, and the tile-parts that follow are lost. *)
Definition ex_short (psot : Z) : list Z := part_head 1 psot (Part 0 0 1 [] []) ++ part_bytes 1 (Part 1 0 1 [] [5; 6]) ++ [255; 217].
Theorem C69_short_psot_refuted : forall psot, 1 <= psot < 14 ->
  exists s t, read_tiles (Src (Some (ex_short psot ++ repeat 0 16)) 0 (zlen (ex_short psot))) ex_hdr = ret (s, [t]) /\ tp_len t = 18 /\ zlen (ex_short psot) = 32.
Proof.
  intros psot H. assert (psot = 1 \/ psot = 2 \/ psot = 3 \/ psot = 4 \/ psot = 5 \/ psot = 6 \/ psot = 7 \/ psot = 8 \/ psot = 9 \/ psot = 10 \/ psot = 11 \/ psot = 12 \/ psot = 13) as Hc by lia.
  repeat (destruct Hc as [-> | Hc]; [do 2 eexists; split; [vm_compute; reflexivity|split; reflexivity]|]). subst. do 2 eexists. split; [vm_compute; reflexivity|split; reflexivity].
Qed.
Print Assumptions C69_short_psot_refuted.

(** ** C69: any bytes *)
Theorem C69_tiles_safe_partial : forall input h x p, bytes_ok input -> 1 <= zlen input <= 2 ^ 32 - 65552 -> 0 <= p <= zlen input ->
  h_siz h = Some x -> XTsiz x <> 0 -> YTsiz x <> 0 -> h_cod h <> None -> h_qcd h <> None ->
  (forall pad, 2 <= zlen pad -> read_tiles (Src (Some (input ++ pad)) p (zlen input)) h = throw)
  \/ exists p' ts, laid_out p ts p' /\ p' <= zlen input /\ (grid_ok x -> Forall (fun t => 0 <= Isot (tp_sot t) < grid x) ts)
     /\ ((forall a b, input <> a ++ [255; 97; 0; 2] ++ b) -> Forall (packed_in (zlen input)) ts)
     /\ forall pad, 2 <= zlen pad -> read_tiles (Src (Some (input ++ pad)) p (zlen input)) h = ret (Src (Some (input ++ pad)) p' (zlen input), ts).
Proof.
  intros input h x p Hb Hn Hp Hx HX HY Hc Hq. assert (Hn' : 1 <= zlen input <= two32 - 65552) by exact Hn.
  assert (exists nx ny, get_number_of_tiles x = Ret (nx, ny)) as (nx & ny & Et). { unfold get_number_of_tiles, ceil_int. replace (XTsiz x =? 0) with false by lia. replace (YTsiz x =? 0) with false by lia. do 2 eexists. reflexivity. }
  assert (E : forall s, read_tiles s h = if 65535 <? wrap32 (nx * ny) then throw else read_parts (S (length (mem s))) s (Csiz x) (nx * ny) []).
  { intros s. unfold read_tiles. rewrite Hx. destruct (h_cod h); [|contradiction]. destruct (h_qcd h); [|contradiction]. rewrite Et. reflexivity. }
  destruct (65535 <? wrap32 (nx * ny)) eqn:E5; [left; intros; apply E|].
  destruct (parts_same input Hb Hn' (Csiz x) (nx * ny) (Z.to_nat (zlen input - p + 1)) p [] Hp ltac:(lia)) as (r & Hr & Hr').
  assert (E6 : forall pad, 2 <= zlen pad -> read_tiles (Src (Some (input ++ pad)) p (zlen input)) h = located input pad r).
  { intros pad Hpad. rewrite E. cbn [mem data]. apply Hr; [exact Hpad|]. rewrite app_length. unfold zlen. lia. }
  destruct r as [[p' ts]|].
  - right. destruct Hr' as (K1 & new & K2 & K3 & K4 & K5). cbn [app] in K2. subst new. exists p', ts. split; [exact K3|]. split; [exact K1|]. split; [|split; [exact K5|exact E6]].
    intros Hg. destruct (tiles_of x Hg) as (nx' & ny' & E7 & E8 & _). rewrite Et in E7. assert (nx = nx' /\ ny = ny') as [-> ->] by (injection E7 as -> ->; split; reflexivity). rewrite <- E8. exact K4.
  - left. exact E6.
Qed.
Print Assumptions C69_tiles_safe_partial.
Example ex_safe : exists p' ts, read_tiles (Src (Some (ex_short 3 ++ repeat 0 16)) 0 (zlen (ex_short 3))) ex_hdr = ret (Src (Some (ex_short 3 ++ repeat 0 16)) p' (zlen (ex_short 3)), ts) /\ p' = 32 /\ zlen ts = 1.
Proof. do 2 eexists. split; [vm_compute; reflexivity|split; reflexivity]. Qed.

(** A packed-header segment of length 2 is taken to hold 65535 bytes. *)
Definition ex_ppt : list Z := [255; 144; 0; 10; 0; 0; 0; 0; 0; 18; 0; 1; 255; 97; 0; 2; 255; 147].
Theorem C69_empty_ppt_refuted : bytes_ok ex_ppt /\ exists s t, read_tiles (Src (Some (ex_ppt ++ repeat 0 16)) 0 (zlen ex_ppt)) ex_hdr = ret (s, [t]) /\ ~ packed_in (zlen ex_ppt) t.
Proof.
  split; [repeat constructor; lia|]. do 2 eexists. split; [vm_compute; reflexivity|]. intros H. inversion H as [|? ? H1 _]. cbn in H1. lia.
Qed.
Print Assumptions C69_empty_ppt_refuted.

(** Headers that are read without complaint and then dereferenced or divided
    by: no coding style segment, a tile width of 0. *)
Definition ex_no_cod : list Z := w16 M_SOC ++ write_siz ex_siz ++ write_qcd true 4 (Qcd 32 [64]) ++ [255; 144; 0; 10; 0; 0; 0; 0; 0; 0; 0; 1; 255; 147; 255; 217].
Definition ex_zero_tile : list Z :=
  w16 M_SOC ++ write_siz (Siz 0 20 8 0 0 0 8 0 0 1 [(7, 1, 1)]) ++ write_cod 12 (Cod 0 256 [0; 4; 4; 64; 1]) ++ write_qcd true 4 (Qcd 32 [64])
  ++ [255; 144; 0; 10; 0; 0; 0; 0; 0; 0; 0; 1; 255; 147; 255; 217].
Theorem C69_header_gaps_refuted : Forall (fun d => exists s h, parse_main (Src (Some (d ++ repeat 0 16)) 0 (zlen d)) hdr0 = ret (s, h) /\ read_tiles s h = UB) [ex_no_cod; ex_zero_tile].
Proof. repeat constructor; do 2 eexists; (split; [vm_compute; reflexivity|vm_compute; reflexivity]). Qed.
Print Assumptions C69_header_gaps_refuted.
