(** Each segment the encoder writes, as an item of the main header. *)
From Coq Require Import Bool.
From Verif Require Import Base BaseLemmas SourceModel MarkerModel MarkerSafe MarkerRound HeaderRound MarkerSpec.

(* the list of parts stays abstract: unfolding the 32 tests would be long *)
Lemma cap_item_list C P Cc is : zlen (cap_on P is) <= 32 ->
  (forall tl, parse_cap (6 + 2 * zlen (cap_on P is)) ((w32 P ++ flat_map (fun i => w16 (znth 0 Cc i)) (cap_on P is)) ++ tl)
              = ret (Cap P (map (fun i => if Z.testbit P (31 - i) then znth 0 Cc i else 0) is))) ->
  item C (write_cap_parts (filter (fun i => Z.testbit (Pcap (Cap P Cc)) (31 - i)) is) (Cap P Cc))
         (SCap (Cap P (map (fun i => if Z.testbit P (31 - i) then znth 0 Cc i else 0) is))).
Proof.
  intros Hle HR. pose proof (zlen_nonneg (cap_on P is)).
  exists M_CAP, (w32 P ++ flat_map (fun i => w16 (znth 0 Cc i)) (cap_on P is)), (fun lmar _ g => smap SCap (parse_cap lmar g)).
  rewrite !zlen_app, !zlen_w32, flat_w16_len'. replace (2 + (4 + 2 * zlen (cap_on P is))) with (6 + 2 * zlen (cap_on P is)) by ring.
  split; [unfold write_cap_parts, cap_on; cbn [Pcap Ccap]; reflexivity|]. split; [lia|]. split; [unfold u16, M_CAP; lia|]. split; [unfold M_CAP, M_SOT; lia|]. split; [reflexivity|]. split; [|reflexivity].
  intros base tl. unfold smap. rewrite HR. reflexivity.
Qed.
Lemma cap_item C P Cc : u32 P -> (forall i, u16 (znth 0 Cc i)) ->
  item C (write_cap (Cap P Cc)) (SCap (Cap P (map (fun i => if Z.testbit P (31 - i) then znth 0 Cc i else 0) (zseq 32)))).
Proof.
  intros HP HC. assert (H32 : zlen (cap_on P (zseq 32)) <= 32). { assert (E32 : zlen (zseq 32) = 32) by reflexivity. rewrite <- E32 at 2. apply cap_on_le. }
  pose proof (fun tl => cap_round P Cc _ tl HP HC eq_refl) as HR. pose proof (cap_item_list C P Cc (zseq 32) H32 HR) as HI.
  exact HI.
Qed.

Lemma cod_item C x L : cod_good x -> zlen (SPcod x) <= 100 -> L = 7 + zlen (SPcod x) -> item C (write_cod L x) (SCod x).
Proof.
  intros Hg Hmax ->. pose proof (zlen_nonneg (SPcod x)). exists M_COD, (cod_body x), (fun lmar _ g => smap SCod (parse_cod lmar g)).
  assert (El : zlen (cod_body x) = 5 + zlen (SPcod x)) by (unfold cod_body; rewrite !zlen_app, zlen_w8, zlen_w32, flat_w8_len; ring). rewrite El. replace (2 + (5 + zlen (SPcod x))) with (7 + zlen (SPcod x)) by ring.
  split; [reflexivity|]. split; [lia|]. split; [unfold u16, M_COD; lia|]. split; [unfold M_COD, M_SOT; lia|]. split; [reflexivity|]. split; [|reflexivity].
  intros base tl. unfold smap. rewrite (cod_round x _ tl) by (assumption || reflexivity). reflexivity.
Qed.

Lemma qcd_item C rv x L : u8 (Sqcd x) -> steps_good rv (Sqcd x) (SPqcd x) -> zlen (SPqcd x) <= 100 -> L = 3 + zlen (steps_bytes rv (SPqcd x)) -> item C (write_qcd rv L x) (SQcd x).
Proof.
  intros HS Hg Hmax ->. pose proof (zlen_nonneg (SPqcd x)). exists M_QCD, (qcd_body rv x), (fun lmar _ g => smap SQcd (parse_qcd lmar g)).
  assert (El : zlen (qcd_body rv x) = 1 + zlen (steps_bytes rv (SPqcd x))) by (unfold qcd_body; rewrite !zlen_app, zlen_w8; ring). rewrite El. replace (2 + (1 + zlen (steps_bytes rv (SPqcd x)))) with (3 + zlen (steps_bytes rv (SPqcd x))) by ring.
  split; [reflexivity|]. split; [rewrite steps_len; destruct rv; lia|]. split; [unfold u16, M_QCD; lia|]. split; [unfold M_QCD, M_SOT; lia|]. split; [reflexivity|]. split; [|reflexivity].
  intros base tl. unfold smap. rewrite (qcd_round rv x _ tl) by (assumption || reflexivity). reflexivity.
Qed.

Lemma qcc_item C rv x L : C < 257 -> u8 (Cqcc x) -> u8 (Sqcc x) -> steps_good rv (Sqcc x) (SPqcc x) -> zlen (SPqcc x) <= 100 -> L = 4 + zlen (steps_bytes rv (SPqcc x)) -> item (Some C) (write_qcc C rv L x) (SQcc x).
Proof.
  intros HC Hc HS Hg Hmax ->. pose proof (zlen_nonneg (SPqcc x)). exists M_QCC, (qcc_body rv x), (fun lmar _ g => with_C (Some C) (fun C => smap SQcc (parse_qcc lmar g C))).
  assert (El : zlen (qcc_body rv x) = 2 + zlen (steps_bytes rv (SPqcc x))) by (unfold qcc_body; rewrite !zlen_app, !zlen_w8; ring). rewrite El. replace (2 + (2 + zlen (steps_bytes rv (SPqcc x)))) with (4 + zlen (steps_bytes rv (SPqcc x))) by ring.
  split; [unfold write_qcc; replace (C <? 257) with true by lia; reflexivity|]. split; [rewrite steps_len; destruct rv; lia|]. split; [unfold u16, M_QCC; lia|]. split; [unfold M_QCC, M_SOT; lia|]. split; [reflexivity|]. split; [|reflexivity].
  intros base tl. unfold with_C, smap. rewrite (qcc_round C rv x _ tl) by (assumption || reflexivity || lia). reflexivity.
Qed.

Lemma tlm_entries (T P : list Z) : zlen T = zlen P -> flat_map (fun i => w16 (znth 0 T i) ++ w32 (znth 0 P i)) (zseq (zlen P)) = flat_map tlm_pair (combine (map (fun t => [t]) T) P).
Proof.
  intros H. assert (G : forall T P : list Z, length T = length P -> combine (map (fun t => [t]) T) P = map (fun i => ([znth 0 T i], znth 0 P i)) (zseq (zlen P))).
  { clear. induction T as [|t T IH]; intros [|v P] H; try discriminate; [reflexivity|]. cbn [map combine]. cbn [length] in H.
    rewrite IH by lia. unfold zseq, zlen. cbn [length]. rewrite !Nat2Z.id. cbn [seq map]. f_equal. rewrite <- seq_shift, !map_map. apply map_ext. intros a. unfold znth. replace (Z.to_nat (Z.of_nat (S a))) with (S (Z.to_nat (Z.of_nat a))) by lia. reflexivity. }
  rewrite G by (unfold zlen in H; lia). generalize (zseq (zlen P)). intros l. induction l as [|i l IH]; [reflexivity|]. cbn [flat_map map]. rewrite IH. unfold tlm_pair. cbn [fst snd flat_map]. rewrite app_nil_r. reflexivity.
Qed.
Lemma tlm_item C (T P : list Z) : zlen T = zlen P -> Forall u16 T -> Forall u32 P -> 4 + 6 * zlen P < 65536 -> item C (write_tlm (Tlm 0 96 T P)) (STlm (Tlm 0 96 T P)).
Proof.
  intros Hl HT HP Hm. pose proof (zlen_nonneg P). exists M_TLM, (tlm_body T P), (fun lmar _ g => smap STlm (parse_tlm lmar g)).
  assert (El : zlen (tlm_body T P) = 2 + 6 * zlen P) by (unfold tlm_body; rewrite !zlen_app, !zlen_w8, tlm_pairs_len by exact Hl; ring). rewrite El. replace (2 + (2 + 6 * zlen P)) with (4 + 6 * zlen P) by ring.
  split.
  { unfold write_tlm. cbn [Stlm Ttlm Ptlm Ztlm]. change (tlm_ST 96) with 2. change (tlm_SP 96) with 1. cbv zeta. change (2 =? 0) with false. change (2 =? 1) with false. change (2 =? 2) with true. change (1 =? 0) with false. cbv iota.
    rewrite tlm_entries by exact Hl. unfold tlm_body. replace (4 + zlen P * (2 + 4)) with (4 + 6 * zlen P) by ring. reflexivity. }
  split; [lia|]. split; [unfold u16, M_TLM; lia|]. split; [unfold M_TLM, M_SOT; lia|]. split; [reflexivity|]. split; [|reflexivity].
  intros base tl. unfold smap. rewrite (tlm_round T P _ tl) by (assumption || reflexivity). reflexivity.
Qed.
Lemma com_item C x : u16 (Rcom x) -> Forall u8 (Ccom x) -> zlen (Ccom x) < 65000 -> item C (write_com x) (SCom x).
Proof.
  intros HR HC Hm. pose proof (zlen_nonneg (Ccom x)). exists M_COM, (com_body x), (fun lmar _ g => smap SCom (parse_com lmar g)).
  assert (El : zlen (com_body x) = 2 + zlen (Ccom x)) by (unfold com_body; rewrite !zlen_app, zlen_w16, flat_w8_len; ring). rewrite El. replace (2 + (2 + zlen (Ccom x))) with (4 + zlen (Ccom x)) by ring.
  split; [reflexivity|]. split; [lia|]. split; [unfold u16, M_COM; lia|]. split; [unfold M_COM, M_SOT; lia|]. split; [reflexivity|]. split; [|reflexivity].
  intros base tl. unfold smap. rewrite (com_round x _ tl) by (assumption || reflexivity). reflexivity.
Qed.

(** *** Precinct exponents *)
Lemma precinct_tmp_len n : forall xs ys a b, zlen (precinct_tmp n xs ys a b) = Z.of_nat n.
Proof. induction n as [|n IH]; intros; [reflexivity|]. cbn [precinct_tmp]. rewrite zlen_cons, IH. lia. Qed.
Lemma precinct_tmp_byte n : forall xs ys a b, Forall u8 (precinct_tmp n xs ys a b).
Proof. induction n as [|n IH]; intros; cbn [precinct_tmp]; constructor; [apply Z.mod_pos_bound; lia|apply IH]. Qed.
Definition last_or (xs : list Z) (a : Z) (i : nat) : Z := match xs with [] => a | _ => nth (Nat.min i (length xs - 1)) xs 0 end.
Lemma precinct_tmp_nth n : forall xs ys a b i, length xs = length ys -> (i < n)%nat ->
  nth i (precinct_tmp n xs ys a b) 0 = (last_or xs a i + (last_or ys b i <<b 4)) mod 256.
Proof.
  induction n as [|n IH]; intros xs ys a b i Hl Hi; [lia|]. cbn [precinct_tmp]. destruct i.
  - cbn [nth]. destruct xs, ys; try discriminate; reflexivity.
  - cbn [nth]. destruct xs as [|x xs], ys as [|y ys]; try discriminate; cbn [tl].
    + rewrite IH by (reflexivity || lia). reflexivity.
    + cbn [length] in Hl. rewrite IH by lia.
      assert (G : forall z (zs : list Z), last_or (z :: zs) 0 (S i) = last_or zs z i).
      { intros z zs. unfold last_or. destruct zs as [|w zs].
        - reflexivity.
        - cbn [length]. rewrite !Nat.sub_succ, !Nat.sub_0_r. cbn [Nat.min nth]. reflexivity. }
      assert (G1 : forall z (zs : list Z) c, last_or (z :: zs) c (S i) = last_or zs z i) by (intros; apply G).
      rewrite !G1. reflexivity.
Qed.
