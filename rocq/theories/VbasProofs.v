From Verif Require Import Base BaseLemmas JppModel JppSpec.

Lemma vbas_form_cons b l :
  vbas_form (b :: l) <-> (b < 128 /\ l = []) \/ (128 <= b /\ vbas_form l).
Proof.
  split.
  - intros (init & last & H & Hi & Hl). destruct init as [|x init]; simpl in H; inversion H; subst.
    + left; auto.
    + right. inversion Hi; subst. split; auto. exists init, last; auto.
  - intros [[H ->]|[H (init & last & -> & Hi & Hl)]].
    + exists [], b; auto.
    + exists (b :: init), last; auto.
Qed.

Lemma vbas_form_nil : ~ vbas_form [].
Proof. intros (init & last & H & _). destruct init; discriminate. Qed.

(** Two VBAS strings that start the same stream are equal. *)
Lemma vbas_form_prefix p q r s :
  vbas_form p -> vbas_form q -> p ++ r = q ++ s -> p = q /\ r = s.
Proof.
  revert q; induction p as [|b p IH]; intros q Hp Hq H.
  - destruct (vbas_form_nil Hp).
  - destruct q as [|c q]; [destruct (vbas_form_nil Hq)|].
    simpl in H; inversion H; subst c.
    apply vbas_form_cons in Hp. apply vbas_form_cons in Hq.
    destruct Hp as [[? ->]|[? Hp]], Hq as [[? ->]|[? Hq]]; try lia; auto.
    destruct (IH q Hp Hq H2) as [-> ->]; auto.
Qed.

Lemma be128_cons v b l : be128 v (b :: l) = be128 (v * 128 + b mod 128) l.
Proof. reflexivity. Qed.
Lemma be128_app v a b : be128 v (a ++ b) = be128 (be128 v a) b.
Proof. unfold be128. apply fold_left_app. Qed.
Lemma be128_ge v l : 0 <= v -> v <= be128 v l.
Proof.
  revert v; induction l; intros v Hv; [cbn; lia|].
  rewrite be128_cons. specialize (IHl (v * 128 + a mod 128)). lia.
Qed.

Lemma land_128 b : 0 <= b < 256 -> (Z.land b 128 =? 0) = (b <? 128).
Proof.
  intros. assert (forallb (fun b => Bool.eqb (Z.land b 128 =? 0) (b <? 128)) (zseq 256) = true).
  { vm_compute; reflexivity. }
  rewrite forallb_forall in H0. specialize (H0 b). apply eqb_prop, H0. apply zseq_In; lia.
Qed.

Lemma vbas_step v b : 0 <= v < 2 ^ 57 -> 0 <= b < 256 ->
  Z.lor (wrap64 (Z.shiftl v 7)) (Z.land b 127) = v * 128 + b mod 128.
Proof.
  intros. rewrite land_127. unfold wrap64, two64. rewrite Z.shiftl_mul_pow2 by lia.
  rewrite Z.mod_small by lia. rewrite lor_mul_add by lia. reflexivity.
Qed.

Lemma shiftr57 v : 0 <= v -> (Z.shiftr v 57 =? 0) = (v <? 2 ^ 57).
Proof. intros. rewrite Z.shiftr_div_pow2 by lia. lia. Qed.

(** Exact characterisation of the decode loop. *)
Lemma vbas_loop_total fuel src v i :
  0 <= i -> 11 <= i + Z.of_nat fuel -> (0 < fuel)%nat ->
  exists r, vbas_decode_loop fuel src v i = Ret r.
Proof.
  revert v i; induction fuel as [|f IH]; intros v i Hi Hf H0; [lia|].
  cbn [vbas_decode_loop]. unfold kVbasMaxBytes.
  destruct (Z.leb_spec (zlen src) i); [eauto|].
  destruct (Z.leb_spec 10 i); [eauto|].
  destruct ((0 <? i) && negb (Z.shiftr v 57 =? 0)); [eauto|].
  rewrite rd_in by lia. cbn [bind].
  destruct (Z.land (znth 0 src i) 128 =? 0); [eauto|].
  apply IH; lia.
Qed.

Lemma vbas_loop_spec fuel src v i w j :
  bytes_ok src -> 0 <= i <= 10 -> 11 <= i + Z.of_nat fuel -> u64 v -> (i = 0 -> v = 0) ->
  (vbas_decode_loop fuel src v i = Ret (Some (w, j)) <->
   exists pre rest, zskip i src = pre ++ rest /\ vbas_form pre /\ j = i + zlen pre /\ j <= 10 /\
                    w = be128 v pre /\ w < 2 ^ 64).
Proof.
  intros Hb. revert v i. induction fuel as [|f IH]; intros v i Hi Hf Hv Hv0; [lia|].
  cbn [vbas_decode_loop]. unfold kVbasMaxBytes.
  destruct (Z.leb_spec (zlen src) i).
  { split; [discriminate|]. intros (pre & rest & H1 & H2 & _).
    rewrite zskip_all in H1 by lia. destruct pre; [|discriminate]. destruct (vbas_form_nil H2). }
  destruct (Z.leb_spec 10 i).
  { split; [discriminate|]. intros (pre & rest & H1 & H2 & H3 & H4 & _).
    destruct pre; [destruct (vbas_form_nil H2)|]. rewrite zlen_cons in H3.
    pose proof (zlen_nonneg pre). lia. }
  rewrite (zskip_cons_nth 0) by lia.
  rewrite shiftr57 by (unfold u64 in Hv; lia).
  destruct (Bool.bool_dec ((0 <? i) && negb (v <? 2 ^ 57)) true) as [E|E].
  { rewrite E. split; [discriminate|]. intros (pre & rest & H1 & H2 & H3 & H4 & H5 & H6).
    destruct pre; [destruct (vbas_form_nil H2)|]. rewrite be128_cons in H5.
    pose proof (be128_ge (v * 128 + z mod 128) pre). unfold u64 in *. lia. }
  apply not_true_is_false in E. rewrite E. rewrite rd_in by lia. cbn [bind].
  pose proof (bytes_ok_nth src i Hb ltac:(lia)) as Hbyte.
  set (b := znth 0 src i) in *.
  unfold u64 in *.
  assert (Hv57 : 0 <= v < 2 ^ 57) by lia.
  rewrite vbas_step by auto. rewrite land_128 by auto.
  destruct (Z.ltb_spec b 128) as [Hlt|Hge].
  - split.
    + intros [= <- <-]. exists [b], (zskip (i + 1) src). rewrite vbas_form_cons, zlen_cons.
      unfold be128; cbn [fold_left]. rewrite zlen_nil. repeat split; auto; try lia.
    + intros (pre & rest & H1 & H2 & H3 & H4 & H5 & H6).
      destruct pre as [|x pre]; [destruct (vbas_form_nil H2)|]. inversion H1; subst x.
      apply vbas_form_cons in H2. destruct H2 as [[_ ->]|[? _]]; [|lia].
      rewrite zlen_cons, zlen_nil in H3. unfold be128 in H5; cbn [fold_left] in H5.
      subst. repeat f_equal; lia.
  - rewrite IH by (unfold u64; lia). split.
    + intros (pre & rest & H1 & H2 & H3 & H4 & H5 & H6).
      exists (b :: pre), rest. rewrite vbas_form_cons, zlen_cons, be128_cons.
      repeat split; auto; try lia. simpl; congruence.
    + intros (pre & rest & H1 & H2 & H3 & H4 & H5 & H6).
      destruct pre as [|x pre]; [destruct (vbas_form_nil H2)|]. inversion H1; subst x.
      apply vbas_form_cons in H2. destruct H2 as [[? _]|[_ H2]]; [lia|].
      rewrite zlen_cons in H3. rewrite be128_cons in H5.
      exists pre, rest. repeat split; auto; try lia.
Qed.

Lemma vbas_decode_total src : exists r, vbas_decode src = Ret r.
Proof. apply vbas_loop_total; lia. Qed.

Lemma vbas_decode_iff src v n :
  bytes_ok src ->
  (vbas_decode src = Ret (Some (v, n)) <->
   exists pre rest, src = pre ++ rest /\ vbas_form pre /\ n = zlen pre /\ n <= 10 /\
                    v = be128 0 pre /\ v < 2 ^ 64).
Proof.
  intros Hb. unfold vbas_decode.
  rewrite vbas_loop_spec by (unfold u64; (lia || auto)). rewrite zskip_0.
  split; intros (pre & rest & H1 & H2 & H3 & H4 & H5 & H6); exists pre, rest; repeat split; auto; lia.
Qed.

(** The encoder. *)
Lemma vbas_count_spec fuel v n :
  0 < v -> 0 <= Z.log2 v <= Z.of_nat fuel * 7 + 6 ->
  (Z.log2 v < Z.of_nat fuel * 7) ->
  vbas_count fuel v n = n + Z.log2 v / 7 + 1.
Proof.
  revert v n; induction fuel as [|f IH]; intros v n Hv Hl Hs; [lia|].
  cbn [vbas_count]. replace (v =? 0) with false by lia.
  destruct (Z.lt_ge_cases (Z.log2 v) 7) as [Hlt|Hge].
  - assert (v < 2 ^ 7). { apply Z.log2_lt_pow2; lia. }
    replace (Z.shiftr v 7) with 0.
    2:{ rewrite Z.shiftr_div_pow2 by lia. symmetry. apply Z.div_small. lia. }
    destruct f; cbn [vbas_count]; rewrite Z.eqb_refl; lia.
  - assert (E : Z.log2 (Z.shiftr v 7) = Z.log2 v - 7).
    { rewrite Z.log2_shiftr by lia. lia. }
    assert (2 ^ 7 <= v). { apply Z.log2_le_pow2; lia. }
    rewrite IH; rewrite ?E.
    + lia.
    + rewrite Z.shiftr_div_pow2 by lia. lia.
    + lia.
    + lia.
Qed.

Lemma vbas_count_enough v : 0 < v -> vbas_count (log_fuel v) v 0 = Z.log2 v / 7 + 1.
Proof.
  intros. pose proof (Z.log2_nonneg v).
  rewrite vbas_count_spec; unfold log_fuel; try lia.
Qed.

(** Bytes of an n-group big-endian base-128 string, from group i on. *)
Fixpoint groups (k : nat) (value : Z) : list Z :=
  match k with
  | O => []
  | S k' => (value / 2 ^ (7 * Z.of_nat k')) mod 128 + (if (0 <? Z.of_nat k') then 128 else 0)
            :: groups k' value
  end.

Lemma lor_128 g : 0 <= g < 128 -> Z.lor g 128 = g + 128.
Proof. intros. rewrite Z.lor_comm. rewrite Z.add_comm. apply (lor_mul_add 1 g 7); lia. Qed.

Lemma group_byte value shift (c : bool) : 0 <= shift ->
  Z.lor (Z.land (Z.shiftr value shift) 127) (if c then 128 else 0)
  = (value / 2 ^ shift) mod 128 + (if c then 128 else 0).
Proof.
  intros. rewrite land_127, Z.shiftr_div_pow2 by lia.
  destruct c. apply lor_128. apply Z.mod_pos_bound; lia. rewrite Z.lor_0_r. lia.
Qed.

Lemma groups_map value n : forall k, (Z.of_nat k <= n) ->
  map (fun i => Z.lor (Z.land (Z.shiftr value ((n - 1 - i) * 7)) 127) (if i + 1 <? n then 128 else 0))
      (map (fun i => n - Z.of_nat k + i) (zseq (Z.of_nat k))) = groups k value.
Proof.
  induction k; intros Hk; [reflexivity|].
  rewrite zseq_cons by lia. cbn [groups map].
  f_equal.
  - rewrite group_byte by lia.
    replace ((n - 1 - (n - Z.of_nat (S k) + 0)) * 7) with (7 * Z.of_nat k) by lia.
    replace (n - Z.of_nat (S k) + 0 + 1 <? n) with (0 <? Z.of_nat k) by lia. reflexivity.
  - rewrite <- IHk by lia. rewrite !map_map.
    replace (Z.of_nat (S k) - 1) with (Z.of_nat k) by lia.
    apply map_ext; intros i.
    replace (n - Z.of_nat (S k) + (1 + i)) with (n - Z.of_nat k + i) by lia. reflexivity.
Qed.

Lemma groups_len k v : zlen (groups k v) = Z.of_nat k.
Proof. induction k; cbn [groups]; rewrite ?zlen_cons; auto. rewrite IHk; lia. Qed.

Lemma groups_form k v : vbas_form (groups (S k) v).
Proof.
  induction k.
  - cbn [groups]. apply vbas_form_cons. left; split; auto. simpl. lia.
  - set (g := groups (S k) v) in *. cbn [groups]. fold (groups (S k) v). fold g.
    apply vbas_form_cons. right. split; auto.
    replace (0 <? Z.of_nat (S k)) with true by lia.
    pose proof (Z.mod_pos_bound (v / 2 ^ (7 * Z.of_nat (S k))) 128). lia.
Qed.

Lemma groups_ok k v : bytes_ok (groups k v).
Proof.
  induction k; cbn [groups]; constructor; auto. unfold byte_ok.
  pose proof (Z.mod_pos_bound (v / 2 ^ (7 * Z.of_nat k)) 128).
  destruct (0 <? Z.of_nat k); lia.
Qed.

Lemma groups_be128 k v acc : 0 <= v ->
  be128 acc (groups k v) = acc * 2 ^ (7 * Z.of_nat k) + v mod 2 ^ (7 * Z.of_nat k).
Proof.
  intros Hv. revert acc; induction k; intros acc; cbn [groups].
  - simpl be128. change (2 ^ (7 * Z.of_nat 0)) with 1. rewrite Z.mod_1_r. lia.
  - rewrite be128_cons, IHk.
    set (q := 2 ^ (7 * Z.of_nat k)).
    assert (Hq : 0 < q) by (apply Z.pow_pos_nonneg; lia).
    replace (2 ^ (7 * Z.of_nat (S k))) with (q * 128).
    2:{ unfold q. change 128 with (2 ^ 7). rewrite <- Z.pow_add_r by lia. f_equal. lia. }
    assert (E: ((v / q) mod 128 + (if 0 <? Z.of_nat k then 128 else 0)) mod 128 = (v / q) mod 128).
    { destruct (0 <? Z.of_nat k); rewrite Z.add_mod by lia; rewrite ?Z.mod_mod by lia; simpl;
      rewrite ?Z.add_0_r, ?Z.mod_mod by lia; auto. }
    rewrite E.
    rewrite (Z.rem_mul_r v q 128) by lia. ring.
Qed.

Lemma vbas_encode_groups v : 0 <= v ->
  exists k, vbas_encode v = groups (S k) v /\ Z.of_nat k = (if v =? 0 then 0 else Z.log2 v / 7)
            /\ v < 2 ^ (7 * Z.of_nat (S k)).
Proof.
  intros Hv. unfold vbas_encode. destruct (Z.eqb_spec v 0) as [->|Hn].
  - exists O. split; [reflexivity|]. simpl. lia.
  - rewrite vbas_count_enough by lia. pose proof (Z.log2_nonneg v).
    set (n := Z.log2 v / 7 + 1). assert (1 <= n) by lia.
    exists (Z.to_nat (n - 1)). split; [|split; [lia|]].
    + rewrite <- (groups_map v n) by lia.
      replace (Z.of_nat (S (Z.to_nat (n - 1)))) with n by lia.
      rewrite map_map. apply map_ext; intros. replace (n - n + a) with a by lia. reflexivity.
    + apply Z.log2_lt_pow2; [lia|]. subst n. lia.
Qed.

Lemma vbas_encode_facts v : u64 v ->
  bytes_ok (vbas_encode v) /\ vbas_form (vbas_encode v) /\ 1 <= zlen (vbas_encode v) <= 10 /\
  be128 0 (vbas_encode v) = v.
Proof.
  intros [H1 H2]. destruct (vbas_encode_groups v H1) as (k & -> & Hk & Hlt).
  split; [apply groups_ok|]. split; [apply groups_form|]. split.
  - rewrite groups_len. destruct (Z.eqb_spec v 0); [lia|].
    assert (Z.log2 v < 64) by (apply Z.log2_lt_pow2; lia).
    pose proof (Z.log2_nonneg v). lia.
  - rewrite groups_be128 by lia. rewrite Z.mod_small by lia. lia.
Qed.

Lemma vbas_roundtrip v rest : u64 v -> bytes_ok rest ->
  vbas_decode (vbas_encode v ++ rest) = Ret (Some (v, zlen (vbas_encode v))).
Proof.
  intros Hv Hr. destruct (vbas_encode_facts v Hv) as (H1 & H2 & H3 & H4).
  apply vbas_decode_iff. { apply bytes_ok_app; auto. }
  exists (vbas_encode v), rest. unfold u64 in Hv. repeat split; auto; lia.
Qed.
