From Verif Require Import Base BaseLemmas JppModel JppSpec VbasProofs.

Lemma bind_ret_inv {A B} (m : out A) (f : A -> out B) r :
  bind m f = Ret r -> exists a, m = Ret a /\ f a = Ret r.
Proof. destruct m; simpl; intros; try discriminate; eauto. Qed.

(** ** Decoding the Bin-ID *)

Lemma bin_id_loop_eq fuel src v i : 0 < i -> bin_id_loop fuel src v i = vbas_decode_loop fuel src v i.
Proof.
  revert v i; induction fuel as [|f IH]; intros v i Hi; [reflexivity|].
  cbn [bin_id_loop vbas_decode_loop]. replace (0 <? i) with true by lia. cbn [andb].
  repeat (match goal with |- context [if ?c then _ else _] => destruct c end; try reflexivity).
  destruct (rd src i); cbn [bind]; try reflexivity.
  destruct (Z.land a 128 =? 0); try reflexivity. apply IH; lia.
Qed.

Lemma adv_ok src pos : 0 <= pos <= zlen src -> adv src pos = Ret (zskip pos src).
Proof. intros; unfold adv. replace ((0 <=? pos) && (pos <=? zlen src)) with true by lia. reflexivity. Qed.

Definition b0_fields (b0 : Z) : Z * bool * Z * bool :=
  ((b0 / 32) mod 4, 16 <=? b0 mod 32, b0 mod 16, 128 <=? b0).

Lemma b0_sweep b0 : 0 <= b0 < 256 ->
  (Z.land (Z.shiftr b0 5) 3, negb (Z.land b0 16 =? 0), Z.land b0 15, negb (Z.land b0 128 =? 0))
  = b0_fields b0.
Proof.
  intros H.
  assert (E: forallb (fun b0 =>
     (Z.land (Z.shiftr b0 5) 3 =? (b0 / 32) mod 4) &&
     Bool.eqb (negb (Z.land b0 16 =? 0)) (16 <=? b0 mod 32) &&
     (Z.land b0 15 =? b0 mod 16) &&
     Bool.eqb (negb (Z.land b0 128 =? 0)) (128 <=? b0)) (zseq 256) = true) by (vm_compute; reflexivity).
  rewrite forallb_forall in E. specialize (E b0). rewrite zseq_In in E. specialize (E H).
  rewrite !andb_true_iff in E. destruct E as [[[E1 E2] E3] E4].
  apply Z.eqb_eq in E1, E3. apply eqb_prop in E2, E4. unfold b0_fields. rewrite E1, E2, E3, E4. reflexivity.
Qed.

(** Bin-ID spec: the whole Bin-ID is itself a VBAS-shaped byte string. *)
Definition bin_id_parse (pre : list Z) (id bb : Z) (is_last : bool) : Prop :=
  exists b0 tl, pre = b0 :: tl /\ bb = (b0 / 32) mod 4 /\ bb <> 0 /\
                is_last = (16 <=? b0 mod 32) /\ id = be128 (b0 mod 16) tl /\ id < 2 ^ 64.

Lemma decode_bin_id_total src : exists r, decode_bin_id src = Ret r.
Proof.
  unfold decode_bin_id. destruct (Z.ltb_spec (zlen src) 1); eauto.
  rewrite rd_in by lia. cbn [bind].
  destruct (Z.land (Z.shiftr (znth 0 src 0) 5) 3 =? 0); eauto.
  destruct (negb (Z.land (znth 0 src 0) 128 =? 0)); eauto.
  rewrite bin_id_loop_eq by lia.
  destruct (vbas_loop_total 10 src (Z.land (znth 0 src 0) 15) 1) as [r ->]; try lia.
  cbn [bind]. destruct r as [[? ?]|]; eauto.
Qed.

Lemma decode_bin_id_iff src id bb l n :
  bytes_ok src ->
  (decode_bin_id src = Ret (Some (id, bb, l, n)) <->
   exists pre rest, src = pre ++ rest /\ vbas_form pre /\ n = zlen pre /\ n <= 10 /\
                    bin_id_parse pre id bb l).
Proof.
  intros Hb. unfold decode_bin_id. destruct (Z.ltb_spec (zlen src) 1).
  { split; [discriminate|]. intros (pre & rest & H1 & H2 & H3 & _).
    rewrite H1, zlen_app in H. pose proof (zlen_nonneg rest).
    destruct pre; [destruct (vbas_form_nil H2)|]. rewrite zlen_cons in *. pose proof (zlen_nonneg pre). lia. }
  destruct src as [|b0 src]; [rewrite zlen_nil in H; lia|].
  inversion Hb as [|? ? Hb0 Hb']; subst. unfold byte_ok in Hb0.
  rewrite rd_in by lia. cbn [bind]. rewrite znth_0.
  pose proof (b0_sweep b0 Hb0) as E. unfold b0_fields in E. injection E as E1 E2 E3 E4.
  rewrite E1, E2, E3, E4. clear E1 E2 E3 E4.
  destruct (Z.eqb_spec ((b0 / 32) mod 4) 0) as [Hz|Hnz].
  { split; [discriminate|]. intros (pre & rest & H1 & H2 & H3 & H4 & b & tl & -> & H5 & H6 & _).
    simpl in H1. inversion H1; subst. lia. }
  destruct (Z.leb_spec 128 b0).
  - rewrite bin_id_loop_eq by lia.
    destruct (vbas_loop_total 10 (b0 :: src) (b0 mod 16) 1) as [r Hr]; try lia.
    rewrite Hr. cbn [bind]. split.
    + destruct r as [[w j]|]; [|discriminate]. intros [= <- <- <- <-].
      apply vbas_loop_spec in Hr; try (unfold u64; lia); auto.
      destruct Hr as (pre & rest & H1 & H2 & H3 & H4 & H5 & H6).
      change (zskip 1 (b0 :: src)) with src in H1. subst src.
      exists (b0 :: pre), rest. rewrite vbas_form_cons, zlen_cons.
      repeat split; auto; try lia. exists b0, pre. repeat split; auto.
    + intros (pre & rest & H1 & H2 & H3 & H4 & b & tl & -> & H5 & H6 & H7 & H8 & H9).
      simpl in H1. inversion H1; subst b src. apply vbas_form_cons in H2.
      destruct H2 as [[? _]|[_ H2]]; [lia|]. rewrite zlen_cons in H3.
      assert (Hs : vbas_decode_loop 10 (b0 :: tl ++ rest) (b0 mod 16) 1 = Ret (Some (id, n))).
      { apply vbas_loop_spec; try (unfold u64; lia); auto.
        change (zskip 1 (b0 :: tl ++ rest)) with (tl ++ rest).
        exists tl, rest. repeat split; auto; lia. }
      rewrite Hs in Hr. inversion Hr; subst. reflexivity.
  - split.
    + intros [= <- <- <- <-]. exists [b0], src. rewrite vbas_form_cons, zlen_cons, zlen_nil.
      repeat split; auto; try lia. exists b0, []. unfold be128; cbn [fold_left].
      repeat split; auto. lia.
    + intros (pre & rest & H1 & H2 & H3 & H4 & b & tl & -> & H5 & H6 & H7 & H8 & H9).
      simpl in H1. inversion H1; subst b src. apply vbas_form_cons in H2.
      destruct H2 as [[_ ->]|[? _]]; [|lia]. rewrite zlen_cons, zlen_nil in H3.
      unfold be128 in H8; cbn [fold_left] in H8. subst. repeat f_equal; lia.
Qed.

(** ** Encoding the Bin-ID *)
Lemma bit_count_spec fuel v n : 0 < v -> Z.log2 v < Z.of_nat fuel -> bit_count fuel v n = n + Z.log2 v + 1.
Proof.
  revert v n; induction fuel as [|f IH]; intros v n Hv Hl; [pose proof (Z.log2_nonneg v); lia|].
  cbn [bit_count]. replace (v =? 0) with false by lia.
  destruct (Z.eq_dec v 1) as [->|].
  - change (Z.shiftr 1 1) with 0. destruct f; reflexivity || (cbn; lia).
  - assert (1 <= Z.log2 v). { apply Z.log2_le_pow2; lia. }
    rewrite IH; rewrite ?Z.log2_shiftr by lia; try lia.
    rewrite Z.shiftr_div_pow2 by lia. lia.
Qed.

Lemma bin_id_bytes_spec v : u64 v -> exists k, bin_id_bytes v = Z.of_nat (S k) /\ Z.of_nat k <= 9 /\
  v < 16 * 2 ^ (7 * Z.of_nat k).
Proof.
  intros [H1 H2]. unfold bin_id_bytes. destruct (Z.ltb_spec v 16).
  - exists O. simpl; lia.
  - rewrite bit_count_spec by (unfold log_fuel; pose proof (Z.log2_nonneg v); lia).
    assert (Z.log2 v < 64) by (apply Z.log2_lt_pow2; lia).
    assert (4 <= Z.log2 v) by (apply Z.log2_le_pow2; lia).
    exists (Z.to_nat ((0 + Z.log2 v + 1 + 3 + 6) / 7 - 1)).
    split; [lia|]. split; [lia|].
    replace (16 * 2 ^ _) with (2 ^ (4 + 7 * Z.of_nat (Z.to_nat ((0 + Z.log2 v + 1 + 3 + 6) / 7 - 1)))).
    + apply Z.log2_lt_pow2; lia.
    + rewrite Z.pow_add_r by lia. reflexivity.
Qed.

Lemma b0_build (c l : bool) bb t : 1 <= bb <= 3 -> 0 <= t < 16 ->
  Z.lor (Z.lor (Z.lor (if c then 128 else 0) (Z.shiftl (Z.land bb 3) 5)) (if l then 16 else 0)) t
  = (if c then 128 else 0) + bb * 32 + (if l then 16 else 0) + t.
Proof.
  intros H1 H2.
  assert (E: forallb (fun c : bool => forallb (fun l : bool => forallb (fun bb => forallb (fun t =>
     Z.lor (Z.lor (Z.lor (if c then 128 else 0) (Z.shiftl (Z.land bb 3) 5)) (if l then 16 else 0)) t
     =? (if c then 128 else 0) + bb * 32 + (if l then 16 else 0) + t) (zseq 16)) [1;2;3]) [true;false]) [true;false]
     = true) by (vm_compute; reflexivity).
  rewrite forallb_forall in E. specialize (E c ltac:(destruct c; simpl; auto)).
  rewrite forallb_forall in E. specialize (E l ltac:(destruct l; simpl; auto)).
  rewrite forallb_forall in E. specialize (E bb ltac:(simpl; lia)).
  rewrite forallb_forall in E. specialize (E t ltac:(apply zseq_In; auto)). lia.
Qed.

Lemma encode_bin_id_facts id bb l : u64 id -> 1 <= bb <= 3 ->
  let e := encode_bin_id id bb l in
  bytes_ok e /\ vbas_form e /\ 1 <= zlen e <= 10 /\ bin_id_parse e id bb l /\ znth 0 e 0 <> 0.
Proof.
  intros Hid Hbb. destruct (bin_id_bytes_spec id Hid) as (k & Hk & Hk9 & Hlt).
  unfold encode_bin_id. rewrite Hk.
  replace (Z.of_nat (S k) - 1) with (Z.of_nat k) by lia.
  unfold u64 in Hid.
  set (q := 2 ^ (7 * Z.of_nat k)) in *. assert (Hq : 0 < q) by (apply Z.pow_pos_nonneg; lia).
  rewrite land_15, Z.shiftr_div_pow2 by lia. fold q.
  assert (Ht : 0 <= id / q < 16).
  { split. apply Z.div_pos; lia. apply Z.div_lt_upper_bound; lia. }
  rewrite (Z.mod_small (id / q)) by auto.
  rewrite b0_build by auto.
  assert (Hdm : id = q * (id / q) + id mod q) by (apply Z.div_mod; lia).
  remember (id / q) as t eqn:Et. clear Et.
  match goal with |- context [?b :: ?m] => set (b0 := b); set (tl := m) end.
  assert (Etl : tl = groups k id).
  { unfold tl. rewrite <- (groups_map id (Z.of_nat k)) by lia. rewrite map_map.
    apply map_ext. intros j.
    replace (Z.of_nat k - Z.of_nat k + j) with j by lia.
    replace (7 * (Z.of_nat k - (j + 1))) with ((Z.of_nat k - 1 - j) * 7) by lia.
    replace (j + 1 + 1 <? Z.of_nat (S k)) with (j + 1 <? Z.of_nat k) by lia. reflexivity. }
  assert (Hb0 : 0 <= b0 < 256) by (subst b0; destruct (1 <? Z.of_nat (S k)), l; lia).
  cbn zeta. rewrite Etl. split; [|split; [|split; [|split]]].
  - constructor; [exact Hb0|apply groups_ok].
  - apply vbas_form_cons. destruct k as [|k].
    + left. split; [|reflexivity]. subst b0. change (1 <? Z.of_nat 1) with false. cbn iota. destruct l; lia.
    + right. split; [|apply groups_form]. subst b0. replace (1 <? Z.of_nat (S (S k))) with true by lia.
      destruct l; lia.
  - rewrite zlen_cons, groups_len. lia.
  - exists b0, (groups k id). split; [reflexivity|].
    assert (Hm : b0 mod 16 = t) by (subst b0; destruct (1 <? Z.of_nat (S k)), l; lia).
    split; [subst b0; destruct (1 <? Z.of_nat (S k)), l; lia|].
    split; [lia|]. split; [subst b0; destruct (1 <? Z.of_nat (S k)), l; lia|].
    rewrite groups_be128 by lia. rewrite Hm. fold q. split; [|lia].
    lia.
  - rewrite znth_0. subst b0. destruct (1 <? Z.of_nat (S k)), l; lia.
Qed.

(** ** Fields *)
Lemma vbas_field_total src pos : 0 <= pos <= zlen src -> exists r, vbas_field src pos = Ret r.
Proof.
  intros. unfold vbas_field. rewrite adv_ok by auto. cbn [bind].
  destruct (vbas_decode_total (zskip pos src)) as [r ->]. cbn [bind].
  destruct r as [[? ?]|]; eauto.
Qed.

Lemma vbas_field_at src pos v rest :
  0 <= pos <= zlen src -> u64 v -> bytes_ok rest -> zskip pos src = vbas_encode v ++ rest ->
  vbas_field src pos = Ret (Some (v, pos + zlen (vbas_encode v))) /\
  zskip (pos + zlen (vbas_encode v)) src = rest /\
  0 <= pos + zlen (vbas_encode v) <= zlen src.
Proof.
  intros Hp Hv Hr E. unfold vbas_field. rewrite adv_ok by auto. cbn [bind]. rewrite E.
  rewrite vbas_roundtrip by auto. cbn [bind].
  assert (Hl : zlen (zskip pos src) = zlen (vbas_encode v) + zlen rest) by (rewrite E; apply zlen_app).
  rewrite zlen_zskip in Hl by auto. pose proof (zlen_nonneg rest). pose proof (zlen_nonneg (vbas_encode v)).
  split; [reflexivity|]. split; [|lia].
  rewrite Z.add_comm, <- zskip_zskip by lia. rewrite E. apply zskip_app. reflexivity.
Qed.

(** Agreement of two buffers on their first n bytes. *)
Definition agree (n : Z) (a b : list Z) : Prop := n <= zlen a /\ n <= zlen b /\ ztake n a = ztake n b.

Lemma agree_le n m a b : 0 <= m <= n -> agree n a b -> agree m a b.
Proof.
  intros H (H1 & H2 & H3). repeat split; try lia.
  rewrite <- (ztake_zskip n a), <- (ztake_zskip n b), H3.
  rewrite !ztake_app_le; auto; rewrite zlen_ztake; lia.
Qed.

Lemma vbas_field_sound src pos v p :
  bytes_ok src -> 0 <= pos <= zlen src -> vbas_field src pos = Ret (Some (v, p)) ->
  u64 v /\ pos < p <= zlen src /\ p <= pos + 10 /\
  (forall src', bytes_ok src' -> agree p src src' -> vbas_field src' pos = Ret (Some (v, p))).
Proof.
  intros Hb Hp H. unfold vbas_field in H. rewrite adv_ok in H by auto. cbn [bind] in H.
  apply bind_ret_inv in H. destruct H as ([[v' st]|] & Hd & H); [|discriminate].
  injection H as <- <-.
  apply vbas_decode_iff in Hd; [|apply bytes_ok_zskip; auto].
  destruct Hd as (pre & rest & E & Hf & Hn & Hle & Hv & Hv64).
  assert (Hl : zlen (zskip pos src) = zlen pre + zlen rest) by (rewrite E; apply zlen_app).
  rewrite zlen_zskip in Hl by auto. pose proof (zlen_nonneg rest).
  assert (1 <= zlen pre).
  { destruct pre; [destruct (vbas_form_nil Hf)|]. rewrite zlen_cons. pose proof (zlen_nonneg pre). lia. }
  split. { split; [|exact Hv64]. rewrite Hv. apply be128_ge. lia. }
  split; [lia|]. split; [lia|].
  intros src' Hb' (A1 & A2 & A3).
  unfold vbas_field. rewrite adv_ok by lia. cbn [bind].
  assert (E' : zskip pos src' = pre ++ zskip (pos + st) src').
  { rewrite <- (ztake_zskip (pos + st) src') at 1. rewrite zskip_app_le by (rewrite zlen_ztake; lia).
    f_equal. rewrite <- A3.
    assert (Q: zskip pos src = zskip pos (ztake (pos + st) src) ++ zskip (pos + st) src).
    { rewrite <- (ztake_zskip (pos + st) src) at 1. rewrite zskip_app_le by (rewrite zlen_ztake; lia). reflexivity. }
    rewrite E in Q.
    assert (L: zlen (zskip pos (ztake (pos + st) src)) = zlen pre).
    { rewrite zlen_zskip; rewrite zlen_ztake; lia. }
    apply (f_equal (ztake (zlen pre))) in Q. rewrite ztake_app in Q by reflexivity.
    rewrite ztake_app in Q by exact L. auto. }
  assert (Hd : vbas_decode (zskip pos src') = Ret (Some (v', st))).
  { apply vbas_decode_iff; [apply bytes_ok_zskip; auto|].
    exists pre, (zskip (pos + st) src'). repeat split; auto. }
  rewrite Hd. reflexivity.
Qed.

Lemma decode_bin_id_sound src id bb l n :
  bytes_ok src -> decode_bin_id src = Ret (Some (id, bb, l, n)) ->
  u64 id /\ 1 <= bb <= 3 /\ 0 < n <= zlen src /\ n <= 10 /\
  (forall src', bytes_ok src' -> agree n src src' -> decode_bin_id src' = Ret (Some (id, bb, l, n))).
Proof.
  intros Hb H. apply decode_bin_id_iff in H; auto.
  destruct H as (pre & rest & E & Hf & Hn & Hle & Hp).
  assert (1 <= zlen pre).
  { destruct pre; [destruct (vbas_form_nil Hf)|]. rewrite zlen_cons. pose proof (zlen_nonneg pre). lia. }
  pose proof (zlen_nonneg rest).
  destruct Hp as (b0 & tl & E2 & Hbb & Hbb0 & Hl & Hid & Hid64).
  split. { split; auto. rewrite Hid. pose proof (be128_ge (b0 mod 16) tl). lia. }
  split; [lia|]. split. { rewrite E, zlen_app. lia. }
  split; auto.
  intros src' Hb' (A1 & A2 & A3).
  apply decode_bin_id_iff; auto. exists pre, (zskip n src').
  split. { rewrite <- (ztake_zskip n src') at 1. f_equal. rewrite <- A3, E. apply ztake_app. auto. }
  repeat split; auto. exists b0, tl; repeat split; auto.
Qed.

(** ** decode_header *)
Ltac dh_step :=
  match goal with
  | |- context [bind (vbas_field ?s ?p) _] =>
      let r := fresh "r" in let E := fresh "E" in
      destruct (vbas_field_total s p ltac:(lia)) as [r E]; rewrite E; cbn [bind];
      destruct r as [[? ?]|]; [apply vbas_field_sound in E; [|assumption|lia]; destruct E as (? & ? & ? & _)|cbn [bind]; eauto]
  end.
Ltac dh_cmp :=
  match goal with |- context[if ?a <? ?b then Ret None else _] => destruct (a <? b); cbn [bind]; eauto end.

Lemma decode_header_total src c : bytes_ok src -> exists r, decode_header src c = Ret r.
Proof.
  intros Hb. unfold decode_header. pose proof (zlen_nonneg src). rewrite adv_ok by lia.
  rewrite zskip_0. cbn [bind].
  destruct (decode_bin_id_total src) as [r E]. rewrite E. cbn [bind].
  destruct r as [[[[id bb] l] pos]|]; [|eauto].
  apply decode_bin_id_sound in E; auto. destruct E as (_ & _ & Hpos & _).
  destruct ((bb =? 2) || (bb =? 3)); [dh_step; dh_cmp|cbn [bind]].
  all: destruct (bb =? 3); [dh_step; dh_cmp|cbn [bind]].
  all: dh_step; dh_step.
  all: match goal with |- context [if has_aux ?x then _ else _] => destruct (has_aux x) end;
       [dh_step|]; cbn [bind]; eauto.
Qed.

Lemma decode_header_sound src c h n c' :
  bytes_ok src -> ctx_ok c -> decode_header src c = Ret (Some (h, n, c')) ->
  hdr_ok h /\ c' = mkCtx (h_class h) (h_csn h) /\ 1 <= n <= zlen src /\ n <= 60 /\
  (forall src', bytes_ok src' -> agree n src src' -> decode_header src' c = Ret (Some (h, n, c'))).
Proof.
  intros Hb Hc H. unfold decode_header in H. pose proof (zlen_nonneg src) as Hnn. rewrite adv_ok in H by lia.
  rewrite zskip_0 in H. cbn [bind] in H.
  apply bind_ret_inv in H. destruct H as ([[[[id bb] l] p0]|] & E0 & H); [|discriminate].
  apply decode_bin_id_sound in E0; auto. destruct E0 as (Hid & Hbb & Hp0 & Hp0' & M0).
  apply bind_ret_inv in H. destruct H as ([[cl p1]|] & E1 & H); [|discriminate].
  assert (F1 : 0 <= cl <= 255 /\ p0 <= p1 <= zlen src /\ p1 <= p0 + 10 /\
     forall src', bytes_ok src' -> agree p1 src src' ->
      (if (bb =? 2) || (bb =? 3) then
                 let* r := vbas_field src' p0 in
                 match r with
                 | None => Ret None
                 | Some (v, pos) => if 255 <? v then Ret None else Ret (Some (v, pos))
                 end
               else Ret (Some (c_class c, p0))) = Ret (Some (cl, p1))).
  { destruct ((bb =? 2) || (bb =? 3)).
    - apply bind_ret_inv in E1. destruct E1 as ([[v p]|] & E1 & E2); [|discriminate].
      apply vbas_field_sound in E1; auto; [|lia]. destruct E1 as (Hv & Hp & Hp' & M).
      destruct (Z.ltb_spec 255 v); [discriminate|]. injection E2 as -> ->.
      unfold u64 in Hv. repeat split; try lia. intros. rewrite M; auto. cbn [bind].
      replace (255 <? cl) with false by lia. reflexivity.
    - injection E1 as <- <-. unfold ctx_ok in Hc. repeat split; try lia. }
  clear E1. destruct F1 as (Hcl & Hp1 & Hp1' & M1).
  apply bind_ret_inv in H. destruct H as ([[cs p2]|] & E1 & H); [|discriminate].
  assert (F2 : 0 <= cs <= 65535 /\ p1 <= p2 <= zlen src /\ p2 <= p1 + 10 /\
     forall src', bytes_ok src' -> agree p2 src src' ->
      (if bb =? 3 then
                 let* r := vbas_field src' p1 in
                 match r with
                 | None => Ret None
                 | Some (v, pos) => if 65535 <? v then Ret None else Ret (Some (v, pos))
                 end
               else Ret (Some (c_csn c, p1))) = Ret (Some (cs, p2))).
  { destruct (bb =? 3).
    - apply bind_ret_inv in E1. destruct E1 as ([[v p]|] & E1 & E2); [|discriminate].
      apply vbas_field_sound in E1; auto; [|lia]. destruct E1 as (Hv & Hp & Hp' & M).
      destruct (Z.ltb_spec 65535 v); [discriminate|]. injection E2 as -> ->.
      unfold u64 in Hv. repeat split; try lia. intros. rewrite M; auto. cbn [bind].
      replace (65535 <? cs) with false by lia. reflexivity.
    - injection E1 as <- <-. unfold ctx_ok in Hc. repeat split; try lia. }
  clear E1. destruct F2 as (Hcs & Hp2 & Hp2' & M2).
  apply bind_ret_inv in H. destruct H as ([[off p3]|] & E3 & H); [|discriminate].
  apply vbas_field_sound in E3; auto; [|lia]. destruct E3 as (Hoff & Hp3 & Hp3' & M3).
  apply bind_ret_inv in H. destruct H as ([[len p4]|] & E4 & H); [|discriminate].
  apply vbas_field_sound in E4; auto; [|lia]. destruct E4 as (Hlen & Hp4 & Hp4' & M4).
  apply bind_ret_inv in H. destruct H as ([[aux p5]|] & E5 & H); [|discriminate].
  assert (F5 : u64 aux /\ p4 <= p5 <= zlen src /\ p5 <= p4 + 10 /\
     forall src', bytes_ok src' -> agree p5 src src' ->
      (if has_aux cl then vbas_field src' p4 else Ret (Some (0, p4))) = Ret (Some (aux, p5))).
  { destruct (has_aux cl).
    - apply vbas_field_sound in E5; auto; [|lia]. destruct E5 as (Hv & Hp & Hp' & M).
      repeat split; auto; try (apply Hv); lia.
    - injection E5 as <- <-. unfold u64. repeat split; try lia. }
  clear E5. destruct F5 as (Haux & Hp5 & Hp5' & M5).
  injection H as <- <- <-. cbn [h_class h_csn].
  split. { unfold hdr_ok; cbn. tauto. }
  split; [reflexivity|]. split; [lia|]. split; [lia|].
  intros src' Hb' Ha. unfold decode_header.
  destruct Ha as (A1 & A2 & A3).
  assert (Hag : forall m, 0 <= m <= p5 -> agree m src src').
  { intros; apply agree_le with p5; [lia|]. repeat split; auto. }
  rewrite adv_ok by (pose proof (zlen_nonneg src'); lia). rewrite zskip_0. cbn [bind].
  rewrite M0 by (auto; apply Hag; lia). cbn [bind].
  rewrite M1 by (auto; apply Hag; lia). cbn [bind].
  rewrite M2 by (auto; apply Hag; lia). cbn [bind].
  rewrite M3 by (auto; apply Hag; lia). cbn [bind].
  rewrite M4 by (auto; apply Hag; lia). cbn [bind].
  rewrite M5 by (auto; apply Hag; lia). reflexivity.
Qed.

Lemma has_aux_odd c : has_aux c = Z.odd c.
Proof. unfold has_aux. rewrite land_1. rewrite Zmod_odd. destruct (Z.odd c); reflexivity. Qed.

(** Round trip: whatever form the encoder picked. *)
Lemma decode_encode_with_indicator h (ec en : bool) c rest :
  hdr_ok h -> ctx_ok c -> bytes_ok rest ->
  (en = true -> ec = true) ->
  (ec = false -> h_class h = c_class c) ->
  (en = false -> h_csn h = c_csn c) ->
  decode_header (encode_with_indicator h ec en ++ rest) c
  = Ret (Some (as_received h, zlen (encode_with_indicator h ec en), mkCtx (h_class h) (h_csn h))).
Proof.
  intros (Hcl & Hcs & Hid & Hoff & Hlen & Haux) Hc Hr Hne Hec Hen.
  unfold encode_with_indicator.
  set (bb := if negb ec && negb en then 1 else if ec && negb en then 2 else 3).
  assert (Hbb : 1 <= bb <= 3) by (subst bb; destruct ec, en; simpl; lia).
  destruct (encode_bin_id_facts (h_id h) bb (h_last h) Hid Hbb) as (B1 & B2 & B3 & B4 & B5).
  set (B := encode_bin_id (h_id h) bb (h_last h)) in *.
  assert (V : forall v, u64 v -> bytes_ok (vbas_encode v)) by (intros; apply vbas_encode_facts; auto).
  assert (Ucl : u64 (h_class h)) by (unfold u64; lia).
  assert (Ucs : u64 (h_csn h)) by (unfold u64; lia).
  rewrite <- !app_assoc.
  set (T5 := (if has_aux (h_class h) then vbas_encode (h_aux h) else []) ++ rest).
  set (T4 := vbas_encode (h_len h) ++ T5).
  set (T3 := vbas_encode (h_off h) ++ T4).
  set (T2 := (if en then vbas_encode (h_csn h) else []) ++ T3).
  set (T1 := (if ec then vbas_encode (h_class h) else []) ++ T2).
  assert (K5 : bytes_ok T5) by (apply bytes_ok_app; split; auto; destruct (has_aux _); auto; constructor).
  assert (K4 : bytes_ok T4) by (apply bytes_ok_app; auto).
  assert (K3 : bytes_ok T3) by (apply bytes_ok_app; auto).
  assert (K2 : bytes_ok T2) by (apply bytes_ok_app; split; auto; destruct en; auto; constructor).
  assert (K1 : bytes_ok T1) by (apply bytes_ok_app; split; auto; destruct ec; auto; constructor).
  set (src := B ++ T1).
  assert (Ks : bytes_ok src) by (apply bytes_ok_app; auto).
  unfold decode_header. pose proof (zlen_nonneg src).
  rewrite adv_ok by lia. rewrite zskip_0. cbn [bind].
  assert (D : decode_bin_id src = Ret (Some (h_id h, bb, h_last h, zlen B))).
  { apply decode_bin_id_iff; auto. exists B, T1. repeat split; auto; lia. }
  rewrite D. cbn [bind].
  assert (S0 : zskip (zlen B) src = T1) by (apply zskip_app; auto).
  assert (P0 : 0 <= zlen B <= zlen src) by (unfold src; rewrite zlen_app; pose proof (zlen_nonneg T1); lia).
  assert (C2 : (bb =? 2) || (bb =? 3) = ec) by (subst bb; destruct ec, en; simpl in *; auto; discriminate (Hne eq_refl)).
  assert (C3 : (bb =? 3) = en) by (subst bb; destruct ec, en; simpl in *; auto; discriminate (Hne eq_refl)).
  rewrite C2, C3.
  assert (S1: exists p1, (if ec then
                 let* r := vbas_field src (zlen B) in
                 match r with
                 | None => Ret None
                 | Some (v, pos) => if 255 <? v then Ret None else Ret (Some (v, pos))
                 end
               else Ret (Some (c_class c, zlen B))) = Ret (Some (h_class h, p1)) /\
            p1 = zlen B + zlen (if ec then vbas_encode (h_class h) else []) /\
            zskip p1 src = T2 /\ 0 <= p1 <= zlen src).
  { destruct ec.
    - destruct (vbas_field_at src (zlen B) (h_class h) T2 P0 Ucl K2 S0) as (F1 & F2 & F3).
      rewrite F1. cbn [bind]. replace (255 <? h_class h) with false by lia. eexists; repeat split; eauto; lia.
    - exists (zlen B). rewrite Hec by auto. rewrite zlen_nil. repeat split; auto; lia. }
  destruct S1 as (p1 & E1 & L1 & S1 & P1). rewrite E1. cbn [bind].
  assert (S2: exists p2, (if en then
                 let* r := vbas_field src p1 in
                 match r with
                 | None => Ret None
                 | Some (v, pos) => if 65535 <? v then Ret None else Ret (Some (v, pos))
                 end
               else Ret (Some (c_csn c, p1))) = Ret (Some (h_csn h, p2)) /\
            p2 = p1 + zlen (if en then vbas_encode (h_csn h) else []) /\
            zskip p2 src = T3 /\ 0 <= p2 <= zlen src).
  { destruct en.
    - destruct (vbas_field_at src p1 (h_csn h) T3 P1 Ucs K3 S1) as (F1 & F2 & F3).
      rewrite F1. cbn [bind]. replace (65535 <? h_csn h) with false by lia. eexists; repeat split; eauto; lia.
    - exists p1. rewrite Hen by auto. rewrite zlen_nil. repeat split; auto; lia. }
  destruct S2 as (p2 & E2 & L2 & S2 & P2). rewrite E2. cbn [bind].
  destruct (vbas_field_at src p2 (h_off h) T4 P2 Hoff K4 S2) as (F3 & S3 & P3). rewrite F3. cbn [bind].
  destruct (vbas_field_at src _ (h_len h) T5 P3 Hlen K5 S3) as (F4 & S4 & P4). rewrite F4. cbn [bind].
  assert (S5: exists p5,
     (if has_aux (h_class h) then vbas_field src (p2 + zlen (vbas_encode (h_off h)) + zlen (vbas_encode (h_len h)))
      else Ret (Some (0, p2 + zlen (vbas_encode (h_off h)) + zlen (vbas_encode (h_len h)))))
     = Ret (Some (if Z.odd (h_class h) then h_aux h else 0, p5)) /\
     p5 = p2 + zlen (vbas_encode (h_off h)) + zlen (vbas_encode (h_len h)) +
          zlen (if has_aux (h_class h) then vbas_encode (h_aux h) else [])).
  { unfold T5 in S4. rewrite has_aux_odd in *. destruct (Z.odd (h_class h)).
    - destruct (vbas_field_at src _ (h_aux h) rest P4 Haux Hr S4) as (G1 & G2 & G3). eauto.
    - eexists; split; [reflexivity|]. unfold zlen at 5; simpl length. lia. }
  destruct S5 as (p5 & E5 & L5). rewrite E5. cbn [bind].
  unfold as_received. do 3 f_equal. f_equal. rewrite !zlen_app. lia.
Qed.

Lemma decode_encode_header h c rest : hdr_ok h -> ctx_ok c -> bytes_ok rest ->
  decode_header (fst (encode_header h c) ++ rest) c
  = Ret (Some (as_received h, zlen (fst (encode_header h c)), snd (encode_header h c))).
Proof.
  intros. unfold encode_header. cbn [fst snd]. apply decode_encode_with_indicator; auto.
  - destruct (h_class h =? c_class c), (h_csn h =? c_csn c); simpl; auto.
  - destruct (Z.eqb_spec (h_class h) (c_class c)), (h_csn h =? c_csn c); simpl; auto; discriminate.
  - destruct (Z.eqb_spec (h_csn h) (c_csn c)); simpl; auto; discriminate.
Qed.

Lemma encode_with_indicator_facts h ec en : hdr_ok h ->
  let e := encode_with_indicator h ec en in
  bytes_ok e /\ 1 <= zlen e <= 60 /\ znth 0 e 0 <> 0.
Proof.
  intros (Hcl & Hcs & Hid & Hoff & Hlen & Haux). unfold encode_with_indicator.
  set (bb := if negb ec && negb en then 1 else if ec && negb en then 2 else 3).
  assert (Hbb : 1 <= bb <= 3) by (subst bb; destruct ec, en; simpl; lia).
  destruct (encode_bin_id_facts (h_id h) bb (h_last h) Hid Hbb) as (B1 & B2 & B3 & B4 & B5).
  set (B := encode_bin_id (h_id h) bb (h_last h)) in *.
  assert (V : forall v, u64 v -> bytes_ok (vbas_encode v) /\ 1 <= zlen (vbas_encode v) <= 10)
    by (intros; split; apply vbas_encode_facts; auto).
  assert (Ucl : u64 (h_class h)) by (unfold u64; lia).
  assert (Ucs : u64 (h_csn h)) by (unfold u64; lia).
  assert (O : forall (b : bool) v, u64 v -> bytes_ok (if b then vbas_encode v else []) /\
             0 <= zlen (if b then vbas_encode v else []) <= 10).
  { intros [] v Hv; cbn iota. { destruct (V v Hv); split; auto; lia. } split. { apply Forall_nil. } cbv; intuition discriminate. }
  cbn zeta. split; [|split].
  - rewrite !bytes_ok_app. repeat split; auto; try (apply V; auto); apply O; auto.
  - rewrite !zlen_app.
    pose proof (proj2 (V _ Hoff)); pose proof (proj2 (V _ Hlen)).
    pose proof (proj2 (O ec _ Ucl)); pose proof (proj2 (O en _ Ucs)).
    pose proof (proj2 (O (has_aux (h_class h)) _ Haux)). lia.
  - rewrite znth_app_l by lia. exact B5.
Qed.
