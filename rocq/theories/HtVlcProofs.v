(** The VLC encoder, and the joined MEL and VLC bytes. *)
From Verif Require Import Base BaseLemmas HtBits HtStreamModel HtReaders HtReadProofs HtMelReadProofs HtMelEncProofs.

(** The bits in a byte list in reading order. *)
Fixpoint vbits (u : bool) (bs : list Z) : list bool :=
  match bs with
  | [] => []
  | b :: t => bitsLE (Z.to_nat (rev_width u b)) b ++ vbits (143 <? b) t
  end.
Fixpoint vflag (u : bool) (bs : list Z) : bool :=
  match bs with [] => u | b :: t => vflag (143 <? b) t end.
(** After a byte above 0x8F, a byte with seven low bits set is 0x7F. *)
Fixpoint vwf (u : bool) (bs : list Z) : Prop :=
  match bs with
  | [] => True
  | b :: t => (u = true -> Z.land b 127 = 127 -> b = 127) /\ vwf (143 <? b) t
  end.
Lemma vbits_snoc u bs b : vbits u (bs ++ [b]) = vbits u bs ++ bitsLE (Z.to_nat (rev_width (vflag u bs) b)) b.
Proof.
  revert u. induction bs as [|a t IH]; intros u; cbn [app vbits vflag].
  - now rewrite app_nil_r.
  - now rewrite IH, app_assoc.
Qed.
Lemma vwf_snoc u bs b : vwf u (bs ++ [b]) <-> vwf u bs /\ (vflag u bs = true -> Z.land b 127 = 127 -> b = 127).
Proof.
  revert u. induction bs as [|a t IH]; intros u; cbn [app vwf vflag]; [tauto|].
  rewrite IH. tauto.
Qed.
Lemma vflag_snoc u bs b : vflag u (bs ++ [b]) = (143 <? b).
Proof. revert u. induction bs as [|a t IH]; intros u; cbn [app vflag]; auto. Qed.

Record vlc_ok (s : vlc_enc) (l : list bool) : Prop := MkVl {
  vo_bytes : bytes_ok (ve_buf s);
  vo_bits8 : 0 <= ve_bits s < 8;
  vo_tmp : 0 <= ve_tmp s < 2 ^ ve_bits s;
  vo_last : (143 <? ve_last s) = vflag true (rev (ve_buf s)) /\ (143 <? ve_last s = true -> ve_bits s < 7) \/
            ve_last s = 0 /\ vflag true (rev (ve_buf s)) = true /\ ve_bits s = 7 /\ ve_tmp s <> 127;
  vo_wf : vwf true (rev (ve_buf s));
  vo_stream : vbits true (rev (ve_buf s)) ++ bitsLE (Z.to_nat (ve_bits s)) (ve_tmp s) = l }.

Lemma vlc_init_ok : vlc_ok vlc_init [true; true; true; true].
Proof. constructor; cbn; auto; try lia; try constructor. Qed.

Lemma lt_128_land b : 0 <= b < 128 -> Z.land b 127 = b.
Proof. intros H. rewrite land_127. apply Z.mod_small. lia. Qed.

Lemma vlc_emit_loop_ok fuel : forall s l cwd len, vlc_ok s l -> 0 <= len <= Z.of_nat fuel -> 0 <= cwd ->
  vlc_ok (vlc_emit_loop fuel s cwd len) (l ++ bitsLE (Z.to_nat len) cwd).
Proof.
  induction fuel as [|f IH]; intros s l cwd len H Hl Hc; cbn [vlc_emit_loop].
  - replace len with 0 by lia. cbn. rewrite app_nil_r. exact H.
  - destruct (len <=? 0) eqn:E0.
    { replace len with 0 by lia. cbn. rewrite app_nil_r. exact H. }
    destruct H as [Hb H8 Ht HL Hw Hs].
    set (avail := 8 - (if 143 <? ve_last s then 1 else 0) - ve_bits s).
    assert (1 <= avail <= 8) as Ha.
    { unfold avail. destruct (143 <? ve_last s) eqn:E; [|lia].
      destruct HL as [[_ HL]|[HL _]]; [specialize (HL eq_refl)|]; lia. }
    set (t := Z.min avail len).
    assert (1 <= t <= 8 /\ t <= avail /\ t <= len) as (T1 & T2 & T3) by lia.
    set (nb := ve_bits s + t).
    assert (nb <= 8) as Hnb by (unfold nb, avail in *; destruct (143 <? ve_last s); lia).
    assert (0 <= Z.land cwd (Z.shiftl 1 t - 1) < 2 ^ t) as Hc1.
    { rewrite Z.shiftl_1_l, land_ones_mod by lia. apply Z.mod_pos_bound. apply Z.pow_pos_nonneg; lia. }
    assert (0 <= Z.shiftl (Z.land cwd (Z.shiftl 1 t - 1)) (ve_bits s) < 2 ^ nb) as Hc2.
    { unfold nb. rewrite Z.add_comm. apply shiftl_range; lia. }
    assert (2 ^ nb <= 256) as Hp by (change 256 with (2 ^ 8); apply Z.pow_le_mono_r; lia).
    assert (2 ^ ve_bits s <= 2 ^ nb) as Hp2 by (apply Z.pow_le_mono_r; lia).
    rewrite (land_255 (Z.shiftl _ _)), Z.mod_small by lia.
    set (tmp := Z.lor (ve_tmp s) (Z.shiftl (Z.land cwd (Z.shiftl 1 t - 1)) (ve_bits s))).
    assert (0 <= tmp < 2 ^ nb) as Htmp by (unfold tmp; apply lor_range; lia).
    assert (bitsLE (Z.to_nat nb) tmp = bitsLE (Z.to_nat (ve_bits s)) (ve_tmp s) ++ bitsLE (Z.to_nat t) cwd) as Ebits.
    { unfold tmp, nb. replace (Z.to_nat (ve_bits s + t)) with (Z.to_nat (ve_bits s) + Z.to_nat t)%nat by lia.
      replace (ve_bits s) with (Z.of_nat (Z.to_nat (ve_bits s))) at 2 by lia.
      rewrite bitsLE_lor by (rewrite Z2Nat.id by lia; lia). f_equal.
      rewrite Z.shiftl_1_l. replace t with (Z.of_nat (Z.to_nat t)) at 2 by lia. apply bitsLE_land. lia. }
    assert (bitsLE (Z.to_nat len) cwd = bitsLE (Z.to_nat t) cwd ++ bitsLE (Z.to_nat (len - t)) (Z.shiftr cwd t)) as Esplit.
    { replace (Z.to_nat len) with (Z.to_nat t + Z.to_nat (len - t))%nat by lia.
      rewrite bitsLE_split. now rewrite Z2Nat.id by lia. }
    rewrite Esplit, app_assoc.
    assert (0 <= Z.shiftr cwd t) as Hcs by (now apply Z.shiftr_nonneg).
    assert (vbits true (rev (ve_buf s)) ++ bitsLE (Z.to_nat nb) tmp = l ++ bitsLE (Z.to_nat t) cwd) as Estream.
    { rewrite Ebits, app_assoc, Hs. reflexivity. }
    destruct (avail - t =? 0) eqn:Efull.
    + destruct ((143 <? ve_last s) && negb (tmp =? 127)) eqn:E7.
      * apply andb_true_iff in E7 as [E7 E8]. apply IH; auto; try lia.
        assert (nb = 7) as N7 by (unfold nb, avail in *; rewrite E7 in *; lia).
        destruct HL as [[HL1 HL2]|[HL _]]; [|rewrite HL in E7; discriminate].
        constructor; cbn [ve_buf ve_bits ve_tmp ve_last]; auto; try lia.
        right. repeat split; auto; try lia. congruence.
      * apply IH; auto; try lia.
        assert (byte_ok tmp) as Bt by (unfold byte_ok; lia).
        assert (Z.to_nat (rev_width (vflag true (rev (ve_buf s))) tmp) = Z.to_nat nb /\
                (vflag true (rev (ve_buf s)) = true -> Z.land tmp 127 = 127 -> tmp = 127)) as [Ew Ewf].
        { destruct HL as [[HL1 HL2]|(HL1 & HL2 & HL3 & HL4)].
          - rewrite <- HL1. destruct (143 <? ve_last s) eqn:E.
            + cbn [andb] in E7. assert (tmp = 127) as E127 by lia. rewrite E127. cbn.
              split; [|auto]. unfold nb, avail in *. f_equal. lia.
            + split; [|discriminate]. unfold rev_width. cbn [andb Z.b2z]. f_equal. unfold nb, avail in *. lia.
          - rewrite HL2. assert (nb = 8) as N8 by (unfold nb, avail in *; rewrite HL1 in *; cbn in *; lia).
            assert (Z.land tmp 127 = ve_tmp s) as El.
            { unfold tmp. rewrite Z.land_lor_distr_l. rewrite HL3 in *. rewrite lt_128_land by (cbn in Ht; lia).
              rewrite (land_shift_small _ 127 7) by lia. apply Z.lor_0_r. }
            split.
            + unfold rev_width. rewrite El. replace (ve_tmp s =? 127) with false by lia. cbn [andb Z.b2z]. lia.
            + intros _ E. congruence. }
        constructor; cbn [ve_buf ve_bits ve_tmp ve_last]; cbn [rev]; auto; try lia.
        -- constructor; auto.
        -- left. rewrite vflag_snoc. split; auto. lia.
        -- apply vwf_snoc. auto.
        -- rewrite vbits_snoc, Ew, <- Estream. cbn. now rewrite app_nil_r.
    + apply IH; auto; try lia.
      assert (t < avail) as Hlt by lia.
      constructor; cbn [ve_buf ve_bits ve_tmp ve_last]; auto; try lia.
      * unfold nb, avail in *. destruct (143 <? ve_last s); lia.
      * destruct HL as [[HL1 HL2]|(HL1 & HL2 & HL3 & HL4)].
        -- left. split; auto. intros E. unfold nb, avail in *. rewrite E in *. lia.
        -- exfalso. assert (avail = 1) by (unfold avail; rewrite HL1, HL3; reflexivity). lia.
Qed.

Lemma vlc_emit_ok s l cwd len : vlc_ok s l -> 0 <= len -> 0 <= cwd ->
  vlc_ok (vlc_emit s cwd len) (l ++ bitsLE (Z.to_nat len) cwd).
Proof. intros. apply vlc_emit_loop_ok; auto. lia. Qed.

(** Reading [bs] and then a byte [x] that shows the last [n] bits. *)
Lemma rev_pre_vbits bs : forall u x rest n v,
  bytes_ok bs -> vwf u bs -> 0 <= n -> n <= rev_width (vflag u bs) (hd 0 (x :: rest)) ->
  bitsLE (Z.to_nat n) v = bitsLE (Z.to_nat n) x ->
  rev_pre u (bs ++ x :: rest) (vbits u bs ++ bitsLE (Z.to_nat n) v).
Proof.
  induction bs as [|b t IH]; intros u x rest n v Hb Hw Hn Hle Hv; cbn [app vbits vflag] in *.
  - left; rewrite bitsLE_length; cbn [hd] in *; [lia|exact Hv].
  - inversion Hb; subst. destruct Hw as [W1 W2]. rewrite <- app_assoc.
    right; cbn [hd tl].
    + intros W7 T7. exfalso. unfold rev_width in W7. destruct u; cbn [andb Z.b2z] in W7; [|lia].
      destruct (Z.land b 127 =? 127) eqn:E; cbn [Z.b2z] in W7; [|lia].
      rewrite W1 in T7 by (auto; lia). discriminate.
    + apply IH; auto.
Qed.
Lemma rev_pre_vbits_end bs : forall u rest, bytes_ok bs -> vwf u bs -> rev_pre u (bs ++ rest) (vbits u bs).
Proof.
  induction bs as [|b t IH]; intros u rest Hb Hw; cbn [app vbits] in *.
  - left; [cbn [length]; destruct (rev_width_78 u (hd 0 rest)); lia|reflexivity].
  - inversion Hb; subst. destruct Hw as [W1 W2].
    right; cbn [hd tl].
    + intros W7 T7. exfalso. unfold rev_width in W7. destruct u; cbn [andb Z.b2z] in W7; [|lia].
      destruct (Z.land b 127 =? 127) eqn:E; cbn [Z.b2z] in W7; [|lia].
      rewrite W1 in T7 by (auto; lia). discriminate.
    + apply IH; auto.
Qed.

(** ** Joining the two parts *)

(** The byte shared by the two parts, or two bytes. *)
Lemma bitsBE_land_high n r x y : 0 <= r -> 0 <= n ->
  (forall i, r <= i < r + n -> Z.testbit x i = Z.testbit y (i - r)) ->
  bitsBE (Z.to_nat n) (Z.shiftr x r) = bitsBE (Z.to_nat n) y.
Proof.
  intros Hr Hn H. unfold bitsBE. f_equal. apply bitsLE_ext. intros i Hi.
  rewrite Z.shiftr_spec by lia. rewrite H by lia. f_equal. lia.
Qed.

Lemma bitsBE_prefix n r x : 0 <= r -> 0 <= n ->
  exists z, bitsBE (Z.to_nat (n + r)) x = bitsBE (Z.to_nat n) (Z.shiftr x r) ++ z.
Proof.
  intros Hr Hn. exists (bitsBE (Z.to_nat r) x). unfold bitsBE.
  replace (Z.to_nat (n + r)) with (Z.to_nat r + Z.to_nat n)%nat by lia.
  rewrite bitsLE_split, rev_app_distr. now rewrite Z2Nat.id by lia.
Qed.

(** The first byte of the VLC part, in reading order. *)
Definition vfirst (v : vlc_enc) : Z := match rev (ve_buf v) with [] => ve_tmp v | d :: _ => d end.

Lemma bits4 d : bitsLE 4 d = [true; true; true; true] -> Z.land d 15 = 15.
Proof.
  intros H. change 15 with (2 ^ Z.of_nat 4 - 1) at 1. rewrite land_ones_mod by lia.
  change 15 with (15 mod 2 ^ Z.of_nat 4). apply bitsLE_inj. rewrite H. reflexivity.
Qed.

Lemma vfirst_15 v l : vlc_ok v ([true; true; true; true] ++ l) -> Z.land (vfirst v) 15 = 15 /\
  (rev (ve_buf v) = [] -> 4 <= ve_bits v).
Proof.
  intros [Hb H8 Ht HL Hw Hs]. unfold vfirst. destruct (rev (ve_buf v)) as [|d t] eqn:E.
  - cbn [vbits app] in Hs.
    assert (4 <= ve_bits v) as H4.
    { apply (f_equal (@length bool)) in Hs. rewrite bitsLE_length in Hs. cbn [length app] in Hs. lia. }
    split; auto. apply bits4. apply (f_equal (firstn 4)) in Hs.
    rewrite <- bitsLE_prefix in Hs by lia. exact Hs.
  - split; [|discriminate]. apply bits4. cbn [vbits] in Hs. apply (f_equal (firstn 4)) in Hs.
    rewrite <- app_assoc, firstn_app, bitsLE_length in Hs.
    destruct (rev_width_78 true d) as [W|W]; rewrite W in Hs;
    rewrite <- bitsLE_prefix in Hs by lia; cbn [firstn Nat.sub] in Hs; rewrite app_nil_r in Hs; exact Hs.
Qed.

(** The joined bytes: [mel bytes; shared bytes; vlc bytes; 0xFF]. *)
Definition join_mid (v : vlc_enc) (m : mel_enc) : list Z :=
  let mtmp := Z.land (Z.shiftl (me_tmp m) (me_rem m)) 255 in
  let mel_mask := Z.land (Z.shiftl 255 (me_rem m)) 255 in
  let vlc_mask := Z.shiftr 255 (8 - ve_bits v) in
  if Z.lor mel_mask vlc_mask =? 0 then []
  else
    let fuse := Z.lor mtmp (ve_tmp v) in
    if (Z.lor (Z.land (Z.lxor fuse mtmp) mel_mask)
              (Z.land (Z.lxor fuse (ve_tmp v)) vlc_mask) =? 0) && negb (fuse =? 255)
    then [fuse] else [mtmp; ve_tmp v].

Lemma term_join v m : term_mel_vlc v m = rev (me_buf m) ++ join_mid v m ++ ve_buf v ++ [255].
Proof.
  unfold term_mel_vlc, join_mid. cbv zeta.
  destruct (Z.lor _ _ =? 0); [reflexivity|]. destruct (_ && _); reflexivity.
Qed.

Lemma xorb_false_eq a b : xorb a b = false -> a = b.
Proof. destruct a, b; auto; discriminate. Qed.

(** What the shared bytes are. *)
Lemma join_mid_spec v m lv lm : vlc_ok v lv -> mel_ok m lm ->
  let mtmp := Z.shiftl (me_tmp m) (me_rem m) in
  0 <= mtmp < 256 /\ bytes_ok (join_mid v m) /\ ~ In 255 (join_mid v m) /\
  (mflag false (rev (me_buf m)) = true -> hd 255 (join_mid v m) < 128) /\
  (join_mid v m = [] /\ me_rem m = 8 /\ ve_bits v = 0 \/
   exists x y, hd 255 (join_mid v m) = x /\ last (join_mid v m) 255 = y /\ join_mid v m <> [] /\
     (length (join_mid v m) <= 2)%nat /\ (length (join_mid v m) = 1%nat -> x = y) /\
     (length (join_mid v m) = 2%nat -> y = ve_tmp v) /\
     (forall i, me_rem m <= i < 8 -> Z.testbit x i = Z.testbit (me_tmp m) (i - me_rem m)) /\
     (forall i, 0 <= i < ve_bits v -> Z.testbit y i = Z.testbit (ve_tmp v) i)).
Proof.
  intros [Vb V8 Vt VL Vw Vs] [Mb Mr Mt Mw Ms]. cbv zeta.
  assert (7 <= me_width m <= 8) as W by (unfold me_width; destruct (mflag _ _); lia).
  assert (0 <= Z.shiftl (me_tmp m) (me_rem m) < 2 ^ me_width m) as Hm.
  { pose proof (shiftl_range (me_tmp m) (me_rem m) (me_width m - me_rem m) ltac:(lia) Mt ltac:(lia)) as R.
    replace (me_width m - me_rem m + me_rem m) with (me_width m) in R by lia. exact R. }
  assert (2 ^ me_width m <= 256) as Hm8 by (change 256 with (2 ^ 8); apply Z.pow_le_mono_r; lia).
  split; [lia|]. unfold join_mid. rewrite (land_255 (Z.shiftl (me_tmp m) _)), Z.mod_small by lia.
  set (mtmp := Z.shiftl (me_tmp m) (me_rem m)) in *.
  set (mask := Z.land (Z.shiftl 255 (me_rem m)) 255).
  set (vmask := Z.shiftr 255 (8 - ve_bits v)).
  assert (2 ^ ve_bits v <= 128) as V128 by (change 128 with (2 ^ 7); apply Z.pow_le_mono_r; lia).
  assert (forall i, 0 <= i -> Z.testbit 255 i = (i <? 8)) as B255.
  { intros i Hi. change 255 with (Z.ones 8). destruct (Z.lt_ge_cases i 8).
    - rewrite Z.ones_spec_low by lia. lia.
    - rewrite Z.ones_spec_high by lia. lia. }
  assert (forall i, me_rem m <= i < 8 -> Z.testbit mask i = true) as Bm.
  { intros i Hi. unfold mask. rewrite Z.land_spec, Z.shiftl_spec, !B255 by lia. lia. }
  assert (forall i, 0 <= i < ve_bits v -> Z.testbit vmask i = true) as Bv.
  { intros i Hi. unfold vmask. rewrite Z.shiftr_spec, B255 by lia. lia. }
  assert (forall i, me_rem m <= i -> Z.testbit mtmp i = Z.testbit (me_tmp m) (i - me_rem m)) as Bt.
  { intros i Hi. unfold mtmp. now rewrite Z.shiftl_spec by lia. }
  assert (mtmp <> 255) as Hne.
  { intros E. assert (Z.testbit mtmp 0 = true) as T by (rewrite E; reflexivity).
    unfold mtmp in T. rewrite Z.shiftl_spec_low in T by lia. discriminate. }
  destruct (Z.lor mask vmask =? 0) eqn:E0.
  - assert (mask = 0 /\ vmask = 0) as [Z1 Z2] by (apply Z.lor_eq_0_iff; lia).
    assert (me_rem m = 8) as R8.
    { destruct (Z.eq_dec (me_rem m) 8); auto. specialize (Bm 7 ltac:(lia)). rewrite Z1 in Bm. discriminate. }
    assert (ve_bits v = 0) as VZ.
    { destruct (Z.eq_dec (ve_bits v) 0); auto. specialize (Bv 0 ltac:(lia)). rewrite Z2 in Bv. discriminate. }
    split; [constructor|]. split; [auto|]. split; [|auto].
    intros Hf. unfold me_width in Mr. rewrite Hf in Mr. lia.
  - assert (mflag false (rev (me_buf m)) = true -> mtmp < 128) as H128.
    { intros Hf. unfold me_width in Hm. rewrite Hf in Hm. cbn in Hm. lia. }
    destruct ((Z.lor (Z.land (Z.lxor (Z.lor mtmp (ve_tmp v)) mtmp) mask)
              (Z.land (Z.lxor (Z.lor mtmp (ve_tmp v)) (ve_tmp v)) vmask) =? 0) && negb (Z.lor mtmp (ve_tmp v) =? 255)) eqn:E1.
    + apply andb_true_iff in E1 as [E1 E2].
      assert (Z.land (Z.lxor (Z.lor mtmp (ve_tmp v)) mtmp) mask = 0 /\
              Z.land (Z.lxor (Z.lor mtmp (ve_tmp v)) (ve_tmp v)) vmask = 0) as [L1 L2] by (apply Z.lor_eq_0_iff; lia).
      assert (forall n, 0 <= n -> 0 <= ve_tmp v < 2 ^ n -> 0 <= mtmp < 2 ^ n -> 0 <= Z.lor mtmp (ve_tmp v) < 2 ^ n) as RL
        by (intros; apply lor_range; auto).
      split; [repeat constructor; apply (RL 8); cbn; lia|].
      split; [cbn [In]; lia|]. cbn [hd last].
      split.
      { intros Hf. specialize (H128 Hf). apply (RL 7); cbn; lia. }
      right. exists (Z.lor mtmp (ve_tmp v)), (Z.lor mtmp (ve_tmp v)).
      split; [reflexivity|]. split; [reflexivity|]. split; [discriminate|]. split; [cbn; lia|].
      split; [auto|]. split; [cbn; lia|]. split.
      * intros i Hi. apply (f_equal (fun z => Z.testbit z i)) in L1. rewrite Z.bits_0, Z.land_spec, Z.lxor_spec in L1.
        rewrite Bm, andb_true_r in L1 by lia. rewrite <- Bt by lia. now apply xorb_false_eq.
      * intros i Hi. apply (f_equal (fun z => Z.testbit z i)) in L2. rewrite Z.bits_0, Z.land_spec, Z.lxor_spec in L2.
        rewrite Bv, andb_true_r in L2 by lia. now apply xorb_false_eq.
    + split; [constructor; [|constructor; [|constructor]]; unfold byte_ok; lia|].
      split; [cbn [In]; lia|]. cbn [hd last]. split; [auto|].
      right. exists mtmp, (ve_tmp v). repeat split; auto; try lia; try discriminate.
      intros i Hi. apply Bt. lia.
Qed.

Lemma hd_app_ne {A} (d : A) a b : a <> [] -> hd d (a ++ b) = hd d a.
Proof. destruct a; [contradiction|reflexivity]. Qed.

Lemma orlast_app_ne a b : b <> [] -> orlast (a ++ b) = a ++ orlast b.
Proof.
  intros H. induction a as [|x a IH]; [reflexivity|]. cbn [app].
  destruct (a ++ b) eqn:E; [destruct a; cbn in E; [contradiction|discriminate]|].
  rewrite orlast_cons. now rewrite IH.
Qed.
Lemma lor_15_id d : 0 <= d -> Z.land d 15 = 15 -> Z.lor d 15 = d.
Proof.
  intros Hd H. apply Z.bits_inj'. intros i Hi. rewrite Z.lor_spec.
  apply (f_equal (fun z => Z.testbit z i)) in H. rewrite Z.land_spec in H.
  destruct (Z.testbit d i), (Z.testbit 15 i); auto.
Qed.
Lemma orlast_id l : bytes_ok l -> Z.land (last l 0) 15 = 15 -> l <> [] -> orlast l = l.
Proof.
  intros Hb H Hne. rewrite <- orlast_removelast by auto. rewrite lor_15_id; auto.
  - now rewrite <- app_removelast_last.
  - rewrite (app_removelast_last 0 Hne) in Hb. apply bytes_ok_app in Hb as [_ Hb]. inversion Hb; subst.
    unfold byte_ok in *. lia.
Qed.

Lemma last_rev {A} (d : A) l : last l d = hd d (rev l).
Proof.
  destruct l as [|a t]; [reflexivity|]. rewrite (@app_removelast_last _ (a :: t) d) at 2 by discriminate.
  rewrite rev_app_distr. reflexivity.
Qed.

Lemma last_indep {A} (l : list A) d d' : l <> [] -> last l d = last l d'.
Proof.
  induction l as [|a [|b t] IH]; intros H; [contradiction|reflexivity|].
  change (last (b :: t) d = last (b :: t) d'). apply IH. discriminate.
Qed.

(** The joined segment: its bytes, the MEL stream and the VLC stream. *)
Lemma term_ok v m lv lm : vlc_ok v ([true; true; true; true] ++ lv) -> mel_ok m lm ->
  let seg := term_mel_vlc v m in
  bytes_ok seg /\ (2 <= length seg)%nat /\ mpre false (orlast (removelast seg)) lm /\
  exists d rest, rev seg = 255 :: d :: rest /\ Z.land d 15 = 15 /\
    rev_pre true (d :: rest) ([true; true; true; true] ++ lv).
Proof.
  intros HV HM. cbv zeta. rewrite term_join.
  destruct (join_mid_spec v m _ _ HV HM) as (J0 & J1 & J2 & J3 & J4).
  destruct (vfirst_15 v lv HV) as [F1 F2].
  destruct HV as [Vb V8 Vt VL Vw Vs]. destruct HM as [Mb Mr Mt Mw Ms].
  assert (bytes_ok (rev (me_buf m) ++ join_mid v m ++ ve_buf v ++ [255])) as Hok.
  { repeat (apply bytes_ok_app; split); auto.
    - now apply Forall_rev.
    - repeat constructor; unfold byte_ok; lia. }
  assert (rev (rev (me_buf m) ++ join_mid v m ++ ve_buf v ++ [255]) =
          255 :: rev (ve_buf v) ++ rev (join_mid v m) ++ me_buf m) as Erev.
  { rewrite !rev_app_distr, rev_involutive. cbn [rev app]. rewrite <- !app_assoc. reflexivity. }
  assert (join_mid v m ++ ve_buf v <> []) as Hne.
  { destruct J4 as [(E & _ & E0)|(x & y & _ & _ & E & _)].
    - rewrite E. cbn [app]. intros E1. rewrite E1 in F2. specialize (F2 eq_refl). lia.
    - destruct (join_mid v m); [contradiction|discriminate]. }
  assert (Z.land (last (join_mid v m ++ ve_buf v) 0) 15 = 15) as Hlast.
  { rewrite last_rev, rev_app_distr. unfold vfirst in F1.
    destruct (rev (ve_buf v)) as [|d t] eqn:E; [|exact F1].
    specialize (F2 eq_refl). cbn [app]. rewrite <- last_rev.
    destruct J4 as [(E1 & _ & E0)|(x & y & _ & Ey & E1 & _ & _ & _ & _ & Eb)]; [lia|].
    assert (last (join_mid v m) 0 = y) as ->.
    { rewrite <- Ey. now apply last_indep. }
    apply bits4.
    transitivity (bitsLE 4 (ve_tmp v)).
    - apply bitsLE_ext. intros i Hi. apply Eb. lia.
    - cbn [vbits app] in Vs. apply (f_equal (firstn 4)) in Vs.
      rewrite <- bitsLE_prefix in Vs by lia. exact Vs. }
  split; [exact Hok|]. split.
  { rewrite !app_length. cbn [length]. assert (0 < length (join_mid v m ++ ve_buf v))%nat.
    { destruct (join_mid v m ++ ve_buf v); [contradiction|cbn; lia]. }
    rewrite app_length in *. lia. }
  split.
  - rewrite !app_assoc, removelast_last, <- !app_assoc.
    assert (bytes_ok (join_mid v m ++ ve_buf v)) as Hb2 by (apply bytes_ok_app; split; auto).
    rewrite orlast_app_ne by auto. rewrite orlast_id by auto.
    rewrite <- Ms. exists 0%nat. cbn [repeat]. rewrite app_nil_r, mbits_app.
    destruct J4 as [(E & E8 & _)|(x & y & Ex & _ & E & _ & _ & _ & Em & _)].
    + assert (me_width m - me_rem m = 0) as -> by (unfold me_width in *; destruct (mflag _ _); lia).
      cbn [Z.to_nat bitsBE]. change (bitsBE 0 (me_tmp m)) with (@nil bool). rewrite app_nil_r. eexists. reflexivity.
    + destruct (join_mid v m) as [|x' t] eqn:EJ; [contradiction|]. cbn [hd] in Ex. subst x'. cbn [app mbits].
      destruct (bitsBE_prefix (me_width m - me_rem m) (me_rem m) x ltac:(lia) ltac:(lia)) as (z & Hz).
      replace (if mflag false (rev (me_buf m)) then 7%nat else 8%nat) with (Z.to_nat (me_width m - me_rem m + me_rem m)).
      * rewrite Hz. rewrite (bitsBE_land_high _ _ x (me_tmp m)); [|lia|lia|].
        -- rewrite <- app_assoc. eexists. rewrite <- app_assoc. reflexivity.
        -- intros i Hi. apply Em. unfold me_width in *. destruct (mflag _ _); lia.
      * replace (me_width m - me_rem m + me_rem m) with (me_width m) by lia. unfold me_width.
        destruct (mflag _ _); reflexivity.
  - rewrite Erev.
    assert (exists d rest, rev (ve_buf v) ++ rev (join_mid v m) ++ me_buf m = d :: rest) as (d & rest & Ed).
    { destruct (rev (ve_buf v) ++ rev (join_mid v m) ++ me_buf m) as [|d rest] eqn:E; [|eauto].
      exfalso. apply app_eq_nil in E as [E1 E2]. apply app_eq_nil in E2 as [E2 _].
      apply (f_equal (@rev Z)) in E1, E2. rewrite rev_involutive in E1, E2. cbn in E1, E2. rewrite E1, E2 in Hne. now apply Hne. }
    exists d, rest. rewrite Ed. split; [reflexivity|]. split.
    + rewrite last_rev, rev_app_distr in Hlast.
      destruct (rev (ve_buf v) ++ rev (join_mid v m)) as [|d' t'] eqn:E.
      * exfalso. apply Hne. apply (f_equal (@rev Z)) in E. rewrite rev_app_distr, !rev_involutive in E. exact E.
      * rewrite app_assoc, E in Ed. cbn [app] in Ed. injection Ed as -> _. exact Hlast.
    + rewrite <- Ed, <- Vs.
      destruct J4 as [(E & _ & E0)|(x & y & Ex & Ey & E & _ & _ & _ & _ & Ev)].
      * rewrite E0, E. cbn [Z.to_nat rev app]. change (bitsLE 0 (ve_tmp v)) with (@nil bool). rewrite app_nil_r.
        apply rev_pre_vbits_end; auto. now apply Forall_rev.
      * assert (exists t, rev (join_mid v m) = y :: t) as [t Et].
        { destruct (rev (join_mid v m)) as [|y' t] eqn:Er.
          - exfalso. apply (f_equal (@rev Z)) in Er. rewrite rev_involutive in Er. auto.
          - rewrite last_rev, Er in Ey. cbn in Ey. subst. eauto. }
        rewrite Et. cbn [app]. apply rev_pre_vbits; auto; try lia.
        -- now apply Forall_rev.
        -- cbn [hd]. destruct VL as [[VL1 VL2]|(VL1 & VL2 & VL3 & VL4)].
           ++ rewrite <- VL1. destruct (143 <? ve_last v) eqn:E9.
              ** specialize (VL2 eq_refl). destruct (rev_width_78 true y); lia.
              ** unfold rev_width. cbn [andb Z.b2z]. lia.
           ++ rewrite VL2. unfold rev_width. assert (Z.land y 127 <> 127) as Hn.
              { intros E7. apply VL4. rewrite <- (lt_128_land (ve_tmp v)) by (rewrite VL3 in Vt; cbn in Vt; lia).
                transitivity (Z.land y 127); [|exact E7]. clear E7. apply Z.bits_inj'. intros i Hi. rewrite !Z.land_spec.
                destruct (Z.lt_ge_cases i 7).
                - rewrite Ev by lia. reflexivity.
                - rewrite (testbit_high 127 7 i) by lia. now rewrite !andb_false_r. }
              replace (Z.land y 127 =? 127) with false by lia. cbn [andb Z.b2z]. lia.
        -- apply bitsLE_ext. intros i Hi. symmetry. apply Ev. lia.
Qed.
