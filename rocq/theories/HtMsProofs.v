(** The MagSgn encoder: the bytes it writes hold the emitted bits, properly
    stuffed, up to trailing ones that the reader supplies. *)
From Verif Require Import Base BaseLemmas HtBits HtStreamModel HtReaders HtReadProofs.

(** The bits in a byte list, LSB first, seven bits after a 0xFF. *)
Fixpoint fbits (u : bool) (bs : list Z) : list bool :=
  match bs with
  | [] => []
  | b :: t => bitsLE (if u then 7 else 8) b ++ fbits (b =? 255) t
  end.

(** No byte above 0x7F after a 0xFF. *)
Fixpoint fwf (u : bool) (bs : list Z) : Prop :=
  match bs with
  | [] => True
  | b :: t => (u = true -> b < 128) /\ fwf (b =? 255) t
  end.

(** The flag after the bytes. *)
Fixpoint fflag (u : bool) (bs : list Z) : bool :=
  match bs with [] => u | b :: t => fflag (b =? 255) t end.

Lemma fbits_snoc u bs b : fbits u (bs ++ [b]) = fbits u bs ++ bitsLE (if fflag u bs then 7 else 8) b.
Proof.
  revert u. induction bs as [|a t IH]; intros u; cbn [app fbits fflag].
  - now rewrite app_nil_r.
  - now rewrite IH, app_assoc.
Qed.
Lemma fwf_snoc u bs b : fwf u (bs ++ [b]) <-> fwf u bs /\ (fflag u bs = true -> b < 128).
Proof.
  revert u. induction bs as [|a t IH]; intros u; cbn [app fwf fflag]; [tauto|].
  rewrite IH. tauto.
Qed.
Lemma fflag_snoc u bs b : fflag u (bs ++ [b]) = (b =? 255).
Proof. revert u. induction bs as [|a t IH]; intros u; cbn [app fflag]; auto. Qed.

Lemma bits_ones n : (n <= 8)%nat -> bitsLE n 255 = repeat true n.
Proof.
  intros H. do 9 (destruct n; [reflexivity|]). lia.
Qed.

Lemma fwd_pre_fill u k : fwd_pre u [] (repeat true k).
Proof.
  revert u. induction (lt_wf k) as [k _ IH]. intros u.
  set (w := (if u then 7%nat else 8%nat)).
  assert (fwd_width u 255 = Z.of_nat w) as Ew by (subst w; destruct u; reflexivity).
  destruct (Nat.le_gt_cases k w).
  - left; cbn [hd]; rewrite repeat_length.
    + rewrite Ew. lia.
    + symmetry. apply bits_ones. subst w. destruct u; lia.
  - replace (repeat true k) with (bitsLE (Z.to_nat (fwd_width u (hd 255 []))) (hd 255 []) ++ repeat true (k - w)).
    + right.
      * intros _ _. now destruct (k - w)%nat.
      * cbn [tl hd]. apply IH. subst w. destruct u; lia.
    + cbn [hd]. rewrite Ew, Nat2Z.id, bits_ones by (subst w; destruct u; lia).
      rewrite <- repeat_app. f_equal. lia.
Qed.

Lemma fwd_pre_fbits bs : forall u k, bytes_ok bs -> fwf u bs -> fwd_pre u bs (fbits u bs ++ repeat true k).
Proof.
  induction bs as [|b t IH]; intros u k Hb Hw.
  - cbn. apply fwd_pre_fill.
  - cbn [fbits]. rewrite <- app_assoc. inversion Hb as [|? ? B1 B2]; subst. destruct Hw as [W1 W2].
    replace (bitsLE (if u then 7 else 8) b)
      with (bitsLE (Z.to_nat (fwd_width u (hd 255 (b :: t)))) (hd 255 (b :: t))) by (destruct u; reflexivity).
    right; cbn [hd tl].
    + intros Hw7 Ht. unfold fwd_width in Hw7. destruct u; cbn in Hw7; [|lia].
      specialize (W1 eq_refl). unfold byte_ok in B1.
      rewrite (testbit_high b 7) in Ht by lia. discriminate.
    + apply IH; auto.
Qed.

(** ** Encoder invariant *)

Record ms_ok (s : ms_enc) (l : list bool) : Prop := MkMs {
  mo_bytes : bytes_ok (ms_buf s);
  mo_ct : 0 <= ms_ctreg s;
  mo_creg : 0 <= ms_creg s < 2 ^ ms_ctreg s;
  mo_last : (ms_last s =? 255) = fflag false (rev (ms_buf s));
  mo_last8 : byte_ok (ms_last s);
  mo_wf : fwf false (rev (ms_buf s));
  mo_bits : fbits false (rev (ms_buf s)) ++ bitsLE (Z.to_nat (ms_ctreg s)) (ms_creg s) = l }.

Lemma ms_init_ok : ms_ok ms_init [].
Proof. constructor; cbn; auto; try lia; unfold byte_ok; try constructor; lia. Qed.

Definition ms_w (s : ms_enc) : Z := if ms_last s =? 255 then 7 else 8.

Lemma ms_take_ctreg s : ms_ctreg (ms_take s) = ms_ctreg s - ms_w s.
Proof. unfold ms_take, ms_w. destruct (ms_last s =? 255); reflexivity. Qed.

Lemma ms_take_ok s l : ms_ok s l -> ms_w s <= ms_ctreg s -> ms_ok (ms_take s) l.
Proof.
  intros [Hb Hc Hr Hl H8 Hw Hs] Ht.
  assert (exists n, (n = 7%nat /\ ms_last s = 255 \/ n = 8%nat /\ ms_last s <> 255) /\
    ms_w s = Z.of_nat n /\
    (if ms_last s =? 255 then 7%nat else 8%nat) = n /\
    ms_take s = (let b := Z.land (ms_creg s) (2 ^ Z.of_nat n - 1) in
       MsE (b :: ms_buf s) (Z.shiftr (ms_creg s) (Z.of_nat n)) (ms_ctreg s - Z.of_nat n) b)) as (n & Hn & En & E7 & ->).
  { unfold ms_w, ms_take. destruct (ms_last s =? 255) eqn:E.
    - exists 7%nat. split; [left; lia|auto].
    - exists 8%nat. split; [right; lia|auto]. }
  rewrite En in Ht. cbv zeta.
  set (b := Z.land (ms_creg s) (2 ^ Z.of_nat n - 1)).
  assert (0 <= b < 2 ^ Z.of_nat n) as Rb.
  { unfold b. rewrite land_ones_mod by lia. apply Z.mod_pos_bound. apply Z.pow_pos_nonneg; lia. }
  assert (byte_ok b) as Bb.
  { unfold byte_ok. destruct Hn as [[-> _]|[-> _]]; cbn in Rb; lia. }
  constructor; cbn [ms_buf ms_creg ms_ctreg ms_last].
  - constructor; auto.
  - lia.
  - split; [apply Z.shiftr_nonneg; lia|]. rewrite Z.shiftr_div_pow2 by lia.
    apply Z.div_lt_upper_bound; [apply Z.pow_pos_nonneg; lia|].
    rewrite <- Z.pow_add_r by lia. replace (Z.of_nat n + (ms_ctreg s - Z.of_nat n)) with (ms_ctreg s) by lia. lia.
  - cbn [rev]. now rewrite fflag_snoc.
  - exact Bb.
  - cbn [rev]. apply fwf_snoc. split; auto. intros Hf. rewrite <- Hl in Hf.
    destruct Hn as [[-> _]|[-> Hx]]; [cbn in Rb; lia|]. lia.
  - cbn [rev]. rewrite fbits_snoc. rewrite <- Hs. rewrite <- app_assoc. f_equal.
    rewrite <- Hl, E7.
    replace (Z.to_nat (ms_ctreg s)) with (n + Z.to_nat (ms_ctreg s - Z.of_nat n))%nat by lia.
    rewrite bitsLE_split. f_equal. unfold b. apply bitsLE_land. lia.
Qed.

Lemma ms_fast_take s : ms_last s <> 255 -> ms_fast s = ms_take s.
Proof. intros H. unfold ms_fast, ms_take. replace (ms_last s =? 255) with false by lia. reflexivity. Qed.

Lemma ms_dword_take s : ms_dword s = ms_take (ms_take (ms_take (ms_take s))).
Proof.
  unfold ms_dword.
  destruct ((ms_last s <? 255) && (Z.land (ms_creg s) 255 <? 255) && (Z.land (Z.shiftr (ms_creg s) 8) 255 <? 255)
     && (Z.land (Z.shiftr (ms_creg s) 16) 255 <? 255)) eqn:E; [|reflexivity].
  rewrite !andb_true_iff in E. destruct E as (((E0 & E1) & E2) & E3).
  rewrite (ms_fast_take s) by lia.
  assert (ms_take s = ms_fast s) as T0 by (symmetry; apply ms_fast_take; lia).
  rewrite (ms_fast_take (ms_take s)) by (rewrite T0; cbn [ms_fast ms_last]; lia).
  assert (ms_take (ms_take s) = ms_fast (ms_fast s)) as T1.
  { rewrite T0. symmetry. apply ms_fast_take. cbn [ms_fast ms_last]. lia. }
  rewrite (ms_fast_take (ms_take (ms_take s))) by (rewrite T1; cbn [ms_fast ms_last ms_creg]; lia).
  assert (ms_take (ms_take (ms_take s)) = ms_fast (ms_fast (ms_fast s))) as T2.
  { rewrite T1. symmetry. apply ms_fast_take. cbn [ms_fast ms_last ms_creg]. lia. }
  apply ms_fast_take. rewrite T2. cbn [ms_fast ms_last ms_creg].
  rewrite Z.shiftr_shiftr by lia. change (8 + 8) with 16. lia.
Qed.

Lemma ms_w_78 s : 7 <= ms_w s <= 8.
Proof. unfold ms_w. destruct (ms_last s =? 255); lia. Qed.

Lemma ms_dword_ok s l : ms_ok s l -> 32 <= ms_ctreg s ->
  ms_ok (ms_dword s) l /\ ms_ctreg s - 32 <= ms_ctreg (ms_dword s) <= ms_ctreg s - 28.
Proof.
  intros H Hc. rewrite ms_dword_take.
  pose proof (ms_w_78 s) as W0. pose proof (ms_w_78 (ms_take s)) as W1.
  pose proof (ms_w_78 (ms_take (ms_take s))) as W2. pose proof (ms_w_78 (ms_take (ms_take (ms_take s)))) as W3.
  rewrite !ms_take_ctreg. split; [|lia].
  repeat (apply ms_take_ok; rewrite ?ms_take_ctreg; try lia). exact H.
Qed.

Lemma ms_drain_ok fuel : forall s l, ms_ok s l -> ms_ctreg s <= Z.of_nat fuel ->
  ms_ok (ms_drain fuel s) l /\ ms_ctreg (ms_drain fuel s) < 32.
Proof.
  induction fuel as [|f IH]; intros s l H Hf; cbn [ms_drain].
  - split; auto. lia.
  - destruct (32 <=? ms_ctreg s) eqn:E.
    + destruct (ms_dword_ok s l H) as [H1 H2]; [lia|]. apply IH; auto. lia.
    + split; auto. lia.
Qed.

Lemma ms_emit_ok s l cwd len emb1 v :
  ms_ok s l -> ms_ctreg s < 32 -> 0 <= len <= 32 -> 0 <= v < 2 ^ len ->
  wrap32 (cwd - Z.shiftl emb1 len) = v ->
  ms_ok (ms_emit s cwd len emb1) (l ++ bitsLE (Z.to_nat len) v) /\ ms_ctreg (ms_emit s cwd len emb1) < 32.
Proof.
  intros [Hb Hc Hr Hl H8 Hw Hs] Hct Hlen Hv Hwr. unfold ms_emit. rewrite Hwr.
  apply ms_drain_ok; [|cbn [ms_ctreg]; lia].
  assert (0 <= Z.shiftl v (ms_ctreg s) < 2 ^ (ms_ctreg s + len)) as R1.
  { rewrite Z.add_comm. apply shiftl_range; lia. }
  assert (0 <= Z.lor (ms_creg s) (Z.shiftl v (ms_ctreg s)) < 2 ^ (ms_ctreg s + len)) as R2.
  { apply lor_range; try lia. assert (2 ^ ms_ctreg s <= 2 ^ (ms_ctreg s + len)) by (apply Z.pow_le_mono_r; lia). lia. }
  assert (2 ^ (ms_ctreg s + len) <= 2 ^ 64) as R3 by (apply Z.pow_le_mono_r; lia).
  rewrite wrap64_small by (unfold two64; lia).
  constructor; cbn [ms_buf ms_creg ms_ctreg ms_last]; auto; try lia.
  rewrite <- Hs, <- app_assoc. f_equal.
  replace (Z.to_nat (ms_ctreg s + len)) with (Z.to_nat (ms_ctreg s) + Z.to_nat len)%nat by lia.
  replace (ms_ctreg s) with (Z.of_nat (Z.to_nat (ms_ctreg s))) at 2 by lia.
  apply bitsLE_lor. rewrite Z2Nat.id by lia. lia.
Qed.

Lemma ms_flush_ok fuel : forall s l, ms_ok s l -> ms_ctreg s < Z.of_nat fuel ->
  ms_ok (ms_flush fuel s) l /\ ms_ctreg (ms_flush fuel s) < ms_w (ms_flush fuel s).
Proof.
  induction fuel as [|f IH]; intros s l H Hf; [pose proof (mo_ct _ _ H); lia|].
  cbn [ms_flush]. pose proof (ms_take_ctreg s) as Tc. pose proof (ms_take_ok s l H) as Tk.
  unfold ms_w in *. destruct (ms_last s =? 255) eqn:E.
  - destruct (ms_ctreg s <? 7) eqn:E7.
    + split; auto. rewrite E. lia.
    + apply IH; [apply Tk; lia|lia].
  - destruct (ms_ctreg s <? 8) eqn:E8.
    + split; auto. rewrite E. lia.
    + apply IH; [apply Tk; lia|lia].
Qed.

Lemma hd_fflag bs : bytes_ok bs -> fflag false (rev bs) = (hd 0 bs =? 255).
Proof.
  intros H. destruct bs as [|b t]; [reflexivity|]. cbn [rev hd]. apply fflag_snoc.
Qed.

(** The segment written by the encoder. *)
Lemma ms_term_ok s l : ms_ok s l ->
  let seg := rev (ms_term s) in
  bytes_ok seg /\ fwf false seg /\ fflag false seg = false /\ fwd_pre false seg l.
Proof.
  intros H0. cbv zeta. unfold ms_term.
  destruct (ms_flush_ok (S (Z.to_nat (ms_ctreg s))) s l H0) as [H Hlt].
  { pose proof (mo_ct _ _ H0). lia. }
  set (s1 := ms_flush (S (Z.to_nat (ms_ctreg s))) s) in *. clearbody s1. clear s H0.
  destruct H as [Hb Hc Hr Hl H8 Hw Hs].
  assert (bytes_ok (rev (ms_buf s1))) as Hbr by now apply Forall_rev.
  destruct (0 <? ms_ctreg s1) eqn:E0.
  - set (n := Z.to_nat (ms_ctreg s1)) in *.
    assert (ms_ctreg s1 = Z.of_nat n) as En by lia.
    assert (n < 8)%nat as Hn by (pose proof (ms_w_78 s1); lia).
    set (cwd := Z.land (Z.lor (ms_creg s1) (if ms_last s1 =? 255 then Z.land (Z.land (Z.shiftl 255 (ms_ctreg s1)) 255) 127
        else Z.land (Z.shiftl 255 (ms_ctreg s1)) 255)) 255).
    assert (byte_ok cwd) as Bc.
    { unfold cwd. rewrite land_255. apply Z.mod_pos_bound. lia. }
    assert (bitsLE n (ms_creg s1) = bitsLE n cwd) as Ebits.
    { apply bitsLE_ext. intros i Hi. unfold cwd.
      rewrite Z.land_spec. replace (Z.testbit 255 i) with true
        by (symmetry; change 255 with (Z.ones 8); apply Z.ones_spec_low; lia).
      rewrite andb_true_r, Z.lor_spec.
      replace (Z.testbit (if ms_last s1 =? 255 then _ else _) i) with false; [now rewrite orb_false_r|].
      destruct (ms_last s1 =? 255); rewrite ?Z.land_spec, Z.shiftl_spec_low by lia; reflexivity. }
    assert (fflag false (rev (ms_buf s1)) = true -> cwd < 128) as Hc128.
    { intros Hf. rewrite <- Hl in Hf. unfold ms_w in Hlt. unfold cwd. rewrite Hf in *.
      assert (0 <= Z.lor (ms_creg s1) (Z.land (Z.land (Z.shiftl 255 (ms_ctreg s1)) 255) 127) < 2 ^ 7).
      { apply lor_range; try lia.
        - split; [lia|]. apply Z.lt_le_trans with (2 ^ ms_ctreg s1); [lia|]. apply Z.pow_le_mono_r; lia.
        - rewrite land_127. change (2 ^ 7) with 128. apply Z.mod_pos_bound. lia. }
      rewrite land_255, Z.mod_small by lia. lia. }
    destruct (cwd =? 255) eqn:E255.
    + assert (fflag false (rev (ms_buf s1)) = false) as Hf.
      { destruct (fflag false (rev (ms_buf s1))) eqn:Ef; auto. specialize (Hc128 eq_refl). lia. }
      repeat split; auto.
      rewrite <- Hs. rewrite Ebits. replace cwd with 255 by lia. rewrite bits_ones by lia.
      apply fwd_pre_fbits; auto.
    + cbn [rev]. repeat split.
      * apply bytes_ok_app. split; auto. repeat constructor; apply Bc.
      * apply fwf_snoc. split; auto.
      * rewrite fflag_snoc. exact E255.
      * rewrite <- Hs.
        apply pre_app with (m := skipn n (bitsLE (if fflag false (rev (ms_buf s1)) then 7 else 8) cwd) ++ repeat true 0).
        -- apply fwd_width_78.
        -- rewrite app_assoc, <- (app_assoc (fbits _ _)).
           replace (bitsLE n (ms_creg s1) ++ skipn n (bitsLE (if fflag false (rev (ms_buf s1)) then 7 else 8) cwd))
             with (bitsLE (if fflag false (rev (ms_buf s1)) then 7 else 8) cwd).
           ++ rewrite <- fbits_snoc. apply fwd_pre_fbits.
              ** apply bytes_ok_app. split; auto. repeat constructor; apply Bc.
              ** apply fwf_snoc. split; auto.
           ++ rewrite Ebits. rewrite (bitsLE_prefix n (if fflag false (rev (ms_buf s1)) then 7 else 8)).
              ** symmetry. apply firstn_skipn.
              ** unfold ms_w in Hlt. rewrite Hl in Hlt. destruct (fflag false (rev (ms_buf s1))); lia.
  - assert (ms_ctreg s1 = 0) as Ez by lia. rewrite Ez in *. cbn [Z.to_nat] in Hs.
    change (bitsLE 0 (ms_creg s1)) with (@nil bool) in Hs. rewrite app_nil_r in Hs.
    destruct (ms_last s1 =? 255) eqn:EL.
    + destruct (ms_buf s1) as [|b t] eqn:Eb; [cbn in Hl; discriminate|].
      cbn [tl]. cbn [rev] in *. rewrite fflag_snoc in Hl. assert (b = 255) as -> by lia.
      apply fwf_snoc in Hw as [Hw1 Hw2]. apply bytes_ok_app in Hbr as [Hb1 Hb2].
      assert (fflag false (rev t) = false) as Ef.
      { destruct (fflag false (rev t)); auto. specialize (Hw2 eq_refl). lia. }
      repeat split; auto.
      rewrite <- Hs, fbits_snoc, Ef, bits_ones by lia. apply fwd_pre_fbits; auto.
    + repeat split; auto.
      rewrite <- Hs. rewrite <- (app_nil_r (fbits _ _)). apply (fwd_pre_fbits _ _ 0); auto.
Qed.
