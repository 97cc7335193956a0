(** A block that goes through the HT encoder and decoder comes back. *)
From Verif Require Import Base BaseLemmas HtTables HtBits HtReaders HtStreamModel HtReadProofs HtMsProofs
  HtMelReadProofs HtMelEncProofs HtVlcProofs HtBlockModel HtSpec HtTableProofs HtQuadProofs HtEncProofs
  HtDec1Proofs HtDec2Proofs.
Require Import Lia.

(** ** The three encoders *)

Lemma ms_run_ok_from l : forall s l0, ms_ok s l0 -> ms_ctreg s < 32 -> Forall call_ok l ->
  let s' := fold_left (fun s c => let '(v, m, e) := c in ms_emit s v m e) l s in
  ms_ok s' (l0 ++ msb l) /\ ms_ctreg s' < 32.
Proof.
  induction l as [|[[v m] e] l IH]; intros s l0 H Hc HF; cbn [fold_left].
  - unfold msb. cbn. now rewrite app_nil_r.
  - inversion HF as [|? ? C HF']; subst. cbn [call_ok] in C. destruct C as [C1 C2].
    destruct (ms_emit_ok s l0 v m e _ H Hc C1 C2) as [H1 H2].
    { apply wrap32_small. unfold two32. assert (2 ^ m <= 2 ^ 32) by (apply Z.pow_le_mono_r; lia). lia. }
    destruct (IH _ _ H1 H2 HF') as [H3 H4]. rewrite <- app_assoc in H3. split; assumption.
Qed.
Lemma ms_run_ok l : Forall call_ok l -> ms_ok (ms_run l) (msb l).
Proof. intros H. apply (ms_run_ok_from l ms_init [] ms_init_ok); [cbn; lia|exact H]. Qed.

Lemma mel_run_ok_from l : forall s evs, mel_enc_inv s evs -> mel_enc_inv (fold_left mel_encode l s) (evs ++ l).
Proof.
  induction l as [|e l IH]; intros s evs H; cbn [fold_left]; [now rewrite app_nil_r|].
  apply (mel_encode_inv s evs e) in H. apply IH in H. rewrite <- app_assoc in H. exact H.
Qed.
Lemma mel_run_ok l : mel_enc_inv (mel_run l) l.
Proof. exact (mel_run_ok_from l mel_init [] mel_enc_init). Qed.

Lemma vlc_run_ok_from l : forall s l0, vlc_ok s l0 -> Forall (fun c => 0 <= snd c /\ 0 <= fst c) l ->
  vlc_ok (fold_left (fun s c => vlc_emit s (fst c) (snd c)) l s) (l0 ++ vb l).
Proof.
  induction l as [|c l IH]; intros s l0 H HF; cbn [fold_left].
  - unfold vb. cbn. now rewrite app_nil_r.
  - inversion HF as [|? ? [C1 C2] HF']; subst. pose proof (vlc_emit_ok s l0 (fst c) (snd c) H C1 C2) as H1.
    apply IH in H1; [|exact HF']. rewrite <- app_assoc in H1. exact H1.
Qed.
Lemma vlc_run_ok l : Forall (fun c => 0 <= snd c /\ 0 <= fst c) l ->
  vlc_ok (vlc_run l) ([true; true; true; true] ++ vb l).
Proof. apply (vlc_run_ok_from l vlc_init), vlc_init_ok. Qed.

(** ** The calls are well formed *)

Section Calls.
Variable b : block.
Hypothesis Hin : in_range b.

Lemma ms_calls_wf r q : Forall call_ok (ms_calls (codeP b r q) (Qd b r q)).
Proof.
  rewrite ms_calls_qs. pose proof (codeP_ok b Hin r q) as C. pose proof (kapP_range b Hin r q) as Kr.
  pose proof (Qd_wf b r q Hin) as Wq.
  assert (forall i, 0 <= i < 4 -> call_ok (ms_call (codeP b r q) (qs (Qd b r q) i) i)) as H.
  { intros i Hi. destruct (ms_call_spec _ _ _ i Wq Kr C Hi) as [M0 M1].
    destruct (sgm_01 _ (qs_wf _ i Wq)) as [Sg|Sg].
    - destruct (M0 Sg) as [_ ->]. cbn. lia.
    - destruct (M1 Sg) as (-> & Mr & _ & Mv). cbn [call_ok]. split; [lia|exact Mv]. }
  cbn [map]. repeat (apply Forall_cons; [apply H; lia|]). apply Forall_nil.
Qed.
Lemma rowms_wf r n : forall q, Forall call_ok (rowms b r n q).
Proof. induction n; intros q; cbn [rowms]; [constructor|]. apply Forall_app. split; [apply ms_calls_wf|apply IHn]. Qed.
Lemma rowsms_wf QW n : forall r, Forall call_ok (rowsms b QW n r).
Proof. induction n; intros r; cbn [rowsms]; [constructor|]. apply Forall_app. split; [apply rowms_wf|apply IHn]. Qed.

Definition vcall_ok (c : Z * Z) : Prop := 0 <= snd c /\ 0 <= fst c.
Lemma code_call r q : vcall_ok (k_cwd (codeP b r q), k_lw (codeP b r q)).
Proof. pose proof (codeP_ok b Hin r q) as C. pose proof (co_cwd _ _ _ C). pose proof (co_lw _ _ _ C). unfold vcall_ok. cbn [fst snd]. lia. Qed.
Lemma uv_call f u0 u1 : 0 <= u0 < 32 -> 0 <= u1 < 32 -> vcall_ok (uvP f u0 u1).
Proof. intros H0 H1. destruct (uvlc_ok f u0 u1 H0 H1) as (_ & Hc & Hl & _). cbv zeta in Hc, Hl. unfold vcall_ok, uvP. cbn [fst snd]. lia. Qed.
Lemma plog_wf QW r q : Forall vcall_ok (g_vlc (plog b QW r q)).
Proof.
  pose proof (u_range b Hin r q). pose proof (u_range b Hin r (q + 1)).
  unfold plog. destruct (q + 1 <? QW); cbn [g_vlc].
  - apply Forall_cons; [apply code_call|]. apply Forall_cons; [apply code_call|].
    apply Forall_cons; [apply uv_call; lia|apply Forall_nil].
  - apply Forall_cons; [apply code_call|]. apply Forall_cons; [apply uv_call; lia|apply Forall_nil].
Qed.
Lemma rowlog_wf QW r n : forall q, Forall vcall_ok (g_vlc (rowlog b QW r n q)).
Proof. induction n; intros q; cbn [rowlog]; [constructor|]. cbn [log_app g_vlc]. apply Forall_app. split; [apply plog_wf|apply IHn]. Qed.
Lemma rowslog_wf QW n : forall r, Forall vcall_ok (g_vlc (rowslog b QW n r)).
Proof. induction n; intros r; cbn [rowslog]; [constructor|]. cbn [log_app g_vlc]. apply Forall_app. split; [apply rowlog_wf|apply IHn]. Qed.
End Calls.

(** ** What the decoder needs of the bytes *)

Lemma shiftr4 x : 0 <= x -> Z.shiftl (Z.shiftr x 4) 4 + Z.land x 15 = x.
Proof.
  intros H. rewrite Z.shiftl_mul_pow2, Z.shiftr_div_pow2, land_15 by lia. change (2 ^ 4) with 16.
  pose proof (Z.div_mod x 16). lia.
Qed.

Lemma nib_low d x : Z.land (Z.lor (Z.land d 240) (Z.land x 15)) 15 = Z.land x 15.
Proof.
  rewrite Z.land_lor_distr_l, <- !Z.land_assoc. change (Z.land 240 15) with 0. change (Z.land 15 15) with 15.
  rewrite Z.land_0_r. apply Z.lor_0_l.
Qed.
Lemma nib_restore d x : byte_ok d -> Z.land d 15 = 15 -> Z.lor (Z.lor (Z.land d 240) (Z.land x 15)) 15 = d.
Proof.
  intros Hd H15. rewrite <- Z.lor_assoc. replace (Z.lor (Z.land x 15) 15) with 15.
  - rewrite <- H15. rewrite <- Z.land_lor_distr_r. change (Z.lor 240 15) with 255. rewrite land_255, Z.mod_small; [reflexivity|exact Hd].
  - apply Z.bits_inj'. intros n Hn. rewrite Z.lor_spec, Z.land_spec. now destruct (Z.testbit x n), (Z.testbit 15 n).
Qed.

(** The segments inside the encoder's output. *)
Lemma finish_inv g data : finish g = Ret data -> Forall call_ok (g_ms g) -> Forall vcall_ok (g_vlc g) ->
  exists ms suf d rest,
    bytes_ok ms /\ bytes_ok suf /\ fwd_pre false ms (msb (g_ms g)) /\
    rev suf = 255 :: d :: rest /\ Z.land d 15 = 15 /\
    rev_pre true (d :: rest) ([true; true; true; true] ++ vb (g_vlc g)) /\
    (exists lm rs x, mpre false (orlast (removelast suf)) lm /\ mel_codes 0 lm rs /\ g_mel g ++ x = concat (map evs_of rs)) /\
    2 <= zlen suf <= 4079 /\ zlen ms + zlen suf <= 16834 /\
    data = ms ++ ztake (zlen suf - 2) suf ++ [Z.lor (Z.land d 240) (Z.land (zlen suf) 15); Z.shiftr (zlen suf) 4] /\
    ms ++ suf = ztake (zlen ms + zlen suf - 2) data ++ [d; 255] /\ zlen data = zlen ms + zlen suf.
Proof.
  intros E Hms Hvl. unfold finish in E.
  pose proof (ms_term_ok _ _ (ms_run_ok _ Hms)) as M. cbv zeta in M. destruct M as (M1 & _ & _ & M2).
  destruct (mel_term_inv _ _ (mel_run_ok (g_mel g))) as (lm & rs & x & L1 & L2 & L3).
  pose proof (term_ok _ _ _ _ (vlc_run_ok _ Hvl) L1) as T. cbv zeta in T.
  set (ms := rev (ms_term (ms_run (g_ms g)))) in *.
  set (suf := term_mel_vlc (vlc_run (g_vlc g)) (mel_term (mel_run (g_mel g)))) in *. clearbody ms suf.
  destruct T as (T1 & T2 & T3 & d & rest & T4 & T5 & T6). cbv zeta in E.
  destruct ((zlen suf <=? MAX_Scup) && (zlen ms + zlen suf <=? MAX_Lcup)) eqn:B; [|discriminate].
  apply Ret_inj in E. apply andb_prop in B as [B1 B2]. unfold MAX_Scup, MAX_Lcup in *.
  assert (suf = rev rest ++ [d; 255]) as Es.
  { rewrite <- (rev_involutive suf), T4. cbn [rev]. now rewrite <- app_assoc. }
  assert (zlen suf = zlen rest + 2) as Ls by (rewrite Es, zlen_app, zlen_rev; reflexivity).
  assert (znth 0 suf (zlen suf - 2) = d) as Ed.
  { rewrite Ls, Es. replace (zlen rest + 2 - 2) with (zlen (rev rest)) by (rewrite zlen_rev; lia).
    rewrite znth_app_r by lia. rewrite Z.sub_diag. reflexivity. }
  assert (ztake (zlen suf - 2) suf = rev rest) as Et.
  { rewrite Ls, Es. apply ztake_app. rewrite zlen_rev. lia. }
  rewrite Ed in E. pose proof (zlen_nonneg rest). pose proof (zlen_nonneg ms).
  assert (zlen data = zlen ms + zlen suf) as Ld.
  { rewrite <- E, Et. rewrite !zlen_app, zlen_rev, !zlen_cons, zlen_nil. lia. }
  exists ms, suf, d, rest. repeat apply conj; auto; try lia.
  - exists lm, rs, x. rewrite <- (app_nil_r lm) at 2. auto.
  - rewrite <- E, Et, app_assoc. rewrite ztake_app by (rewrite zlen_app, zlen_rev; lia).
    rewrite Es at 1. now rewrite app_assoc.
Qed.

Lemma setup_ok g data Mb : finish g = Ret data -> Forall call_ok (g_ms g) -> Forall vcall_ok (g_vlc g) -> 1 <= Mb <= 30 ->
  exists ms suf d rest,
    bytes_ok ms /\ bytes_ok suf /\ fwd_pre false ms (msb (g_ms g)) /\
    rev suf = 255 :: d :: rest /\ Z.land d 15 = 15 /\
    rev_pre true (d :: rest) ([true; true; true; true] ++ vb (g_vlc g)) /\
    (exists lm rs x, mpre false (orlast (removelast suf)) lm /\ mel_codes 0 lm rs /\ g_mel g ++ x = concat (map evs_of rs)) /\
    ht_setup (Coded data (zlen data) [zlen data] 1 (Z.land (Mb - 1) 255)) =
      Ret (Go (Setup (zlen data) (zlen ms) (zlen suf) 0 (Mb - 1) 1 (ms ++ suf))) .
Proof.
  intros E Hms Hvl HMb. destruct (finish_inv g data E Hms Hvl) as
    (ms & suf & d & rest & F1 & F2 & F3 & F4 & F5 & F6 & F7 & F8 & F9 & F10 & F11 & F12).
  exists ms, suf, d, rest. repeat (split; [assumption|]).
  unfold ht_setup. cbn [c_passes c_length c_plen c_zbp c_data].
  change (3 <? 1) with false. change (1 =? 0) with false. cbv iota.
  pose proof (zlen_nonneg ms).
  replace ((zlen data =? 0) && negb false) with false by lia. change (Z.land (0 * 3) 255) with 0.
  change (1 <? 0) with false. change (Z.land (1 - 0) 255) with 1. change (1 =? 0) with false. cbv iota zeta.
  cbn [filter]. replace (zlen data =? 0) with false by lia. cbn [negb].
  change (4 <? zlen [zlen data]) with false. cbv iota.
  assert (as_i32 (zlen data) = zlen data) as ->.
  { unfold as_i32. change (2 ^ 31) with 2147483648. replace (zlen data <? 2147483648) with true by lia. reflexivity. }
  replace (zlen data <? 2) with false by lia. replace (zlen data <? zlen data) with false by lia.
  cbn [fold_left]. replace (zlen data - zlen data <? 0) with false by lia.
  assert (Z.land (0 + Z.land (Mb - 1) 255) 255 = Mb - 1) as ->.
  { rewrite Z.add_0_l, !land_255, Z.mod_mod, Z.mod_small by lia. reflexivity. }
  replace (30 <=? Mb - 1) with false by lia.
  rewrite !rd_in by lia.
  assert (znth 0 data (zlen data - 1) = Z.shiftr (zlen suf) 4) as ->.
  { rewrite F12, F10, app_assoc. rewrite znth_app_r; rewrite zlen_app, zlen_ztake by lia; [|lia].
    replace (zlen ms + zlen suf - 1 - (zlen ms + (zlen suf - 2))) with 1 by lia. reflexivity. }
  assert (znth 0 data (zlen data - 2) = Z.lor (Z.land d 240) (Z.land (zlen suf) 15)) as ->.
  { rewrite F12, F10, app_assoc. rewrite znth_app_r; rewrite zlen_app, zlen_ztake by lia; [|lia].
    replace (zlen ms + zlen suf - 2 - (zlen ms + (zlen suf - 2))) with 0 by lia. reflexivity. }
  cbn [bind]. rewrite nib_low, shiftr4 by lia.
  assert (byte_ok d) as Bd.
  { unfold bytes_ok in F2. apply Forall_rev in F2. rewrite F4 in F2. inversion F2 as [|? ? ? Q]. now inversion Q. }
  rewrite nib_restore by assumption.
  replace ((zlen suf <? 2) || (zlen data <? zlen suf) || (4079 <? zlen suf)) with false by lia.
  do 3 f_equal; [lia|]. rewrite zskip_all by lia. rewrite F12, F11. reflexivity.
Qed.

(** ** Dequantisation *)

Lemma pmag_spec q : Z.abs q < 2 ^ 30 -> q <> 0 ->
  pmag q <> 0 /\ vmag (pmag q) = 2 * (Z.abs q - 1) + (if q <? 0 then 1 else 0).
Proof.
  intros H Hq. unfold pmag. replace (q =? 0) with false by lia. change (2 ^ 30) with 1073741824 in H.
  assert (Z.lor (2 * (Z.abs q - 1) + (if q <? 0 then 1 else 0)) (2 ^ 31) =
          2 ^ 31 + (2 * (Z.abs q - 1) + (if q <? 0 then 1 else 0))) as ->.
  { rewrite Z.lor_comm. change (2 ^ 31) with (1 * 2 ^ 31) at 1. rewrite lor_mul_add; [lia|lia|].
    change (2 ^ 31) with 2147483648. destruct (q <? 0); lia. }
  split; [change (2 ^ 31) with 2147483648; destruct (q <? 0); lia|].
  unfold vmag. change 2147483647 with (2 ^ 31 - 1). rewrite land_ones_mod by lia.
  change (2 ^ 31) with 2147483648. destruct (q <? 0); lia.
Qed.

(** The stored word of a coefficient. *)
Lemma word_spec q Mb : 1 <= Mb <= 30 -> Z.abs q < 2 ^ Mb -> q <> 0 ->
  word (31 - Mb) (pmag q) = (if q <? 0 then 2 ^ 31 else 0) + (2 * Z.abs q + 1) * 2 ^ (30 - Mb) /\
  0 <= (2 * Z.abs q + 1) * 2 ^ (30 - Mb) < 2 ^ 31.
Proof.
  intros HMb Hq H0. assert (2 ^ Mb <= 2 ^ 30) as P30 by (apply Z.pow_le_mono_r; lia).
  destruct (pmag_spec q ltac:(lia) H0) as [N V]. unfold word. replace (pmag q =? 0) with false by lia. rewrite V.
  assert (0 < 2 ^ (30 - Mb)) as PP by (apply Z.pow_pos_nonneg; lia).
  assert (2 ^ Mb * 2 ^ (30 - Mb) = 2 ^ 30) as PE by (rewrite <- Z.pow_add_r by lia; f_equal; lia).
  assert (0 <= (2 * Z.abs q + 1) * 2 ^ (30 - Mb) < 2 ^ 31) as R.
  { split; [nia|]. apply Z.le_lt_trans with ((2 * 2 ^ Mb - 1) * 2 ^ (30 - Mb)).
    - apply Z.mul_le_mono_nonneg_r; lia.
    - rewrite Z.mul_sub_distr_r, <- Z.mul_assoc, PE. change (2 ^ 31) with (2 * 2 ^ 30). lia. }
  split; [|exact R].
  assert (Z.lor (2 * (Z.abs q - 1) + (if q <? 0 then 1 else 0)) 1 = 2 * (Z.abs q - 1) + 1) as ->.
  { assert (Z.lor (2 * (Z.abs q - 1)) 1 = 2 * (Z.abs q - 1) + 1) as E1.
    { replace (2 * (Z.abs q - 1)) with ((Z.abs q - 1) * 2 ^ 1) by (change (2 ^ 1) with 2; lia).
      rewrite lor_mul_add by (cbn; lia). reflexivity. }
    destruct (q <? 0); [rewrite <- E1, <- Z.lor_assoc; reflexivity|rewrite Z.add_0_r; exact E1]. }
  assert (wrap32 (Z.shiftl (2 * (Z.abs q - 1) + (if q <? 0 then 1 else 0)) 31) = if q <? 0 then 2 ^ 31 else 0) as ->.
  { unfold wrap32, two32. rewrite Z.shiftl_mul_pow2 by lia. destruct (q <? 0).
    - replace ((2 * (Z.abs q - 1) + 1) * 2 ^ 31) with (2 ^ 31 + (Z.abs q - 1) * 2 ^ 32) by (change (2 ^ 32) with (2 * 2 ^ 31); ring).
      rewrite Z.mod_add by (cbn; lia). reflexivity.
    - replace ((2 * (Z.abs q - 1) + 0) * 2 ^ 31) with ((Z.abs q - 1) * 2 ^ 32) by (change (2 ^ 32) with (2 * 2 ^ 31); ring).
      apply Z.mod_mul. cbn; lia. }
  change (2 ^ 30) with 1073741824 in *.
  rewrite (wrap32_small (2 * (Z.abs q - 1) + 1 + 2)) by (unfold two32; change (2 ^ 32) with 4294967296; lia).
  replace (2 * (Z.abs q - 1) + 1 + 2) with (2 * Z.abs q + 1) by lia.
  replace (31 - Mb - 1) with (30 - Mb) by lia. rewrite Z.shiftl_mul_pow2 by lia.
  rewrite wrap32_small by (unfold two32; change (2 ^ 32) with (2 * 2 ^ 31); lia).
  destruct (q <? 0).
  - change (2 ^ 31) with (1 * 2 ^ 31). rewrite lor_mul_add by lia. reflexivity.
  - rewrite Z.lor_0_l. lia.
Qed.

Lemma dequant_word q Mb : 1 <= Mb <= 30 -> Z.abs q < 2 ^ Mb -> dequant Mb (word (31 - Mb) (pmag q)) = q.
Proof.
  intros HMb Hq. destruct (Z.eq_dec q 0) as [->|H0].
  - unfold pmag. change (0 =? 0) with true. cbv iota. unfold word. change (0 =? 0) with true. cbv iota.
    unfold dequant. rewrite Z.land_0_l, Z.shiftr_0_l. reflexivity.
  - destruct (word_spec q Mb HMb Hq H0) as [-> R]. set (m := (2 * Z.abs q + 1) * 2 ^ (30 - Mb)) in *.
    unfold dequant. change 2147483647 with (2 ^ 31 - 1). rewrite !land_ones_mod by lia.
    assert (((if q <? 0 then 2 ^ 31 else 0) + m) mod 2 ^ 31 = m) as ->.
    { destruct (q <? 0).
      - replace (2 ^ 31 + m) with (m + 1 * 2 ^ 31) by ring. rewrite Z.mod_add by (cbn; lia). apply Z.mod_small. lia.
      - rewrite Z.add_0_l. apply Z.mod_small. lia. }
    assert (Z.shiftr m (31 - Mb) = Z.abs q) as Em.
    { rewrite Z.shiftr_div_pow2 by lia. replace (31 - Mb) with (30 - Mb + 1) by lia. unfold m.
      assert (0 < 2 ^ (30 - Mb)) by (apply Z.pow_pos_nonneg; lia).
      rewrite Z.pow_add_r by lia. change (2 ^ 1) with 2. rewrite Z.mul_comm.
      rewrite Z.div_mul_cancel_l by lia. lia. }
    rewrite Em.
    assert (Z.testbit ((if q <? 0 then 2 ^ 31 else 0) + m) 31 = (q <? 0)) as ->.
    { destruct (q <? 0).
      - replace (2 ^ 31 + m) with (Z.lor (1 * 2 ^ 31) m) by (apply lor_mul_add; lia).
        rewrite Z.lor_spec. rewrite Z.mul_1_l, Z.pow2_bits_true by lia. reflexivity.
      - rewrite Z.add_0_l. apply (testbit_high m 31); lia. }
    assert (2 ^ Mb <= 2 ^ 30) by (apply Z.pow_le_mono_r; lia).
    change (2 ^ 30) with 1073741824 in *. change (2 ^ 31) with 2147483648 in *.
    destruct (q <? 0) eqn:E; [|lia]. rewrite Z.mod_small by lia. lia.
Qed.

(** ** Code-block sizes *)

Lemma size_fit w h : size_ok w h ->
  8 <= round8 (w + 2) /\ 2 * half_up w < round8 (w + 2) /\
  (half_up h - 1) * round8 (w + 2) + 4 * half_up (half_up w) + 3 < nS /\ half_up w < nV /\ 1 <= w <= 1024 /\ 1 <= h <= 1024.
Proof.
  intros (a & c & Ha & Hc & Hac & Hw & Hh). unfold nS, nV.
  assert (h <= 2 ^ (12 - a)) as Hh' by (transitivity (2 ^ c); [lia|apply Z.pow_le_mono_r; lia]).
  assert (h <= 2 ^ 10) as Hh2 by (transitivity (2 ^ c); [lia|apply Z.pow_le_mono_r; lia]).
  destruct (round8_ge (w + 2) ltac:(lia)) as (R1 & R2 & R3). set (s := round8 (w + 2)) in *. clearbody s.
  assert (s = 8 * (s / 8)) as Es by (pose proof (Z.div_mod s 8); lia).
  assert (a = 2 \/ a = 3 \/ a = 4 \/ a = 5 \/ a = 6 \/ a = 7 \/ a = 8 \/ a = 9 \/ a = 10) as Ca by lia.
  assert (exists S H W, s <= S /\ half_up h <= H /\ half_up w <= W /\ half_up (half_up w) <= (W + 1) / 2 /\
     (H - 1) * S + 4 * ((W + 1) / 2) + 3 < 4104 /\ W <= 512 /\ 2 * W <= 1024) as (S & H & W & X1 & X2 & X3 & X4 & X5 & X6 & X7).
  { destruct Ca as [->|[->|[->|[->|[->|[->|[->|[->| ->]]]]]]]]; cbn [Z.sub Z.pow Z.pow_pos Pos.iter Z.mul Z.add Z.opp Z.pos_sub Pos.mul Pos.add Pos.pred_double] in Hw, Hh', Hh2;
    [exists 8, 512, 2|exists 16, 256, 4|exists 24, 128, 8|exists 40, 64, 16|exists 72, 32, 32|exists 136, 16, 64|exists 264, 8, 128|exists 520, 4, 256|exists 1032, 2, 512];
    unfold half_up; repeat apply conj; try lia; try (vm_compute; congruence). }
  assert (1 <= half_up h) by (unfold half_up; lia).
  assert (w <= 2 * half_up w <= w + 1) by (unfold half_up; lia).
  assert (2 ^ 10 = 1024) as E10 by reflexivity. rewrite E10 in Hh2.
  repeat apply conj; try lia.
  assert ((half_up h - 1) * s <= (H - 1) * S) by (apply Z.mul_le_mono_nonneg; lia). lia.
Qed.

(** ** Round trip *)

Lemma not_sig b y x : any_sig b = false -> 0 <= y < b_h b -> 0 <= x < b_w b -> b_q b y x = 0.
Proof.
  intros H Hy Hx. unfold any_sig in H.
  destruct (Z.eq_dec (b_q b y x) 0) as [E|E]; [exact E|exfalso].
  assert (existsb (fun y => existsb (fun x => negb (b_q b y x =? 0)) (zseq (b_w b))) (zseq (b_h b)) = true); [|congruence].
  apply existsb_exists. exists y. split; [now apply zseq_In|]. apply existsb_exists. exists x. split; [now apply zseq_In|]. lia.
Qed.

Theorem ht_round_trip a b c : size_ok (b_w b) (b_h b) -> 1 <= b_Mb b <= 30 ->
  (forall y x, 0 <= y < b_h b -> 0 <= x < b_w b -> Z.abs (b_q b y x) < 2 ^ b_Mb b) ->
  ht_encode b = Ret c ->
  exists g, ht_decode a c (b_w b) (b_h b) (b_Mb b) = ret g /\
    forall y x, 0 <= y < b_h b -> 0 <= x < b_w b -> g y x = b_q b y x.
Proof.
  intros Hsz HMb Hq He. destruct (size_fit _ _ Hsz) as (S1 & S2 & S3 & S4 & S5 & S6).
  destruct (any_sig b) eqn:Sg.
  2:{ unfold ht_encode in He. rewrite Sg in He. apply Ret_inj in He. subst c. unfold ht_decode, ht_setup.
      cbn. eexists. split; [reflexivity|]. intros y x Hy Hx. cbv beta. symmetry. now apply not_sig. }
  assert (in_range b) as Hin.
  { intros y x Hy Hx. specialize (Hq y x Hy Hx). assert (2 ^ b_Mb b <= 2 ^ 30) by (apply Z.pow_le_mono_r; lia). lia. }
  rewrite ht_encode_log in He by (assumption || lia).
  set (g := rowslog b (half_up (b_w b)) (Z.to_nat (half_up (b_h b))) 0) in *.
  destruct (finish g) as [data| |] eqn:Ef; try discriminate. cbn [bind] in He. apply Ret_inj in He. subst c.
  assert (1 <= half_up (b_w b)) as W1 by (unfold half_up; lia).
  assert (Forall vcall_ok (g_vlc g)) as Fv by (apply rowslog_wf; assumption).
  assert (g_ms g = rowsms b (half_up (b_w b)) (Z.to_nat (half_up (b_h b))) 0) as Eg by (apply rowslog_ms; lia).
  assert (Forall call_ok (g_ms g)) as Fm by (rewrite Eg; apply rowsms_wf; assumption).
  destruct (setup_ok g data (b_Mb b) Ef Fm Fv HMb) as
    (ms & suf & d & rest & F1 & F2 & F3 & F4 & F5 & F6 & (lm & rs & x & F7 & F8 & F9) & F10).
  unfold ht_decode. rewrite F10. cbn [bind su_passes su_Pcup su_Scup su_Lcup su_data su_S]. change (1 =? 1) with true. cbv iota zeta.
  rewrite zskip_app by reflexivity. rewrite ztake_all by lia.
  set (am := Z.to_nat ((a + zlen ms) mod 4)). set (av := Z.to_nat ((a + zlen data - 3) mod 4)).
  assert (am <= 3)%nat as Ham by (unfold am; pose proof (Z.mod_pos_bound (a + zlen ms) 4); lia).
  assert (av <= 3)%nat as Hav by (unfold av; pose proof (Z.mod_pos_bound (a + zlen data - 3) 4); lia).
  destruct (rev_init_inv av suf d rest 255 _ Hav F2 F4 F5 F6) as (rb & R1 & R2).
  pose proof (mel_reads am suf lm rs (g_mel g) x Ham F2 F7 F8 F9) as Ml.
  destruct (ht_step1_ok b Hin ltac:(lia) ltac:(lia) (round8 (b_w b + 2)) S1 S2 S3 am av suf [] [] Hav) as (sc & -> & Hsc).
  { exists rb. rewrite app_nil_r. auto. }
  { rewrite app_nil_r. destruct (mel_get_run (mel_dec_init am suf)). exact Ml. }
  rewrite bindx_ret. unfold dec_finish. cbn [su_S su_Pcup su_data].
  replace (Z.land (30 - (b_Mb b - 1)) 255) with (31 - b_Mb b) by (rewrite land_255, Z.mod_small by lia; lia).
  rewrite ztake_app by reflexivity.
  set (af := Z.to_nat (a mod 4)).
  assert (af <= 3)%nat as Haf by (unfold af; pose proof (Z.mod_pos_bound a 4); lia).
  assert (fwd_pre false ms (msb (rowsms b (half_up (b_w b)) (Z.to_nat (half_up (b_h b))) 0) ++ [])) as F3' by (rewrite app_nil_r, <- Eg; exact F3).
  assert (forall y x, 0 <= y < b_h b -> 0 <= x < b_w b -> dequant (b_Mb b) (word (31 - b_Mb b) (smp b y x)) = b_q b y x) as Dq.
  { intros y0 x0 Hy Hx. unfold smp. replace ((0 <=? y0) && (y0 <? b_h b) && (0 <=? x0) && (x0 <? b_w b)) with true by lia.
    apply dequant_word; auto. }
  assert (b_h b <= 2 * half_up (b_h b)) as Hh2 by (unfold half_up; lia).
  assert ((half_up (b_h b) - 1) * round8 (b_w b + 2) + 2 * half_up (b_w b) < nS) as S3'.
  { assert (half_up (b_w b) <= 2 * half_up (half_up (b_w b))) by (unfold half_up; lia). lia. }
  destruct (b_h b mod 2 =? 0) eqn:Ev.
  - destruct (ht_step2_ok b Hin ltac:(lia) ltac:(lia) (round8 (b_w b + 2)) S2 S3' S4 sc Hsc (31 - b_Mb b)
      (Obuf (b_h b) (b_w b) (dequant (b_Mb b))) ltac:(cbn [o_rows]; unfold half_up; lia) ltac:(cbn [o_cols]; lia)
      af ms [] (fun _ _ => 0) Haf F1 F3') as (g' & -> & Hg).
    eexists. split; [reflexivity|]. intros y0 x0 Hy Hx. rewrite Hg by lia. cbn [o_put]. apply Dq; assumption.
  - destruct (round8_ge (b_h b) ltac:(lia)) as (RH1 & RH2 & RH3).
    destruct (round8_ge (b_w b) ltac:(lia)) as (RW1 & RW2 & RW3).
    destruct (ht_step2_ok b Hin ltac:(lia) ltac:(lia) (round8 (b_w b + 2)) S2 S3' S4 sc Hsc (31 - b_Mb b)
      (Obuf (round8 (b_h b)) (round8 (b_w b)) (fun v => v)) ltac:(cbn [o_rows]; unfold half_up; lia) ltac:(cbn [o_cols]; lia)
      af ms [] (fun _ _ => 0) Haf F1 F3') as (g' & -> & Hg).
    rewrite bindx_ret. eexists. split; [reflexivity|]. intros y0 x0 Hy Hx.
    cbv beta. replace ((y0 <? b_h b) && (x0 <? b_w b)) with true by lia. cbv iota. rewrite (Hg y0 x0) by lia. cbn [o_put]. apply Dq; assumption.
Qed.
