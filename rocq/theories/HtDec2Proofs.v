(** Step 2 of the HT block decoder recovers the samples. *)
From Verif Require Import Base BaseLemmas HtTables HtBits HtReaders HtStreamModel HtReadProofs
  HtBlockModel HtTableProofs HtQuadProofs HtEncProofs HtDec1Proofs.
Require Import Lia.

(** ** MagSgn calls *)

(** The bits a MagSgn call contributes. *)
Definition mbits1 (c : Z * Z * Z) : list bool :=
  let '(v, m, e) := c in bitsLE (Z.to_nat m) (v - Z.shiftl e m).
Definition msb (l : list (Z * Z * Z)) : list bool := concat (map mbits1 l).
Lemma msb_app a b : msb (a ++ b) = msb a ++ msb b.
Proof. unfold msb. now rewrite map_app, concat_app. Qed.

Definition call_ok (c : Z * Z * Z) : Prop :=
  let '(v, m, e) := c in 0 <= m <= 32 /\ 0 <= v - Z.shiftl e m < 2 ^ m.

Definition bit_of (x i : Z) : Z := Z.land (Z.shiftr x i) 1.
Lemma bit_of_testbit x i : 0 <= i -> bit_of x i = Z.b2z (Z.testbit x i).
Proof.
  intros H. unfold bit_of. change 1 with (Z.ones 1). rewrite Z.land_ones by lia. change (2 ^ 1) with 2.
  rewrite Z.testbit_spec' by lia. rewrite Z.shiftr_div_pow2 by lia. reflexivity.
Qed.

(** Number of bits and the top bit of a sample. *)
Lemma ms_call_spec k q kappa i : qwf q -> 1 <= kappa <= 31 -> code_ok k q kappa -> 0 <= i < 4 ->
  let s := qs q i in
  let e := bit_of (k_emb1 k) i in
  (sgm s = 0 -> s = 0 /\ ms_call k s i = (0, 0, 0)) /\
  (sgm s = 1 -> let m := k_U k - bit_of (k_embk k) i in
     ms_call k s i = (vmag s, m, e) /\ 1 <= m <= 31 /\ (e = 0 \/ e = 1) /\
     0 <= vmag s - Z.shiftl e m < 2 ^ m).
Proof.
  intros Hq Hk C Hi s e. pose proof (qs_wf q i Hq) as Hs. fold s in Hs.
  destruct (rho_spec q Hq) as [_ Br]. specialize (Br i Hi). fold s in Br.
  destruct (emax_spec q Hq) as (M1 & M2 & _). specialize (M2 i). fold s in M2.
  assert (off (k_u k) = 0 \/ off (k_u k) = 1) as Ho by (unfold off; destruct (k_u k =? 0); auto).
  destruct (emb_spec q (off (k_u k)) Ho) as [_ Be]. specialize (Be i Hi). fold s in Be.
  pose proof (co_U _ _ _ C) as CU. pose proof (co_u _ _ _ C) as Cu.
  assert (Z.testbit (k_embk k) i = Z.testbit (k_embk k) i && (sgm s =? 1)) as Sub.
  { rewrite <- (co_sub _ _ _ C) at 1. rewrite Z.land_spec, Br. reflexivity. }
  assert (Z.testbit (k_emb1 k) i = (expo s =? q_emax q) && (off (k_u k) =? 1) && Z.testbit (k_embk k) i) as E1.
  { rewrite (co_emb1 _ _ _ C), Z.land_spec, Be. reflexivity. }
  unfold e. unfold ms_call. fold (bit_of (k_embk k) i) (bit_of (k_emb1 k) i). rewrite !bit_of_testbit by lia.
  split; intros Sg.
  - rewrite Sg in *. rewrite andb_false_r in Sub. rewrite E1, Sub, andb_false_r. cbn [Z.b2z].
    destruct (swf_cases s Hs) as [(S0 & _ & Sv & _)|(_ & S1 & _)]; [|lia]. split; [exact S0|]. rewrite Sv.
    replace (0 * k_U k - 0) with 0 by lia. reflexivity.
  - rewrite Sg. destruct (expo_bound s Hs) as (X1 & X2 & X3 & X4).
    assert (Z.testbit (k_embk k) i = true -> off (k_u k) = 1) as Hoff.
    { intros T. unfold off. destruct (k_u k =? 0) eqn:E; [|reflexivity].
      rewrite (co_zero _ _ _ C), Z.bits_0 in T by lia. discriminate. }
    assert (off (k_u k) = 1 -> k_U k = q_emax q /\ kappa < k_U k) as HU.
    { unfold off. destruct (k_u k =? 0) eqn:E; lia. }
    assert (forall a n, 0 <= a <= n -> 2 ^ a <= 2 ^ n) as PM by (intros; apply Z.pow_le_mono_r; lia).
    destruct (Z.testbit (k_embk k) i) eqn:T; cbn [Z.b2z].
    + specialize (Hoff eq_refl). specialize (HU Hoff). rewrite Hoff in E1. rewrite !andb_true_r in E1.
      replace (1 * k_U k - 1) with (k_U k - 1) by lia.
      split; [rewrite land_255, Z.mod_small by lia; reflexivity|]. split; [lia|].
      split; [destruct (Z.testbit (k_emb1 k) i); cbn; auto|].
      rewrite E1. destruct (expo s =? q_emax q) eqn:Ex; cbn [Z.b2z].
      * rewrite Z.shiftl_1_l. assert (expo s = k_U k) as EE by lia. rewrite EE in *.
        destruct (X4 ltac:(lia)) as [_ X5]. replace (2 ^ k_U k) with (2 * 2 ^ (k_U k - 1)) in X2; [lia|].
        rewrite <- Z.pow_succ_r by lia. f_equal. lia.
      * rewrite Z.shiftl_0_l. specialize (PM (expo s) (k_U k - 1) ltac:(lia)). lia.
    + rewrite andb_false_r in E1. rewrite E1. cbn [Z.b2z]. rewrite Z.shiftl_0_l.
      replace (1 * k_U k - 0) with (k_U k) by lia. replace (k_U k - 0) with (k_U k) by lia.
      split; [rewrite land_255, Z.mod_small by lia; reflexivity|]. split; [lia|]. split; [auto|].
      specialize (PM (expo s) (k_U k) ltac:(lia)). lia.
Qed.

Lemma ms_calls_qs k q : ms_calls k q = map (fun i => ms_call k (qs q i) i) [0; 1; 2; 3].
Proof. destruct q as [[[s0 s1] s2] s3]. reflexivity. Qed.

(** ** Reading one sample *)

Lemma fwd_head s n c l : fwd_inv s (bitsLE (Z.to_nat n) c ++ l) -> 0 <= n <= 32 -> 0 <= c < 2 ^ n ->
  exists v s1 s2, fwd_fetch s = Some (v, s1) /\ fwd_advance s1 n = Some s2 /\ fwd_inv s2 l /\
    0 <= v < 2 ^ 32 /\ v mod 2 ^ n = c.
Proof.
  intros H Hn Hc. destruct (fwd_fetch_inv _ _ H) as (v & s1 & E & H1 & B & R & T).
  destruct (fwd_advance_inv _ _ n H1 ltac:(lia)) as (s2 & E2 & H2).
  exists v, s1, s2. rewrite zskip_app in H2 by (rewrite zlen_bits; lia). split; [exact E|]. split; [exact E2|]. split; [exact H2|]. split; [exact R|].
  rewrite <- (Z.mod_small c (2 ^ n)) by lia. apply testbit_mod_eq; [lia|]. intros i Hi.
  rewrite T by (rewrite ?zlen_app, ?zlen_bits by lia; pose proof (zlen_nonneg l); lia).
  rewrite znth_app_l by (rewrite zlen_bits; lia). unfold znth. rewrite bitsLE_nth by lia. f_equal. lia.
Qed.

(** The magnitude word and the line value of a sample. *)
Definition vd (s : Z) : Z := if s =? 0 then 0 else Z.lor (vmag s) 1.
Definition word (pLSB s : Z) : Z :=
  if s =? 0 then 0
  else Z.lor (wrap32 (Z.shiftl (vmag s) 31)) (wrap32 (Z.shiftl (wrap32 (Z.lor (vmag s) 1 + 2)) (pLSB - 1))).

Lemma low_bit_shift a b : Z.testbit a 0 = Z.testbit b 0 -> wrap32 (Z.shiftl a 31) = wrap32 (Z.shiftl b 31).
Proof.
  intros H. apply Z.bits_inj'. intros n Hn. rewrite !wrap32_testbit by lia. destruct (n <? 32) eqn:E; [|reflexivity].
  cbn [andb]. rewrite !Z.shiftl_spec by lia. destruct (Z.eq_dec n 31) as [->|N]; [exact H|].
  rewrite !Z.testbit_neg_r by lia. reflexivity.
Qed.

Lemma dec_sample_ok pLSB t k q kappa i f l : qwf q -> 1 <= kappa <= 31 -> code_ok k q kappa -> 0 <= i < 4 ->
  ent t k (q_rho q) -> fwd_inv f (mbits1 (ms_call k (qs q i) i) ++ l) ->
  exists f', dec_sample pLSB t (k_U k) i f = ret (word pLSB (qs q i), vd (qs q i), f') /\ fwd_inv f' l.
Proof.
  intros Hq Hk C Hi E Hf. pose proof (ent_bit t k _ i E Hi) as Tb.
  destruct (rho_spec q Hq) as [_ Br]. rewrite (Br i Hi) in Tb.
  destruct (ms_call_spec k q kappa i Hq Hk C Hi) as [M0 M1].
  pose proof (qs_wf q i Hq) as Hs. set (s := qs q i) in *. clearbody s.
  unfold dec_sample. rewrite Tb. destruct (sgm_01 s Hs) as [Sg|Sg]; rewrite Sg.
  - destruct (M0 Sg) as [-> Mc]. rewrite Mc in Hf. cbn [mbits1] in Hf. change (bitsLE (Z.to_nat 0) _) with (@nil bool) in Hf.
    exists f. split; [reflexivity|exact Hf].
  - cbn [Z.eqb Pos.eqb]. destruct (M1 Sg) as (Mc & Mr & Me & Mv). clear M0 M1. rewrite Mc in Hf. cbn [mbits1] in Hf.
    pose proof E as (_ & _ & _ & _ & Ek & E1).
    assert (Z.land (Z.shiftr t (12 + i)) 1 = bit_of (k_embk k) i) as Bk.
    { unfold bit_of. rewrite <- Ek, Z.shiftr_shiftr by lia. reflexivity. }
    assert (Z.land (Z.shiftr t (8 + i)) 1 = bit_of (k_emb1 k) i) as B1.
    { change (Z.land (Z.shiftr t (8 + i)) 1) with (bit_of t (8 + i)). rewrite !bit_of_testbit by lia.
      rewrite <- E1, Z.land_spec, Z.shiftr_spec by lia. change 15 with (Z.ones 4). rewrite Z.ones_spec_low by lia.
      rewrite andb_true_r. do 2 f_equal. lia. }
    rewrite Bk, B1. set (m := k_U k - bit_of (k_embk k) i) in *. set (e := bit_of (k_emb1 k) i) in *. clearbody m e.
    destruct (fwd_head f m _ l Hf ltac:(lia) Mv) as (v & f1 & f2 & -> & Ad & Hf2 & Rv & Vm).
    assert (wrap32 m = m) as -> by (apply wrap32_small; unfold two32; change (2 ^ 32) with 4294967296; lia).
    rewrite Ad. replace (m <? 32) with true by lia.
    exists f2. split; [|exact Hf2].
    assert (Z.lor (Z.land v (Z.shiftl 1 m - 1)) (Z.shiftl e m) = vmag s) as Ev.
    { rewrite Z.shiftl_1_l, land_ones_mod by lia. rewrite Vm, Z.lor_comm, lor_shift_add by lia.
      rewrite Z.shiftl_mul_pow2 by lia. lia. }
    rewrite Ev.
    assert (s <> 0) as Hs0 by (intros ->; discriminate Sg).
    unfold word, vd. replace (s =? 0) with false by lia.
    rewrite (low_bit_shift v (vmag s)); [reflexivity|].
    rewrite <- Ev. rewrite Z.lor_spec, Z.land_spec, Z.shiftl_spec_low by lia. rewrite orb_false_r.
    rewrite Z.shiftl_1_l. replace (2 ^ m - 1) with (Z.ones m) by (rewrite Z.ones_equiv; lia).
    rewrite Z.ones_spec_low by lia. now rewrite andb_true_r.
Qed.

(** ** The exponent bound *)

Lemma vd_log s : swf s -> Z.max (Z.log2 (vd s)) 1 = Z.max (expo s - 1) 1 /\ 0 <= vd s.
Proof.
  intros H. unfold vd. destruct (swf_cases s H) as [(-> & H1 & H2 & H3)|(H0 & H1 & H2 & H3 & H4)].
  - rewrite H3. cbn. lia.
  - assert (s <> 0) by (intros ->; discriminate H1). replace (s =? 0) with false by lia.
    assert (0 <= Z.lor (vmag s) 1) as Hn by (apply Z.lor_nonneg; lia).
    rewrite Z.log2_lor by lia. change (Z.log2 1) with 0. rewrite H4. unfold clz32.
    destruct (vmag s =? 0) eqn:E; [|split; [|exact Hn]; pose proof (Z.log2_nonneg (vmag s)); lia].
    replace (vmag s) with 0 in * by lia. cbn. lia.
Qed.

Lemma kappa_dec_ok t k rho e em : ent t k rho -> 0 <= rho < 16 -> 0 <= e -> Z.max (Z.log2 e) 1 = Z.max (em - 1) 1 ->
  kappa_dec t e = kappa_of em rho.
Proof.
  intros E Hr He Hl. unfold kappa_dec, kappa_of.
  assert (Z.land t 240 = 16 * rho) as ->.
  { destruct E as (Ht & _ & _ & <- & _). apply Z.bits_inj'. intros n Hn.
    change 16 with (2 ^ 4) at 1. rewrite Z.mul_comm. destruct (Z_lt_ge_dec n 4).
    - rewrite Z.mul_pow2_bits_low by lia. rewrite Z.land_spec. change 240 with (15 * 2 ^ 4).
      rewrite Z.mul_pow2_bits_low by lia. apply andb_false_r.
    - rewrite Z.mul_pow2_bits by lia. rewrite !Z.land_spec, Z.shiftr_spec by lia.
      change 240 with (15 * 2 ^ 4). rewrite Z.mul_pow2_bits by lia. do 2 f_equal. lia. }
  pose proof (forallb16 (fun rho => Bool.eqb (Z.land (16 * rho) (wrap32 (16 * rho - 16)) =? 0) (negb (many rho)))
    ltac:(vm_compute; reflexivity) rho Hr) as S. cbv beta in S. apply Bool.eqb_prop in S. rewrite S.
  destruct (many rho); cbn [negb]; [|lia].
  unfold clz32. assert (0 < Z.lor e 2) as Hp.
  { assert (0 <= Z.lor e 2) by (apply Z.lor_nonneg; lia).
    assert (Z.lor e 2 <> 0) by (intros X; apply Z.lor_eq_0_iff in X; lia). lia. }
  replace (Z.lor e 2 =? 0) with false by lia. rewrite Z.log2_lor by lia. change (Z.log2 2) with 1. lia.
Qed.

(** ** A row of quads *)

(** MagSgn calls of [n] quads from [q] on, and of [n] line-pairs from [r] on. *)
Fixpoint rowms (b : block) (r : Z) (n : nat) (q : Z) : list (Z * Z * Z) :=
  match n with O => [] | S n' => ms_calls (codeP b r q) (Qd b r q) ++ rowms b r n' (q + 1) end.
Fixpoint rowsms (b : block) (QW : Z) (n : nat) (r : Z) : list (Z * Z * Z) :=
  match n with O => [] | S n' => rowms b r (Z.to_nat QW) 0 ++ rowsms b QW n' (r + 1) end.

Lemma rowlog_ms b QW r n : forall q, QW - q <= 2 * Z.of_nat n <= QW - q + 1 ->
  g_ms (rowlog b QW r n q) = rowms b r (Z.to_nat (QW - q)) q.
Proof.
  induction n as [|n IH]; intros q H; cbn [rowlog].
  - replace (Z.to_nat (QW - q)) with O by lia. reflexivity.
  - cbn [log_app g_ms]. rewrite IH by lia. unfold plog. destruct (q + 1 <? QW) eqn:E; cbn [g_ms].
    + replace (Z.to_nat (QW - q)) with (S (S (Z.to_nat (QW - (q + 2))))) by lia. cbn [rowms].
      rewrite <- app_assoc. replace (q + 1 + 1) with (q + 2) by lia. reflexivity.
    + replace (Z.to_nat (QW - (q + 2))) with O by lia. replace (Z.to_nat (QW - q)) with 1%nat by lia. reflexivity.
Qed.

Lemma rowslog_ms b QW n : 0 <= QW -> forall r, g_ms (rowslog b QW n r) = rowsms b QW n r.
Proof.
  intros HQ. induction n as [|n IH]; intros r; [reflexivity|]. cbn [rowslog rowsms log_app g_ms].
  rewrite IH, rowlog_ms; [now rewrite Z.sub_0_r|]. unfold half_up. lia.
Qed.

Section Dec2.
Variable b : block.
Hypothesis Hin : in_range b.
Hypothesis Hh : 1 <= b_h b.
Hypothesis Hw : 1 <= b_w b.
Let QW := half_up (b_w b).
Let QH := half_up (b_h b).
Variable sstr : Z.
Hypothesis Hs : 2 * QW < sstr.
Hypothesis Hfit : (QH - 1) * sstr + 2 * QW < nS.
Hypothesis HnV : QW < nV.
Variable sc : uarr.
Hypothesis Hsc : forall r q, 0 <= r < QH -> 0 <= q < QW -> quad_ok b sstr sc r q.
Variable pLSB : Z.
Variable o : obuf.
Hypothesis Hrows : 2 * QH <= o_rows o.
Hypothesis Hcols : b_w b <= o_cols o.

Lemma QW_w : b_w b <= 2 * QW <= b_w b + 1. Proof. unfold QW, half_up. lia. Qed.

Lemma codeP_ok r q : code_ok (codeP b r q) (Qd b r q) (kapP b r q).
Proof. apply pcode_ok; [now apply Qd_wf|now apply kapP_range|now apply ctxP_range]. Qed.

Definition v1 (r q : Z) : Z := vd (qs (Qd b r q) 1).
Definition v3 (r q : Z) : Z := vd (qs (Qd b r q) 3).
Definition vline (r j : Z) : Z := Z.lor (v3 r (j - 1)) (v1 r j).

Lemma v_spec r q : (Z.max (Z.log2 (v1 r q)) 1 = Z.max (pE1 b r q - 1) 1 /\ 0 <= v1 r q) /\
  (Z.max (Z.log2 (v3 r q)) 1 = Z.max (pE3 b r q - 1) 1 /\ 0 <= v3 r q).
Proof.
  pose proof (Qd_wf b r q Hin) as W. unfold v1, v3, pE1, pE3. destruct (Qd b r q) as [[[s0 s1] s2] s3].
  destruct W as (_ & W1 & _ & W3). split; [exact (vd_log s1 W1)|exact (vd_log s3 W3)].
Qed.

Lemma v_out r q : r < 0 \/ q < 0 \/ QW <= q -> v1 r q = 0 /\ v3 r q = 0.
Proof. intros H. unfold v1, v3. rewrite Qd_out by exact H. split; reflexivity. Qed.

Lemma max_sub2 a c a' c' : Z.max a 1 = Z.max (a' - 1) 1 -> Z.max c 1 = Z.max (c' - 1) 1 ->
  Z.max (Z.max a c) 1 = Z.max (Z.max a' c' - 1) 1.
Proof. clear. lia. Qed.
Lemma max_sub4 a c d e a' c' d' e' : Z.max a 1 = Z.max (a' - 1) 1 -> Z.max c 1 = Z.max (c' - 1) 1 ->
  Z.max d 1 = Z.max (d' - 1) 1 -> Z.max e 1 = Z.max (e' - 1) 1 ->
  Z.max (Z.max (Z.max a c) (Z.max d e)) 1 = Z.max (Z.max (Z.max a' c') (Z.max d' e') - 1) 1.
Proof. intros. apply max_sub2; apply max_sub2; assumption. Qed.

Lemma kappa_line r q t : 0 < r -> ent t (codeP b r q) (pR b r q) ->
  kappa_dec t (Z.lor (vline (r - 1) q) (vline (r - 1) (q + 1))) = kapP b r q.
Proof.
  intros Hr E. unfold kapP. replace (r =? 0) with false by lia.
  apply (kappa_dec_ok _ _ _ _ _ E); [now apply pR_range| |];
  unfold vline; replace (q + 1 - 1) with q by lia;
  destruct (v_spec (r - 1) (q - 1)) as [[A1 A2] [A3 A4]], (v_spec (r - 1) q) as [[B1 B2] [B3 B4]],
    (v_spec (r - 1) (q + 1)) as [[C1 C2] [C3 C4]].
  - repeat (apply Z.lor_nonneg; split); assumption.
  - rewrite !Z.log2_lor by (assumption || (apply Z.lor_nonneg; split; assumption)).
    unfold EmaxP, max4. apply max_sub4; assumption.
Qed.

(** Cells of the output that are written before quad [q] of line-pair [r]. *)
Definition written (r q : Z) (g : grid) : Prop := forall y x, 0 <= y -> 0 <= x < b_w b ->
  y < 2 * r \/ (y < 2 * r + 2 /\ x < 2 * q) -> g y x = o_put o (word pLSB (smp b y x)).
Definition vp_ok (r q : Z) (v : arr) : Prop :=
  (forall j, 0 <= j < q -> v j = vline r j) /\ (0 < r -> forall j, q <= j <= QW -> v j = vline (r - 1) j).

Lemma put_ok g y x v : 0 <= y < o_rows o -> 0 <= x < o_cols o ->
  put o g y x v = Ret (fun y' x' => if (y' =? y) && (x' =? x) then o_put o v else g y' x').
Proof. intros H1 H2. unfold put. replace ((0 <=? y) && (y <? o_rows o) && (0 <=? x) && (x <? o_cols o)) with true by lia. reflexivity. Qed.
Lemma st_ok a i v : 0 <= i < nV -> st nV a i v = Ret (upd a i v).
Proof. intros H. unfold st. replace ((0 <=? i) && (i <? nV)) with true by lia. reflexivity. Qed.
Lemma ld_ok a i : 0 <= i < nV -> ld nV a i = Ret (a i).
Proof. intros H. unfold ld. replace ((0 <=? i) && (i <? nV)) with true by lia. reflexivity. Qed.

Definition row2_ok (res : ex st2) (r : Z) (l : list bool) : Prop :=
  exists s', res = ret s' /\ fwd_inv (s2_f s') l /\ written (r + 1) 0 (s2_o s') /\ vp_ok (r + 1) 0 (s2_v s').

Lemma smp_qs r q : 0 <= q -> forall i, 0 <= i < 4 -> qs (Qd b r q) i = smp b (2 * r + i mod 2) (2 * q + i / 2).
Proof.
  intros _ i Hi. apply idx4 in Hi as [->|[->|[->| ->]]]; unfold Qd, qs; cbn [Z.eqb Pos.eqb];
  match goal with |- context [?a mod 2] => let x := eval vm_compute in (a mod 2) in change (a mod 2) with x end;
  match goal with |- context [?a / 2] => let x := eval vm_compute in (a / 2) in change (a / 2) with x end;
  rewrite ?Z.add_0_r; reflexivity.
Qed.

Lemma vp_next r v : 0 <= r -> (forall j, 0 <= j <= QW -> v j = vline r j) -> vp_ok (r + 1) 0 v.
Proof.
  intros Hr H. split; [intros; lia|]. intros _ j Hj. replace (r + 1 - 1) with r by lia. apply H. lia.
Qed.

Lemma step2_row_ok r n : 0 <= r < QH -> forall q l s, 0 <= q -> q + Z.of_nat n = QW ->
  fwd_inv (s2_f s) (msb (rowms b r n q) ++ l) -> written r q (s2_o s) -> vp_ok r q (s2_v s) ->
  row2_ok (step2_row n (r =? 0) pLSB (b_w b) (2 * r) o sc (2 * q) (r * sstr + 2 * q) q (v3 r (q - 1)) s) r l.
Proof.
  intros Hr. pose proof QW_w as Ww.
  induction n as [|n IH]; intros q l s Hq Hn Hf Hg Hv; cbn [step2_row].
  - assert (q = QW) as -> by lia. rewrite st_ok by lia. bx. eexists. split; [reflexivity|].
    cbn [s2_f s2_v s2_o]. split; [exact Hf|]. split.
    + intros y x Hy Hx Hd. apply Hg; lia.
    + apply vp_next; [lia|]. intros j Hj. unfold upd. destruct (j =? QW) eqn:E.
      * assert (j = QW) as -> by lia. unfold vline. destruct (v_out r QW) as [-> _]; [lia|]. now rewrite Z.lor_0_r.
      * apply (proj1 Hv). lia.
  - destruct (Hsc r q Hr ltac:(lia)) as (t & S0 & E & S1).
    assert (0 <= r * sstr) as R0 by nia.
    assert (r * sstr <= (QH - 1) * sstr) as R1 by (apply Z.mul_le_mono_nonneg_r; lia).
    rewrite (lift_uld _ _ _ S0) by lia. bx. rewrite (lift_uld _ _ _ S1) by lia. bx.
    pose proof (codeP_ok r q) as C. pose proof (kapP_range b Hin r q) as Kr. pose proof (Qd_wf b r q Hin) as Wq.
    pose proof (u_range b Hin r q) as Ur.
    assert (k_U (codeP b r q) = k_u (codeP b r q) + kapP b r q) as CU by (pose proof (co_u _ _ _ C); lia).
    match goal with |- row2_ok (bindx ?X _) _ _ => assert (X = ret (k_U (codeP b r q))) as -> end.
    { destruct (r =? 0) eqn:Er.
      - unfold base. rewrite Er. f_equal. unfold kapP in CU. rewrite Er in CU. lia.
      - rewrite !ld_ok by lia. bx. bx. destruct Hv as [_ Hv]. rewrite !Hv by lia.
        rewrite (kappa_line r q t) by (lia || exact E). unfold base. rewrite Er. f_equal.
        rewrite wrap32_small by (unfold two32; change (2 ^ 32) with 4294967296; lia). lia. }
    bx. cbn [rowms] in Hf. rewrite msb_app, ms_calls_qs, <- app_assoc in Hf. cbn [map] in Hf.
    unfold msb at 1 in Hf. cbn [map concat] in Hf. rewrite <- !app_assoc in Hf. cbn [app] in Hf.
    destruct (dec_sample_ok pLSB t _ _ _ 0 _ _ Wq Kr C ltac:(lia) E Hf) as (f0 & -> & Hf0). bx.
    rewrite put_ok by lia. bx.
    destruct (dec_sample_ok pLSB t _ _ _ 1 _ _ Wq Kr C ltac:(lia) E Hf0) as (f1 & -> & Hf1). bx.
    rewrite put_ok by lia. bx. rewrite st_ok by lia. bx.
    pose proof (smp_qs r q Hq 0 ltac:(lia)) as Q0. pose proof (smp_qs r q Hq 1 ltac:(lia)) as Q1.
    pose proof (smp_qs r q Hq 2 ltac:(lia)) as Q2. pose proof (smp_qs r q Hq 3 ltac:(lia)) as Q3.
    change (0 mod 2) with 0 in Q0. change (0 / 2) with 0 in Q0. change (1 mod 2) with 1 in Q1. change (1 / 2) with 0 in Q1.
    change (2 mod 2) with 0 in Q2. change (2 / 2) with 1 in Q2. change (3 mod 2) with 1 in Q3. change (3 / 2) with 1 in Q3.
    rewrite !Z.add_0_r in *.
    destruct (b_w b <=? 2 * q + 1) eqn:Br.
    + assert (n = O) as -> by lia. assert (q = QW - 1) as Eq by lia. rewrite st_ok by lia. bx.
      eexists. split; [reflexivity|]. cbn [s2_f s2_v s2_o].
      assert (qs (Qd b r q) 2 = 0) as Z2 by (rewrite Q2; unfold smp; replace (2 * q + 1 <? b_w b) with false by lia; now rewrite andb_false_r).
      assert (qs (Qd b r q) 3 = 0) as Z3 by (rewrite Q3; unfold smp; replace (2 * q + 1 <? b_w b) with false by lia; now rewrite andb_false_r).
      destruct (ms_call_spec _ _ _ 2 Wq Kr C ltac:(lia)) as [M2 _]. destruct (ms_call_spec _ _ _ 3 Wq Kr C ltac:(lia)) as [M3 _].
      rewrite Z2 in M2. rewrite Z3 in M3. destruct (M2 eq_refl) as [_ M2']. destruct (M3 eq_refl) as [_ M3'].
      rewrite Z2, Z3, M2', M3' in Hf1.
      split; [exact Hf1|]. split.
      * intros y x Hy Hx Hd. destruct ((y =? 2 * r + 1) && (x =? 2 * q)) eqn:E1.
        { rewrite Q1. do 3 f_equal; lia. }
        destruct ((y =? 2 * r) && (x =? 2 * q)) eqn:E0.
        { rewrite Q0. do 3 f_equal; lia. }
        apply Hg; lia.
      * apply vp_next; [lia|]. intros j Hj. unfold upd. destruct (j =? q + 1) eqn:E1.
        { assert (j = q + 1) as -> by lia. unfold vline. destruct (v_out r (q + 1)) as [-> _]; [lia|].
          replace (q + 1 - 1) with q by lia. unfold v3. rewrite Z3. reflexivity. }
        destruct (j =? q) eqn:E2; [assert (j = q) as -> by lia; reflexivity|]. apply (proj1 Hv). lia.
    + destruct (dec_sample_ok pLSB t _ _ _ 2 _ _ Wq Kr C ltac:(lia) E Hf1) as (f2 & -> & Hf2). bx.
      rewrite put_ok by lia. bx.
      destruct (dec_sample_ok pLSB t _ _ _ 3 _ _ Wq Kr C ltac:(lia) E Hf2) as (f3 & -> & Hf3). bx.
      rewrite put_ok by lia. bx.
      replace (2 * q + 2) with (2 * (q + 1)) by lia. replace (r * sstr + 2 * q + 2) with (r * sstr + 2 * (q + 1)) by lia.
      replace (vd (qs (Qd b r q) 3)) with (v3 r (q + 1 - 1)) by (replace (q + 1 - 1) with q by lia; reflexivity).
      apply IH; [lia|lia|exact Hf3| |]; cbn [s2_o s2_v].
      * intros y x Hy Hx Hd. destruct ((y =? 2 * r + 1) && (x =? 2 * q + 1)) eqn:E3.
        { rewrite Q3. do 3 f_equal; lia. }
        destruct ((y =? 2 * r) && (x =? 2 * q + 1)) eqn:E2.
        { rewrite Q2. do 3 f_equal; lia. }
        destruct ((y =? 2 * r + 1) && (x =? 2 * q)) eqn:E1.
        { rewrite Q1. do 3 f_equal; lia. }
        destruct ((y =? 2 * r) && (x =? 2 * q)) eqn:E0.
        { rewrite Q0. do 3 f_equal; lia. }
        apply Hg; lia.
      * destruct Hv as [V1 V2]. split.
        -- intros j Hj. unfold upd. destruct (j =? q) eqn:E2; [assert (j = q) as -> by lia; reflexivity|]. apply V1. lia.
        -- intros H0 j Hj. unfold upd. replace (j =? q) with false by lia. apply V2; lia.
Qed.

Lemma step2_rows_ok n : forall r l s, 0 < r -> r + Z.of_nat n = QH ->
  fwd_inv (s2_f s) (msb (rowsms b QW n r) ++ l) -> written r 0 (s2_o s) -> vp_ok r 0 (s2_v s) ->
  exists s', step2_rows n pLSB (b_w b) (2 * r) sstr o sc s = ret s' /\ written QH 0 (s2_o s').
Proof.
  pose proof QW_w as Ww.
  induction n as [|n IH]; intros r l s Hr Hn Hf Hg Hv; cbn [step2_rows].
  - exists s. split; [reflexivity|]. replace QH with r by lia. exact Hg.
  - cbn [rowsms] in Hf. rewrite msb_app, <- app_assoc in Hf.
    assert (half_up (b_w b) = QW) as EQ by reflexivity. rewrite EQ.
    destruct (step2_row_ok r (Z.to_nat QW) ltac:(lia) 0 _ s ltac:(lia) ltac:(lia) Hf Hg Hv) as (s1 & X & Hf1 & Hg1 & Hv1).
    replace (r =? 0) with false in X by lia. destruct (v_out r (0 - 1)) as [_ V]; [lia|]. rewrite V in X.
    replace (2 * r / 2) with r by (rewrite Z.mul_comm, Z.div_mul; lia).
    replace (r * sstr + 2 * 0) with (r * sstr) in X by lia. change (2 * 0) with 0 in X. rewrite X. bx.
    replace (2 * r + 2) with (2 * (r + 1)) by lia. apply (IH (r + 1) l); [lia|lia|exact Hf1|exact Hg1|exact Hv1].
Qed.

(** Step 2 writes every sample. *)
Lemma ht_step2_ok af seg l g : (af <= 3)%nat -> bytes_ok seg ->
  fwd_pre false seg (msb (rowsms b QW (Z.to_nat QH) 0) ++ l) ->
  exists g', ht_step2 af seg pLSB (b_w b) (b_h b) sstr o sc g = ret g' /\
    forall y x, 0 <= y < 2 * QH -> 0 <= x < b_w b -> g' y x = o_put o (word pLSB (smp b y x)).
Proof.
  intros Ha Hb Hp. pose proof QW_w as Ww. assert (1 <= QH) as HQ by (unfold QH, half_up; lia).
  destruct (fwd_init_inv af seg _ Ha Hb Hp) as (f & Ef & Hf). unfold ht_step2. rewrite Ef.
  replace (Z.to_nat QH) with (S (Z.to_nat (QH - 1))) in Hf by lia. cbn [rowsms] in Hf. rewrite msb_app, <- app_assoc in Hf.
  destruct (step2_row_ok 0 (Z.to_nat QW) ltac:(lia) 0 _ (St2 f (fun _ => 0) g) ltac:(lia) ltac:(lia) Hf) as (s1 & X & Hf1 & Hg1 & Hv1).
  { intros y x Hy Hx Hd. lia. }
  { split; intros; lia. }
  destruct (v_out 0 (0 - 1)) as [_ V]; [lia|]. rewrite V in X. change (0 =? 0) with true in X.
  replace (0 * sstr + 2 * 0) with 0 in X by lia. change (2 * 0) with 0 in X.
  assert (half_up (b_w b) = QW) as EQ by reflexivity. rewrite EQ, X. bx.
  destruct (step2_rows_ok (Z.to_nat (QH - 1)) 1 l s1 ltac:(lia) ltac:(lia) Hf1 Hg1 Hv1) as (s2 & X2 & Hg2).
  change (2 * 1) with 2 in X2. assert (half_up (b_h b) = QH) as EH by reflexivity. rewrite EH, X2. bx.
  eexists. split; [reflexivity|]. intros y x Hy Hx. apply Hg2; lia.
Qed.
End Dec2.
