(** The encoder's line buffers hold the row above: what it codes for each quad
    is a function of the quads alone. *)
From Verif Require Import Base BaseLemmas HtTables HtBits HtStreamModel HtBlockModel HtTableProofs HtQuadProofs.
Require Import Lia.

(** ** Samples and quads of a block *)

Definition pmag (q : Z) : Z :=
  if q =? 0 then 0 else Z.lor (2 * (Z.abs q - 1) + (if q <? 0 then 1 else 0)) (2 ^ 31).
Definition smp (b : block) (y x : Z) : Z :=
  if (0 <=? y) && (y <? b_h b) && (0 <=? x) && (x <? b_w b) then pmag (b_q b y x) else 0.
Definition Qd (b : block) (r q : Z) : quad :=
  (smp b (2 * r) (2 * q), smp b (2 * r + 1) (2 * q), smp b (2 * r) (2 * q + 1), smp b (2 * r + 1) (2 * q + 1)).

Definition in_range (b : block) : Prop :=
  forall y x, 0 <= y < b_h b -> 0 <= x < b_w b -> Z.abs (b_q b y x) <= 2 ^ 30.

Lemma magsgn_ok q : Z.abs q <= 2 ^ 30 -> magsgn q = Ret (pmag q) /\ swf (pmag q).
Proof.
  intros H. unfold magsgn, pmag, swf. change (2 ^ 31) with 2147483648. change (2 ^ 32) with 4294967296.
  change (2 ^ 30) with 1073741824 in *.
  replace ((- (2147483648) <? q) && (q <? 2147483648)) with true by lia.
  destruct (q =? 0) eqn:E.
  - replace (Z.abs q =? 0) with true by lia. auto.
  - replace (Z.abs q =? 0) with false by lia. replace (1073741824 <? Z.abs q) with false by lia. split; [reflexivity|].
    right. rewrite Z.lor_comm. change 2147483648 with (1 * 2 ^ 31). rewrite lor_mul_add; change (2 ^ 31) with 2147483648; [|lia|].
    + destruct (q <? 0); lia.
    + destruct (q <? 0); lia.
Qed.

Lemma smp_wf b y x : in_range b -> swf (smp b y x).
Proof.
  intros H. unfold smp. destruct ((0 <=? y) && (y <? b_h b) && (0 <=? x) && (x <? b_w b)) eqn:E; [|left; reflexivity].
  apply magsgn_ok. apply H; lia.
Qed.

Lemma Qd_wf b r q : in_range b -> qwf (Qd b r q).
Proof. intros H. unfold Qd, qwf. repeat apply conj; apply smp_wf; assumption. Qed.

Lemma round8_ge x : 0 <= x -> x <= round8 x /\ round8 x mod 8 = 0 /\ round8 x < x + 8.
Proof.
  intros H. unfold round8. rewrite Z.shiftl_mul_pow2, Z.shiftr_div_pow2 by lia. change (2 ^ 3) with 8. lia.
Qed.
Lemma round8_even x y : 0 <= x -> 0 <= y < half_up x -> 2 * y + 1 < round8 x.
Proof.
  intros H Hy. destruct (round8_ge x H) as (R1 & R2 & R3). unfold half_up in Hy. lia.
Qed.

Lemma sample_ok b y x : in_range b -> 0 <= y < round8 (b_h b) -> 0 <= x < round8 (b_w b) ->
  sample b y x = Ret (smp b y x).
Proof.
  intros H Hy Hx. unfold sample, smp.
  replace ((0 <=? y) && (y <? round8 (b_h b)) && (0 <=? x) && (x <? round8 (b_w b))) with true by lia.
  replace (0 <=? y) with true by lia. replace (0 <=? x) with true by lia.
  destruct (y <? b_h b) eqn:E1; [|reflexivity]. destruct (x <? b_w b) eqn:E2; [|reflexivity].
  cbn [andb]. apply magsgn_ok. apply H; lia.
Qed.

Lemma load_quad_ok b r q : in_range b -> 0 <= b_h b -> 0 <= b_w b ->
  0 <= r < half_up (b_h b) -> 0 <= q < half_up (b_w b) -> load_quad b r q = Ret (Qd b r q).
Proof.
  intros H Hh Hw Hr Hq. pose proof (round8_even _ _ Hh Hr). pose proof (round8_even _ _ Hw Hq).
  unfold load_quad. rewrite !sample_ok by (auto; lia). reflexivity.
Qed.

(** Nothing outside the block is significant. *)
Lemma Qd_out b r q : r < 0 \/ q < 0 \/ half_up (b_w b) <= q -> Qd b r q = (0, 0, 0, 0).
Proof.
  intros H. unfold Qd.
  assert (forall y x, y < 0 \/ x < 0 \/ b_w b <= x -> smp b y x = 0) as Z0.
  { intros y x Hyx. unfold smp. replace ((0 <=? y) && (y <? b_h b) && (0 <=? x) && (x <? b_w b)) with false by lia. reflexivity. }
  unfold half_up in H. rewrite !Z0 by lia. reflexivity.
Qed.

Definition pR (b : block) (r q : Z) : Z := q_rho (Qd b r q).
Definition pE1 (b : block) (r q : Z) : Z := q_E1 (Qd b r q).
Definition pE3 (b : block) (r q : Z) : Z := q_E3 (Qd b r q).

Lemma p_out b r q : r < 0 \/ q < 0 \/ half_up (b_w b) <= q -> pR b r q = 0 /\ pE1 b r q = 0 /\ pE3 b r q = 0.
Proof. intros H. unfold pR, pE1, pE3. rewrite Qd_out by assumption. vm_compute. auto. Qed.

(** ** Contexts *)

Definition cN (w nw n ne : Z) : Z :=
  Z.b2z (Z.testbit nw 3 || Z.testbit n 1) + 2 * Z.b2z (Z.testbit w 2 || Z.testbit w 3)
  + 4 * Z.b2z (Z.testbit n 3 || Z.testbit ne 1).

Lemma land_bit a n : 0 <= n -> Z.land a (2 ^ n) = if Z.testbit a n then 2 ^ n else 0.
Proof.
  intros Hn. apply Z.bits_inj'. intros i Hi. rewrite Z.land_spec, Z.pow2_bits_eqb by lia.
  destruct (n =? i) eqn:E.
  - assert (n = i) as <- by lia. destruct (Z.testbit a n); [|now rewrite Z.bits_0].
    rewrite Z.pow2_bits_true by lia. reflexivity.
  - rewrite andb_false_r. destruct (Z.testbit a n); [|now rewrite Z.bits_0].
    rewrite Z.pow2_bits_false by lia. reflexivity.
Qed.

Lemma ctx_rowN_ok w nw n ne : ctx_rowN w nw n ne = 256 * cN w nw n ne.
Proof.
  unfold ctx_rowN, cN. change 4 with (2 ^ 2). change 8 with (2 ^ 3). change (Z.land n 2) with (Z.land n (2 ^ 1)).
  change (Z.land ne 2) with (Z.land ne (2 ^ 1)). rewrite !land_bit by lia.
  destruct (Z.testbit w 2), (Z.testbit w 3), (Z.testbit nw 3), (Z.testbit n 1), (Z.testbit n 3), (Z.testbit ne 1); reflexivity.
Qed.
Lemma cN_range w nw n ne : 0 <= cN w nw n ne < 8.
Proof.
  unfold cN. destruct (Z.testbit nw 3 || Z.testbit n 1), (Z.testbit w 2 || Z.testbit w 3), (Z.testbit n 3 || Z.testbit ne 1); cbn; lia.
Qed.

Lemma forallb16 (P : Z -> bool) : forallb P (zseq 16) = true -> forall r, 0 <= r < 16 -> P r = true.
Proof. intros H r Hr. rewrite forallb_forall in H. apply H. apply zseq_In. exact Hr. Qed.

Lemma ctx_row0_range r : 0 <= r < 16 -> 0 <= ctx_row0 r < 8.
Proof.
  intros H. pose proof (forallb16 (fun r => (0 <=? ctx_row0 r) && (ctx_row0 r <? 8)) ltac:(vm_compute; reflexivity) r H). cbv beta in H0. lia.
Qed.

(** ** What is coded *)

Definition EmaxP (b : block) (r q : Z) : Z :=
  max4 (pE3 b r (q - 1)) (pE1 b r q) (pE3 b r q) (pE1 b r (q + 1)).
Definition ctxP (b : block) (r q : Z) : Z :=
  if r =? 0 then ctx_row0 (pR b 0 (q - 1))
  else cN (pR b r (q - 1)) (pR b (r - 1) (q - 1)) (pR b (r - 1) q) (pR b (r - 1) (q + 1)).
Definition kapP (b : block) (r q : Z) : Z :=
  if r =? 0 then 1 else kappa_of (EmaxP b (r - 1) q) (pR b r q).
Definition codeP (b : block) (r q : Z) : qcode := pcode (r =? 0) (ctxP b r q) (kapP b r q) (Qd b r q).

Definition uvP (f : bool) (u0 u1 : Z) : Z * Z := (Z.shiftr (euw f u0 u1) 8, Z.land (euw f u0 u1) 255).

(** The MEL events of a pair of quads. *)
Definition melP (b : block) (r q : Z) : list bool :=
  mel_if (ctxP b r q) (pR b r q) ++
  (if r =? 0 then
     let u0 := k_u (codeP b r q) in let u1 := k_u (codeP b r (q + 1)) in
     let u_min := if u0 <? u1 then u0 else u1 in
     if ctxP b r (q + 1) =? 0 then (if negb (pR b r (q + 1) =? 0) then [true] else [2 <? u_min])
     else if negb (u0 =? 0) && negb (u1 =? 0) then [2 <? u_min] else []
   else mel_if (ctxP b r (q + 1)) (pR b r (q + 1))).

Definition plog (b : block) (QW r q : Z) : elog :=
  let ca := codeP b r q in
  let cb := codeP b r (q + 1) in
  if q + 1 <? QW then
    Log (melP b r q) [(k_cwd ca, k_lw ca); (k_cwd cb, k_lw cb); uvP (r =? 0) (k_u ca) (k_u cb)]
        (ms_calls ca (Qd b r q) ++ ms_calls cb (Qd b r (q + 1)))
  else Log (mel_if (ctxP b r q) (pR b r q)) [(k_cwd ca, k_lw ca); uvP (r =? 0) (k_u ca) 0]
        (ms_calls ca (Qd b r q)).

(** [n] pairs of a line-pair from quad [q] on. *)
Fixpoint rowlog (b : block) (QW r : Z) (n : nat) (q : Z) : elog :=
  match n with O => no_log | S n' => log_app (plog b QW r q) (rowlog b QW r n' (q + 2)) end.
(** [n] line-pairs from [r] on. *)
Fixpoint rowslog (b : block) (QW : Z) (n : nat) (r : Z) : elog :=
  match n with
  | O => no_log
  | S n' => log_app (rowlog b QW r (Z.to_nat (half_up QW)) 0) (rowslog b QW n' (r + 1))
  end.

Lemma log_app_assoc a b c : log_app a (log_app b c) = log_app (log_app a b) c.
Proof. unfold log_app. cbn. now rewrite !app_assoc. Qed.
Lemma log_app_nil_r a : log_app a no_log = a.
Proof. destruct a. unfold log_app, no_log. cbn. now rewrite !app_nil_r. Qed.
Lemma log_app_nil_l a : log_app no_log a = a.
Proof. destruct a. reflexivity. Qed.

(** ** The encoder computes it *)

Section Enc.
Variable b : block.
Hypothesis Hin : in_range b.
Hypothesis Hh : 1 <= b_h b.
Hypothesis Hw : 1 <= b_w b.
Let QW := half_up (b_w b).
Let QH := half_up (b_h b).

Lemma QW_pos : 1 <= QW. Proof. unfold QW, half_up. lia. Qed.

Lemma pR_range r q : 0 <= pR b r q < 16.
Proof. apply rho_spec. apply Qd_wf. assumption. Qed.
Lemma E_range r q : 0 <= pE1 b r q <= 31 /\ 0 <= pE3 b r q <= 31.
Proof.
  unfold pE1, pE3. pose proof (Qd_wf b r q Hin) as H. destruct (Qd b r q) as [[[s0 s1] s2] s3].
  destruct H as (_ & H1 & _ & H3). cbn [q_E1 q_E3].
  pose proof (expo_bound _ H1). pose proof (expo_bound _ H3). lia.
Qed.
Lemma EmaxP_range r q : 0 <= EmaxP b r q <= 31.
Proof.
  unfold EmaxP, max4. pose proof (E_range r (q - 1)). pose proof (E_range r q). pose proof (E_range r (q + 1)). lia.
Qed.
Lemma kappa_of_range e rho : 0 <= e <= 31 -> 1 <= kappa_of e rho <= 31.
Proof. unfold kappa_of. intros H. destruct (many rho); lia. Qed.
Lemma kapP_range r q : 1 <= kapP b r q <= 31.
Proof. unfold kapP. destruct (r =? 0); [lia|]. apply kappa_of_range, EmaxP_range. Qed.
Lemma ctxP_range r q : 0 <= ctxP b r q < 8.
Proof. unfold ctxP. destruct (r =? 0); [apply ctx_row0_range, pR_range|apply cN_range]. Qed.
Lemma u_range r q : 0 <= k_u (codeP b r q) < 32.
Proof.
  unfold codeP, pcode. cbn [k_u]. pose proof (kapP_range r q). pose proof (Qd_wf b r q Hin) as Q.
  apply emax_spec in Q as (Q & _). lia.
Qed.

Lemma mel_if_ctx c r : mel_if (256 * c) r = mel_if c r.
Proof. unfold mel_if. replace (256 * c =? 0) with (c =? 0) by lia. reflexivity. Qed.

Lemma code0 q : code_quad enc_CxtVLC_table0 (Z.shiftl (ctxP b 0 q) 8) 1 (Qd b 0 q) = Ret (codeP b 0 q).
Proof.
  rewrite Z.shiftl_mul_pow2 by lia. change (2 ^ 8) with 256. rewrite Z.mul_comm.
  change enc_CxtVLC_table0 with (etab true). change 1 with (kapP b 0 q) at 1.
  rewrite code_quad_ok; [reflexivity|apply Qd_wf; assumption|apply kapP_range|apply ctxP_range].
Qed.
Lemma codeN r q : 0 < r -> code_quad enc_CxtVLC_table1 (256 * ctxP b r q) (kapP b r q) (Qd b r q) = Ret (codeP b r q).
Proof.
  intros Hr. change enc_CxtVLC_table1 with (etab false). unfold codeP. replace (r =? 0) with false by lia.
  apply code_quad_ok; [apply Qd_wf; assumption|apply kapP_range|apply ctxP_range].
Qed.
Lemma uv_ok f r q q' :
  uvlc_word (eutab f) (k_u (codeP b r q) + Z.shiftl (k_u (codeP b r q')) 5) = Ret (uvP f (k_u (codeP b r q)) (k_u (codeP b r q'))).
Proof. apply uvlc_ok; apply u_range. Qed.
Lemma uv_ok1 f r q :
  uvlc_word (eutab f) (k_u (codeP b r q)) = Ret (uvP f (k_u (codeP b r q)) 0).
Proof.
  pose proof (uvlc_ok f (k_u (codeP b r q)) 0 (u_range r q) ltac:(lia)) as (H & _).
  change (Z.shiftl 0 5) with 0 in H. now rewrite Z.add_0_r in H.
Qed.

Lemma enc_pair0_ok q : q + 1 < QW ->
  enc_pair0 (ctxP b 0 q) (Qd b 0 q) (Qd b 0 (q + 1)) = Ret (plog b QW 0 q, ctxP b 0 (q + 2)).
Proof.
  intros Hq. unfold enc_pair0. rewrite code0. cbn [bind].
  assert (ctx_row0 (q_rho (Qd b 0 q)) = ctxP b 0 (q + 1)) as ->.
  { unfold ctxP. cbn [Z.eqb]. unfold pR. do 3 f_equal. lia. }
  rewrite code0. cbn [bind]. change enc_UVLC_table0 with (eutab true). rewrite uv_ok. cbn [bind].
  unfold plog. replace (q + 1 <? QW) with true by lia.
  replace (ctx_row0 (q_rho (Qd b 0 (q + 1)))) with (ctxP b 0 (q + 2)); [reflexivity|].
  unfold ctxP. cbn [Z.eqb]. unfold pR. do 3 f_equal. lia.
Qed.

Lemma enc_last0_ok q : q + 1 = QW -> enc_last0 (ctxP b 0 q) (Qd b 0 q) = Ret (plog b QW 0 q).
Proof.
  intros Hq. unfold enc_last0. rewrite code0. cbn [bind]. change enc_UVLC_table0 with (eutab true).
  rewrite uv_ok1. cbn [bind]. unfold plog. replace (q + 1 <? QW) with false by lia. reflexivity.
Qed.

Lemma enc_pairN_ok r q : 0 < r -> q + 1 < QW ->
  enc_pairN (256 * ctxP b r q) (256 * ctxP b r (q + 1)) (EmaxP b (r - 1) q) (EmaxP b (r - 1) (q + 1))
    (Qd b r q) (Qd b r (q + 1)) = Ret (plog b QW r q).
Proof.
  intros Hr Hq. unfold enc_pairN.
  replace (kappa_of (EmaxP b (r - 1) q) (q_rho (Qd b r q))) with (kapP b r q)
    by (unfold kapP; replace (r =? 0) with false by lia; reflexivity).
  replace (kappa_of (EmaxP b (r - 1) (q + 1)) (q_rho (Qd b r (q + 1)))) with (kapP b r (q + 1))
    by (unfold kapP; replace (r =? 0) with false by lia; reflexivity).
  rewrite codeN by assumption. cbn [bind]. rewrite codeN by assumption. cbn [bind].
  change enc_UVLC_table1 with (eutab false). rewrite uv_ok. cbn [bind]. rewrite !mel_if_ctx.
  unfold plog, melP. replace (q + 1 <? QW) with true by lia. replace (r =? 0) with false by lia. reflexivity.
Qed.

Lemma enc_lastN_ok r q : 0 < r -> q + 1 = QW ->
  enc_lastN (256 * ctxP b r q) (EmaxP b (r - 1) q) (Qd b r q) = Ret (plog b QW r q).
Proof.
  intros Hr Hq. unfold enc_lastN.
  replace (kappa_of (EmaxP b (r - 1) q) (q_rho (Qd b r q))) with (kapP b r q)
    by (unfold kapP; replace (r =? 0) with false by lia; reflexivity).
  rewrite codeN by assumption. cbn [bind].
  change enc_UVLC_table1 with (eutab false). rewrite uv_ok1. cbn [bind]. rewrite mel_if_ctx.
  unfold plog. replace (q + 1 <? QW) with false by lia. replace (r =? 0) with false by lia. reflexivity.
Qed.

(** The line buffers while line-pair [r] is coded, [q] quads of it done. *)
Record line_ok (l : lines) (r q : Z) : Prop := LineOk {
  lo_E0 : li_E l 0 = 0;
  lo_R0 : li_rho l 0 = 0;
  lo_E1 : forall k, 0 <= k -> li_E l (1 + 2 * k) = pE1 b (if k <? q then r else r - 1) k;
  lo_E3 : forall k, 0 <= k -> li_E l (2 + 2 * k) = pE3 b (if k <? q then r else r - 1) k;
  lo_R : forall k, 0 <= k -> li_rho l (1 + k) = pR b (if k <? q then r else r - 1) k }.

Lemma push_E_ok E q x : 0 <= q < QW ->
  push_E QW E q x = Ret (upd (upd E (1 + 2 * q) (q_E1 x)) (2 + 2 * q) (q_E3 x)).
Proof.
  intros Hq. unfold push_E, st, nE.
  replace ((0 <=? 1 + 2 * q) && (1 + 2 * q <? 2 * QW + 6)) with true by lia. cbn [bind].
  replace ((0 <=? 2 + 2 * q) && (2 + 2 * q <? 2 * QW + 6)) with true by lia. reflexivity.
Qed.
Lemma push_rho_ok R q x : 0 <= q < QW -> push_rho QW R q x = Ret (upd R (1 + q) (q_rho x)).
Proof.
  intros Hq. unfold push_rho, st, nR. replace ((0 <=? 1 + q) && (1 + q <? QW + 3)) with true by lia. reflexivity.
Qed.

Lemma line_push l r q : line_ok l r q -> 0 <= q ->
  line_ok (Lines (upd (upd (li_E l) (1 + 2 * q) (q_E1 (Qd b r q))) (2 + 2 * q) (q_E3 (Qd b r q)))
                 (upd (li_rho l) (1 + q) (q_rho (Qd b r q)))) r (q + 1).
Proof.
  intros [E0 R0 E1 E3 R] Hq. constructor; cbn [li_E li_rho]; unfold upd.
  - replace (0 =? 2 + 2 * q) with false by lia. replace (0 =? 1 + 2 * q) with false by lia. assumption.
  - replace (0 =? 1 + q) with false by lia. assumption.
  - intros k Hk. replace (1 + 2 * k =? 2 + 2 * q) with false by lia.
    destruct (Z.eq_dec k q) as [->|Hn].
    + rewrite Z.eqb_refl. replace (q <? q + 1) with true by lia. reflexivity.
    + replace (1 + 2 * k =? 1 + 2 * q) with false by lia. rewrite E1 by lia.
      replace (k <? q + 1) with (k <? q) by lia. reflexivity.
  - intros k Hk. destruct (Z.eq_dec k q) as [->|Hn].
    + rewrite Z.eqb_refl. replace (q <? q + 1) with true by lia. reflexivity.
    + replace (2 + 2 * k =? 2 + 2 * q) with false by lia. replace (2 + 2 * k =? 1 + 2 * q) with false by lia.
      rewrite E3 by lia. replace (k <? q + 1) with (k <? q) by lia. reflexivity.
  - intros k Hk. destruct (Z.eq_dec k q) as [->|Hn].
    + rewrite Z.eqb_refl. replace (q <? q + 1) with true by lia. reflexivity.
    + replace (1 + k =? 1 + q) with false by lia. rewrite R by lia. replace (k <? q + 1) with (k <? q) by lia. reflexivity.
Qed.

(** The end of a line-pair is the start of the next. *)
Lemma line_next l r : line_ok l r QW -> line_ok l (r + 1) 0.
Proof.
  intros [E0 R0 E1 E3 R]. constructor; auto; intros k Hk; replace (k <? 0) with false by lia; replace (r + 1 - 1) with r by lia.
  - rewrite E1 by lia. destruct (k <? QW) eqn:E; [reflexivity|].
    destruct (p_out b (r - 1) k) as (_ & -> & _); [unfold QW in E; lia|].
    destruct (p_out b r k) as (_ & -> & _); [unfold QW in E; lia|]. reflexivity.
  - rewrite E3 by lia. destruct (k <? QW) eqn:E; [reflexivity|].
    destruct (p_out b (r - 1) k) as (_ & _ & ->); [unfold QW in E; lia|].
    destruct (p_out b r k) as (_ & _ & ->); [unfold QW in E; lia|]. reflexivity.
  - rewrite R by lia. destruct (k <? QW) eqn:E; [reflexivity|].
    destruct (p_out b (r - 1) k) as (-> & _ & _); [unfold QW in E; lia|].
    destruct (p_out b r k) as (-> & _ & _); [unfold QW in E; lia|]. reflexivity.
Qed.

Lemma max_E_ok l r q k : line_ok l r q -> 0 <= q <= k -> 2 * k + 3 < nE QW -> (q = k -> q = 0) ->
  max_E QW (li_E l) (2 * k) = Ret (EmaxP b (r - 1) k).
Proof.
  intros [E0 R0 E1 E3 R] Hk Hn Hz. unfold max_E, ld.
  replace ((0 <=? 2 * k) && (2 * k <? nE QW)) with true by lia. cbn [bind].
  replace ((0 <=? 2 * k + 1) && (2 * k + 1 <? nE QW)) with true by lia. cbn [bind].
  replace ((0 <=? 2 * k + 2) && (2 * k + 2 <? nE QW)) with true by lia. cbn [bind].
  replace ((0 <=? 2 * k + 3) && (2 * k + 3 <? nE QW)) with true by lia. cbn [bind].
  unfold EmaxP. do 2 f_equal.
  - destruct (Z.eq_dec k 0) as [->|Hk0].
    + change (2 * 0) with 0. rewrite E0. symmetry. apply p_out. lia.
    + replace (2 * k) with (2 + 2 * (k - 1)) by lia. rewrite E3 by lia.
      replace (k - 1 <? q) with false by lia. reflexivity.
  - rewrite Z.add_comm, E1 by lia. replace (k <? q) with false by lia. reflexivity.
  - rewrite Z.add_comm, E3 by lia. replace (k <? q) with false by lia. reflexivity.
  - replace (2 * k + 3) with (1 + 2 * (k + 1)) by lia. rewrite E1 by lia. replace (k + 1 <? q) with false by lia. reflexivity.
Qed.

Lemma ld_rho l r q k : line_ok l r q -> -1 <= k -> (q <= k \/ k = -1) -> 1 + k < nR QW ->
  ld (nR QW) (li_rho l) (1 + k) = Ret (pR b (r - 1) k).
Proof.
  intros [E0 R0 E1 E3 R] Hk Hq Hn. unfold ld. replace ((0 <=? 1 + k) && (1 + k <? nR QW)) with true by lia.
  f_equal. destruct (Z.eq_dec k (-1)) as [->|Hk0].
  - change (1 + -1) with 0. rewrite R0. symmetry. apply p_out. lia.
  - rewrite R by lia. replace (k <? q) with false by lia. reflexivity.
Qed.

Definition pairs (q : Z) : nat := Z.to_nat ((QW - q + 1) / 2).

Lemma pairs_S q n : q + 2 + 2 * Z.of_nat n = QW \/ q + 3 + 2 * Z.of_nat n = QW ->
  pairs q = S (pairs (q + 2)) /\ q + 1 < QW.
Proof.
  intros H. unfold pairs. split; [|lia].
  replace (QW - q + 1) with ((QW - (q + 2) + 1) + 1 * 2) by lia. rewrite Z.div_add by lia. lia.
Qed.

Lemma enc_row0_ok n : forall q l g, 0 <= q -> q + 2 * Z.of_nat n = QW \/ q + 1 + 2 * Z.of_nat n = QW ->
  (q + 1 + 2 * Z.of_nat n = QW -> QW mod 2 = 1) -> (q + 2 * Z.of_nat n = QW -> QW mod 2 = 0) ->
  line_ok l 0 q ->
  exists l', enc_row0 b QW n q (ctxP b 0 q) l g = Ret (l', log_app g (rowlog b QW 0 (pairs q) q)) /\ line_ok l' 0 QW.
Proof.
  pose proof QW_pos as HQ.
  assert (0 < QH) as HQH by (unfold QH, half_up; lia).
  induction n as [|n IH]; intros q l g Hq Hn Hodd Heven Hl.
  - cbn [enc_row0]. destruct Hn as [Hn|Hn].
    + rewrite Heven by assumption. cbn. exists l. split; [|now replace QW with q by lia].
      replace (pairs q) with 0%nat by (unfold pairs; replace (QW - q + 1) with 1 by lia; reflexivity).
      cbn [rowlog]. now rewrite log_app_nil_r.
    + rewrite Hodd by assumption. cbn [Z.eqb Pos.eqb].
      replace (QW - 1) with q by lia. rewrite load_quad_ok by (auto; fold QW QH; lia). cbn [bind].
      rewrite push_E_ok by lia. cbn [bind]. rewrite enc_last0_ok by lia. cbn [bind].
      rewrite push_rho_ok by lia. cbn [bind]. pose proof (line_push _ _ _ Hl Hq) as LP. replace (q + 1) with QW in LP by lia. eexists. split; [|exact LP].
      replace (pairs q) with 1%nat by (unfold pairs; replace (QW - q + 1) with 2 by lia; reflexivity).
      cbn [rowlog]. now rewrite log_app_nil_r.
  - cbn [enc_row0]. destruct (pairs_S q n ltac:(lia)) as [HP HP2].
    rewrite !load_quad_ok by (auto; fold QW QH; lia). cbn [bind].
    rewrite push_E_ok by lia. cbn [bind]. rewrite push_E_ok by lia. cbn [bind].
    rewrite enc_pair0_ok by lia. cbn [bind]. rewrite push_rho_ok by lia. cbn [bind]. rewrite push_rho_ok by lia. cbn [bind].
    pose proof (line_push _ _ _ Hl Hq) as L1. pose proof (line_push _ _ _ L1 ltac:(lia)) as L2. cbn [li_E li_rho] in L2.
    replace (q + 1 + 1) with (q + 2) in L2 by lia.
    edestruct (IH (q + 2)) as (l' & E & L'); [lia|lia|lia|lia|exact L2|].
    rewrite E. exists l'. split; [|assumption]. rewrite HP. cbn [rowlog]. now rewrite log_app_assoc.
Qed.

Lemma ctxP_N r q : 0 < r -> 256 * ctxP b r q =
  ctx_rowN (pR b r (q - 1)) (pR b (r - 1) (q - 1)) (pR b (r - 1) q) (pR b (r - 1) (q + 1)).
Proof. intros Hr. unfold ctxP. replace (r =? 0) with false by lia. now rewrite ctx_rowN_ok. Qed.

Lemma enc_rowN_ok r n : 0 < r < QH -> forall q l g, 0 <= q -> q + 2 * Z.of_nat n = QW \/ q + 1 + 2 * Z.of_nat n = QW ->
  (q + 1 + 2 * Z.of_nat n = QW -> QW mod 2 = 1) -> (q + 2 * Z.of_nat n = QW -> QW mod 2 = 0) ->
  line_ok l r q ->
  exists l', enc_rowN b QW r n q (256 * ctxP b r q) (EmaxP b (r - 1) q) (EmaxP b (r - 1) (q + 1)) l g
             = Ret (l', log_app g (rowlog b QW r (pairs q) q)) /\ line_ok l' r QW.
Proof.
  intros Hr. pose proof QW_pos as HQ.
  induction n as [|n IH]; intros q l g Hq Hn Hodd Heven Hl.
  - cbn [enc_rowN]. destruct Hn as [Hn|Hn].
    + rewrite Heven by assumption. cbn. exists l. split; [|now replace QW with q by lia].
      replace (pairs q) with 0%nat by (unfold pairs; replace (QW - q + 1) with 1 by lia; reflexivity).
      cbn [rowlog]. now rewrite log_app_nil_r.
    + rewrite Hodd by assumption. cbn [Z.eqb Pos.eqb].
      replace (QW - 1) with q by lia. rewrite load_quad_ok by (auto; fold QW QH; lia). cbn [bind].
      rewrite push_E_ok by lia. cbn [bind]. rewrite enc_lastN_ok by lia. cbn [bind].
      rewrite push_rho_ok by lia. cbn [bind]. pose proof (line_push _ _ _ Hl Hq) as LP. replace (q + 1) with QW in LP by lia. eexists. split; [|exact LP].
      replace (pairs q) with 1%nat by (unfold pairs; replace (QW - q + 1) with 2 by lia; reflexivity).
      cbn [rowlog]. now rewrite log_app_nil_r.
  - cbn [enc_rowN]. destruct (pairs_S q n ltac:(lia)) as [HP HP2].
    rewrite !load_quad_ok by (auto; fold QW QH; lia). cbn [bind].
    rewrite (ld_rho l r q q) by (auto; unfold nR; lia). cbn [bind].
    replace (2 + q) with (1 + (q + 1)) by lia. rewrite (ld_rho l r q (q + 1)) by (auto; unfold nR; lia). cbn [bind].
    replace (3 + q) with (1 + (q + 2)) by lia. rewrite (ld_rho l r q (q + 2)) by (auto; unfold nR; lia). cbn [bind].
    replace (ctx_rowN (q_rho (Qd b r q)) (pR b (r - 1) q) (pR b (r - 1) (q + 1)) (pR b (r - 1) (q + 2)))
      with (256 * ctxP b r (q + 1))
      by (rewrite ctxP_N by lia; replace (q + 1 - 1) with q by lia; replace (q + 1 + 1) with (q + 2) by lia; reflexivity).
    rewrite enc_pairN_ok by lia. cbn [bind].
    replace (4 + 2 * q) with (2 * (q + 2)) by lia. rewrite (max_E_ok l r q (q + 2)) by (auto; unfold nE; lia). cbn [bind].
    replace (6 + 2 * q) with (2 * (q + 2 + 1)) by lia. rewrite (max_E_ok l r q (q + 2 + 1)) by (auto; unfold nE; lia). cbn [bind].
    rewrite push_E_ok by lia. cbn [bind]. rewrite push_E_ok by lia. cbn [bind].
    replace (4 + q) with (1 + (q + 3)) by lia. rewrite (ld_rho l r q (q + 3)) by (auto; unfold nR; lia). cbn [bind].
    rewrite push_rho_ok by lia. cbn [bind]. rewrite push_rho_ok by lia. cbn [bind].
    replace (ctx_rowN (q_rho (Qd b r (q + 1))) (pR b (r - 1) (q + 1)) (pR b (r - 1) (q + 2)) (pR b (r - 1) (q + 3)))
      with (256 * ctxP b r (q + 2))
      by (rewrite ctxP_N by lia; replace (q + 2 - 1) with (q + 1) by lia; replace (q + 2 + 1) with (q + 3) by lia; reflexivity).
    pose proof (line_push _ _ _ Hl Hq) as L1. pose proof (line_push _ _ _ L1 ltac:(lia)) as L2. cbn [li_E li_rho] in L2.
    replace (q + 1 + 1) with (q + 2) in L2 by lia.
    edestruct (IH (q + 2)) as (l' & E & L'); [lia|lia|lia|lia|exact L2|].
    rewrite E. exists l'. split; [|assumption]. rewrite HP. cbn [rowlog]. now rewrite log_app_assoc.
Qed.

Lemma floor_pairs : let n := Z.to_nat (QW / 2) in
  (0 + 2 * Z.of_nat n = QW \/ 0 + 1 + 2 * Z.of_nat n = QW) /\
  (0 + 1 + 2 * Z.of_nat n = QW -> QW mod 2 = 1) /\ (0 + 2 * Z.of_nat n = QW -> QW mod 2 = 0).
Proof. pose proof QW_pos. cbv zeta. lia. Qed.

Lemma pairs_0 : pairs 0 = Z.to_nat (half_up QW).
Proof. unfold pairs, half_up. f_equal. f_equal. lia. Qed.

Lemma enc_rows_ok n : forall r l g, 0 < r -> r + Z.of_nat n = QH -> line_ok l r 0 ->
  enc_rows b QW n r l g = Ret (log_app g (rowslog b QW n r)).
Proof.
  pose proof QW_pos as HQ.
  induction n as [|n IH]; intros r l g Hr Hn Hl; cbn [enc_rows rowslog]; [now rewrite log_app_nil_r|].
  change 0 with (2 * 0) at 1. rewrite (max_E_ok l r 0 0) by (auto; unfold nE; lia). cbn [bind].
  change 2 with (2 * 1) at 1. rewrite (max_E_ok l r 0 1) by (auto; unfold nE; lia). cbn [bind].
  change 0 with (1 + -1) at 1. rewrite (ld_rho l r 0 (-1)) by (auto; unfold nR; lia). cbn [bind].
  change 1 with (1 + 0) at 1. rewrite (ld_rho l r 0 0) by (auto; unfold nR; lia). cbn [bind].
  change 2 with (1 + 1) at 1. rewrite (ld_rho l r 0 1) by (auto; unfold nR; lia). cbn [bind].
  replace (ctx_rowN 0 (pR b (r - 1) (-1)) (pR b (r - 1) 0) (pR b (r - 1) 1)) with (256 * ctxP b r 0).
  2:{ rewrite ctxP_N by lia. cbn [Z.sub Z.add Z.opp Z.pos_sub]. destruct (p_out b r (-1)) as (-> & _); [lia|reflexivity]. }
  destruct floor_pairs as (F1 & F2 & F3).
  destruct (enc_rowN_ok r (Z.to_nat (QW / 2)) ltac:(lia) 0 l g ltac:(lia) F1 F2 F3 Hl) as (l' & E & L').
  change (0 + 1) with 1 in E. rewrite E. cbn [bind].
  rewrite IH by (try lia; apply line_next; assumption). rewrite pairs_0. now rewrite log_app_assoc.
Qed.

(** Everything the encoder emits for the block. *)
Lemma enc_log_ok :
  (let* (l, g) := enc_row0 b QW (Z.to_nat (QW / 2)) 0 0 (Lines (fun _ => 0) (fun _ => 0)) no_log in
   enc_rows b QW (Z.to_nat (QH - 1)) 1 l g) = Ret (rowslog b QW (Z.to_nat QH) 0).
Proof.
  destruct floor_pairs as (F1 & F2 & F3).
  assert (line_ok (Lines (fun _ => 0) (fun _ => 0)) 0 0) as L0.
  { constructor; cbn [li_E li_rho]; auto; intros k Hk; replace (k <? 0) with false by lia; symmetry; apply p_out; lia. }
  destruct (enc_row0_ok (Z.to_nat (QW / 2)) 0 _ no_log ltac:(lia) F1 F2 F3 L0) as (l' & E & L').
  replace (ctxP b 0 0) with 0 in E.
  2:{ unfold ctxP. cbn [Z.eqb]. destruct (p_out b 0 (0 - 1)) as (-> & _); [lia|reflexivity]. }
  rewrite E. cbn [bind].
  assert (1 <= QH) by (unfold QH, half_up; lia).
  rewrite (enc_rows_ok (Z.to_nat (QH - 1)) 1) by (try lia; apply (line_next _ 0); assumption).
  rewrite log_app_nil_l, pairs_0. replace (Z.to_nat QH) with (S (Z.to_nat (QH - 1))) by lia. reflexivity.
Qed.
End Enc.

Theorem ht_encode_log b : in_range b -> 1 <= b_h b -> 1 <= b_w b -> any_sig b = true ->
  ht_encode b =
  let* data := finish (rowslog b (half_up (b_w b)) (Z.to_nat (half_up (b_h b))) 0) in
  Ret (Coded data (zlen data) [zlen data] 1 (Z.land (b_Mb b - 1) 255)).
Proof.
  intros Hin Hh Hw Ha. unfold ht_encode. rewrite Ha.
  pose proof (enc_log_ok b Hin Hh Hw) as H.
  destruct (enc_row0 _ _ _ _ _ _ _) as [[l g]| |]; cbn [bind] in *; try discriminate.
  rewrite H. reflexivity.
Qed.
