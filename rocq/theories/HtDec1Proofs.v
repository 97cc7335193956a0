(** Step 1 of the HT block decoder recovers what the encoder coded. *)
From Verif Require Import Base BaseLemmas HtTables HtBits HtReaders HtStreamModel HtReadProofs HtMelReadProofs
  HtBlockModel HtTableProofs HtQuadProofs HtEncProofs.
Require Import Lia.

Definition cbits (c : Z * Z) : list bool := bitsLE (Z.to_nat (snd c)) (fst c).
Definition vb (l : list (Z * Z)) : list bool := concat (map cbits l).

Lemma zlen_bits n v : 0 <= n -> zlen (bitsLE (Z.to_nat n) v) = n.
Proof. intros H. unfold zlen. rewrite bitsLE_length. lia. Qed.

(** ** Reading one codeword *)

Lemma rev_head s n c l : rev_inv s (bitsLE (Z.to_nat n) c ++ l) -> 0 <= n <= 32 -> n <= r_bits s ->
  0 <= c < 2 ^ n -> wrap32 (r_creg s) mod 2 ^ n = c.
Proof.
  intros H Hn Hb Hc. rewrite <- (Z.mod_small c (2 ^ n)) by lia.
  apply testbit_mod_eq; [lia|]. intros i Hi.
  rewrite (rev_window _ _ i H) by (rewrite ?zlen_app, ?zlen_bits by lia; pose proof (zlen_nonneg l); lia).
  rewrite znth_app_l by (rewrite zlen_bits; lia). unfold znth. rewrite bitsLE_nth by lia. f_equal. lia.
Qed.

Lemma rev_skip s n c l : rev_inv s (bitsLE (Z.to_nat n) c ++ l) -> 0 <= n <= r_bits s ->
  exists s', rev_advance s n = Some (wrap32 (r_creg s'), s') /\ rev_inv s' l /\ r_bits s' = r_bits s - n.
Proof.
  intros H Hn. destruct (rev_advance_inv s _ n H Hn) as (s' & E & H' & B).
  exists s'. rewrite zskip_app in H' by (rewrite zlen_bits; lia). auto.
Qed.

(** ** Table entries *)

Lemma ent_bit t k rho i : ent t k rho -> 0 <= i < 4 -> Z.testbit t (4 + i) = Z.testbit rho i.
Proof.
  intros (_ & _ & _ & H & _) Hi. rewrite <- H, Z.land_spec, Z.shiftr_spec by lia.
  change 15 with (Z.ones 4). rewrite Z.ones_spec_low by lia. rewrite andb_true_r. f_equal. lia.
Qed.

Definition bit4 (a b c d : bool) : Z := Z.b2z a + 2 * Z.b2z b + 4 * Z.b2z c + 8 * Z.b2z d.
Lemma ctx_row0_bits r : 0 <= r < 16 ->
  ctx_row0 r = Z.lor (bit4 (Z.testbit r 1) (Z.testbit r 2) (Z.testbit r 3) false) (Z.b2z (Z.testbit r 0)).
Proof.
  intros H. pose proof (forallb16 (fun r => ctx_row0 r =? Z.lor (bit4 (Z.testbit r 1) (Z.testbit r 2) (Z.testbit r 3) false)
    (Z.b2z (Z.testbit r 0))) ltac:(vm_compute; reflexivity) r H) as E. cbv beta in E. lia.
Qed.

Lemma dctx_row0_bits t : dctx_row0 t =
  128 * Z.lor (bit4 (Z.testbit t 5) (Z.testbit t 6) (Z.testbit t 7) false) (Z.b2z (Z.testbit t 4)).
Proof.
  unfold dctx_row0. change 224 with (Z.lor (2 ^ 5) (Z.lor (2 ^ 6) (2 ^ 7))). change 16 with (2 ^ 4).
  rewrite !Z.land_lor_distr_r, !land_bit by lia.
  destruct (Z.testbit t 4), (Z.testbit t 5), (Z.testbit t 6), (Z.testbit t 7); reflexivity.
Qed.

Lemma dctx_row0_ok t k rho : ent t k rho -> 0 <= rho < 16 -> dctx_row0 t = 128 * ctx_row0 rho.
Proof.
  intros H Hr. rewrite dctx_row0_bits, ctx_row0_bits by assumption.
  change 4 with (4 + 0) at 1. change 5 with (4 + 1). change 6 with (4 + 2). change 7 with (4 + 3).
  rewrite !(ent_bit t k rho) by (auto; lia). reflexivity.
Qed.

Lemma dctx_row0_range t : 0 <= dctx_row0 t <= 896.
Proof.
  rewrite dctx_row0_bits. destruct (Z.testbit t 4), (Z.testbit t 5), (Z.testbit t 6), (Z.testbit t 7); cbn; lia.
Qed.

Definition dN (t p0 p2 p4 : Z) : Z :=
  Z.b2z (Z.testbit p0 7 || Z.testbit p2 5) + 2 * Z.b2z (Z.testbit t 6 || Z.testbit t 7)
  + 4 * Z.b2z (Z.testbit p2 7 || Z.testbit p4 5).
Lemma dctx_rowN_bits t p0 p2 p4 : dctx_rowN t p0 p2 p4 = 128 * dN t p0 p2 p4.
Proof.
  unfold dctx_rowN, dN. change 160 with (Z.lor (2 ^ 7) (2 ^ 5)). change 64 with (2 ^ 6).
  change (Z.land t 128) with (Z.land t (2 ^ 7)). change (Z.land p0 128) with (Z.land p0 (2 ^ 7)). change 32 with (2 ^ 5).
  rewrite !Z.land_lor_distr_r, !land_bit by lia.
  destruct (Z.testbit t 6), (Z.testbit t 7), (Z.testbit p0 7), (Z.testbit p2 7), (Z.testbit p2 5), (Z.testbit p4 5); reflexivity.
Qed.
Lemma dN_range t p0 p2 p4 : 0 <= dN t p0 p2 p4 < 8.
Proof.
  unfold dN. destruct (Z.testbit p0 7 || Z.testbit p2 5), (Z.testbit t 6 || Z.testbit t 7), (Z.testbit p2 7 || Z.testbit p4 5); cbn; lia.
Qed.

(** [e] carries the significance pattern [rho]. *)
Definition carries (e rho : Z) : Prop := forall i, 0 <= i < 4 -> Z.testbit e (4 + i) = Z.testbit rho i.
Lemma ent_carries t k rho : ent t k rho -> carries t rho.
Proof. intros H i Hi. apply (ent_bit t k rho); assumption. Qed.
Lemma carries_0 : carries 0 0.
Proof. intros i Hi. now rewrite !Z.bits_0. Qed.

Lemma dN_ok t p0 p2 p4 w nw n ne : carries t w -> carries p0 nw -> carries p2 n -> carries p4 ne ->
  dN t p0 p2 p4 = cN w nw n ne.
Proof.
  intros H1 H2 H3 H4. unfold dN, cN.
  change 5 with (4 + 1). change 6 with (4 + 2). change 7 with (4 + 3).
  rewrite !H1, !H2, !H3, !H4 by lia. reflexivity.
Qed.

(** ** MEL *)

Definition mok (run : Z) (m : meldec) (evs : list bool) : Prop := 0 <= run /\ mel_yields run m evs.

Lemma mel_get_run_nonneg m : 0 <= fst (mel_get_run m).
Proof. unfold mel_get_run. cbn [fst]. apply Z.land_nonneg. right. lia. Qed.

Lemma mel_cond_off run m evs : mok run m evs -> mel_cond false run m = (true, (run, m)).
Proof. intros [H _]. unfold mel_cond. replace (run <? 0) with false by lia. now rewrite orb_true_r. Qed.

Lemma mel_cond_on run m e evs : mok run m (e :: evs) ->
  exists run' m', mel_cond true run m = (e, (run', m')) /\ mok run' m' evs.
Proof.
  intros [H Y]. cbn [mel_yields] in Y. unfold mel_cond. change (negb true) with false. rewrite orb_false_r.
  unfold mel_event in Y. destruct (run - 2 <? 0) eqn:E.
  - pose proof (mel_get_run_nonneg m) as N. destruct (mel_get_run m) as [run' m'].
    destruct Y as [<- Y]. exists run', m'. split; [reflexivity|]. split; [exact N|assumption].
  - destruct Y as [<- Y]. exists (run - 2), m. split; [reflexivity|]. split; [lia|assumption].
Qed.

(** ** One quad *)

Lemma rho0_u q kappa f c : qwf q -> 1 <= kappa -> q_rho q = 0 -> k_u (pcode f c kappa q) = 0.
Proof.
  intros Hq Hk Hr. unfold pcode. cbn [k_u]. destruct (emax_spec q Hq) as (M1 & M2 & i & Hi & M3).
  destruct (rho_spec q Hq) as [_ B]. specialize (B i Hi). rewrite Hr, Z.bits_0 in B.
  assert (~ 0 < q_emax q); [|lia]. intros P. rewrite <- M3 in P.
  apply expo_bound in P; [|apply qs_wf; assumption]. lia.
Qed.

Lemma ent_zero k q kappa : code_ok k q kappa -> q_rho q = 0 -> k_lw k = 0 -> k_u k = 0 -> ent 0 k 0.
Proof.
  intros C Hr Hl Hu. pose proof (co_zero _ _ _ C Hu) as E. pose proof (co_emb1 _ _ _ C) as E1.
  unfold ent, off. rewrite Hl, Hu, E, E1, E, Z.land_0_r. cbn. lia.
Qed.

Lemma cxt_read_ok f c kappa q r run m l le :
  qwf q -> 1 <= kappa -> 0 <= c < 8 ->
  let k := pcode f c kappa q in
  rev_inv r (cbits (k_cwd k, k_lw k) ++ l) -> 7 <= r_bits r ->
  mok run m (mel_if c (q_rho q) ++ le) ->
  exists t r' run' m',
    cxt_read (dtab f) true (wrap32 (r_creg r)) (128 * c) r run m = ret (t, wrap32 (r_creg r'), r', (run', m')) /\
    ent t k (q_rho q) /\ rev_inv r' l /\ r_bits r' = r_bits r - k_lw k /\ mok run' m' le.
Proof.
  intros Hq Hk Hc k Hr Hb Hm. destruct (pcode_ok f c kappa q Hq Hk Hc) as [C T]. fold k in C, T.
  pose proof (rho0_u q kappa f c Hq Hk) as U0. fold k in U0. clearbody k.
  pose proof (co_lw _ _ _ C) as Hlw. unfold cbits in Hr. cbn [fst snd] in Hr.
  unfold cxt_read.
  assert (0 <= Z.land (wrap32 (r_creg r)) 127 < 128) as Hw by (rewrite land_127; apply Z.mod_pos_bound; lia).
  rewrite rd_in by (rewrite dtab_len; lia).
  pose proof (rev_head _ _ _ _ Hr ltac:(lia) ltac:(lia) (co_cwd _ _ _ C)) as Hd.
  destruct (rev_skip _ _ _ _ Hr ltac:(lia)) as (r' & E & Hr' & Hb').
  replace (128 * c =? 0) with (c =? 0) by lia. rewrite andb_true_r.
  assert (forall t run' m', ent t k (q_rho q) -> mok run' m' le ->
    exists t0 r'0 run'0 m'0,
    match rev_advance r (Z.shiftr (Z.land t 15) 1) with
    | Some (v, r'') => ret (t, v, r'', (run', m'))
    | None => throw
    end = ret (t0, wrap32 (r_creg r'0), r'0, (run'0, m'0)) /\
    ent t0 k (q_rho q) /\ rev_inv r'0 l /\ r_bits r'0 = r_bits r - k_lw k /\ mok run'0 m'0 le) as Fin.
  { intros t run' m' He Hm'. pose proof He as (_ & E1 & _). rewrite E1, E.
    exists t, r', run', m'. auto. }
  unfold mel_if in Hm. destruct (c =? 0) eqn:Ec.
  - cbn [app] in Hm. apply mel_cond_on in Hm as (run' & m' & -> & Hm').
    destruct (q_rho q =? 0) eqn:Er.
    + cbn [negb]. cbn [andb] in T. apply Fin; [|assumption].
      rewrite (proj1 (Z.eqb_eq _ _) Er) in *. apply (ent_zero k q kappa); auto. lia.
    + cbn [negb]. cbn [andb] in T. apply Fin; [|assumption]. apply T; [|assumption].
      apply wrap32_range.
  - cbn [app andb] in Hm, T. rewrite (mel_cond_off _ _ _ Hm). apply Fin; [|assumption].
    apply T; [|assumption]. apply wrap32_range.
Qed.

(** A quad that does not exist. *)
Lemma cxt_read_off f ctx r run m l le : 0 <= ctx <= 896 -> rev_inv r l -> mok run m le ->
  exists r', cxt_read (dtab f) false (wrap32 (r_creg r)) ctx r run m = ret (0, wrap32 (r_creg r'), r', (run, m)) /\
             rev_inv r' l /\ r_bits r' = r_bits r.
Proof.
  intros Hc Hr Hm. unfold cxt_read.
  assert (0 <= Z.land (wrap32 (r_creg r)) 127 < 128) as Hw by (rewrite land_127; apply Z.mod_pos_bound; lia).
  rewrite rd_in by (rewrite dtab_len; lia). rewrite andb_false_r, (mel_cond_off _ _ _ Hm).
  change (Z.shiftr (Z.land 0 15) 1) with 0. pose proof (inv_b _ _ _ _ _ _ _ _ (proj1 Hr)).
  destruct (rev_advance_inv r l 0 Hr ltac:(lia)) as (r' & -> & H1 & H2). exists r'. rewrite zskip_0 in H1.
  split; [reflexivity|]. split; [assumption|lia].
Qed.

(** ** The u-values *)

Lemma dutab_idx f w o0 o1 mo : 0 <= w < 64 -> o0 = 0 \/ o0 = 1 -> o1 = 0 \/ o1 = 1 -> mo = 0 \/ (f = true /\ mo = 64) ->
  0 <= w + 64 * o0 + 128 * o1 + mo < zlen (dutab f).
Proof.
  intros. destruct f; [change (zlen (dutab true)) with 320|change (zlen (dutab false)) with 256]; lia.
Qed.

Lemma off_01 u : off u = 0 \/ off u = 1. Proof. unfold off. destruct (u =? 0); auto. Qed.

Lemma uvlc_read_ok f u0 u1 base r l : 0 <= u0 < 32 -> 0 <= u1 < 32 -> 0 <= base <= 1 ->
  rev_inv r (cbits (uvP f u0 u1) ++ l) -> 18 <= r_bits r ->
  exists r', uvlc_read (dutab f) (Z.land (wrap32 (r_creg r)) 63 + Z.shiftl (off u0) 6 + Z.shiftl (off u1) 7 + du_mo f u0 u1)
               base (wrap32 (r_creg r)) r = ret (base + u0, base + u1, r') /\ rev_inv r' l.
Proof.
  intros H0 H1 Hba Hr Hb. destruct (uvlc_ok f u0 u1 H0 H1) as (_ & Hc & Hl & T). cbv zeta in Hc, Hl, T.
  unfold cbits, uvP in Hr. cbn [fst snd] in Hr.
  set (len := Z.land (euw f u0 u1) 255) in *. set (cwd := Z.shiftr (euw f u0 u1) 8) in *. clearbody len cwd.
  pose proof (rev_head _ _ _ _ Hr ltac:(lia) ltac:(lia) Hc) as Hd.
  specialize (T (wrap32 (r_creg r)) (proj1 (wrap32_range _)) Hd).
  unfold uvlc_read.
  replace (Z.shiftl (off u0) 6) with (64 * off u0) by (rewrite Z.shiftl_mul_pow2 by lia; change (2 ^ 6) with 64; lia).
  replace (Z.shiftl (off u1) 7) with (128 * off u1) by (rewrite Z.shiftl_mul_pow2 by lia; change (2 ^ 7) with 128; lia).
  rewrite rd_in.
  2:{ apply dutab_idx; auto using off_01.
      - change 63 with (2 ^ 6 - 1). rewrite land_ones_mod by lia. apply Z.mod_pos_bound. lia.
      - unfold du_mo. destruct f; cbn [andb]; [destruct (2 <? Z.min u0 u1)|]; auto. }
  set (e := znth 0 (dutab f) _) in *.
  assert (0 <= du_pl e < 8) as P1 by (unfold du_pl; rewrite land_7; apply Z.mod_pos_bound; lia).
  assert (0 <= du_sl e < 16) as P2 by (unfold du_sl; rewrite land_15; apply Z.mod_pos_bound; lia).
  destruct T as (T1 & T2 & T3). clearbody e.
  change (Z.land e 7) with (du_pl e). change (Z.land (Z.shiftr e 3) 15) with (du_sl e).
  assert (Z.shiftr (Z.shiftr e 3) 4 = Z.shiftr e 7) as -> by (apply Z.shiftr_shiftr; lia).
  assert (Z.shiftr (Z.shiftr e 7) 3 = Z.shiftr e 10) as -> by (apply Z.shiftr_shiftr; lia).
  assert (Z.shiftr (Z.shiftr e 10) 3 = du_p1 e) as -> by (apply Z.shiftr_shiftr; lia).
  change (Z.land (Z.shiftr e 7) 7) with (du_ql e). change (Z.land (Z.shiftr e 10) 7) with (du_p0 e).
  destruct (rev_advance_inv r _ (du_pl e) Hr ltac:(lia)) as (r1 & -> & Hr1 & Hb1).
  destruct (rev_advance_inv r1 _ (du_sl e) Hr1 ltac:(lia)) as (r2 & -> & Hr2 & Hb2).
  rewrite zskip_zskip in Hr2 by lia. rewrite zskip_app in Hr2 by (rewrite zlen_bits; lia).
  exists r2. split; [|assumption].
  assert (Z.land (wrap32 (r_creg r1)) (Z.shiftl 1 (du_sl e) - 1) = Z.shiftr (wrap32 (r_creg r)) (du_pl e) mod 2 ^ du_sl e) as ->.
  { rewrite Z.shiftl_1_l, land_ones_mod by lia. apply testbit_mod_eq; [lia|]. intros i Hi.
    rewrite Z.shiftr_spec by lia.
    assert (zlen (zskip (du_pl e) (bitsLE (Z.to_nat len) cwd ++ l)) = len - du_pl e + zlen l) as Lz.
    { rewrite zlen_zskip; rewrite zlen_app, zlen_bits by lia; pose proof (zlen_nonneg l); lia. }
    pose proof (zlen_nonneg l).
    rewrite (rev_window _ _ i Hr1) by lia. rewrite znth_zskip by lia.
    rewrite (rev_window _ _ (i + du_pl e) Hr) by (rewrite ?zlen_app, ?zlen_bits by lia; lia).
    f_equal. lia. }
  set (tmp := Z.shiftr (wrap32 (r_creg r)) (du_pl e) mod 2 ^ du_sl e) in *.
  replace (base + du_p0 e + Z.land tmp (wrap32 (Z.lnot (Z.shiftl 255 (du_ql e))))) with (base + u0) by lia.
  replace (base + du_p1 e + Z.shiftr tmp (du_ql e)) with (base + u1) by lia.
  change 65535 with (2 ^ 16 - 1). rewrite !land_ones_mod by lia. change (2 ^ 16) with 65536.
  rewrite !Z.mod_small by (clear - H0 H1 Hba; lia). reflexivity.
Qed.

(** ** A pair of quads *)

Definition upf (a : uarr) (i v : Z) : uarr := fun j => if j =? i then Some v else a j.
Lemma ust_ok s i v : 0 <= i < nS -> ust nS s i v = Ret (upf s i v).
Proof. intros H. unfold ust. replace ((0 <=? i) && (i <? nS)) with true by lia. reflexivity. Qed.
Lemma uld_ok s i v : 0 <= i < nS -> s i = Some v -> uld nS s i = Ret v.
Proof. intros H E. unfold uld. replace ((0 <=? i) && (i <? nS)) with true by lia. now rewrite E. Qed.
Lemma upf_same s i v : upf s i v i = Some v.
Proof. unfold upf. now rewrite Z.eqb_refl. Qed.
Lemma upf_other s i v j : j <> i -> upf s i v j = s j.
Proof. intros H. unfold upf. now replace (j =? i) with false by lia. Qed.

Definition wr4 (s : uarr) (sp t0 u0 t1 u1 : Z) : uarr :=
  upf (upf (upf (upf s sp t0) (sp + 2) t1) (sp + 1) u0) (sp + 3) u1.

Lemma wr4_spec s sp t0 u0 t1 u1 :
  wr4 s sp t0 u0 t1 u1 sp = Some t0 /\ wr4 s sp t0 u0 t1 u1 (sp + 1) = Some u0 /\
  wr4 s sp t0 u0 t1 u1 (sp + 2) = Some t1 /\ wr4 s sp t0 u0 t1 u1 (sp + 3) = Some u1 /\
  (forall i, i < sp \/ sp + 3 < i -> wr4 s sp t0 u0 t1 u1 i = s i).
Proof.
  unfold wr4. repeat apply conj; intros; rewrite ?upf_other by lia; try apply upf_same.
  reflexivity.
Qed.

Definition lane_ok (l : lane) (lv le : list _) : Prop :=
  rev_inv (ln_vlc l) lv /\ mok (ln_run l) (ln_mel l) le.

Lemma vb_app a b : vb (a ++ b) = vb a ++ vb b.
Proof. unfold vb. now rewrite map_app, concat_app. Qed.
Lemma vb_cons c l : vb (c :: l) = cbits c ++ vb l. Proof. reflexivity. Qed.

Lemma bindx_ret {A B} (a : A) (f : A -> ex B) : bindx (ret a) f = f a. Proof. reflexivity. Qed.
Lemma lift_ret {A} (a : A) : lift (Ret a) = ret a. Proof. reflexivity. Qed.
Ltac bx := rewrite ?lift_ret, bindx_ret; cbv beta iota zeta.

Section Dec.
Variable b : block.
Hypothesis Hin : in_range b.
Hypothesis Hh : 1 <= b_h b.
Hypothesis Hw : 1 <= b_w b.
Let QW := half_up (b_w b).
Let QH := half_up (b_h b).
Let P := half_up QW.
Variable sstr : Z.
Hypothesis Hs8 : 8 <= sstr.
Hypothesis Hs : 2 * QW < sstr.
Hypothesis Hfit : (QH - 1) * sstr + 4 * P + 3 < nS.

Lemma QWp : 1 <= QW. Proof. unfold QW, half_up. lia. Qed.
Lemma QHp : 1 <= QH. Proof. unfold QH, half_up. lia. Qed.

Lemma code_lw r q : 0 <= k_lw (codeP b r q) <= 7.
Proof.
  destruct (pcode_ok (r =? 0) (ctxP b r q) (kapP b r q) (Qd b r q)) as [C _].
  - now apply Qd_wf. - now apply kapP_range. - now apply ctxP_range. - apply (co_lw _ _ _ C).
Qed.

Lemma rho0_uP r q : pR b r q = 0 -> k_u (codeP b r q) = 0.
Proof. intros H. apply rho0_u; [now apply Qd_wf|now apply kapP_range|exact H]. Qed.

Lemma ctx_row0_zero rho : 0 <= rho < 16 -> ctx_row0 rho = 0 -> rho = 0.
Proof.
  intros H E. pose proof (forallb16 (fun r => negb (ctx_row0 r =? 0) || (r =? 0)) ltac:(vm_compute; reflexivity) rho H) as K.
  cbv beta in K. lia.
Qed.

(** In the first line-pair the second event list splits like the decoder
    reads it. *)
Lemma melP_row0 q : melP b 0 q =
  mel_if (ctxP b 0 q) (pR b 0 q) ++ mel_if (ctxP b 0 (q + 1)) (pR b 0 (q + 1)) ++
  (if negb (k_u (codeP b 0 q) =? 0) && negb (k_u (codeP b 0 (q + 1)) =? 0)
   then [2 <? Z.min (k_u (codeP b 0 q)) (k_u (codeP b 0 (q + 1)))] else []).
Proof.
  unfold melP. change (0 =? 0) with true. cbv zeta iota. f_equal.
  set (u0 := k_u (codeP b 0 q)). set (u1 := k_u (codeP b 0 (q + 1))).
  replace (if u0 <? u1 then u0 else u1) with (Z.min u0 u1) by (destruct (u0 <? u1) eqn:?; lia).
  destruct (ctxP b 0 (q + 1) =? 0) eqn:E.
  - assert (u0 = 0) as Z0.
    { apply rho0_uP. unfold ctxP in E. change (0 =? 0) with true in E. cbv iota in E.
      replace (q + 1 - 1) with q in E by lia. apply ctx_row0_zero; [now apply pR_range|lia]. }
    rewrite Z0. cbn [Z.eqb negb andb]. rewrite app_nil_r. unfold mel_if. rewrite E.
    destruct (pR b 0 (q + 1) =? 0); cbn [negb]; [|reflexivity].
    assert (0 <= u1) by (apply u_range; assumption). replace (2 <? Z.min 0 u1) with false by lia. reflexivity.
  - unfold mel_if. rewrite E. reflexivity.
Qed.

Definition base (r : Z) : Z := if r =? 0 then 1 else 0.

Definition pair_spec (res : ex (Z * lane)) (r q sp : Z) (s : uarr) (lv le : list bool) : Prop :=
  exists ctx' l' t0 t1 u1, res = ret (ctx', l') /\ lane_ok l' lv le /\
    ln_s l' = wr4 s sp t0 (base r + k_u (codeP b r q)) t1 u1 /\
    ent t0 (codeP b r q) (pR b r q) /\ 0 <= ctx' <= 896 /\
    (q + 1 < QW -> ent t1 (codeP b r (q + 1)) (pR b r (q + 1)) /\ u1 = base r + k_u (codeP b r (q + 1)) /\
       (q + 2 < QW -> ctx' = 128 * ctxP b r (q + 2))) /\
    (q + 1 = QW -> t1 = 0).

Lemma cxt_readP r q v run m l le ctx : rev_inv v (cbits (k_cwd (codeP b r q), k_lw (codeP b r q)) ++ l) ->
  7 <= r_bits v -> mok run m (mel_if (ctxP b r q) (pR b r q) ++ le) -> ctx = 128 * ctxP b r q ->
  exists t v' run' m',
    cxt_read (dtab (r =? 0)) true (wrap32 (r_creg v)) ctx v run m = ret (t, wrap32 (r_creg v'), v', (run', m')) /\
    ent t (codeP b r q) (pR b r q) /\ rev_inv v' l /\ r_bits v' = r_bits v - k_lw (codeP b r q) /\ mok run' m' le.
Proof.
  intros H1 H2 H3 ->. apply cxt_read_ok; auto; [now apply Qd_wf|now apply kapP_range|now apply ctxP_range].
Qed.

Lemma off_0 u : 0 <= u -> (off u = 1 <-> u <> 0). Proof. unfold off. destruct (u =? 0) eqn:?; lia. Qed.

Lemma dec_pair0_ok q sp l lv le : 0 <= q < QW -> 0 <= sp -> sp + 3 < nS ->
  lane_ok l (vb (g_vlc (plog b QW 0 q)) ++ lv) (g_mel (plog b QW 0 q) ++ le) ->
  pair_spec (dec_pair0 (1 <? QW - q) sp (128 * ctxP b 0 q) l) 0 q sp (ln_s l) lv le.
Proof.
  intros Hq Hsp Hsp3 [Hv Hm]. unfold dec_pair0.
  pose proof (rev_fetch_inv _ _ Hv) as F. destruct (rev_fetch (ln_vlc l)) as [v0 r0].
  destruct F as (Hv0 & Hb0 & ->). clear Hv.
  pose proof (code_lw 0 q) as W0. pose proof (code_lw 0 (q + 1)) as W1.
  pose proof (u_range b Hin 0 q) as U0. pose proof (u_range b Hin 0 (q + 1)) as U1.
  pose proof (pR_range b Hin 0 q) as R0. pose proof (pR_range b Hin 0 (q + 1)) as R1.
  unfold plog in Hv0, Hm. change (0 =? 0) with true in Hv0, Hm. cbv zeta in Hv0, Hm.
  change dec_CxtVLC_table0_fast_16 with (dtab (0 =? 0)). change uvlc_dec_0 with (dutab true).
  replace (1 <? QW - q) with (q + 1 <? QW) by lia.
  destruct (q + 1 <? QW) eqn:On; cbn [g_mel g_vlc] in Hv0, Hm.
  - rewrite melP_row0 in Hm. rewrite !vb_cons, <- !app_assoc in Hv0. rewrite <- !app_assoc in Hm.
    destruct (cxt_readP 0 q _ _ _ _ _ _ Hv0 ltac:(lia) Hm eq_refl) as (t0 & r1 & run1 & m1 & -> & E0 & Hv1 & Hb1 & Hm1).
    bx. rewrite ust_ok by lia. bx.
    assert (dctx_row0 t0 = 128 * ctxP b 0 (q + 1)) as Ec.
    { rewrite (dctx_row0_ok _ _ _ E0 R0). unfold ctxP. change (0 =? 0) with true. cbv iota. do 3 f_equal. lia. }
    destruct (cxt_readP 0 (q + 1) _ _ _ _ _ _ Hv1 ltac:(lia) Hm1 Ec) as (t1 & r2 & run2 & m2 & -> & E1 & Hv2 & Hb2 & Hm2).
    bx. rewrite ust_ok by lia. bx.
    pose proof E0 as (_ & _ & O0 & _). pose proof E1 as (_ & _ & O1 & _). rewrite O0, O1.
    set (u0 := k_u (codeP b 0 q)) in *. set (u1 := k_u (codeP b 0 (q + 1))) in *.
    assert ((Z.land (off u0) (off u1) =? 1) = negb (u0 =? 0) && negb (u1 =? 0)) as ->.
    { unfold off. destruct (u0 =? 0), (u1 =? 0); reflexivity. }
    assert (exists run3 m3, mel_cond (negb (u0 =? 0) && negb (u1 =? 0)) run2 m2 =
       (if negb (u0 =? 0) && negb (u1 =? 0) then (2 <? Z.min u0 u1) else true, (run3, m3)) /\ mok run3 m3 le)
      as (run3 & m3 & -> & Hm3).
    { destruct (negb (u0 =? 0) && negb (u1 =? 0)).
      - apply mel_cond_on. exact Hm2.
      - exists run2, m2. split; [|exact Hm2]. eapply mel_cond_off. exact Hm2. }
    replace (if (if negb (u0 =? 0) && negb (u1 =? 0) then 2 <? Z.min u0 u1 else true) && (negb (u0 =? 0) && negb (u1 =? 0))
       then 64 else 0) with (du_mo true u0 u1).
    2:{ unfold du_mo. cbn [andb]. destruct (u0 =? 0) eqn:?, (u1 =? 0) eqn:?; cbn [negb andb]; rewrite ?andb_true_r; try reflexivity;
        replace (2 <? Z.min u0 u1) with false by lia; reflexivity. }
    change (vb []) with (@nil bool) in Hv2. cbn [app] in Hv2.
    destruct (uvlc_read_ok true u0 u1 1 r2 lv U0 U1 ltac:(lia) Hv2 ltac:(lia)) as (r3 & -> & Hv3).
    bx. rewrite ust_ok by lia. bx. rewrite ust_ok by lia. bx.
    eexists _, _, t0, t1, (1 + u1). split; [reflexivity|]. split; [split; assumption|].
    split; [reflexivity|]. split; [exact E0|]. split; [apply dctx_row0_range|]. split; [|lia].
    intros _. split; [exact E1|]. split; [reflexivity|]. intros _.
    rewrite (dctx_row0_ok _ _ _ E1 R1). unfold ctxP. change (0 =? 0) with true. cbv iota. do 3 f_equal. lia.
  - rewrite !vb_cons, <- !app_assoc in Hv0.
    destruct (cxt_readP 0 q _ _ _ _ _ _ Hv0 ltac:(lia) Hm eq_refl) as (t0 & r1 & run1 & m1 & -> & E0 & Hv1 & Hb1 & Hm1).
    bx. rewrite ust_ok by lia. bx.
    destruct (cxt_read_off (0 =? 0) _ _ _ _ _ _ (dctx_row0_range t0) Hv1 Hm1) as (r2 & -> & Hv2 & Hb2).
    bx. rewrite ust_ok by lia. bx.
    pose proof E0 as (_ & _ & O0 & _). rewrite O0. change (Z.land 0 1) with 0. rewrite Z.land_0_r.
    change (0 =? 1) with false. rewrite (mel_cond_off _ _ _ Hm1). cbn [andb].
    set (u0 := k_u (codeP b 0 q)) in *. change (vb []) with (@nil bool) in Hv2. cbn [app] in Hv2.
    destruct (uvlc_read_ok true u0 0 1 r2 lv U0 ltac:(lia) ltac:(lia) Hv2 ltac:(lia)) as (r3 & X & Hv3).
    replace (du_mo true u0 0) with 0 in X by (unfold du_mo; cbn [andb]; replace (2 <? Z.min u0 0) with false by lia; reflexivity).
    change (off 0) with 0 in X. rewrite X. clear X.
    bx. rewrite ust_ok by lia. bx. rewrite ust_ok by lia. bx.
    eexists _, _, t0, 0, (1 + 0). split; [reflexivity|]. split; [split; assumption|].
    split; [reflexivity|]. split; [exact E0|]. split; [apply dctx_row0_range|]. split; [lia|]. intros _. reflexivity.
Qed.

Lemma lift_uld s i v : s i = Some v -> 0 <= i < nS -> lift (uld nS s i) = ret v.
Proof. intros E H. rewrite (uld_ok s i v) by assumption. reflexivity. Qed.

Lemma ctxP_rN r q : 0 < r -> ctxP b r q =
  cN (pR b r (q - 1)) (pR b (r - 1) (q - 1)) (pR b (r - 1) q) (pR b (r - 1) (q + 1)).
Proof. intros H. unfold ctxP. now replace (r =? 0) with false by lia. Qed.

Lemma dec_pairN_ok r q sp l lv le p0 p2 p4 p6 : 0 < r -> 0 <= q < QW -> sstr <= sp -> sp + 3 < nS ->
  ln_s l (sp - sstr) = Some p0 -> ln_s l (sp + 2 - sstr) = Some p2 ->
  ln_s l (sp + 4 - sstr) = Some p4 -> ln_s l (sp + 6 - sstr) = Some p6 ->
  (q + 1 < QW -> carries p0 (pR b (r - 1) q) /\ carries p2 (pR b (r - 1) (q + 1)) /\ carries p4 (pR b (r - 1) (q + 2))) ->
  (q + 2 < QW -> carries p6 (pR b (r - 1) (q + 3))) ->
  lane_ok l (vb (g_vlc (plog b QW r q)) ++ lv) (g_mel (plog b QW r q) ++ le) ->
  pair_spec (dec_pairN (1 <? QW - q) sstr sp (128 * ctxP b r q) l) r q sp (ln_s l) lv le.
Proof.
  intros Hr Hq Hsp Hsp3 S0 S2 S4 S6 C024 C6 [Hv Hm]. unfold dec_pairN.
  pose proof (rev_fetch_inv _ _ Hv) as F. destruct (rev_fetch (ln_vlc l)) as [v0 r0].
  destruct F as (Hv0 & Hb0 & ->). clear Hv.
  pose proof (code_lw r q) as W0. pose proof (code_lw r (q + 1)) as W1.
  pose proof (u_range b Hin r q) as U0. pose proof (u_range b Hin r (q + 1)) as U1.
  assert ((r =? 0) = false) as Er by lia.
  unfold plog in Hv0, Hm. cbv zeta in Hv0, Hm.
  assert (nS = 4104) as NS by reflexivity.
  change dec_CxtVLC_table1_fast_16 with (dtab false). change uvlc_dec_1 with (dutab false). rewrite <- Er.
  replace (1 <? QW - q) with (q + 1 <? QW) by lia.
  assert (forall t, upf (ln_s l) sp t (sp + 2 - sstr) = Some p2) as S2' by (intros; rewrite upf_other by lia; exact S2).
  assert (forall t, upf (ln_s l) sp t (sp + 4 - sstr) = Some p4) as S4' by (intros; rewrite upf_other by lia; exact S4).
  assert (forall t, upf (ln_s l) sp t (sp + 6 - sstr) = Some p6) as S6' by (intros; rewrite upf_other by lia; exact S6).
  destruct (q + 1 <? QW) eqn:On; cbn [g_mel g_vlc] in Hv0, Hm.
  - destruct (C024 ltac:(lia)) as (K0 & K2 & K4). unfold melP in Hm. rewrite Er in Hm. rewrite !vb_cons, <- !app_assoc in Hv0. rewrite <- !app_assoc in Hm.
    destruct (cxt_readP r q _ _ _ _ _ _ Hv0 ltac:(lia) Hm eq_refl) as (t0 & r1 & run1 & m1 & -> & E0 & Hv1 & Hb1 & Hm1).
    bx. rewrite (lift_uld _ _ _ S0) by lia. bx. rewrite (lift_uld _ _ _ S2) by lia. bx.
    rewrite (lift_uld _ _ _ S4) by lia. bx. rewrite ust_ok by lia. bx.
    assert (dctx_rowN t0 p0 p2 p4 = 128 * ctxP b r (q + 1)) as Ec.
    { rewrite dctx_rowN_bits, ctxP_rN by lia. f_equal. apply dN_ok.
      - replace (q + 1 - 1) with q by lia. apply (ent_carries _ _ _ E0).
      - replace (q + 1 - 1) with q by lia. exact K0.
      - exact K2.
      - replace (q + 1 + 1) with (q + 2) by lia. exact K4. }
    destruct (cxt_readP r (q + 1) _ _ _ _ _ _ Hv1 ltac:(lia) Hm1 Ec) as (t1 & r2 & run2 & m2 & -> & E1 & Hv2 & Hb2 & Hm2).
    bx. rewrite (lift_uld _ _ _ (S2' t0)) by lia. bx. rewrite (lift_uld _ _ _ (S4' t0)) by lia. bx.
    rewrite (lift_uld _ _ _ (S6' t0)) by lia. bx. rewrite ust_ok by lia. bx.
    pose proof E0 as (_ & _ & O0 & _). pose proof E1 as (_ & _ & O1 & _). rewrite O0, O1.
    set (u0 := k_u (codeP b r q)) in *. set (u1 := k_u (codeP b r (q + 1))) in *.
    change (vb []) with (@nil bool) in Hv2. cbn [app] in Hv2.
    destruct (uvlc_read_ok (r =? 0) u0 u1 0 r2 lv U0 U1 ltac:(lia) Hv2 ltac:(lia)) as (r3 & X & Hv3).
    replace (du_mo (r =? 0) u0 u1) with 0 in X by (rewrite Er; reflexivity). rewrite Z.add_0_r in X.
    rewrite X. clear X. bx. rewrite ust_ok by lia. bx. rewrite ust_ok by lia. bx.
    eexists _, _, t0, t1, (0 + u1). split; [reflexivity|]. split; [split; assumption|].
    split; [unfold base; rewrite Er; reflexivity|]. split; [exact E0|].
    split; [rewrite dctx_rowN_bits; pose proof (dN_range t1 p2 p4 p6); lia|]. split; [|lia].
    intros _. split; [exact E1|]. split; [unfold base; rewrite Er; reflexivity|]. intros H3. specialize (C6 H3).
    rewrite dctx_rowN_bits, ctxP_rN by lia. f_equal. apply dN_ok.
    + replace (q + 2 - 1) with (q + 1) by lia. apply (ent_carries _ _ _ E1).
    + replace (q + 2 - 1) with (q + 1) by lia. exact K2.
    + exact K4.
    + replace (q + 2 + 1) with (q + 3) by lia. exact C6.
  - rewrite !vb_cons, <- !app_assoc in Hv0.
    destruct (cxt_readP r q _ _ _ _ _ _ Hv0 ltac:(lia) Hm eq_refl) as (t0 & r1 & run1 & m1 & -> & E0 & Hv1 & Hb1 & Hm1).
    bx. rewrite (lift_uld _ _ _ S0) by lia. bx. rewrite (lift_uld _ _ _ S2) by lia. bx.
    rewrite (lift_uld _ _ _ S4) by lia. bx. rewrite ust_ok by lia. bx.
    assert (0 <= dctx_rowN t0 p0 p2 p4 <= 896) as Ec by (rewrite dctx_rowN_bits; pose proof (dN_range t0 p0 p2 p4); lia).
    destruct (cxt_read_off (r =? 0) _ _ _ _ _ _ Ec Hv1 Hm1) as (r2 & -> & Hv2 & Hb2).
    bx. rewrite (lift_uld _ _ _ (S2' t0)) by lia. bx. rewrite (lift_uld _ _ _ (S4' t0)) by lia. bx.
    rewrite (lift_uld _ _ _ (S6' t0)) by lia. bx. rewrite ust_ok by lia. bx.
    pose proof E0 as (_ & _ & O0 & _). rewrite O0. change (Z.land 0 1) with 0.
    set (u0 := k_u (codeP b r q)) in *. change (vb []) with (@nil bool) in Hv2. cbn [app] in Hv2.
    destruct (uvlc_read_ok (r =? 0) u0 0 0 r2 lv U0 ltac:(lia) ltac:(lia) Hv2 ltac:(lia)) as (r3 & X & Hv3).
    replace (du_mo (r =? 0) u0 0) with 0 in X by (rewrite Er; reflexivity). rewrite Z.add_0_r in X.
    change (off 0) with 0 in X. rewrite X. clear X. bx. rewrite ust_ok by lia. bx. rewrite ust_ok by lia. bx.
    eexists _, _, t0, 0, (0 + 0). split; [reflexivity|]. split; [split; assumption|].
    split; [unfold base; rewrite Er; reflexivity|]. split; [exact E0|].
    split; [rewrite dctx_rowN_bits; pose proof (dN_range 0 p2 p4 p6); lia|]. split; [lia|]. intros _. reflexivity.
Qed.

(** ** The scratch array *)

Definition quad_ok (s : uarr) (r q : Z) : Prop := exists t,
  s (r * sstr + 2 * q) = Some t /\ ent t (codeP b r q) (pR b r q) /\
  s (r * sstr + 2 * q + 1) = Some (base r + k_u (codeP b r q)).

Record Sc (r q : Z) (s : uarr) : Prop := MkSc {
  sc_done : forall r' j, 0 <= r' <= r -> 0 <= j < QW -> r' < r \/ j < q -> quad_ok s r' j;
  sc_end : 0 < r -> s ((r - 1) * sstr + 2 * QW) = Some 0;
  sc_init : 0 < r -> forall i, 0 <= i <= 4 * P + 3 -> exists p, s ((r - 1) * sstr + i) = Some p;
  sc_cur : forall i, 0 <= i < 2 * q -> exists p, s (r * sstr + i) = Some p;
  sc_odd : QW < q -> s (r * sstr + 2 * QW) = Some 0 }.

Lemma row_le r' r : r' < r -> r' * sstr + sstr <= r * sstr.
Proof. intros H. replace (r' * sstr + sstr) with ((r' + 1) * sstr) by ring. apply Z.mul_le_mono_nonneg_r; lia. Qed.

Lemma wr4_init s sp t0 u0 t1 u1 i : (exists p, s i = Some p) -> exists p, wr4 s sp t0 u0 t1 u1 i = Some p.
Proof.
  intros H. unfold wr4, upf. destruct (i =? sp + 3); [eauto|]. destruct (i =? sp + 1); [eauto|].
  destruct (i =? sp + 2); [eauto|]. destruct (i =? sp); eauto.
Qed.

Lemma Sc_pair r q s t0 t1 u1 : Sc r q s -> 0 <= r -> 0 <= q < QW ->
  let s' := wr4 s (r * sstr + 2 * q) t0 (base r + k_u (codeP b r q)) t1 u1 in
  ent t0 (codeP b r q) (pR b r q) ->
  (q + 1 < QW -> ent t1 (codeP b r (q + 1)) (pR b r (q + 1)) /\ u1 = base r + k_u (codeP b r (q + 1))) ->
  (q + 1 = QW -> t1 = 0) ->
  Sc r (q + 2) s'.
Proof.
  intros [D E I C O] Hr Hq s' E0 E1 T1.
  destruct (wr4_spec s (r * sstr + 2 * q) t0 (base r + k_u (codeP b r q)) t1 u1) as (A0 & A1 & A2 & A3 & A4).
  fold s' in A0, A1, A2, A3, A4.
  split.
  - intros r' j Hr' Hj Hd. destruct (Z.eq_dec r' r) as [->|Ne].
    + destruct (Z.eq_dec j q) as [->|Nj].
      { exists t0. auto. }
      destruct (Z.eq_dec j (q + 1)) as [->|Nj1].
      { destruct (E1 ltac:(lia)) as (X1 & ->). exists t1.
        replace (r * sstr + 2 * (q + 1)) with (r * sstr + 2 * q + 2) by lia.
        replace (r * sstr + 2 * q + 2 + 1) with (r * sstr + 2 * q + 3) by lia. auto. }
      destruct (D r j ltac:(lia) Hj ltac:(lia)) as (t & X1 & X2 & X3). exists t. rewrite !A4 by lia. auto.
    + destruct (D r' j ltac:(lia) Hj ltac:(lia)) as (t & X1 & X2 & X3). exists t.
      pose proof (row_le r' r ltac:(lia)). rewrite !A4 by lia. auto.
  - intros H0. pose proof (row_le (r - 1) r ltac:(lia)). rewrite A4 by lia. auto.
  - intros H0 i Hi. apply wr4_init. auto.
  - intros i Hi. destruct (Z_lt_ge_dec i (2 * q)) as [Hl|Hl]; [apply wr4_init, C; lia|].
    assert (i = 2 * q \/ i = 2 * q + 1 \/ i = 2 * q + 2 \/ i = 2 * q + 3) as [->|[->|[->| ->]]] by lia;
      rewrite ?Z.add_assoc; eauto.
  - intros H. replace (r * sstr + 2 * QW) with (r * sstr + 2 * q + 2) by lia. rewrite A2. f_equal. apply T1. lia.
Qed.

Lemma guard_ok s sp : 0 <= sp -> sp + 3 < nS -> exists s', guard s sp = Ret s' /\
  s' sp = Some 0 /\ s' (sp + 1) = Some 0 /\ s' (sp + 2) = Some 0 /\ s' (sp + 3) = Some 0 /\
  (forall i, i < sp \/ sp + 3 < i -> s' i = s i).
Proof.
  intros H1 H2. unfold guard. rewrite ust_ok by lia. cbn [bind]. rewrite ust_ok by lia. cbn [bind].
  rewrite ust_ok by lia. cbn [bind]. rewrite ust_ok by lia. eexists. split; [reflexivity|].
  repeat apply conj; intros; rewrite ?upf_other by lia; try apply upf_same. reflexivity.
Qed.

Lemma P_cases : 2 * P = QW \/ 2 * P = QW + 1.
Proof. unfold P, half_up. pose proof (Z.div_mod (QW + 1) 2). pose proof (Z.mod_pos_bound (QW + 1) 2). lia. Qed.

Lemma Sc_guard r s s' : Sc r (2 * P) s -> 0 <= r ->
  (forall i, 0 <= i < 4 -> s' (r * sstr + 4 * P + i) = Some 0) ->
  (forall i, i < r * sstr + 4 * P \/ r * sstr + 4 * P + 3 < i -> s' i = s i) ->
  Sc (r + 1) 0 s'.
Proof.
  intros [D E I C O] Hr Z0 Ot. pose proof P_cases as PC. pose proof QWp as Q1. split.
  - intros r' j Hr' Hj Hd. destruct (D r' j ltac:(lia) Hj ltac:(lia)) as (t & X1 & X2 & X3). exists t.
    destruct (Z.eq_dec r' r) as [->|Ne]; [|pose proof (row_le r' r ltac:(lia))]; rewrite !Ot by lia; auto.
  - intros _. replace (r + 1 - 1) with r by lia. destruct PC as [PC|PC].
    + specialize (Z0 0 ltac:(lia)). rewrite <- Z0. f_equal. lia.
    + rewrite Ot by lia. apply O. lia.
  - intros _ i Hi. replace (r + 1 - 1) with r by lia. destruct (Z_lt_ge_dec i (4 * P)) as [Hl|Hl].
    + rewrite Ot by lia. apply C. lia.
    + specialize (Z0 (i - 4 * P) ltac:(lia)). exists 0. rewrite <- Z0. f_equal. lia.
  - intros i Hi. lia.
  - intros H. lia.
Qed.

Lemma fit r : 0 <= r < QH -> 0 <= r * sstr /\ r * sstr + 4 * P + 3 < nS.
Proof.
  intros H. split; [nia|].
  assert (r * sstr <= (QH - 1) * sstr) by (apply Z.mul_le_mono_nonneg_r; lia). lia.
Qed.

Lemma sc_above r q s j : Sc r q s -> 0 < r -> 0 <= j <= QW ->
  exists p, s ((r - 1) * sstr + 2 * j) = Some p /\ carries p (pR b (r - 1) j).
Proof.
  intros [D E I C O] Hr Hj. destruct (Z.eq_dec j QW) as [->|N].
  - exists 0. split; [auto|]. destruct (p_out b (r - 1) QW) as [-> _]; [unfold QW; lia|]. apply carries_0.
  - destruct (D (r - 1) j ltac:(lia) ltac:(lia) ltac:(lia)) as (t & X1 & X2 & _). exists t.
    split; [assumption|]. apply (ent_carries _ _ _ X2).
Qed.

Definition row_ok (res : ex lane) (r : Z) (lv le : list bool) : Prop :=
  exists l', res = ret l' /\ lane_ok l' lv le /\ Sc (r + 1) 0 (ln_s l').

Lemma dec_row0_ok n : forall q ctx l lv le, 0 <= q -> q + 2 * Z.of_nat n = 2 * P -> Sc 0 q (ln_s l) ->
  (q < QW -> ctx = 128 * ctxP b 0 q) ->
  lane_ok l (vb (g_vlc (rowlog b QW 0 n q)) ++ lv) (g_mel (rowlog b QW 0 n q) ++ le) ->
  row_ok (dec_row0 n (QW - q) (2 * q) ctx l) 0 lv le.
Proof.
  pose proof P_cases as PC. pose proof QHp as Q1. destruct (fit 0 ltac:(lia)) as [_ Ft].
  induction n as [|n IH]; intros q ctx l lv le Hq Hn HS Hc Hl; cbn [dec_row0 rowlog] in *.
  - destruct (guard_ok (ln_s l) (2 * q) ltac:(lia) ltac:(lia)) as (s' & -> & G). bx.
    eexists. split; [reflexivity|]. split; [exact Hl|]. cbn [ln_s]. destruct G as (G0 & G1 & G2 & G3 & G4).
    assert (q = 2 * P) as -> by lia. apply (Sc_guard 0 (ln_s l)); [exact HS|lia| |].
    intros i Hi. replace (0 * sstr + 4 * P) with (2 * (2 * P)) by lia.
    apply idx4 in Hi as [->|[->|[->| ->]]]; rewrite ?Z.add_0_r; assumption.
    intros i Hi. apply G4. lia.
  - assert (q < QW) as Hq' by lia. rewrite Hc by lia. cbn [log_app g_vlc g_mel] in Hl.
    rewrite vb_app, <- !app_assoc in Hl.
    destruct (dec_pair0_ok q (2 * q) l _ _ ltac:(lia) ltac:(lia) ltac:(lia) Hl)
      as (ctx' & l' & t0 & t1 & u1 & -> & Hl' & Es & E0 & Cr & On & Off). bx.
    replace (QW - q - 2) with (QW - (q + 2)) by lia. replace (2 * q + 4) with (2 * (q + 2)) by lia.
    apply IH; [lia|lia| | |exact Hl'].
    + rewrite Es. apply (Sc_pair 0 q (ln_s l) t0 t1 u1); [exact HS|lia|lia|exact E0| |exact Off]. intros H. destruct (On H) as (X1 & X2 & _). auto.
    + intros H. apply On; lia.
Qed.

Lemma dec_rowN_ok r n : 0 < r < QH -> forall q ctx l lv le, 0 <= q -> q + 2 * Z.of_nat n = 2 * P -> Sc r q (ln_s l) ->
  (q < QW -> ctx = 128 * ctxP b r q) ->
  lane_ok l (vb (g_vlc (rowlog b QW r n q)) ++ lv) (g_mel (rowlog b QW r n q) ++ le) ->
  row_ok (dec_rowN n sstr (QW - q) (r * sstr + 2 * q) ctx l) r lv le.
Proof.
  intros Hr. pose proof P_cases as PC. destruct (fit r ltac:(lia)) as [Fr Ft].
  pose proof (row_le (r - 1) r ltac:(lia)) as RL. pose proof (row_le 0 r ltac:(lia)) as RL0.
  assert ((r - 1) * sstr = r * sstr - sstr) as RM by ring.
  induction n as [|n IH]; intros q ctx l lv le Hq Hn HS Hc Hl; cbn [dec_rowN rowlog] in *.
  - destruct (guard_ok (ln_s l) (r * sstr + 2 * q) ltac:(lia) ltac:(lia)) as (s' & -> & G). bx.
    eexists. split; [reflexivity|]. split; [exact Hl|]. cbn [ln_s]. destruct G as (G0 & G1 & G2 & G3 & G4).
    assert (q = 2 * P) as -> by lia. apply (Sc_guard r (ln_s l)); [exact HS|lia| |].
    intros i Hi. replace (r * sstr + 4 * P) with (r * sstr + 2 * (2 * P)) by lia.
    apply idx4 in Hi as [->|[->|[->| ->]]]; rewrite ?Z.add_0_r; assumption.
    intros i Hi. apply G4. lia.
  - assert (q < QW) as Hq' by lia. rewrite Hc by lia. cbn [log_app g_vlc g_mel] in Hl.
    rewrite vb_app, <- !app_assoc in Hl.
    destruct (sc_above r q (ln_s l) q HS ltac:(lia) ltac:(lia)) as (p0 & S0 & K0).
    destruct (sc_above r q (ln_s l) (q + 1) HS ltac:(lia) ltac:(lia)) as (p2 & S2 & K2).
    assert (exists p4, ln_s l ((r - 1) * sstr + 2 * (q + 2)) = Some p4 /\ (q + 1 < QW -> carries p4 (pR b (r - 1) (q + 2)))) as (p4 & S4 & K4).
    { destruct (Z_le_gt_dec (q + 2) QW) as [Hle|Hgt].
      - destruct (sc_above r q (ln_s l) (q + 2) HS ltac:(lia) ltac:(lia)) as (p & X1 & X2). eauto.
      - destruct (sc_init _ _ _ HS ltac:(lia) (2 * (q + 2)) ltac:(lia)) as (p & X). exists p. split; [exact X|lia]. }
    assert (exists p6, ln_s l ((r - 1) * sstr + 2 * (q + 3)) = Some p6 /\ (q + 2 < QW -> carries p6 (pR b (r - 1) (q + 3)))) as (p6 & S6 & K6).
    { destruct (Z_le_gt_dec (q + 3) QW) as [Hle|Hgt].
      - destruct (sc_above r q (ln_s l) (q + 3) HS ltac:(lia) ltac:(lia)) as (p & X1 & X2). eauto.
      - destruct (sc_init _ _ _ HS ltac:(lia) (2 * (q + 3)) ltac:(lia)) as (p & X). exists p. split; [exact X|lia]. }
    rewrite RM in *.
    assert (ln_s l (r * sstr + 2 * q - sstr) = Some p0) as S0' by (rewrite <- S0; f_equal; lia).
    assert (ln_s l (r * sstr + 2 * q + 2 - sstr) = Some p2) as S2' by (rewrite <- S2; f_equal; lia).
    assert (ln_s l (r * sstr + 2 * q + 4 - sstr) = Some p4) as S4' by (rewrite <- S4; f_equal; lia).
    assert (ln_s l (r * sstr + 2 * q + 6 - sstr) = Some p6) as S6' by (rewrite <- S6; f_equal; lia).
    destruct (dec_pairN_ok r q (r * sstr + 2 * q) l _ _ p0 p2 p4 p6 ltac:(lia) ltac:(lia) ltac:(lia) ltac:(lia)
      S0' S2' S4' S6' ltac:(auto) ltac:(auto) Hl)
      as (ctx' & l' & t0 & t1 & u1 & -> & Hl' & Es & E0 & Cr & On & Off). bx.
    replace (QW - q - 2) with (QW - (q + 2)) by lia. replace (r * sstr + 2 * q + 4) with (r * sstr + 2 * (q + 2)) by lia.
    apply IH; [lia|lia| | |exact Hl'].
    + rewrite Es. apply (Sc_pair r q (ln_s l) t0 t1 u1); [exact HS|lia|lia|exact E0| |exact Off]. intros H. destruct (On H) as (X1 & X2 & _). auto.
    + intros H. apply On; lia.
Qed.

Lemma Pn : Z.of_nat (Z.to_nat (half_up QW)) = P.
Proof. pose proof P_cases. pose proof QWp. fold P. lia. Qed.

Lemma dec_rows_ok n : forall r l lv le, 0 < r -> r + Z.of_nat n = QH -> Sc r 0 (ln_s l) ->
  lane_ok l (vb (g_vlc (rowslog b QW n r)) ++ lv) (g_mel (rowslog b QW n r) ++ le) ->
  exists l', dec_rows n QW sstr r l = ret l' /\ lane_ok l' lv le /\ Sc QH 0 (ln_s l').
Proof.
  induction n as [|n IH]; intros r l lv le Hr Hn HS Hl; cbn [dec_rows rowslog] in *.
  - exists l. replace QH with r by lia. split; [reflexivity|]. split; [exact Hl|exact HS].
  - pose proof QWp as Q1. pose proof Pn as HP. pose proof P_cases as PC.
    destruct (fit r ltac:(lia)) as [Fr Ft].
    pose proof (row_le (r - 1) r ltac:(lia)) as RL. pose proof (row_le 0 r ltac:(lia)) as RL0.
    destruct (sc_above r 0 (ln_s l) 0 HS Hr ltac:(lia)) as (p0 & S0 & K0).
    destruct (sc_above r 0 (ln_s l) 1 HS Hr ltac:(lia)) as (p2 & S2 & K2).
    assert (ln_s l (r * sstr - sstr) = Some p0) as S0' by (rewrite <- S0; f_equal; ring).
    assert (ln_s l (r * sstr + 2 - sstr) = Some p2) as S2' by (rewrite <- S2; f_equal; ring).
    rewrite (lift_uld _ _ _ S0') by lia. bx. rewrite (lift_uld _ _ _ S2') by lia. bx.
    cbn [log_app g_vlc g_mel] in Hl. rewrite vb_app, <- !app_assoc in Hl.
    assert (0 < QW -> Z.lor (Z.shiftl (Z.land p0 160) 2) (Z.shiftl (Z.land p2 32) 4) = 128 * ctxP b r 0) as Ec.
    { intros _. transitivity (dctx_rowN 0 0 p0 p2); [reflexivity|]. rewrite dctx_rowN_bits. f_equal.
      rewrite ctxP_rN by lia. apply dN_ok.
      - destruct (p_out b r (0 - 1)) as [-> _]; [lia|]. apply carries_0.
      - destruct (p_out b (r - 1) (0 - 1)) as [-> _]; [lia|]. apply carries_0.
      - exact K0.
      - exact K2. }
    destruct (dec_rowN_ok r (Z.to_nat (half_up QW)) ltac:(lia) 0 _ l _ _ ltac:(lia) ltac:(lia) HS Ec Hl) as (l1 & X & Hl1 & HS1).
    replace (QW - 0) with QW in X by lia. replace (r * sstr + 2 * 0) with (r * sstr) in X by lia. rewrite X. bx.
    apply IH; [lia|lia|exact HS1|exact Hl1].
Qed.

(** Step 1 fills the scratch array with the code of every quad. *)
Lemma ht_step1_ok am av seg lv le : (av <= 3)%nat ->
  (exists r, rev_init av seg = Some r /\ rev_inv r (vb (g_vlc (rowslog b QW (Z.to_nat QH) 0)) ++ lv)) ->
  (let (run, m) := mel_get_run (mel_dec_init am seg) in mel_yields run m (g_mel (rowslog b QW (Z.to_nat QH) 0) ++ le)) ->
  exists s, ht_step1 am av seg QW QH sstr = ret s /\
    forall r q, 0 <= r < QH -> 0 <= q < QW -> quad_ok s r q.
Proof.
  intros Hav (r & Er & Hr) Hm. unfold ht_step1. rewrite Er.
  pose proof (mel_get_run_nonneg (mel_dec_init am seg)) as N. destruct (mel_get_run (mel_dec_init am seg)) as [run m].
  pose proof QWp as Q1. pose proof QHp as Q2. pose proof Pn as HP. pose proof P_cases as PC.
  replace (Z.to_nat QH) with (S (Z.to_nat (QH - 1))) in Hr, Hm by lia. cbn [rowslog log_app g_vlc g_mel] in Hr, Hm.
  rewrite vb_app, <- app_assoc in Hr. rewrite <- app_assoc in Hm.
  destruct (dec_row0_ok (Z.to_nat (half_up QW)) 0 0 (Lane m run r (fun _ => None))
    (vb (g_vlc (rowslog b QW (Z.to_nat (QH - 1)) (0 + 1))) ++ lv) (g_mel (rowslog b QW (Z.to_nat (QH - 1)) (0 + 1)) ++ le))
    as (l1 & X & Hl1 & HS1); [lia|lia| | | |].
  - split; intros; lia.
  - intros _. unfold ctxP. change (0 =? 0) with true. cbv iota.
    destruct (p_out b 0 (0 - 1)) as [-> _]; [lia|]. reflexivity.
  - split; [exact Hr|]. split; [exact N|exact Hm].
  - replace (QW - 0) with QW in X by lia. replace (2 * 0) with 0 in X by lia. rewrite X. bx.
    destruct (dec_rows_ok (Z.to_nat (QH - 1)) 1 l1 lv le ltac:(lia) ltac:(lia) HS1 Hl1) as (l2 & -> & _ & HS2). bx.
    eexists. split; [reflexivity|]. intros r' q Hr' Hq. apply (sc_done _ _ _ HS2); lia.
Qed.
End Dec.
