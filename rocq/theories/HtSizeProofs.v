(** How many bytes an encoded HT block can take: the fixed buffers are large
    enough while M_b is at most 23. *)
From Verif Require Import Base BaseLemmas HtTables HtBits HtReaders HtStreamModel HtReadProofs HtMsProofs
  HtMelReadProofs HtMelEncProofs HtVlcProofs HtBlockModel HtSpec HtTableProofs HtQuadProofs HtEncProofs
  HtDec1Proofs HtDec2Proofs HtRoundProofs.
Require Import Lia.

(** ** MagSgn *)

Definition ms_pot (s : ms_enc) : Z := 15 * zlen (ms_buf s) + 2 * ms_ctreg s + Z.b2z (ms_last s =? 255).

Lemma ms_take_pot s : ms_pot (ms_take s) <= ms_pot s.
Proof.
  unfold ms_take, ms_pot. destruct (ms_last s =? 255) eqn:E; cbn [ms_buf ms_ctreg ms_last]; rewrite zlen_cons.
  - replace (Z.land (ms_creg s) 127 =? 255) with false; [cbn [Z.b2z]; lia|].
    rewrite land_127. pose proof (Z.mod_pos_bound (ms_creg s) 128). lia.
  - destruct (Z.land (ms_creg s) 255 =? 255); cbn [Z.b2z]; lia.
Qed.
Lemma ms_fast_pot s : ms_pot (ms_fast s) <= ms_pot s.
Proof.
  unfold ms_fast, ms_pot. cbn [ms_buf ms_ctreg ms_last]. rewrite zlen_cons.
  destruct (Z.land (ms_creg s) 255 =? 255), (ms_last s =? 255); cbn [Z.b2z]; lia.
Qed.
Lemma ms_dword_pot s : ms_pot (ms_dword s) <= ms_pot s.
Proof.
  unfold ms_dword. destruct (_ && _).
  - pose proof (ms_fast_pot s). pose proof (ms_fast_pot (ms_fast s)). pose proof (ms_fast_pot (ms_fast (ms_fast s))).
    pose proof (ms_fast_pot (ms_fast (ms_fast (ms_fast s)))). lia.
  - pose proof (ms_take_pot s). pose proof (ms_take_pot (ms_take s)). pose proof (ms_take_pot (ms_take (ms_take s))).
    pose proof (ms_take_pot (ms_take (ms_take (ms_take s)))). lia.
Qed.
Lemma ms_drain_pot n : forall s, ms_pot (ms_drain n s) <= ms_pot s.
Proof.
  induction n as [|n IH]; intros s; cbn [ms_drain]; [lia|]. destruct (32 <=? ms_ctreg s); [|lia].
  pose proof (IH (ms_dword s)). pose proof (ms_dword_pot s). lia.
Qed.
Lemma ms_flush_pot n : forall s, ms_pot (ms_flush n s) <= ms_pot s.
Proof.
  induction n as [|n IH]; intros s; cbn [ms_flush]; [lia|]. pose proof (IH (ms_take s)). pose proof (ms_take_pot s).
  destruct (ms_last s =? 255); [destruct (ms_ctreg s <? 7)|destruct (ms_ctreg s <? 8)]; lia.
Qed.

Definition ms_len (l : list (Z * Z * Z)) : Z := fold_right (fun c a => snd (fst c) + a) 0 l.
Lemma ms_len_app a b : ms_len (a ++ b) = ms_len a + ms_len b.
Proof. unfold ms_len. induction a as [|c a IH]; cbn [app fold_right]; [lia|]. rewrite IH. lia. Qed.

Lemma ms_run_pot_from l : forall s,
  ms_pot (fold_left (fun s c => let '(v, m, e) := c in ms_emit s v m e) l s) <= ms_pot s + 2 * ms_len l.
Proof.
  induction l as [|[[v m] e] l IH]; intros s; cbn [fold_left ms_len fold_right fst snd]; [lia|].
  fold (ms_len l). specialize (IH (ms_emit s v m e)).
  assert (ms_pot (ms_emit s v m e) <= ms_pot s + 2 * m); [|lia].
  unfold ms_emit. match goal with |- ms_pot (ms_drain ?n ?s') <= _ => pose proof (ms_drain_pot n s') as H; set (s1 := s') in * end.
  assert (ms_pot s1 = ms_pot s + 2 * m) by (unfold s1, ms_pot; cbn [ms_buf ms_ctreg ms_last]; lia). lia.
Qed.

Lemma ms_bytes l : Forall call_ok l -> 15 * (zlen (ms_term (ms_run l)) - 1) <= 2 * ms_len l.
Proof.
  intros H. pose proof (ms_run_ok l H) as O. pose proof (ms_run_pot_from l ms_init) as P. fold (ms_run l) in P.
  change (ms_pot ms_init) with 0 in P. set (s0 := ms_run l) in *. clearbody s0.
  unfold ms_term. set (n := S (Z.to_nat (ms_ctreg s0))).
  destruct (ms_flush_ok n s0 _ O) as [O1 _]; [unfold n; pose proof (mo_ct _ _ O); lia|].
  pose proof (ms_flush_pot n s0) as F. set (s := ms_flush n s0) in *. clearbody s.
  pose proof (mo_ct _ _ O1) as C. unfold ms_pot in F at 1. pose proof (zlen_nonneg (ms_buf s)).
  assert (0 <= Z.b2z (ms_last s =? 255)) by (destruct (ms_last s =? 255); cbn; lia).
  cbv zeta. destruct (0 <? ms_ctreg s).
  - match goal with |- context [if ?x then ms_buf s else _] => destruct x end; rewrite ?zlen_cons; lia.
  - destruct (ms_last s =? 255); [|lia]. destruct (ms_buf s) as [|x t]; cbn [tl]; rewrite ?zlen_cons in *; lia.
Qed.

(** ** MEL *)

Definition mel_pot (s : mel_enc) : Z := 7 * zlen (me_buf s) + 7 - me_rem s.
Lemma mel_bit_pot s b : mel_pot (mel_bit s b) <= mel_pot s + 1.
Proof.
  unfold mel_bit, mel_pot. destruct (me_rem s - 1 =? 0) eqn:E; cbn [me_buf me_rem]; [|lia]. rewrite zlen_cons.
  destruct (_ =? 255); lia.
Qed.
Lemma mel_run_bits_pot n : forall s, mel_pot (mel_run_bits s n) <= mel_pot s + Z.of_nat n.
Proof.
  induction n as [|n IH]; intros s; cbn [mel_run_bits]; [lia|].
  pose proof (IH (mel_bit s (Z.land (Z.shiftr (me_run s) (Z.of_nat n)) 1))).
  pose proof (mel_bit_pot s (Z.land (Z.shiftr (me_run s) (Z.of_nat n)) 1)). lia.
Qed.
Lemma MEL_E_le k : 0 <= MEL_E k <= 5.
Proof.
  unfold MEL_E, znth. generalize (Z.to_nat k) as n. intros n.
  do 13 (destruct n as [|n]; [cbn; lia|]). destruct n; cbn; lia.
Qed.
Lemma mel_encode_pot s e : mel_pot (mel_encode s e) <= mel_pot s + 6.
Proof.
  unfold mel_encode. destruct e.
  - set (s1 := mel_run_bits (mel_bit s 0) (Z.to_nat (MEL_E (me_k s)))).
    assert (mel_pot s1 <= mel_pot s + 6).
    { unfold s1. pose proof (mel_run_bits_pot (Z.to_nat (MEL_E (me_k s))) (mel_bit s 0)).
      pose proof (mel_bit_pot s 0). pose proof (MEL_E_le (me_k s)). lia. }
    cbv zeta. unfold mel_pot in *. cbn [me_buf me_rem]. exact H.
  - cbv zeta. destruct (me_t s <=? me_run s + 1).
    + pose proof (mel_bit_pot s 1). unfold mel_pot in *. cbn [me_buf me_rem]. lia.
    + unfold mel_pot. cbn [me_buf me_rem]. lia.
Qed.
Lemma mel_run_pot_from l : forall s, mel_pot (fold_left mel_encode l s) <= mel_pot s + 6 * zlen l.
Proof.
  induction l as [|e l IH]; intros s; cbn [fold_left]; [unfold zlen; cbn; lia|]. rewrite zlen_cons.
  pose proof (IH (mel_encode s e)). pose proof (mel_encode_pot s e). lia.
Qed.
Lemma mel_bytes l : 7 * zlen (me_buf (mel_term (mel_run l))) <= 6 * zlen l + 8.
Proof.
  pose proof (mel_run_pot_from l mel_init) as P. fold (mel_run l) in P. change (mel_pot mel_init) with (-1) in P.
  destruct (mel_term_inv _ _ (mel_run_ok l)) as (lm & _ & _ & O & _).
  assert (mel_pot (mel_term (mel_run l)) <= mel_pot (mel_run l) + 1) as T.
  { unfold mel_term. destruct (0 <? me_run (mel_run l)); [apply mel_bit_pot|lia]. }
  pose proof (eo_rem _ _ O) as R. unfold me_width in R. unfold mel_pot in T at 1. destruct (mflag _ _); lia.
Qed.

(** ** VLC *)

Definition vlc_pot (s : vlc_enc) : Z := 7 * zlen (ve_buf s) + ve_bits s.
Lemma vlc_loop_pot n : forall s cwd len, 0 <= len -> vlc_pot (vlc_emit_loop n s cwd len) <= vlc_pot s + len.
Proof.
  induction n as [|n IH]; intros s cwd len Hl; cbn [vlc_emit_loop]; [lia|]. destruct (len <=? 0) eqn:E; [lia|]. cbv zeta.
  set (av := 8 - (if 143 <? ve_last s then 1 else 0) - ve_bits s).
  assert (Z.min av len <= len) by lia.
  assert (7 <= ve_bits s + av) by (unfold av; destruct (143 <? ve_last s); lia).
  destruct (av - Z.min av len =? 0) eqn:E1; [destruct ((143 <? ve_last s) && _)|].
  all: match goal with |- vlc_pot (vlc_emit_loop ?n' ?s' ?c ?m) <= _ => match goal with IH : forall s cwd len, _ |- _ => pose proof (IH s' c m ltac:(lia)) as P end end;
    unfold vlc_pot in P at 2; unfold vlc_pot in * ; cbn [ve_buf ve_bits] in P; rewrite ?zlen_cons in P; lia.
Qed.
Definition vlc_len (l : list (Z * Z)) : Z := fold_right (fun c a => snd c + a) 0 l.
Lemma vlc_len_app a b : vlc_len (a ++ b) = vlc_len a + vlc_len b.
Proof. unfold vlc_len. induction a as [|c a IH]; cbn [app fold_right]; [lia|]. rewrite IH. lia. Qed.
Lemma vlc_run_pot_from l : forall s, Forall vcall_ok l ->
  vlc_pot (fold_left (fun s c => vlc_emit s (fst c) (snd c)) l s) <= vlc_pot s + vlc_len l.
Proof.
  induction l as [|c l IH]; intros s F; cbn [fold_left vlc_len fold_right]; [lia|].
  inversion F as [|? ? [C _] F']; subst. fold (vlc_len l). specialize (IH (vlc_emit s (fst c) (snd c)) F').
  assert (vlc_pot (vlc_emit s (fst c) (snd c)) <= vlc_pot s + snd c) by (apply vlc_loop_pot; exact C). lia.
Qed.
Lemma vlc_bytes l : Forall vcall_ok l -> 7 * zlen (ve_buf (vlc_run l)) <= 4 + vlc_len l.
Proof.
  intros F. pose proof (vlc_run_pot_from l vlc_init F) as P. fold (vlc_run l) in P. change (vlc_pot vlc_init) with 4 in P.
  pose proof (vo_bits8 _ _ (vlc_run_ok l F)). unfold vlc_pot in P. lia.
Qed.

Lemma suffix_bytes v m : zlen (term_mel_vlc v m) <= zlen (me_buf m) + zlen (ve_buf v) + 3.
Proof.
  unfold term_mel_vlc. cbv zeta.
  destruct (Z.lor _ _ =? 0); [|destruct (_ && _)]; rewrite !zlen_app, ?zlen_cons, ?zlen_app, zlen_rev, ?zlen_cons, ?zlen_nil; lia.
Qed.


(** ** What a block of M_b planes can emit *)

Section Size.
Variable b : block.
Hypothesis Hin : in_range b.
Variable M : Z.
Hypothesis HM : 1 <= M <= 30.
Hypothesis Hq : forall y x, 0 <= y < b_h b -> 0 <= x < b_w b -> Z.abs (b_q b y x) < 2 ^ M.

Lemma smp_expo y x : 0 <= expo (smp b y x) <= M + 1.
Proof.
  pose proof (smp_wf b y x Hin) as W. split; [apply expo_bound; exact W|].
  unfold smp in *. destruct ((0 <=? y) && (y <? b_h b) && (0 <=? x) && (x <? b_w b)) eqn:E; [|change (expo 0) with 0; lia].
  specialize (Hq y x ltac:(lia) ltac:(lia)).
  assert (2 ^ M <= 2 ^ 30) by (apply Z.pow_le_mono_r; lia).
  destruct (Z.eq_dec (b_q b y x) 0) as [Z0|N0]; [rewrite Z0; change (expo (pmag 0)) with 0; lia|].
  destruct (pmag_spec (b_q b y x) ltac:(lia) N0) as (_ & P2).
  destruct (expo_bound _ W) as (C1 & _ & _ & C3).
  destruct (Z.le_gt_cases (expo (pmag (b_q b y x))) (M + 1)) as [L|L]; [lia|exfalso].
  destruct (C3 ltac:(lia)) as (_ & C4). rewrite P2 in C4.
  assert (2 ^ (M + 1) <= 2 ^ (expo (pmag (b_q b y x)) - 1)) by (apply Z.pow_le_mono_r; lia).
  rewrite Z.pow_add_r in H0 by lia. change (2 ^ 1) with 2 in H0. destruct (b_q b y x <? 0); lia.
Qed.

Lemma code_U r q : 1 <= k_U (codeP b r q) <= M + 1.
Proof.
  rewrite (co_U _ _ _ (codeP_ok b Hin r q)). pose proof (kapP_range b Hin r q).
  assert (q_emax (Qd b r q) <= M + 1).
  { unfold Qd, q_emax, max4.
    pose proof (smp_expo (2 * r) (2 * q)). pose proof (smp_expo (2 * r + 1) (2 * q)).
    pose proof (smp_expo (2 * r) (2 * q + 1)). pose proof (smp_expo (2 * r + 1) (2 * q + 1)). lia. }
  assert (kapP b r q <= M + 1); [|lia].
  unfold kapP. destruct (r =? 0); [lia|]. unfold kappa_of.
  assert (EmaxP b (r - 1) q <= M + 1); [|destruct (many _); lia].
  unfold EmaxP, max4, pE1, pE3, Qd, q_E1, q_E3.
  repeat match goal with |- context [expo (smp b ?y ?x)] => pose proof (smp_expo y x); generalize dependent (expo (smp b y x)); intros end.
  lia.
Qed.

Lemma ms_len_quad r q : ms_len (ms_calls (codeP b r q) (Qd b r q)) <= 4 * (M + 1).
Proof.
  rewrite ms_calls_qs. pose proof (codeP_ok b Hin r q) as C. pose proof (kapP_range b Hin r q) as Kr.
  pose proof (Qd_wf b r q Hin) as Wq. pose proof (code_U r q) as U.
  assert (forall i, 0 <= i < 4 -> snd (fst (ms_call (codeP b r q) (qs (Qd b r q) i) i)) <= M + 1) as H.
  { intros i Hi. destruct (ms_call_spec _ _ _ i Wq Kr C Hi) as [M0 M1].
    destruct (sgm_01 _ (qs_wf _ i Wq)) as [Sg|Sg].
    - destruct (M0 Sg) as [_ ->]. cbn [fst snd]. lia.
    - destruct (M1 Sg) as (-> & Mr & _). cbn [fst snd]. rewrite bit_of_testbit by lia.
      destruct (Z.testbit _ i); cbn [Z.b2z]; lia. }
  cbn [map ms_len fold_right].
  pose proof (H 0 ltac:(lia)). pose proof (H 1 ltac:(lia)). pose proof (H 2 ltac:(lia)). pose proof (H 3 ltac:(lia)). lia.
Qed.
Lemma ms_len_row r n : forall q, ms_len (rowms b r n q) <= Z.of_nat n * (4 * (M + 1)).
Proof.
  induction n as [|n IH]; intros q; cbn [rowms]; [cbn; lia|]. rewrite ms_len_app.
  pose proof (ms_len_quad r q). pose proof (IH (q + 1)). lia.
Qed.
Lemma ms_len_rows QW n : 0 <= QW -> forall r, ms_len (rowsms b QW n r) <= Z.of_nat n * QW * (4 * (M + 1)).
Proof.
  intros HQ. induction n as [|n IH]; intros r; cbn [rowsms]; [cbn; lia|]. rewrite ms_len_app.
  pose proof (ms_len_row r (Z.to_nat QW) 0) as H. rewrite Z2Nat.id in H by lia. pose proof (IH (r + 1)). lia.
Qed.

Lemma lw_le r q : 0 <= snd (k_cwd (codeP b r q), k_lw (codeP b r q)) <= 7.
Proof. exact (co_lw _ _ _ (codeP_ok b Hin r q)). Qed.
Lemma uv_le f r q u1 : 0 <= u1 < 32 -> 0 <= snd (uvP f (k_u (codeP b r q)) u1) <= 18.
Proof.
  intros H1. pose proof (uvlc_ok f (k_u (codeP b r q)) u1 (u_range b Hin r q) H1) as (_ & _ & H & _). exact H.
Qed.
Lemma plog_len QW r q : vlc_len (g_vlc (plog b QW r q)) <= 32 /\ zlen (g_mel (plog b QW r q)) <= 3.
Proof.
  pose proof (lw_le r q) as L0. pose proof (lw_le r (q + 1)) as L1.
  pose proof (uv_le (r =? 0) r q _ (u_range b Hin r (q + 1))) as V1.
  pose proof (uv_le (r =? 0) r q 0 ltac:(lia)) as V0. unfold plog. split.
  - destruct (q + 1 <? QW); cbn [g_vlc vlc_len fold_right]; lia.
  - assert (forall c r, zlen (mel_if c r) <= 1) as Hm by (intros c r'; unfold mel_if; destruct (c =? 0); vm_compute; congruence).
    destruct (q + 1 <? QW); cbn [g_mel]; [|pose proof (Hm (ctxP b r q) (pR b r q)); lia].
    unfold melP. rewrite zlen_app. pose proof (Hm (ctxP b r q) (pR b r q)). cbv zeta.
    pose proof (Hm (ctxP b r (q + 1)) (pR b r (q + 1))).
    destruct (r =? 0); [|lia].
    assert (forall c1 c2 c3 (x : bool), zlen (if c1 : bool then (if c2 : bool then [true] else [x]) else if c3 : bool then [x] else []) <= 1) as Hx
      by (intros [] [] [] x; vm_compute; congruence).
    match goal with |- _ + zlen (if ?c1 then (if ?c2 then _ else [?x]) else if ?c3 then _ else _) <= _ => specialize (Hx c1 c2 c3 x) end.
    lia.
Qed.
Lemma rowlog_len QW r n : forall q, vlc_len (g_vlc (rowlog b QW r n q)) <= 32 * Z.of_nat n /\
  zlen (g_mel (rowlog b QW r n q)) <= 3 * Z.of_nat n.
Proof.
  induction n as [|n IH]; intros q; cbn [rowlog]; [cbn; lia|]. cbn [log_app g_vlc g_mel].
  rewrite vlc_len_app, zlen_app. destruct (plog_len QW r q). destruct (IH (q + 2)). lia.
Qed.
Lemma rowslog_len QW n : forall r, vlc_len (g_vlc (rowslog b QW n r)) <= 32 * (Z.of_nat n * Z.of_nat (Z.to_nat (half_up QW))) /\
  zlen (g_mel (rowslog b QW n r)) <= 3 * (Z.of_nat n * Z.of_nat (Z.to_nat (half_up QW))).
Proof.
  induction n as [|n IH]; intros r; cbn [rowslog]; [cbn; lia|]. cbn [log_app g_vlc g_mel].
  rewrite vlc_len_app, zlen_app. destruct (rowlog_len QW r (Z.to_nat (half_up QW)) 0). destruct (IH (r + 1)). lia.
Qed.
End Size.

Lemma size_area w h : size_ok w h ->
  half_up h * half_up (half_up w) <= 512 /\ half_up h * half_up w <= 1024.
Proof.
  intros (a & c & Ha & Hc & Hac & Hw & Hh).
  assert (h <= 2 ^ (12 - a)) as Hh' by (transitivity (2 ^ c); [lia|apply Z.pow_le_mono_r; lia]).
  assert (exists A, (A = 1 \/ A = 2 \/ A = 4 \/ A = 8 \/ A = 16 \/ A = 32 \/ A = 64 \/ A = 128 \/ A = 256) /\
     2 ^ a = 4 * A /\ 2 ^ (12 - a) * A = 1024) as (A & CA & E1 & E2).
  { assert (a = 2 \/ a = 3 \/ a = 4 \/ a = 5 \/ a = 6 \/ a = 7 \/ a = 8 \/ a = 9 \/ a = 10) as Ca by lia.
    exists (2 ^ (a - 2)). destruct Ca as [->|[->|[->|[->|[->|[->|[->|[->| ->]]]]]]]]; vm_compute; repeat split; tauto. }
  assert (1 <= half_up w <= 2 * A) by (unfold half_up; lia).
  assert (1 <= half_up (half_up w) <= A) by (unfold half_up; lia).
  assert (1 <= half_up h /\ 2 * half_up h <= 2 ^ (12 - a) + 1) as [? H2] by (unfold half_up; lia).
  assert (2 * half_up h * A <= 1024 + A) as H3 by nia.
  assert (half_up h * A <= 512).
  { destruct CA as [->|[->|[->|[->|[->|[->|[->|[->| ->]]]]]]]]; lia. }
  split; nia.
Qed.

(** The encoder's buffers hold every block of at most 23 planes. *)
Theorem ht_encode_fits b : size_ok (b_w b) (b_h b) -> 1 <= b_Mb b <= 23 ->
  (forall y x, 0 <= y < b_h b -> 0 <= x < b_w b -> Z.abs (b_q b y x) < 2 ^ b_Mb b) ->
  exists c, ht_encode b = Ret c.
Proof.
  intros Hsz HMb Hq. destruct (size_fit _ _ Hsz) as (_ & _ & _ & _ & S5 & S6).
  destruct (any_sig b) eqn:Sg.
  2:{ unfold ht_encode. rewrite Sg. eexists; reflexivity. }
  assert (in_range b) as Hin.
  { intros y x Hy Hx. specialize (Hq y x Hy Hx). assert (2 ^ b_Mb b <= 2 ^ 30) by (apply Z.pow_le_mono_r; lia). lia. }
  rewrite ht_encode_log by (assumption || lia).
  destruct (size_area _ _ Hsz) as [A1 A2].
  assert (1 <= half_up (b_w b)) as W1 by (unfold half_up; lia).
  assert (1 <= half_up (half_up (b_w b))) as W2 by (unfold half_up; lia).
  assert (1 <= half_up (b_h b)) as W3 by (unfold half_up; lia).
  destruct (rowslog_len b Hin (b_Mb b) ltac:(lia) Hq (half_up (b_w b)) (Z.to_nat (half_up (b_h b))) 0) as [L1 L2].
  rewrite !Z2Nat.id in L1, L2 by lia.
  pose proof (ms_len_rows b Hin (b_Mb b) ltac:(lia) Hq (half_up (b_w b)) (Z.to_nat (half_up (b_h b))) ltac:(lia) 0) as L3.
  rewrite Z2Nat.id in L3 by lia. rewrite <- rowslog_ms in L3 by lia.
  assert (Forall call_ok (g_ms (rowslog b (half_up (b_w b)) (Z.to_nat (half_up (b_h b))) 0))) as Fm
    by (rewrite rowslog_ms by lia; apply rowsms_wf; assumption).
  pose proof (rowslog_wf b Hin (half_up (b_w b)) (Z.to_nat (half_up (b_h b))) 0) as Fv.
  set (g := rowslog b (half_up (b_w b)) (Z.to_nat (half_up (b_h b))) 0) in *. clearbody g.
  assert (ms_len (g_ms g) <= 1024 * (4 * 24)) as L3' by nia. clear L3.
  pose proof (ms_bytes _ Fm) as B1. pose proof (vlc_bytes _ Fv) as B2. pose proof (mel_bytes (g_mel g)) as B3.
  pose proof (suffix_bytes (vlc_run (g_vlc g)) (mel_term (mel_run (g_mel g)))) as B4.
  unfold finish. cbv zeta. rewrite zlen_rev. unfold MAX_Scup, MAX_Lcup.
  match goal with |- context [if ?x then _ else _] => replace x with true end.
  - eexists. reflexivity.
  - symmetry. apply andb_true_intro. split; apply Z.leb_le; lia.
Qed.
