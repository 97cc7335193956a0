(** Hostile HT blocks: the setup keeps the segments inside the data, and step 1
    stays inside its tables and buffers whatever the bytes are. *)
From Verif Require Import Base BaseLemmas HtTables HtBits HtReaders HtStreamModel HtReadProofs
  HtBlockModel HtSpec HtTableProofs HtQuadProofs HtEncProofs HtDec1Proofs HtRoundProofs.
Require Import Lia.

(** ** Setup *)

Lemma fold_wrap l : forall a, 0 <= a < 2 ^ 32 -> 0 <= fold_left (fun a p => wrap32 (a + p)) l a < 2 ^ 32.
Proof.
  induction l as [|p l IH]; intros a Ha; cbn [fold_left]; [exact Ha|]. apply IH. unfold wrap32. apply Z.mod_pos_bound. reflexivity.
Qed.

Lemma bytes_ok_app a b : bytes_ok (a ++ b) <-> bytes_ok a /\ bytes_ok b.
Proof. apply Forall_app. Qed.
Lemma bytes_ok_ztake n l : bytes_ok l -> bytes_ok (ztake n l).
Proof. intros H. unfold ztake, bytes_ok in *. rewrite Forall_forall in *. intros x Hx. apply H.
  rewrite <- (firstn_skipn (Z.to_nat n) l). apply in_or_app. now left. Qed.

Theorem setup_safe c : bytes_ok (c_data c) -> c_length c <= zlen (c_data c) ->
  Forall (fun p => 0 <= p < 2 ^ 32) (c_plen c) ->
  exists v, ht_setup c = Ret v /\
  forall su, v = Go su ->
    2 <= su_Scup su <= 4079 /\ 0 <= su_Pcup su /\ su_Pcup su + su_Scup su = su_Lcup su /\
    0 <= su_Lref su /\ su_Lcup su + su_Lref su <= c_length c /\ 0 <= su_S su < 30 /\
    1 <= su_passes su <= 255 /\ bytes_ok (su_data su) /\ zlen (su_data su) = zlen (c_data c) /\
    znth 0 (su_data su) (su_Lcup su - 1) = 255 /\ Z.land (znth 0 (su_data su) (su_Lcup su - 2)) 15 = 15 /\
    (forall i, 0 <= i -> i <> su_Lcup su - 1 -> i <> su_Lcup su - 2 -> znth 0 (su_data su) i = znth 0 (c_data c) i).
Proof.
  intros Hb Hl Hp. unfold ht_setup.
  set (P0 := if 3 <? c_passes c then zero_lead (c_plen c) 0 / 3 else if (c_length c =? 0) && negb (c_passes c =? 0) then 1 else 0).
  clearbody P0. cbv zeta.
  destruct (c_passes c <? Z.land (P0 * 3) 255); [eexists; split; [reflexivity|discriminate]|].
  destruct (Z.land (c_passes c - Z.land (P0 * 3) 255) 255 =? 0) eqn:Eh; [eexists; split; [reflexivity|discriminate]|].
  assert (0 <= Z.land (c_passes c - Z.land (P0 * 3) 255) 255 < 256) as Hht by (rewrite land_255; apply Z.mod_pos_bound; lia).
  destruct (4 <? zlen (filter (fun p => negb (p =? 0)) (c_plen c))); [eexists; split; [reflexivity|discriminate]|].
  destruct (filter (fun p => negb (p =? 0)) (c_plen c)) as [|p0 more]; [eexists; split; [reflexivity|discriminate]|].
  destruct (as_i32 p0 <? 2) eqn:E2; [eexists; split; [reflexivity|discriminate]|].
  destruct (c_length c <? as_i32 p0) eqn:E3; [eexists; split; [reflexivity|discriminate]|].
  pose proof (fold_wrap more 0 ltac:(split; [lia|reflexivity])) as Fw.
  set (Lref := fold_left (fun a p => wrap32 (a + p)) more 0) in *. clearbody Lref.
  destruct (c_length c - as_i32 p0 <? Lref) eqn:E4; [eexists; split; [reflexivity|discriminate]|].
  assert (0 <= Z.land (P0 + c_zbp c) 255) as HS by (rewrite land_255; apply Z.mod_pos_bound; lia).
  destruct (30 <=? Z.land (P0 + c_zbp c) 255) eqn:E5; [eexists; split; [reflexivity|discriminate]|].
  set (L := as_i32 p0) in *. clearbody L. set (d := c_data c) in *.
  rewrite !rd_in by lia. cbn [bind].
  set (hi := znth 0 d (L - 1)). set (lo := znth 0 d (L - 2)).
  assert (byte_ok hi /\ byte_ok lo) as [Bh Bl].
  { unfold bytes_ok in Hb. rewrite Forall_forall in Hb. split; apply Hb, znth_In; lia. }
  set (Scup := Z.shiftl hi 4 + Z.land lo 15).
  destruct ((Scup <? 2) || (L <? Scup) || (4079 <? Scup)) eqn:E6; [eexists; split; [reflexivity|discriminate]|].
  eexists. split; [reflexivity|]. intros su Hsu. assert (Setup L (L - Scup) Scup Lref (Z.land (P0 + c_zbp c) 255)
     (Z.land (c_passes c - Z.land (P0 * 3) 255) 255) (ztake (L - 2) d ++ [Z.lor lo 15; 255] ++ zskip L d) = su) as <- by congruence.
  cbn [su_Scup su_Pcup su_Lcup su_Lref su_S su_passes su_data].
  assert (byte_ok (Z.lor lo 15)) as Bo.
  { unfold byte_ok in *. replace (Z.lor lo 15) with ((Z.lor lo 15) mod 2 ^ 8); [apply Z.mod_pos_bound; reflexivity|].
    symmetry. apply Z.bits_inj'. intros n Hn. destruct (Z.lt_ge_cases n 8).
    - now rewrite Z.mod_pow2_bits_low by lia.
    - rewrite Z.mod_pow2_bits_high by lia. rewrite Z.lor_spec.
      rewrite (Z.bits_above_log2 15 n) by (cbn; lia).
      destruct (Z.eq_dec lo 0) as [->|]; [now rewrite Z.bits_0|].
      rewrite (Z.bits_above_log2 lo n); [reflexivity|lia|]. assert (Z.log2 lo < 8) by (apply Z.log2_lt_pow2; lia). lia. }
  assert (zlen (ztake (L - 2) d) = L - 2) as Lt by (apply zlen_ztake; lia).
  assert (Z.land (Z.lor lo 15) 15 = 15) as H15.
  { apply Z.bits_inj'. intros n Hn. rewrite Z.land_spec, Z.lor_spec. now destruct (Z.testbit lo n), (Z.testbit 15 n). }
  repeat apply conj; try lia.
  - apply bytes_ok_app. split; [apply bytes_ok_ztake; exact Hb|]. apply bytes_ok_app. split.
    + apply Forall_cons; [exact Bo|]. apply Forall_cons; [unfold byte_ok; lia|]. apply Forall_nil.
    + unfold bytes_ok in *. rewrite Forall_forall in *. intros x Hx. apply Hb. unfold zskip in Hx.
      rewrite <- (firstn_skipn (Z.to_nat L) d). apply in_or_app. now right.
  - rewrite !zlen_app, Lt, zlen_zskip by lia. rewrite !zlen_cons, zlen_nil. lia.
  - rewrite znth_app_r by lia. rewrite Lt. replace (L - 1 - (L - 2)) with 1 by lia. reflexivity.
  - rewrite znth_app_r by lia. rewrite Lt. replace (L - 2 - (L - 2)) with 0 by lia. exact H15.
  - intros i Hi N1 N2. destruct (Z.lt_ge_cases i (L - 2)) as [Hlt|Hge].
    + rewrite znth_app_l by lia. now rewrite znth_ztake by lia.
    + rewrite znth_app_r by lia. rewrite Lt. 
      rewrite znth_app_r by (change (zlen [Z.lor lo 15; 255]) with 2; lia). change (zlen [Z.lor lo 15; 255]) with 2.
      rewrite znth_zskip by lia. f_equal. lia.
Qed.

(** ** Step 1 *)

Definition ctx_in (c : Z) : Prop := 0 <= c <= 896.

Lemma land896 x : 0 <= Z.land x 896 <= 896.
Proof.
  assert (Z.land x 896 = Z.shiftl (Z.land (Z.shiftr x 7) 7) 7) as ->.
  { apply Z.bits_inj'. intros n Hn. rewrite Z.land_spec. destruct (Z.lt_ge_cases n 7).
    - rewrite Z.shiftl_spec_low by lia. change 896 with (7 * 2 ^ 7). rewrite Z.mul_pow2_bits_low by lia. apply andb_false_r.
    - rewrite Z.shiftl_spec_high, Z.land_spec, Z.shiftr_spec by lia. change 896 with (7 * 2 ^ 7). rewrite Z.mul_pow2_bits by lia.
      do 2 f_equal. lia. }
  rewrite Z.shiftl_mul_pow2, land_7 by lia. change (2 ^ 7) with 128. pose proof (Z.mod_pos_bound (Z.shiftr x 7) 8). lia.
Qed.
Lemma shl_in m t k : 0 <= k -> Z.land (Z.shiftl m k) 896 = Z.shiftl m k ->
  Z.land (Z.shiftl (Z.land t m) k) 896 = Z.shiftl (Z.land t m) k.
Proof. intros Hk H. rewrite Z.shiftl_land, <- Z.land_assoc, H. reflexivity. Qed.
Lemma dctx0_in t : ctx_in (dctx_row0 t).
Proof.
  unfold ctx_in, dctx_row0. rewrite <- (shl_in 224 t 2), <- (shl_in 16 t 3) by (lia || reflexivity).
  rewrite <- Z.land_lor_distr_l. apply land896.
Qed.
Lemma dctxN_in t p0 p2 p4 : ctx_in (dctx_rowN t p0 p2 p4).
Proof.
  unfold ctx_in, dctx_rowN.
  rewrite <- (shl_in 64 t 2), <- (shl_in 128 t 1), <- (shl_in 160 p2 2), <- (shl_in 32 p4 4) by (lia || reflexivity).
  replace (Z.land p0 128) with (Z.land (Z.land p0 128) 896) by (rewrite <- Z.land_assoc; reflexivity).
  rewrite <- !Z.land_lor_distr_l. apply land896.
Qed.
Lemma dctxR_in p0 p2 : ctx_in (Z.lor (Z.shiftl (Z.land p0 160) 2) (Z.shiftl (Z.land p2 32) 4)).
Proof.
  unfold ctx_in. rewrite <- (shl_in 160 p0 2), <- (shl_in 32 p2 4) by (lia || reflexivity).
  rewrite <- Z.land_lor_distr_l. apply land896.
Qed.

Lemma cxt_any f on v ctx r run m k : ctx_in ctx -> rev_inv r [] -> 7 <= k -> k <= r_bits r ->
  exists t v' r' rm, cxt_read (dtab f) on v ctx r run m = ret (t, v', r', rm) /\ 0 <= t < 65536 /\
    rev_inv r' [] /\ k - 7 <= r_bits r'.
Proof.
  intros Hc Hr Hk Hb. unfold cxt_read. unfold ctx_in in Hc.
  assert (0 <= Z.land v 127 < 128) by (rewrite land_127; apply Z.mod_pos_bound; lia).
  rewrite rd_in by (rewrite dtab_len; lia).
  pose proof (dtab_entry f (Z.land v 127 + ctx) ltac:(lia)) as T.
  set (t := znth 0 (dtab f) (Z.land v 127 + ctx)) in *. clearbody t.
  destruct (mel_cond ((ctx =? 0) && on) run m) as [hit rm]. cbv zeta.
  set (t' := if on then if hit then t else 0 else 0).
  assert (0 <= t' < 65536) by (unfold t'; destruct on, hit; lia). clearbody t'.
  assert (0 <= Z.shiftr (Z.land t' 15) 1 <= 7).
  { rewrite land_15, Z.shiftr_div_pow2 by lia. change (2 ^ 1) with 2. pose proof (Z.mod_pos_bound t' 16). lia. }
  destruct (rev_advance_inv r [] (Z.shiftr (Z.land t' 15) 1) Hr ltac:(lia)) as (r' & -> & R1 & R2).
  exists t'. eexists _, _, _. split; [reflexivity|]. split; [lia|]. split; [|lia].
  replace (@nil bool) with (zskip (Z.shiftr (Z.land t' 15) 1) (@nil bool)); [exact R1|]. unfold zskip. apply skipn_nil.
Qed.

Lemma uvlc_tab : forallb (fun t => (0 <=? du_pl t) && (0 <=? du_sl t) && (du_pl t + du_sl t <=? 18)) uvlc_dec_0 = true /\
  forallb (fun t => (0 <=? du_pl t) && (0 <=? du_sl t) && (du_pl t + du_sl t <=? 18)) uvlc_dec_1 = true /\
  zlen uvlc_dec_0 = 320 /\ zlen uvlc_dec_1 = 256.
Proof. repeat split; vm_compute; reflexivity. Qed.

Lemma uvlc_any f idx base v r : 0 <= idx < zlen (dutab f) -> rev_inv r [] -> 18 <= r_bits r ->
  exists u0 u1 r', uvlc_read (dutab f) idx base v r = ret (u0, u1, r') /\ 0 <= u0 < 65536 /\ 0 <= u1 < 65536 /\ rev_inv r' [].
Proof.
  intros Hi Hr Hb. unfold uvlc_read. rewrite rd_in by exact Hi.
  assert (0 <= du_pl (znth 0 (dutab f) idx) /\ 0 <= du_sl (znth 0 (dutab f) idx) /\
          du_pl (znth 0 (dutab f) idx) + du_sl (znth 0 (dutab f) idx) <= 18) as T.
  { destruct uvlc_tab as (T0 & T1 & _).
    assert (forallb (fun t => (0 <=? du_pl t) && (0 <=? du_sl t) && (du_pl t + du_sl t <=? 18)) (dutab f) = true) as T
      by (destruct f; assumption).
    rewrite forallb_forall in T. specialize (T _ (znth_In 0 _ idx Hi)). lia. }
  set (t := znth 0 (dutab f) idx) in *. clearbody t. unfold du_pl, du_sl in T.
  destruct (rev_advance_inv r [] (Z.land t 7) Hr ltac:(lia)) as (r1 & -> & R1 & R2). cbv zeta.
  assert (rev_inv r1 []) as R1' by (unfold zskip in R1; now rewrite skipn_nil in R1).
  destruct (rev_advance_inv r1 [] (Z.land (Z.shiftr t 3) 15) R1' ltac:(lia)) as (r2 & -> & R3 & R4).
  assert (rev_inv r2 []) as R3' by (unfold zskip in R3; now rewrite skipn_nil in R3).
  eexists _, _, _. split; [reflexivity|].
  change 65535 with (2 ^ 16 - 1). rewrite !land_ones_mod by lia. change (2 ^ 16) with 65536.
  split; [apply Z.mod_pos_bound; lia|]. split; [apply Z.mod_pos_bound; lia|]. exact R3'.
Qed.

Definition cell (v : option Z) : Prop := exists x, v = Some x /\ 0 <= x < 65536.
Definition keeps (s s' : uarr) : Prop := forall i, cell (s i) -> cell (s' i).

Lemma wr4_keeps s sp t0 u0 t1 u1 : 0 <= t0 < 65536 -> 0 <= u0 < 65536 -> 0 <= t1 < 65536 -> 0 <= u1 < 65536 ->
  keeps s (wr4 s sp t0 u0 t1 u1) /\ forall i, sp <= i < sp + 4 -> cell (wr4 s sp t0 u0 t1 u1 i).
Proof.
  intros A B C D. destruct (wr4_spec s sp t0 u0 t1 u1) as (W0 & W1 & W2 & W3 & W4).
  assert (forall i, sp <= i < sp + 4 -> cell (wr4 s sp t0 u0 t1 u1 i)) as H.
  { intros i Hi. assert (i = sp \/ i = sp + 1 \/ i = sp + 2 \/ i = sp + 3) as [-> | [-> | [-> | ->]]] by lia;
    rewrite ?W0, ?W1, ?W2, ?W3; eexists; split; try reflexivity; lia. }
  split; [|exact H]. intros i Hc. destruct (Z.lt_ge_cases i sp); [rewrite W4 by lia; exact Hc|].
  destruct (Z.lt_ge_cases i (sp + 4)); [apply H; lia|]. rewrite W4 by lia. exact Hc.
Qed.

Lemma land1_01 t : Z.land t 1 = 0 \/ Z.land t 1 = 1.
Proof.
  pose proof (Z.land_ones t 1 ltac:(lia)) as H. change (Z.ones 1) with 1 in H. change (2 ^ 1) with 2 in H.
  pose proof (Z.mod_pos_bound t 2). lia.
Qed.
Lemma land63 v : 0 <= Z.land v 63 < 64.
Proof. change 63 with (2 ^ 6 - 1). rewrite land_ones_mod by lia. apply Z.mod_pos_bound. reflexivity. Qed.

Lemma dec_pair0_any on sp ctx l : 0 <= sp -> sp + 3 < nS -> ctx_in ctx -> rev_inv (ln_vlc l) [] ->
  exists ctx' l', dec_pair0 on sp ctx l = ret (ctx', l') /\ ctx_in ctx' /\ rev_inv (ln_vlc l') [] /\
    keeps (ln_s l) (ln_s l') /\ forall i, sp <= i < sp + 4 -> cell (ln_s l' i).
Proof.
  intros H0 H1 Hc Hr. unfold dec_pair0. pose proof (rev_fetch_inv _ _ Hr) as F.
  destruct (rev_fetch (ln_vlc l)) as [v r]. destruct F as (F1 & F2 & _).
  change dec_CxtVLC_table0_fast_16 with (dtab true).
  destruct (cxt_any true true v ctx r (ln_run l) (ln_mel l) 32 Hc F1 ltac:(lia) F2) as (t0 & v1 & r1 & [run m] & -> & T0 & R1 & B1).
  bx. rewrite ust_ok by lia. bx.
  destruct (cxt_any true on v1 (dctx_row0 t0) r1 run m 25 (dctx0_in t0) R1 ltac:(lia) ltac:(lia)) as (t1 & v2 & r2 & [run' m'] & -> & T1 & R2 & B2).
  bx. rewrite ust_ok by lia. bx.
  set (both := Z.land (Z.land t0 1) (Z.land t1 1) =? 1).
  destruct (mel_cond both run' m') as [hit [run2 m2]].
  change uvlc_dec_0 with (dutab true).
  match goal with |- context [uvlc_read (dutab true) ?i 1 v2 r2] => set (idx := i) end.
  assert (0 <= idx < zlen (dutab true)) as Hi.
  { destruct uvlc_tab as (_ & _ & L & _). change (dutab true) with uvlc_dec_0. rewrite L. unfold idx, both. pose proof (land63 v2).
    destruct (land1_01 t0) as [-> | ->], (land1_01 t1) as [-> | ->]; destruct hit; cbn; lia. }
  destruct (uvlc_any true idx 1 v2 r2 Hi R2 ltac:(lia)) as (u0 & u1 & r3 & -> & U0 & U1 & R3).
  bx. rewrite ust_ok by lia. bx. rewrite ust_ok by lia. bx.
  destruct (wr4_keeps (ln_s l) sp t0 u0 t1 u1 T0 U0 T1 U1) as [K1 K2].
  eexists _, _. split; [reflexivity|]. cbn [ln_vlc ln_s]. split; [apply dctx0_in|]. split; [exact R3|]. split; [exact K1|exact K2].
Qed.

Lemma lift_cell s i : 0 <= i < nS -> cell (s i) -> exists v, lift (uld nS s i) = ret v.
Proof. intros H (v & E & _). exists v. now apply lift_uld. Qed.

Lemma dec_pairN_any on sstr sp ctx l : 8 <= sstr <= sp -> sp + 3 < nS -> ctx_in ctx -> rev_inv (ln_vlc l) [] ->
  (forall i, sp - sstr <= i < sp - sstr + 7 -> cell (ln_s l i)) ->
  exists ctx' l', dec_pairN on sstr sp ctx l = ret (ctx', l') /\ ctx_in ctx' /\ rev_inv (ln_vlc l') [] /\
    keeps (ln_s l) (ln_s l') /\ forall i, sp <= i < sp + 4 -> cell (ln_s l' i).
Proof.
  intros H0 H1 Hc Hr Hs. unfold dec_pairN. pose proof (rev_fetch_inv _ _ Hr) as F.
  destruct (rev_fetch (ln_vlc l)) as [v r]. destruct F as (F1 & F2 & _).
  change dec_CxtVLC_table1_fast_16 with (dtab false).
  destruct (cxt_any false true v ctx r (ln_run l) (ln_mel l) 32 Hc F1 ltac:(lia) F2) as (t0 & v1 & r1 & [run m] & -> & T0 & R1 & B1).
  bx.
  destruct (lift_cell (ln_s l) (sp - sstr) ltac:(lia) (Hs (sp - sstr) ltac:(lia))) as (p0 & ->). bx.
  destruct (lift_cell (ln_s l) (sp + 2 - sstr) ltac:(lia) (Hs (sp + 2 - sstr) ltac:(lia))) as (p2 & ->). bx.
  destruct (lift_cell (ln_s l) (sp + 4 - sstr) ltac:(lia) (Hs (sp + 4 - sstr) ltac:(lia))) as (p4 & ->). bx.
  rewrite ust_ok by lia. bx.
  destruct (cxt_any false on v1 (dctx_rowN t0 p0 p2 p4) r1 run m 25 (dctxN_in t0 p0 p2 p4) R1 ltac:(lia) ltac:(lia)) as (t1 & v2 & r2 & [run' m'] & -> & T1 & R2 & B2).
  bx.
  assert (forall i, sp - sstr <= i < sp - sstr + 7 -> cell (upf (ln_s l) sp t0 i)) as Hs1.
  { intros i Hi. unfold upf. destruct (i =? sp); [exists t0; split; [reflexivity|lia]|]. apply Hs. lia. }
  destruct (lift_cell _ (sp + 2 - sstr) ltac:(lia) (Hs1 (sp + 2 - sstr) ltac:(lia))) as (p2' & ->). bx.
  destruct (lift_cell _ (sp + 4 - sstr) ltac:(lia) (Hs1 (sp + 4 - sstr) ltac:(lia))) as (p4' & ->). bx.
  destruct (lift_cell _ (sp + 6 - sstr) ltac:(lia) (Hs1 (sp + 6 - sstr) ltac:(lia))) as (p6' & ->). bx.
  rewrite ust_ok by lia. bx.
  change uvlc_dec_1 with (dutab false).
  match goal with |- context [uvlc_read (dutab false) ?i 0 v2 r2] => set (idx := i) end.
  assert (0 <= idx < zlen (dutab false)) as Hi.
  { destruct uvlc_tab as (_ & _ & _ & L). change (dutab false) with uvlc_dec_1. rewrite L. unfold idx. pose proof (land63 v2).
    destruct (land1_01 t0) as [-> | ->], (land1_01 t1) as [-> | ->]; cbn; lia. }
  destruct (uvlc_any false idx 0 v2 r2 Hi R2 ltac:(lia)) as (u0 & u1 & r3 & -> & U0 & U1 & R3).
  bx. rewrite ust_ok by lia. bx. rewrite ust_ok by lia. bx.
  destruct (wr4_keeps (ln_s l) sp t0 u0 t1 u1 T0 U0 T1 U1) as [K1 K2].
  eexists _, _. split; [reflexivity|]. cbn [ln_vlc ln_s]. split; [apply dctxN_in|]. split; [exact R3|]. split; [exact K1|exact K2].
Qed.

Lemma guard_any s sp : 0 <= sp -> sp + 3 < nS -> exists s', guard s sp = Ret s' /\
  keeps s s' /\ forall i, sp <= i < sp + 4 -> cell (s' i).
Proof.
  intros H1 H2. destruct (guard_ok demo s sp H1 H2) as (s' & E & G0 & G1 & G2 & G3 & G4).
  exists s'. split; [exact E|].
  assert (forall i, sp <= i < sp + 4 -> cell (s' i)) as H.
  { intros i Hi. assert (i = sp \/ i = sp + 1 \/ i = sp + 2 \/ i = sp + 3) as [-> | [-> | [-> | ->]]] by lia;
    exists 0; (split; [assumption|lia]). }
  split; [|exact H]. intros i Hc. destruct (Z.lt_ge_cases i sp); [rewrite G4 by lia; exact Hc|].
  destruct (Z.lt_ge_cases i (sp + 4)); [apply H; lia|]. rewrite G4 by lia. exact Hc.
Qed.

Lemma keeps_trans a b c : keeps a b -> keeps b c -> keeps a c.
Proof. unfold keeps. auto. Qed.

Lemma dec_row0_any n : forall qx sp ctx l, 0 <= sp -> sp + 4 * Z.of_nat n + 3 < nS -> ctx_in ctx -> rev_inv (ln_vlc l) [] ->
  exists l', dec_row0 n qx sp ctx l = ret l' /\ rev_inv (ln_vlc l') [] /\ keeps (ln_s l) (ln_s l') /\
    forall i, sp <= i < sp + 4 * Z.of_nat n + 4 -> cell (ln_s l' i).
Proof.
  induction n as [|n IH]; intros qx sp ctx l H0 H1 Hc Hr; cbn [dec_row0].
  - destruct (guard_any (ln_s l) sp H0 ltac:(lia)) as (s' & -> & G1 & G2). bx.
    eexists. split; [reflexivity|]. cbn [ln_vlc ln_s]. split; [exact Hr|]. split; [exact G1|]. intros i Hi. apply G2. lia.
  - destruct (dec_pair0_any (1 <? qx) sp ctx l H0 ltac:(lia) Hc Hr) as (ctx' & l1 & -> & C1 & R1 & K1 & W1). bx.
    destruct (IH (qx - 2) (sp + 4) ctx' l1 ltac:(lia) ltac:(lia) C1 R1) as (l2 & -> & R2 & K2 & W2).
    exists l2. split; [reflexivity|]. split; [exact R2|]. split; [eapply keeps_trans; eauto|].
    intros i Hi. destruct (Z.lt_ge_cases i (sp + 4)); [apply K2, W1; lia|apply W2; lia].
Qed.

Lemma dec_rowN_any n sstr : forall qx sp ctx l, 8 <= sstr <= sp -> sp + 4 * Z.of_nat n + 3 < nS -> ctx_in ctx -> rev_inv (ln_vlc l) [] ->
  (forall i, sp - sstr <= i < sp - sstr + 4 * Z.of_nat n + 4 -> cell (ln_s l i)) ->
  exists l', dec_rowN n sstr qx sp ctx l = ret l' /\ rev_inv (ln_vlc l') [] /\ keeps (ln_s l) (ln_s l') /\
    forall i, sp <= i < sp + 4 * Z.of_nat n + 4 -> cell (ln_s l' i).
Proof.
  induction n as [|n IH]; intros qx sp ctx l H0 H1 Hc Hr Hs; cbn [dec_rowN].
  - destruct (guard_any (ln_s l) sp ltac:(lia) ltac:(lia)) as (s' & -> & G1 & G2). bx.
    eexists. split; [reflexivity|]. cbn [ln_vlc ln_s]. split; [exact Hr|]. split; [exact G1|]. intros i Hi. apply G2. lia.
  - destruct (dec_pairN_any (1 <? qx) sstr sp ctx l H0 ltac:(lia) Hc Hr ltac:(intros i Hi; apply Hs; lia)) as (ctx' & l1 & -> & C1 & R1 & K1 & W1). bx.
    destruct (IH (qx - 2) (sp + 4) ctx' l1 ltac:(lia) ltac:(lia) C1 R1) as (l2 & -> & R2 & K2 & W2).
    { intros i Hi. apply K1, Hs. lia. }
    exists l2. split; [reflexivity|]. split; [exact R2|]. split; [eapply keeps_trans; eauto|].
    intros i Hi. destruct (Z.lt_ge_cases i (sp + 4)); [apply K2, W1; lia|apply W2; lia].
Qed.

Lemma dec_rows_any n QW sstr : forall row l, 8 <= sstr -> 1 <= row -> 1 <= QW ->
  (row + Z.of_nat n - 1) * sstr + 4 * half_up QW + 3 < nS -> rev_inv (ln_vlc l) [] ->
  (forall r i, 0 <= r < row -> r * sstr <= i < r * sstr + 4 * half_up QW + 4 -> cell (ln_s l i)) ->
  exists l', dec_rows n QW sstr row l = ret l' /\
    forall r i, 0 <= r < row + Z.of_nat n -> r * sstr <= i < r * sstr + 4 * half_up QW + 4 -> cell (ln_s l' i).
Proof.
  induction n as [|n IH]; intros row l Hss Hrow HQ Hfit Hr Hs; cbn [dec_rows].
  - eexists. split; [reflexivity|]. intros r i Hri Hi. apply (Hs r); lia.
  - assert (1 <= half_up QW) as P1 by (unfold half_up; lia).
    assert (row * sstr <= (row + Z.of_nat (S n) - 1) * sstr) as Mono by (apply Z.mul_le_mono_nonneg_r; lia).
    assert (sstr <= row * sstr) by nia.
    assert (forall i, row * sstr - sstr <= i < row * sstr - sstr + 4 * half_up QW + 4 -> cell (ln_s l i)) as Hp.
    { intros i Hi. apply (Hs (row - 1)); lia. }
    destruct (lift_cell (ln_s l) (row * sstr - sstr) ltac:(lia) (Hp (row * sstr - sstr) ltac:(lia))) as (p0 & ->). bx.
    destruct (lift_cell (ln_s l) (row * sstr + 2 - sstr) ltac:(lia) (Hp (row * sstr + 2 - sstr) ltac:(lia))) as (p2 & ->). bx.
    destruct (dec_rowN_any (Z.to_nat (half_up QW)) sstr QW (row * sstr) _ l ltac:(lia) ltac:(lia) (dctxR_in p0 p2) Hr
       ltac:(intros i Hi; apply Hp; lia)) as (l1 & -> & R1 & K1 & W1). bx.
    destruct (IH (row + 1) l1 Hss ltac:(lia) HQ ltac:(lia) R1) as (l2 & -> & W2).
    { intros r i Hri Hi. destruct (Z.eq_dec r row) as [-> |]; [apply W1; lia|apply K1, (Hs r); lia]. }
    exists l2. split; [reflexivity|]. intros r i Hri Hi. apply (W2 r); lia.
Qed.

(** Step 1 never leaves its buffers, reads nothing uninitialised and never
    throws, whatever the bytes; every entry step 2 reads has been written. *)
Theorem step1_any am av seg w h d rest x : (av <= 3)%nat -> size_ok w h -> bytes_ok seg ->
  rev seg = x :: d :: rest -> Z.land d 15 = 15 ->
  exists s, ht_step1 am av seg (half_up w) (half_up h) (round8 (w + 2)) = ret s /\
    forall r i, 0 <= r < half_up h -> 0 <= i < 2 * half_up w -> cell (s (r * round8 (w + 2) + i)).
Proof.
  intros Ha Hsz Hb Er H15. destruct (size_fit _ _ Hsz) as (S1 & S2 & S3 & S4 & S5 & S6).
  destruct (rev_init_any av seg d rest x Ha Hb Er H15) as (r & Ei & Hr).
  unfold ht_step1. rewrite Ei. destruct (mel_get_run (mel_dec_init am seg)) as [run m].
  assert (1 <= half_up w /\ 1 <= half_up h) as [W1 W2] by (unfold half_up; lia).
  assert (half_up w <= 2 * half_up (half_up w)) as W3 by (unfold half_up; lia).
  set (sstr := round8 (w + 2)) in *. clearbody sstr.
  assert (0 <= (half_up h - 1) * sstr) by nia.
  destruct (dec_row0_any (Z.to_nat (half_up (half_up w))) (half_up w) 0 0 (Lane m run r (fun _ => None)) ltac:(lia) ltac:(lia)
    ltac:(split; lia) Hr) as (l1 & -> & R1 & _ & K1). bx.
  destruct (dec_rows_any (Z.to_nat (half_up h - 1)) (half_up w) sstr 1 l1 S1 ltac:(lia) W1) as (l2 & -> & K2); auto.
  { replace (1 + Z.of_nat (Z.to_nat (half_up h - 1)) - 1) with (half_up h - 1) by lia. lia. }
  { intros r' i Hr' Hi. apply K1. assert (r' = 0) as -> by lia. lia. }
  bx. eexists. split; [reflexivity|]. intros r' i Hr' Hi. apply (K2 r'); lia.
Qed.
