(** Pure description of what the HT encoder codes for each quad. *)
From Verif Require Import Base BaseLemmas HtTables HtBits HtStreamModel HtBlockModel HtTableProofs.
Require Import Lia.

Lemma mod_pow_le v a b : 0 <= a <= b -> (v mod 2 ^ b) mod 2 ^ a = v mod 2 ^ a.
Proof.
  intros H. apply testbit_mod_eq; [lia|]. intros i Hi. apply Z.mod_pow2_bits_low. lia.
Qed.

(** ** Samples *)

(** A coded sample: 0, or the significance bit and a 31-bit value. *)
Definition swf (s : Z) : Prop := s = 0 \/ 2 ^ 31 <= s < 2 ^ 32.
Definition vof (s : Z) : Z := if s =? 0 then 0 else s - 2 ^ 31.
Definition sig (s : Z) : Z := if s =? 0 then 0 else 1.

Lemma swf_cases s : swf s -> (s = 0 /\ sgm s = 0 /\ vmag s = 0 /\ expo s = 0) \/
  (2 ^ 31 <= s < 2 ^ 32 /\ sgm s = 1 /\ vmag s = s - 2 ^ 31 /\ 0 <= vmag s < 2 ^ 31 /\ expo s = 32 - clz32 (vmag s)).
Proof.
  intros [->|H]; [left; vm_compute; auto|right].
  assert (sgm s = 1) as E1.
  { unfold sgm. rewrite Z.shiftr_div_pow2 by lia. change (2 ^ 31) with 2147483648 in *. change (2 ^ 32) with 4294967296 in *. lia. }
  assert (vmag s = s - 2 ^ 31) as E2.
  { unfold vmag. change 2147483647 with (2 ^ 31 - 1). rewrite land_ones_mod by lia.
    change (2 ^ 31) with 2147483648 in *. change (2 ^ 32) with 4294967296 in *. lia. }
  change (2 ^ 31) with 2147483648 in *. change (2 ^ 32) with 4294967296 in *.
  repeat apply conj; auto; try lia. unfold expo. rewrite E1. lia.
Qed.

Lemma clz_bound v : 0 <= v < 2 ^ 31 -> 0 <= 32 - clz32 v <= 31 /\ v < 2 ^ (32 - clz32 v) /\
  (0 < 32 - clz32 v -> 2 ^ (32 - clz32 v - 1) <= v).
Proof.
  intros H. unfold clz32. destruct (v =? 0) eqn:E.
  - assert (v = 0) as -> by lia. cbn. lia.
  - assert (0 < v) as Hv by lia. pose proof (Z.log2_spec v Hv) as L. pose proof (Z.log2_nonneg v).
    assert (Z.log2 v < 31) by (apply Z.log2_lt_pow2; lia).
    replace (32 - (31 - Z.log2 v)) with (Z.succ (Z.log2 v)) by lia.
    replace (Z.succ (Z.log2 v) - 1) with (Z.log2 v) by lia. lia.
Qed.

Lemma sgm_01 s : swf s -> sgm s = 0 \/ sgm s = 1.
Proof. intros H. destruct (swf_cases s H) as [(_ & H1 & _)|(_ & H1 & _)]; auto. Qed.

Lemma expo_bound s : swf s -> 0 <= expo s <= 31 /\ vmag s < 2 ^ expo s /\ 0 <= vmag s /\
  (0 < expo s -> sgm s = 1 /\ 2 ^ (expo s - 1) <= vmag s).
Proof.
  intros H. destruct (swf_cases s H) as [(-> & H1 & H2 & H3)|(H0 & H1 & H2 & H3 & H4)].
  - rewrite H3, H2. cbn. lia.
  - rewrite H4. pose proof (clz_bound _ H3) as (B1 & B2 & B3). repeat apply conj; lia.
Qed.

(** ** Quads *)

Definition qwf (q : quad) : Prop :=
  let '(s0, s1, s2, s3) := q in swf s0 /\ swf s1 /\ swf s2 /\ swf s3.

(** Sample [i] of a quad. *)
Definition qs (q : quad) (i : Z) : Z :=
  let '(s0, s1, s2, s3) := q in
  if i =? 0 then s0 else if i =? 1 then s1 else if i =? 2 then s2 else s3.

Lemma qs_wf q i : qwf q -> swf (qs q i).
Proof.
  destruct q as [[[s0 s1] s2] s3]. intros (H0 & H1 & H2 & H3). unfold qs.
  destruct (i =? 0); [assumption|]. destruct (i =? 1); [assumption|]. destruct (i =? 2); assumption.
Qed.

Lemma idx4 i : 0 <= i < 4 -> i = 0 \/ i = 1 \/ i = 2 \/ i = 3. Proof. lia. Qed.

Lemma rho_spec q : qwf q -> 0 <= q_rho q < 16 /\
  (forall i, 0 <= i < 4 -> Z.testbit (q_rho q) i = (sgm (qs q i) =? 1)).
Proof.
  destruct q as [[[s0 s1] s2] s3]. intros (H0 & H1 & H2 & H3).
  unfold q_rho, qs.
  destruct (sgm_01 _ H0) as [E0|E0], (sgm_01 _ H1) as [E1|E1],
           (sgm_01 _ H2) as [E2|E2], (sgm_01 _ H3) as [E3|E3]; rewrite E0, E1, E2, E3;
  (split; [vm_compute; split; congruence|]);
  intros i Hi; destruct (idx4 i Hi) as [-> | [-> | [-> | ->]]]; cbn [Z.eqb Pos.eqb];
  rewrite ?E0, ?E1, ?E2, ?E3; reflexivity.
Qed.

Lemma emax_spec q : qwf q -> 0 <= q_emax q <= 31 /\
  (forall i, expo (qs q i) <= q_emax q) /\
  (exists i, 0 <= i < 4 /\ expo (qs q i) = q_emax q).
Proof.
  destruct q as [[[s0 s1] s2] s3]. intros (H0 & H1 & H2 & H3).
  pose proof (expo_bound _ H0) as (B0 & _). pose proof (expo_bound _ H1) as (B1 & _).
  pose proof (expo_bound _ H2) as (B2 & _). pose proof (expo_bound _ H3) as (B3 & _).
  unfold q_emax, max4, qs. repeat apply conj; try lia.
  - intros i. destruct (i =? 0); [lia|]. destruct (i =? 1); [lia|]. destruct (i =? 2); lia.
  - destruct (Z.max_spec (expo s0) (expo s1)) as [[_ E1]|[_ E1]],
             (Z.max_spec (expo s2) (expo s3)) as [[_ E2]|[_ E2]]; rewrite E1, E2;
    [destruct (Z.max_spec (expo s1) (expo s3)) as [[_ E]|[_ E]] |
     destruct (Z.max_spec (expo s1) (expo s2)) as [[_ E]|[_ E]] |
     destruct (Z.max_spec (expo s0) (expo s3)) as [[_ E]|[_ E]] |
     destruct (Z.max_spec (expo s0) (expo s2)) as [[_ E]|[_ E]]]; rewrite E;
    solve [exists 0; cbn; lia | exists 1; cbn; lia | exists 2; cbn; lia | exists 3; cbn; lia].
Qed.

(** The exponent pattern: bit i set when [u <> 0] and sample i has the largest
    exponent. *)
Lemma emb_spec q uo : uo = 0 \/ uo = 1 -> 0 <= emb_pattern q uo < 16 /\
  (forall i, 0 <= i < 4 -> Z.testbit (emb_pattern q uo) i = (expo (qs q i) =? q_emax q) && (uo =? 1)).
Proof.
  destruct q as [[[s0 s1] s2] s3]. intros Hu. unfold emb_pattern.
  set (em := q_emax (s0, s1, s2, s3)). clearbody em. unfold qs.
  destruct (expo s0 =? em) eqn:E0, (expo s1 =? em) eqn:E1, (expo s2 =? em) eqn:E2,
    (expo s3 =? em) eqn:E3, Hu as [->| ->];
  (split; [vm_compute; split; congruence|]);
  intros i Hi; destruct (idx4 i Hi) as [-> | [-> | [-> | ->]]]; cbn [Z.eqb Pos.eqb];
  rewrite ?E0, ?E1, ?E2, ?E3; reflexivity.
Qed.

Lemma emb_sub q kappa : qwf q -> 1 <= kappa ->
  let u := Z.max (q_emax q) kappa - kappa in
  let emb := emb_pattern q (off u) in
  0 <= emb < 16 /\ Z.land emb (q_rho q) = emb /\ (emb =? 0) = (u =? 0).
Proof.
  intros Hq Hk u emb.
  assert (off u = 0 \/ off u = 1) as Hu by (unfold off; destruct (u =? 0); auto).
  destruct (emb_spec q (off u) Hu) as [R B]. fold emb in R, B.
  destruct (rho_spec q Hq) as [Rr Br]. destruct (emax_spec q Hq) as (M1 & M2 & i0 & Hi0 & M3).
  assert (forall i, 0 <= i < 4 -> Z.testbit emb i = true -> Z.testbit (q_rho q) i = true) as S.
  { intros i Hi Hb. rewrite B in Hb by assumption. apply andb_prop in Hb as [Hb1 Hb2].
    rewrite Br by assumption.
    assert (u <> 0) as Hu0 by (unfold off in Hb2; destruct (u =? 0) eqn:E; [discriminate|lia]).
    assert (0 < expo (qs q i)) as He by (unfold u in Hu0; lia).
    apply expo_bound in He; [|apply qs_wf; assumption]. lia. }
  repeat apply conj; try lia.
  - apply Z.bits_inj'. intros n Hn. rewrite Z.land_spec.
    destruct (Z.lt_ge_cases n 4).
    + destruct (Z.testbit emb n) eqn:E; [|reflexivity]. rewrite S by (auto; lia). reflexivity.
    + rewrite (testbit_high emb 4) by (cbn; lia). reflexivity.
  - unfold off in *. destruct (u =? 0) eqn:E.
    + assert (emb = 0) as ->; [|reflexivity]. apply Z.bits_inj'. intros n Hn. rewrite Z.bits_0.
      destruct (Z.lt_ge_cases n 4); [rewrite B by lia; apply andb_false_r|apply (testbit_high emb 4); cbn; lia].
    + assert (Z.testbit emb i0 = true) as T by (rewrite B by lia; rewrite M3, Z.eqb_refl; reflexivity).
      destruct (emb =? 0) eqn:E2; [|reflexivity]. assert (emb = 0) as Hz by lia.
      rewrite Hz, Z.bits_0 in T. discriminate.
Qed.

(** ** Coding a quad *)

(** The tables of the first and of the later line-pairs. *)
Definition etab (first : bool) : list Z := if first then enc_CxtVLC_table0 else enc_CxtVLC_table1.
Definition dtab (first : bool) : list Z := if first then dec_CxtVLC_table0_fast_16 else dec_CxtVLC_table1_fast_16.
Definition eutab (first : bool) : list Z := if first then enc_UVLC_table0 else enc_UVLC_table1.
Definition dutab (first : bool) : list Z := if first then uvlc_dec_0 else uvlc_dec_1.

Lemma etab_len f : zlen (etab f) = 2048. Proof. destruct f; vm_compute; reflexivity. Qed.
Lemma dtab_len f : zlen (dtab f) = 1024. Proof. destruct f; vm_compute; reflexivity. Qed.
Lemma eutab_len f : zlen (eutab f) = 1024. Proof. destruct f; vm_compute; reflexivity. Qed.

(** [c] is the context number, 0 to 7. *)
Definition pcode (first : bool) (c kappa : Z) (q : quad) : qcode :=
  let U := Z.max (q_emax q) kappa in
  let u := U - kappa in
  let emb := emb_pattern q (off u) in
  let cx := znth 0 (etab first) (emb + Z.shiftl (q_rho q) 4 + 256 * c) in
  QC U u (ex_embk cx) (Z.land emb (ex_embk cx)) (ex_cwd cx) (ex_lw cx).

Lemma code_quad_ok first c kappa q : qwf q -> 1 <= kappa -> 0 <= c < 8 ->
  code_quad (etab first) (256 * c) kappa q = Ret (pcode first c kappa q).
Proof.
  intros Hq Hk Hc. unfold code_quad. fold (off (Z.max (q_emax q) kappa - kappa)).
  pose proof (emb_sub q kappa Hq Hk) as (E1 & E2 & E3). cbv zeta in E1, E2, E3.
  destruct (rho_spec q Hq) as [R _]. rewrite rd_in; [reflexivity|].
  rewrite etab_len. rewrite Z.shiftl_mul_pow2 by lia. change (2 ^ 4) with 16. lia.
Qed.

(** What the decoder's table entry must say about a quad. *)
Definition ent (t : Z) (k : qcode) (rho : Z) : Prop :=
  0 <= t < 65536 /\ Z.shiftr (Z.land t 15) 1 = k_lw k /\ Z.land t 1 = off (k_u k) /\
  Z.land (Z.shiftr t 4) 15 = rho /\ Z.shiftr t 12 = k_embk k /\ Z.land (Z.shiftr t 8) 15 = k_emb1 k.

Record code_ok (k : qcode) (q : quad) (kappa : Z) : Prop := CodeOk {
  co_U : k_U k = Z.max (q_emax q) kappa;
  co_u : k_u k = k_U k - kappa;
  co_cwd : 0 <= k_cwd k < 2 ^ k_lw k;
  co_lw : 0 <= k_lw k <= 7;
  co_embk : 0 <= k_embk k < 16;
  co_sub : Z.land (k_embk k) (q_rho q) = k_embk k;
  co_zero : k_u k = 0 -> k_embk k = 0;
  co_emb1 : k_emb1 k = Z.land (emb_pattern q (off (k_u k))) (k_embk k) }.

Lemma sweep3 {n1 n2 n3} (P : Z -> Z -> Z -> bool) :
  forallb (fun a => forallb (fun b => forallb (fun c => P a b c) (zseq n3)) (zseq n2)) (zseq n1) = true ->
  forall a b c, 0 <= a < n1 -> 0 <= b < n2 -> 0 <= c < n3 -> P a b c = true.
Proof.
  intros H a b c Ha Hb Hc. rewrite forallb_forall in H. specialize (H a (proj2 (zseq_In _ _) Ha)).
  rewrite forallb_forall in H. specialize (H b (proj2 (zseq_In _ _) Hb)).
  rewrite forallb_forall in H. exact (H c (proj2 (zseq_In _ _) Hc)).
Qed.

Lemma dtab_range : forallb (fun t => (0 <=? t) && (t <? 65536)) (dtab true) = true /\
  forallb (fun t => (0 <=? t) && (t <? 65536)) (dtab false) = true.
Proof. split; vm_compute; reflexivity. Qed.

Lemma dtab_entry f i : 0 <= i < 1024 -> 0 <= znth 0 (dtab f) i < 65536.
Proof.
  intros Hi. pose proof dtab_range as [H1 H2].
  assert (forallb (fun t => (0 <=? t) && (t <? 65536)) (dtab f) = true) as H by (destruct f; assumption).
  rewrite forallb_forall in H. specialize (H (znth 0 (dtab f) i) (znth_In 0 _ i ltac:(rewrite dtab_len; lia))). lia.
Qed.

Lemma pcode_ok first c kappa q : qwf q -> 1 <= kappa -> 0 <= c < 8 ->
  let k := pcode first c kappa q in
  code_ok k q kappa /\
  (if (c =? 0) && (q_rho q =? 0) then k_lw k = 0
   else forall v, 0 <= v -> v mod 2 ^ k_lw k = k_cwd k ->
        ent (znth 0 (dtab first) (Z.land v 127 + 128 * c)) k (q_rho q)).
Proof.
  intros Hq Hk Hc k.
  pose proof (emb_sub q kappa Hq Hk) as (E1 & E2 & E3). cbv zeta in E1, E2, E3.
  destruct (rho_spec q Hq) as [R _].
  set (u := Z.max (q_emax q) kappa - kappa) in *. set (emb := emb_pattern q (off u)) in *.
  set (cx := znth 0 (etab first) (emb + Z.shiftl (q_rho q) 4 + 256 * c)).
  assert (Hk' : k = QC (Z.max (q_emax q) kappa) u (ex_embk cx) (Z.land emb (ex_embk cx)) (ex_cwd cx) (ex_lw cx)) by reflexivity.
  clearbody k. subst k.
  assert (H : cxt_sweep (etab first) (dtab first) = true) by (destruct first; [exact cxt_sweep0|exact cxt_sweep1]).
  unfold cxt_sweep in H. pose proof (sweep3 _ H c (q_rho q) emb Hc R E1) as S. cbv beta in S.
  rewrite E2, Z.eqb_refl in S. cbv zeta in S. fold cx in S.
  apply andb_prop in S as [S1 S2]. unfold cxt_word_ok in S1.
  apply andb_prop in S1 as [S1 S1d]. apply andb_prop in S1 as [S1 S1c]. apply andb_prop in S1 as [S1a S1b].
  assert (0 <= ex_lw cx < 8) as Hlw by (unfold ex_lw; rewrite land_7; apply Z.mod_pos_bound; lia).
  assert (0 <= ex_embk cx < 16) as Hek by (unfold ex_embk; rewrite land_15; apply Z.mod_pos_bound; lia).
  split.
  - constructor; cbn [k_U k_u k_embk k_emb1 k_cwd k_lw]; try lia; try reflexivity.
    intros Hu. rewrite E3 in S1d. replace (u =? 0) with true in S1d by lia. lia.
  - cbn [k_lw k_cwd]. destruct ((c =? 0) && (q_rho q =? 0)); [lia|].
    intros v Hv Hm. rewrite forallb_forall in S2.
    specialize (S2 (Z.land v 127)). rewrite zseq_In in S2.
    assert (0 <= Z.land v 127 < 128) as Hw by (rewrite land_127; apply Z.mod_pos_bound; lia).
    specialize (S2 Hw). rewrite land_ones_mod in S2 by lia.
    assert (Z.land v 127 mod 2 ^ ex_lw cx = ex_cwd cx) as Em.
    { rewrite <- Hm, land_127. change 128 with (2 ^ 7). apply mod_pow_le; lia. }
    rewrite Em, Z.eqb_refl in S2. unfold cxt_entry_ok in S2. cbv zeta in S2.
    set (t := znth 0 (dtab first) (Z.land v 127 + 128 * c)) in *.
    assert (0 <= t < 65536) by (apply dtab_entry; lia).
    unfold ent. cbn [k_lw k_u k_embk k_emb1]. clear -S2 H0 E3. unfold off.
    rewrite E3 in S2. destruct (u =? 0); lia.
Qed.

Lemma uvlc_sweep_b f : uvlc_sweep (eutab f) (dutab f) f = true.
Proof. destruct f; [exact uvlc_sweep0|exact uvlc_sweep1]. Qed.

Definition euw (f : bool) (u0 u1 : Z) : Z := znth 0 (eutab f) (u0 + Z.shiftl u1 5).
Definition du_mo (f : bool) (u0 u1 : Z) : Z := if f && (2 <? Z.min u0 u1) then 64 else 0.

Lemma uvlc_ok f u0 u1 : 0 <= u0 < 32 -> 0 <= u1 < 32 ->
  let t := euw f u0 u1 in
  let len := Z.land t 255 in
  let cwd := Z.shiftr t 8 in
  uvlc_word (eutab f) (u0 + Z.shiftl u1 5) = Ret (cwd, len) /\
  0 <= cwd < 2 ^ len /\ 0 <= len <= 18 /\
  forall v, 0 <= v -> v mod 2 ^ len = cwd ->
    let r := znth 0 (dutab f) (Z.land v 63 + 64 * off u0 + 128 * off u1 + du_mo f u0 u1) in
    let tmp := Z.shiftr v (du_pl r) mod 2 ^ du_sl r in
    du_pl r + du_sl r = len /\
    du_p0 r + Z.land tmp (wrap32 (Z.lnot (Z.shiftl 255 (du_ql r)))) = u0 /\
    du_p1 r + Z.shiftr tmp (du_ql r) = u1.
Proof.
  intros H0 H1 t len cwd. pose proof (uvlc_sweep_b f) as S. unfold uvlc_sweep in S.
  rewrite forallb_forall in S. specialize (S u0 (proj2 (zseq_In _ _) H0)).
  rewrite forallb_forall in S. specialize (S u1 (proj2 (zseq_In _ _) H1)). cbv zeta in S.
  fold (euw f u0 u1) in S. fold t in S. fold len in S. fold cwd in S. fold (du_mo f u0 u1) in S.
  apply andb_prop in S as [S Sw]. apply andb_prop in S as [S Sl]. apply andb_prop in S as [Sa Sb].
  assert (0 <= len < 256) as Hlen by (unfold len; rewrite land_255; apply Z.mod_pos_bound; lia).
  repeat apply conj; try lia.
  { unfold uvlc_word. rewrite rd_in; [reflexivity|]. rewrite eutab_len, Z.shiftl_mul_pow2 by lia. change (2 ^ 5) with 32. lia. }
  intros v Hv Hm. cbv zeta. rewrite forallb_forall in Sw.
  assert (0 <= Z.land v 63 < 64) as Hw.
  { change 63 with (2 ^ 6 - 1). rewrite land_ones_mod by lia. apply Z.mod_pos_bound. lia. }
  specialize (Sw (Z.land v 63) (proj2 (zseq_In _ _) Hw)). cbv beta in Sw.
  rewrite !land_ones_mod in Sw by lia.
  set (mn := Z.min 6 len) in *.
  assert (Z.land v 63 mod 2 ^ mn = cwd mod 2 ^ mn) as Em.
  { rewrite <- Hm. change 63 with (2 ^ 6 - 1). rewrite land_ones_mod by lia. rewrite !mod_pow_le; lia. }
  rewrite Em, Z.eqb_refl in Sw. unfold uvlc_entry_ok in Sw. cbv zeta in Sw.
  set (r := znth 0 (dutab f) _) in *.
  assert (0 <= du_pl r < 8) as P1 by (unfold du_pl; rewrite land_7; apply Z.mod_pos_bound; lia).
  assert (0 <= du_sl r < 16) as P2 by (unfold du_sl; rewrite land_15; apply Z.mod_pos_bound; lia).
  rewrite land_ones_mod in Sw by lia.
  assert (Z.shiftr v (du_pl r) mod 2 ^ du_sl r = Z.shiftr cwd (du_pl r) mod 2 ^ du_sl r) as Et.
  { apply testbit_mod_eq; [lia|]. intros i Hi. rewrite !Z.shiftr_spec by lia. rewrite <- Hm.
    rewrite Z.mod_pow2_bits_low by lia. reflexivity. }
  rewrite Et. clearbody r. clear -Sw. lia.
Qed.
