(** The MQ decoder on arbitrary bytes and labels (C38), and against the
    decoding procedure of the standard (C53). *)
From Verif Require Import Base BaseLemmas MqModel.

(** ** Specification *)
(** What a caller may do: segments lie inside the buffer, labels are below 19,
    symbols are decoded in a coded segment and raw symbols in a raw one. *)
Fixpoint legal (buf : list Z) (mode : option bool) (ops : list mqop) : Prop :=
  match ops with
  | [] => True
  | Segment p n b :: ops => 0 <= p /\ 0 <= n /\ p + n <= zlen buf /\ legal buf (Some b) ops
  | ResetStates :: ops => legal buf mode ops
  | Decode l :: ops => mode = Some false /\ 0 <= l < 19 /\ legal buf mode ops
  | Raw :: ops => mode = Some true /\ legal buf mode ops
  end.
Definition symbols (ops : list mqop) : nat :=
  length (filter (fun o => match o with Decode _ | Raw => true | _ => false end) ops).

(** The decoding procedure of Rec. ITU-T T.800 Annex C.3.  Table C.2: Qe, NMPS,
    NLPS, SWITCH. *)
Definition table_C2 : list (Z * Z * Z * Z) :=
  [(0x5601, 1, 1, 1); (0x3401, 2, 6, 0); (0x1801, 3, 9, 0); (0x0AC1, 4, 12, 0); (0x0521, 5, 29, 0); (0x0221, 38, 33, 0);
   (0x5601, 7, 6, 1); (0x5401, 8, 14, 0); (0x4801, 9, 14, 0); (0x3801, 10, 14, 0); (0x3001, 11, 17, 0); (0x2401, 12, 18, 0);
   (0x1C01, 13, 20, 0); (0x1601, 29, 21, 0); (0x5601, 15, 14, 1); (0x5401, 16, 14, 0); (0x5101, 17, 15, 0); (0x4801, 18, 16, 0);
   (0x3801, 19, 17, 0); (0x3401, 20, 18, 0); (0x3001, 21, 19, 0); (0x2801, 22, 19, 0); (0x2401, 23, 20, 0); (0x2201, 24, 21, 0);
   (0x1C01, 25, 22, 0); (0x1801, 26, 23, 0); (0x1601, 27, 24, 0); (0x1401, 28, 25, 0); (0x1201, 29, 26, 0); (0x1101, 30, 27, 0);
   (0x0AC1, 31, 28, 0); (0x09C1, 32, 29, 0); (0x08A1, 33, 30, 0); (0x0521, 34, 31, 0); (0x0441, 35, 32, 0); (0x02A1, 36, 33, 0);
   (0x0221, 37, 34, 0); (0x0141, 38, 35, 0); (0x0111, 39, 36, 0); (0x0085, 40, 37, 0); (0x0049, 41, 38, 0); (0x0025, 42, 39, 0);
   (0x0015, 43, 40, 0); (0x0009, 44, 41, 0); (0x0005, 45, 42, 0); (0x0001, 45, 43, 0); (0x5601, 46, 46, 0)].
(** Registers A, C (Chigh is C / 2^16), CT, BP, and I(CX), MPS(CX). *)
Record std := Std { sA : Z; sC : Z; sCT : Z; sBP : Z; sI : list Z; sMPS : list Z }.
(** The segment of [n] bytes at [p], followed by 0xFF (as for a marker). *)
Definition stream (buf : list Z) (p n i : Z) : Z := if (0 <=? i) && (i <? n) then znth 0 buf (p + i) else 255.
(** Figure C.19 *)
Definition BYTEIN (B : Z -> Z) (s : std) : std :=
  if B (sBP s) =? 255 then
    if 143 <? B (sBP s + 1) then Std (sA s) (sC s + 65280) 8 (sBP s) (sI s) (sMPS s)
    else Std (sA s) (sC s + B (sBP s + 1) * 512) 7 (sBP s + 1) (sI s) (sMPS s)
  else Std (sA s) (sC s + B (sBP s + 1) * 256) 8 (sBP s + 1) (sI s) (sMPS s).
(** Figure C.20 *)
Definition INITDEC (B : Z -> Z) (s : std) : std :=
  let s := BYTEIN B (Std 0 (B 0 * 65536) 0 0 (sI s) (sMPS s)) in
  Std 0x8000 (sC s * 128) (sCT s - 7) (sBP s) (sI s) (sMPS s).
(** Figure C.18; the interval is never 0, so sixteen rounds are enough *)
Definition RENORM_step (B : Z -> Z) (s : std) : std :=
  let s := if sCT s =? 0 then BYTEIN B s else s in
  Std (sA s * 2) (sC s * 2) (sCT s - 1) (sBP s) (sI s) (sMPS s).
Fixpoint RENORMD (fuel : nat) (B : Z -> Z) (s : std) : std :=
  match fuel with
  | O => s
  | S fuel => let s := RENORM_step B s in if sA s <? 0x8000 then RENORMD fuel B s else s
  end.
(** Figures C.15, C.16, C.17 *)
Definition DECODE (B : Z -> Z) (s : std) (cx : Z) : Z * std :=
  let '(Qe, NMPS, NLPS, SWITCH) := znth (0, 0, 0, 0) table_C2 (znth 0 (sI s) cx) in
  let mps := znth 0 (sMPS s) cx in
  let a := sA s - Qe in
  let as_MPS := (mps, NMPS, mps) in
  let as_LPS := (1 - mps, NLPS, if SWITCH =? 1 then 1 - mps else mps) in
  let done (a c : Z) (r : Z * Z * Z) := let '(d, i, m) := r in
    (d, RENORMD 16 B (Std a c (sCT s) (sBP s) (wr (sI s) cx i) (wr (sMPS s) cx m))) in
  if sC s / 65536 <? Qe then done Qe (sC s) (if a <? Qe then as_MPS else as_LPS)
  else
    let c := sC s - Qe * 65536 in
    if a <? 0x8000 then done a c (if a <? Qe then as_LPS else as_MPS)
    else (mps, Std a c (sCT s) (sBP s) (sI s) (sMPS s)).
(** Table D.7: initial states *)
Definition INIT_CX (s : std) : std :=
  Std (sA s) (sC s) (sCT s) (sBP s) (map (fun cx => if cx =? 0 then 4 else if cx =? 17 then 3 else if cx =? 18 then 46 else 0) (zseq 19)) (map (fun _ => 0) (zseq 19)).
Fixpoint std_run (buf : list Z) (B : Z -> Z) (s : std) (ops : list mqop) : list Z :=
  match ops with
  | Segment p n _ :: ops => let B := stream buf p n in std_run buf B (INITDEC B s) ops
  | ResetStates :: ops => std_run buf B (INIT_CX s) ops
  | Decode l :: ops => let '(x, s) := DECODE B s l in x :: std_run buf B s ops
  | _ => []
  end.
Definition std0 : std := Std 0 0 0 0 (repeat 0 19) (repeat 0 19).

(** ** Safety *)
Definition bit (b : Z) : Prop := b = 0 \/ b = 1.
Record Common (buf : list Z) (m : mq) : Prop := {
  c_buf : bytes_ok buf; c_seg : 0 <= L_start m <= L m; c_max : L m <= Lmax m; c_len : Lmax m <= zlen buf < 2 ^ 32;
  c_T : 0 <= T m < 256;
  c_Sigma : zlen (Sigma m) = 19 /\ Forall (fun s => 0 <= s < 47) (Sigma m);
  c_sk : zlen (sk m) = 19 /\ Forall bit (sk m) }.

Lemma seg_byte_ok buf m : Common buf m -> L m <> Lmax m -> seg_byte buf m = Ret (znth 0 buf (L m)) /\ 0 <= znth 0 buf (L m) < 256.
Proof.
  intros [B S M Ln _ _ _] N. unfold seg_byte. replace ((L_start m <=? L m) && (L m <? Lmax m)) with true by lia.
  rewrite rd_in by lia. split; [reflexivity|]. apply bytes_ok_nth; [exact B|lia].
Qed.
Lemma fill_ok buf m : Common buf m -> exists m', fill_LSBs buf m = Ret m' /\ Common buf m' /\ (t m' = 7 \/ t m' = 8) /\
  A m' = A m /\ Sigma m' = Sigma m /\ sk m' = sk m /\ L_start m' = L_start m /\ Lmax m' = Lmax m.
Proof.
  intros Cm. unfold fill_LSBs. destruct (Z.eqb_spec (L m) (Lmax m)) as [E|E].
  - cbn [bind]. eexists. split; [reflexivity|]. destruct Cm. split; [constructor; assumption|]. cbn. auto 10.
  - destruct (seg_byte_ok buf m Cm E) as [Sb Sr]. rewrite Sb. cbn [bind].
    assert (forall t', (t' = 7 \/ t' = 8) -> exists m', Ret (set_C (Mq (A m) t' (C m) (znth 0 buf (L m)) (wrap32 (L m + 1)) (L_start m) (Lmax m) (Sigma m) (sk m) (ovf m)) (C m + znth 0 buf (L m) * 2 ^ (8 - t'))) = Ret m' /\
      Common buf m' /\ (t m' = 7 \/ t m' = 8) /\ A m' = A m /\ Sigma m' = Sigma m /\ sk m' = sk m /\ L_start m' = L_start m /\ Lmax m' = Lmax m) as K.
    { intros t' Ht. eexists. split; [reflexivity|]. destruct Cm. rewrite wrap32_small by (unfold two32; lia). split; [constructor; cbn; auto; lia|]. cbn. auto 10. }
    destruct (Z.eqb_spec (T m) 255); cbn [bind].
    + destruct (Z.ltb_spec 143 (znth 0 buf (L m))); [|apply K; auto]. eexists. split; [reflexivity|]. destruct Cm. split; [constructor; assumption|]. cbn. auto 10.
    + apply K. auto.
Qed.
Lemma common_shift buf m n : Common buf m -> Common buf (shift m n).
Proof. intros []. constructor; assumption. Qed.
Lemma renorm_loop_ok buf fuel : forall m n, Common buf m -> 0 < n <= Z.of_nat fuel -> exists m', renorm_loop fuel buf m n = Ret m' /\ Common buf m' /\
  A m' = A m * 2 ^ n /\ 0 <= t m' <= 8 /\ Sigma m' = Sigma m /\ sk m' = sk m /\ L_start m' = L_start m /\ Lmax m' = Lmax m.
Proof.
  induction fuel as [|fuel IH]; intros m n Cm Hn; [lia|]. cbn [renorm_loop]. destruct (fill_ok buf m Cm) as (m1 & -> & C1 & T1 & A1 & S1 & K1 & L1 & X1). cbn [bind].
  destruct (Z.leb_spec n (t m1)) as [H|H].
  - replace (0 <? n - n) with false by lia. eexists. split; [reflexivity|]. split; [now apply common_shift|]. cbn [A t Sigma sk L_start Lmax shift]. rewrite A1, S1, K1, L1, X1. repeat split; lia.
  - replace (0 <? n - t m1) with true by lia. destruct (IH (shift m1 (t m1)) (n - t m1)) as (m' & -> & C' & A' & T' & S' & K' & L' & X'); [now apply common_shift|lia|].
    exists m'. split; [reflexivity|]. split; [exact C'|]. cbn [A t Sigma sk L_start Lmax shift] in *. rewrite A', S', K', L', X', A1, S1, K1, L1, X1. split; [|auto 10].
    rewrite <- Z.mul_assoc, <- Z.pow_add_r by lia. do 2 f_equal. lia.
Qed.
Lemma renorm_ok buf m : Common buf m -> 0 < A m < Areg_min -> 0 <= t m <= 8 -> exists m', renormalize buf m = Ret m' /\ Common buf m' /\
  A m' = A m * 2 ^ (23 - Z.log2 (A m)) /\ 0 <= t m' <= 8 /\ Sigma m' = Sigma m /\ sk m' = sk m /\ L_start m' = L_start m /\ Lmax m' = Lmax m.
Proof.
  intros Cm Ha Ht. unfold renormalize, count_leading_zeros. assert (0 <= Z.log2 (A m) < 23) as Lg by (split; [apply Z.log2_nonneg|apply Z.log2_lt_pow2; [lia|unfold Areg_min in Ha; lia]]).
  replace (31 - Z.log2 (A m) - 8) with (23 - Z.log2 (A m)) by lia. set (n := 23 - Z.log2 (A m)) in *.
  assert (exists m1, (if t m =? 0 then fill_LSBs buf m else Ret m) = Ret m1 /\ Common buf m1 /\ 0 < t m1 <= 8 /\ A m1 = A m /\ Sigma m1 = Sigma m /\ sk m1 = sk m /\ L_start m1 = L_start m /\ Lmax m1 = Lmax m) as (m1 & -> & C1 & T1 & A1 & S1 & K1 & L1 & X1).
  { destruct (Z.eqb_spec (t m) 0); [|exists m; repeat (split; [auto; lia|]); auto]. destruct (fill_ok buf m Cm) as (m1 & E & C1 & T1 & R). exists m1. split; [exact E|]. split; [exact C1|]. split; [lia|exact R]. }
  cbn [bind]. destruct (Z.leb_spec n (t m1)) as [H|H].
  - eexists. split; [reflexivity|]. split; [now apply common_shift|]. cbn [A t Sigma sk L_start Lmax shift]. rewrite A1, S1, K1, L1, X1. repeat split; lia.
  - destruct (renorm_loop_ok buf 32 (shift m1 (t m1)) (n - t m1)) as (m' & -> & C' & A' & T' & S' & K' & L' & X'); [now apply common_shift|lia|].
    exists m'. split; [reflexivity|]. split; [exact C'|]. cbn [A t Sigma sk L_start Lmax shift] in *. rewrite A', S', K', L', X', A1, S1, K1, L1, X1. split; [|auto 10].
    rewrite <- Z.mul_assoc, <- Z.pow_add_r by lia. do 2 f_equal. lia.
Qed.
Lemma renorm_A a : 0 < a -> a < Areg_min -> Areg_min <= a * 2 ^ (23 - Z.log2 a) < 2 * Areg_min.
Proof.
  intros H0 H1. pose proof (Z.log2_spec a H0) as [S1 S2]. assert (0 <= Z.log2 a < 23) as Lg by (split; [apply Z.log2_nonneg|apply Z.log2_lt_pow2; [lia|unfold Areg_min in H1; lia]]).
  assert (0 < 2 ^ (23 - Z.log2 a)) by (apply Z.pow_pos_nonneg; lia).
  assert (2 ^ Z.log2 a * 2 ^ (23 - Z.log2 a) = Areg_min) as E by (rewrite <- Z.pow_add_r by lia; unfold Areg_min; f_equal; lia).
  rewrite Z.pow_succ_r in S2 by lia. nia.
Qed.

(** The table, unpacked. *)
Lemma table_eq : static_table = map (fun '(Qe, NMPS, NLPS, SWITCH) => SWITCH * 2 ^ 31 + NMPS * 2 ^ 24 + NLPS * 2 ^ 16 + Qe) table_C2.
Proof. reflexivity. Qed.
Definition unpack (v : Z) : Z * Z * Z * Z := (Z.land v 65535, Z.land (Z.shiftr v 24) 63, Z.land (Z.shiftr v 16) 63, Z.shiftr v 31).
Lemma table_rows : forallb (fun i => let '(Qe, NMPS, NLPS, SWITCH) := znth (0, 0, 0, 0) table_C2 i in
  let '(a, b, c, d) := unpack (znth 0 static_table i) in
  (a =? Qe) && (b =? NMPS) && (c =? NLPS) && (d =? SWITCH) && (0 <? Qe) && (Qe <=? 0x5601) && (0 <=? NMPS) && (NMPS <? 47) && (0 <=? NLPS) && (NLPS <? 47) && ((SWITCH =? 0) || (SWITCH =? 1))) (zseq 47) = true.
Proof. vm_compute. reflexivity. Qed.
Lemma table_row i : 0 <= i < 47 -> exists Qe NMPS NLPS SWITCH, znth (0, 0, 0, 0) table_C2 i = (Qe, NMPS, NLPS, SWITCH) /\ rd static_table i = Ret (znth 0 static_table i) /\
  unpack (znth 0 static_table i) = (Qe, NMPS, NLPS, SWITCH) /\ 0 < Qe <= 0x5601 /\ 0 <= NMPS < 47 /\ 0 <= NLPS < 47 /\ bit SWITCH.
Proof.
  intros H. pose proof (proj1 (forallb_forall _ _) table_rows i (proj2 (zseq_In 47 i) H)) as K. cbv beta in K. destruct (znth (0, 0, 0, 0) table_C2 i) as [[[Qe N] NL] S] eqn:E.
  destruct (unpack (znth 0 static_table i)) as [[[a b] c] d] eqn:U. exists Qe, N, NL, S. split; [reflexivity|]. split; [apply rd_in; exact H|].
  assert (a = Qe /\ b = N /\ c = NL /\ d = S) as (-> & -> & -> & ->) by lia. split; [reflexivity|]. unfold bit. lia.
Qed.

Lemma wr_len l i v : 0 <= i < zlen l -> zlen (wr l i v) = zlen l.
Proof. intros H. unfold wr. rewrite !zlen_app, zlen_ztake, zlen_zskip by lia. change (zlen [v]) with 1. lia. Qed.
Lemma wr_Forall (P : Z -> Prop) l i v : Forall P l -> P v -> Forall P (wr l i v).
Proof.
  intros F H. unfold wr, ztake, zskip. apply Forall_app. split; [|apply Forall_app; split; [repeat constructor; exact H|]].
  - rewrite <- (firstn_skipn (Z.to_nat i) l) in F. now apply Forall_app in F.
  - rewrite <- (firstn_skipn (Z.to_nat (i + 1)) l) in F. now apply Forall_app in F.
Qed.
Definition Coding (buf : list Z) (m : mq) : Prop := Common buf m /\ Areg_min <= A m < 2 * Areg_min /\ 0 <= t m <= 8.

Lemma init_ok buf m p n b : bytes_ok buf -> zlen buf < 2 ^ 32 -> 0 <= p -> 0 <= n -> p + n <= zlen buf ->
  zlen (Sigma m) = 19 /\ Forall (fun s => 0 <= s < 47) (Sigma m) -> zlen (sk m) = 19 /\ Forall bit (sk m) ->
  exists m', init buf m p n b = Ret m' /\ Sigma m' = Sigma m /\ sk m' = sk m /\ (if b then Common buf m' /\ t m' = 0 else Coding buf m').
Proof.
  intros Hb Hl Hp Hn Hs S1 S2. unfold init. rewrite wrap32_small by (unfold two32; lia).
  destruct b.
  - eexists. split; [reflexivity|]. split; [reflexivity|]. split; [reflexivity|]. split; [|reflexivity]. constructor; cbn; auto; lia.
  - match goal with |- context [fill_LSBs buf ?x] => assert (Common buf x) as C0 by (constructor; cbn; auto; lia); destruct (fill_ok buf x C0) as (m1 & -> & C1 & T1 & A1 & Sg1 & K1 & L1 & X1) end. cbn [bind].
    assert (Common buf (set_C m1 (C m1 * 2 ^ t m1))) as C2 by (destruct C1; constructor; assumption).
    destruct (fill_ok buf _ C2) as (m3 & -> & C3 & T3 & A3 & Sg3 & K3 & L3 & X3). cbn [bind]. eexists. split; [reflexivity|]. cbn in *. split; [congruence|]. split; [congruence|].
    split; [destruct C3; constructor; assumption|]. cbn. rewrite A3, A1. unfold Areg_min. lia.
Qed.

Lemma lxor_bit a b : bit a -> bit b -> bit (Z.lxor a b).
Proof. intros [->| ->] [->| ->]; cbn; unfold bit; auto. Qed.
Lemma decode_ok buf m l : Coding buf m -> 0 <= l < 19 -> exists x m', decode buf m l = Ret (x, m') /\ bit x /\ Coding buf m'.
Proof.
  intros (Cm & Ha & Ht) Hl. pose proof Cm as [_ _ _ _ _ [Z1 F1] [Z2 F2]]. unfold decode. rewrite rd_in by lia. cbn [bind].
  assert (0 <= znth 0 (Sigma m) l < 47) as Hs by (refine (proj1 (Forall_forall _ _) F1 _ (znth_In 0 _ l _)); lia).
  assert (bit (znth 0 (sk m) l)) as Hk by (refine (proj1 (Forall_forall _ _) F2 _ (znth_In 0 _ l _)); lia).
  destruct (table_row _ Hs) as (Qe & N & NL & S & _ & -> & U & HQ & HN & HNL & HS). cbn [bind]. unfold unpack in U. apply pair_inj in U. destruct U as [U U4]. apply pair_inj in U. destruct U as [U U3]. apply pair_inj in U. destruct U as [U1 U2].
  rewrite U1, U2, U3, U4. rewrite rd_in by lia. cbn [bind]. rewrite Z.shiftl_mul_pow2 by lia. change (2 ^ 8) with 256. set (p := Qe * 256) in *. set (s := znth 0 (sk m) l) in *.
  assert (forall x s' sg m1, bit x -> bit s' -> 0 <= sg < 47 -> Coding buf m1 -> Sigma m1 = Sigma m -> sk m1 = sk m ->
    exists x' m', (let* (x, s, Sigma_k, m) := Ret (x, s', sg, m1) in Ret (x mod 256, Mq (A m) (t m) (C m) (T m) (L m) (L_start m) (Lmax m) (wr (Sigma m) l Sigma_k) (wr (sk m) l s) (ovf m))) = Ret (x', m') /\ bit x' /\ Coding buf m') as K.
  { intros x s' sg m1 Bx Bs Hsg (Cm1 & Ha1 & Ht1) E1 E2. cbn [bind]. eexists _, _. split; [reflexivity|]. split; [destruct Bx; subst; unfold bit; cbn; auto|].
    split; [|split; [exact Ha1|exact Ht1]]. destruct Cm1. constructor; cbn; auto; rewrite ?E1, ?E2; rewrite wr_len by lia; (split; [assumption|]); apply wr_Forall; assumption. }
  assert (forall b : bool, bit (Z.lxor s (if b then 1 else 0))) as B1 by (intros []; apply lxor_bit; unfold bit in *; auto).
  assert (forall b : bool, bit (Z.lxor s (Z.land S (- (if b then 1 else 0))))) as B2 by (intros b; apply lxor_bit; [exact Hk|]; destruct HS as [->| ->], b; cbn; unfold bit; auto).
  assert (forall b : bool, 0 <= (if (if b then 1 else 0) =? 1 then NL else N) < 47) as B3 by (intros []; cbn; lia).
  assert (forall m1, Common buf m1 -> Sigma m1 = Sigma m -> sk m1 = sk m -> 0 < A m1 < Areg_min -> 0 <= t m1 <= 8 -> exists m', renormalize buf m1 = Ret m' /\ Coding buf m' /\ Sigma m' = Sigma m /\ sk m' = sk m) as R.
  { intros m1 Cm1 E1 E2 Ha1 Ht1. destruct (renorm_ok buf m1 Cm1 Ha1 Ht1) as (m' & E & C' & A' & T' & S' & K' & _). exists m'. split; [exact E|]. split; [|split; congruence].
    split; [exact C'|]. split; [rewrite A'; apply renorm_A; lia|exact T']. }
  assert (Areg_min = 8388608) as Am by reflexivity.
  destruct (Z.leb_spec p (C (set_A m (A m - p)))) as [H|H].
  - destruct (Z.ltb_spec (A (set_C (set_A m (A m - p)) (C (set_A m (A m - p)) - p))) Areg_min) as [H2|H2]; cbn [A set_C set_A] in H2.
    + match goal with |- context [renormalize buf ?x] => destruct (R x) as (m1 & -> & C1 & S1 & K1) end; [destruct Cm; constructor; assumption|reflexivity|reflexivity|cbn [A set_C set_A]; lia|exact Ht|].
      cbn [bind]. apply K; auto.
    + apply K; auto. split; [destruct Cm; constructor; assumption|]. cbn [A t set_C set_A]. lia.
  - match goal with |- context [renormalize buf ?x] => destruct (R x) as (m1 & -> & C1 & S1 & K1) end; [destruct Cm; constructor; assumption|reflexivity|reflexivity|cbn [A set_C set_A]; lia|exact Ht|].
    cbn [bind]. apply K; auto.
Qed.
Lemma raw_ok buf m : Common buf m -> 0 <= t m <= 8 -> exists x m', get_raw_symbol buf m = Ret (x, m') /\ bit x /\ Common buf m' /\ 0 <= t m' <= 8.
Proof.
  intros Cm Ht. unfold get_raw_symbol.
  match goal with |- context [bind ?x _] => assert (exists m1, x = Ret m1 /\ Common buf m1 /\ 0 < t m1 <= 8) as (m1 & -> & C1 & T1) end.
  { destruct (Z.eqb_spec (t m) 0); [|exists m; repeat split; auto; try lia; try apply Cm]. destruct (Z.eqb_spec (L m) (Lmax m)) as [E|E].
    - eexists. split; [reflexivity|]. destruct Cm. split; [constructor; cbn; auto; lia|cbn; lia].
    - destruct (seg_byte_ok buf m Cm E) as [-> Sr]. cbn [bind]. eexists. split; [reflexivity|]. destruct Cm. rewrite wrap32_small by (unfold two32; lia). split; [constructor; cbn; auto; lia|cbn; destruct (T m =? 255); lia]. }
  cbn [bind]. eexists _, _. split; [reflexivity|]. cbn [T t]. rewrite land_1. split; [unfold bit; lia|]. split; [destruct C1; constructor; assumption|lia].
Qed.

Definition Mode (buf : list Z) (mode : option bool) (m : mq) : Prop :=
  match mode with
  | None => (zlen (Sigma m) = 19 /\ Forall (fun s => 0 <= s < 47) (Sigma m)) /\ zlen (sk m) = 19 /\ Forall bit (sk m)
  | Some false => Coding buf m
  | Some true => Common buf m /\ 0 <= t m <= 8
  end.
Lemma mode_tables buf mode m : Mode buf mode m -> (zlen (Sigma m) = 19 /\ Forall (fun s => 0 <= s < 47) (Sigma m)) /\ zlen (sk m) = 19 /\ Forall bit (sk m).
Proof. destruct mode as [[]|]; cbn; [intros [[] _]|intros [[] _]|]; tauto. Qed.
Lemma reset_mode buf mode m : Mode buf mode m -> Mode buf mode (init_states_for_all_contexts m).
Proof.
  assert (Forall (fun s => 0 <= s < 47) ([4] ++ repeat 0 16 ++ [3; 46])) as F1 by (repeat constructor; lia). assert (Forall bit (repeat 0 19)) as F2 by (repeat constructor; left; reflexivity).
  destruct mode as [[]|]; cbn [Mode].
  - intros [[] H]. split; [constructor; cbn [Sigma sk init_states_for_all_contexts]; auto|exact H].
  - intros [[] H]. split; [constructor; cbn [Sigma sk init_states_for_all_contexts]; auto|exact H].
  - intros _. cbn [Sigma sk init_states_for_all_contexts]. auto.
Qed.
Lemma run_ok buf ops : forall mode m, bytes_ok buf -> zlen buf < 2 ^ 32 -> Mode buf mode m -> legal buf mode ops ->
  exists xs m' mode', mq_run buf m ops = Ret (xs, m') /\ length xs = symbols ops /\ Forall bit xs /\ Mode buf mode' m'.
Proof.
  induction ops as [|o ops IH]; intros mode m Hb Hl Hm Hg; [exists [], m, mode; auto|]. destruct o as [p n b| |l|]; cbn [mq_run legal] in *.
  - destruct Hg as (H1 & H2 & H3 & Hg). destruct (mode_tables buf mode m Hm) as [T1 T2]. destruct (init_ok buf m p n b Hb Hl H1 H2 H3 T1 T2) as (m1 & -> & _ & _ & M1). cbn [bind].
    apply (IH (Some b) m1); auto. destruct b; cbn; [|exact M1]. destruct M1. split; [assumption|lia].
  - apply (IH mode); auto. now apply reset_mode.
  - destruct Hg as (-> & H1 & Hg). destruct (decode_ok buf m l Hm H1) as (x & m1 & -> & Bx & M1). cbn [bind]. destruct (IH (Some false) m1 Hb Hl M1 Hg) as (xs & m' & mode' & -> & Ln & F & M'). cbn [bind].
    exists (x :: xs), m', mode'. split; [reflexivity|]. split; [cbn; rewrite Ln; reflexivity|]. auto.
  - destruct Hg as (-> & Hg). destruct Hm as [Hm1 Hm2]. destruct (raw_ok buf m Hm1 Hm2) as (x & m1 & -> & Bx & M1). cbn [bind]. destruct (IH (Some true) m1 Hb Hl M1 Hg) as (xs & m' & mode' & -> & Ln & F & M'). cbn [bind].
    exists (x :: xs), m', mode'. split; [reflexivity|]. split; [cbn; rewrite Ln; reflexivity|]. auto.
Qed.

(** ** C38 *)

(** On arbitrary bytes, any legal use reads only inside the current segment and
    the tables, and every symbol is 0 or 1. *)
Theorem C38_safe : forall buf ops, bytes_ok buf -> zlen buf < 2 ^ 32 -> legal buf None ops ->
  exists xs m, mq_run buf mq0 ops = Ret (xs, m) /\ length xs = symbols ops /\ Forall bit xs.
Proof.
  intros buf ops Hb Hl Hg. destruct (run_ok buf ops None mq0 Hb Hl) as (xs & m & mode & E & Ln & F & _); [|exact Hg|exists xs, m; auto].
  cbn. split; split; try reflexivity; repeat constructor; lia.
Qed.
Print Assumptions C38_safe.

(** In a coded segment the interval register is normalised after every step and
    the state indices and senses stay in range. *)
Theorem C38_normalised : forall buf pre p n ls, let ops := pre ++ [Segment p n false] ++ map Decode ls in
  bytes_ok buf -> zlen buf < 2 ^ 32 -> legal buf None ops ->
  exists xs m, mq_run buf mq0 ops = Ret (xs, m) /\ 2 ^ 23 <= A m < 2 ^ 24 /\ p <= L m <= p + n /\ 0 <= t m <= 8 /\
    Forall (fun s => 0 <= s < 47) (Sigma m) /\ Forall bit (sk m).
Proof.
  intros buf pre p n ls ops Hb Hl Hg. subst ops.
  assert (forall pre mode m, Mode buf mode m -> legal buf mode (pre ++ [Segment p n false] ++ map Decode ls) -> exists xs m', mq_run buf m (pre ++ [Segment p n false] ++ map Decode ls) = Ret (xs, m') /\ Coding buf m' /\ L_start m' = p /\ Lmax m' = p + n) as K.
  { assert (forall ls m, Coding buf m -> L_start m = p -> Lmax m = p + n -> legal buf (Some false) (map Decode ls) -> exists xs m', mq_run buf m (map Decode ls) = Ret (xs, m') /\ Coding buf m' /\ L_start m' = p /\ Lmax m' = p + n) as K1.
    { clear Hg. induction ls0 as [|l ls0 IH]; intros m M S1 S2 Hg; [exists [], m; auto|]. cbn [map mq_run legal] in *. destruct Hg as (_ & H1 & Hg).
      destruct (decode_ok buf m l M H1) as (x & m1 & E & Bx & M1).
      assert (L_start m1 = L_start m /\ Lmax m1 = Lmax m) as [Q1 Q2].
      { clear - E M H1. unfold decode in E. destruct M as (Cm & Ha & Ht). destruct (rd (Sigma m) l) as [sg| |]; try discriminate E. cbn [bind] in E.
        destruct (rd static_table sg) as [v| |]; try discriminate E. cbn [bind] in E. destruct (rd (sk m) l) as [s| |]; try discriminate E. cbn [bind] in E.
        assert (forall x m', Common buf x -> L_start x = L_start m -> Lmax x = Lmax m -> renormalize buf x = Ret m' -> L_start m' = L_start m /\ Lmax m' = Lmax m) as R.
        { clear. intros x m' Cx E1 E2 R. assert (forall y z, Common buf y -> fill_LSBs buf y = Ret z -> Common buf z /\ L_start z = L_start y /\ Lmax z = Lmax y) as F.
          { intros y z Cy Fz. destruct (fill_ok buf y Cy) as (z' & E' & C' & _ & _ & _ & _ & Ls & Lx). rewrite E' in Fz. apply Ret_inj in Fz. subst z'. auto. }
          assert (forall fuel y k z, Common buf y -> renorm_loop fuel buf y k = Ret z -> L_start z = L_start y /\ Lmax z = Lmax y) as G.
          { induction fuel as [|fuel IH]; intros y k z Cy Gz; [discriminate|]. cbn [renorm_loop] in Gz. destruct (fill_LSBs buf y) as [y1| |] eqn:Fy; try discriminate Gz. destruct (F _ _ Cy Fy) as (C1 & Q1 & Q2). cbn [bind] in Gz.
            destruct (0 <? _) in Gz; [|apply Ret_inj in Gz; subst z; cbn; auto]. apply IH in Gz; [|now apply common_shift]. cbn in Gz. destruct Gz. split; congruence. }
          unfold renormalize in R. assert (exists x1, (if t x =? 0 then fill_LSBs buf x else Ret x) = Ret x1 /\ Common buf x1 /\ L_start x1 = L_start x /\ Lmax x1 = Lmax x) as (x1 & Ex & C1 & Q1 & Q2).
          { destruct (t x =? 0); [|exists x; auto]. destruct (fill_ok buf x Cx) as (z' & E' & _). exists z'. split; [exact E'|]. now apply F. }
          rewrite Ex in R. cbn [bind] in R. destruct (_ <=? t x1) in R; [apply Ret_inj in R; subst m'; cbn; split; congruence|]. apply G in R; [|now apply common_shift]. cbn in R. destruct R; split; congruence. }
        assert (forall a, Common buf (set_A m a)) as CA by (destruct Cm; constructor; assumption).
        assert (forall a c, Common buf (set_C (set_A m a) c)) as CC by (destruct Cm; constructor; assumption).
        destruct (_ <=? C _) in E.
        - destruct (A _ <? Areg_min) in E; [destruct (renormalize buf _) as [m2| |] eqn:Er in E; try discriminate E; apply R in Er; auto|]; cbn [bind] in E; apply Ret_inj, pair_inj in E; destruct E as [_ <-]; cbn; tauto.
        - destruct (renormalize buf _) as [m2| |] eqn:Er in E; try discriminate E. apply R in Er; [|apply (CA _)|reflexivity|reflexivity]. cbn [bind] in E; apply Ret_inj, pair_inj in E; destruct E as [_ <-]; cbn; tauto. }
      rewrite E. cbn [bind]. destruct (IH m1 M1) as (xs & m' & -> & R); [congruence|congruence|exact Hg|]. cbn [bind]. eexists _, m'. split; [reflexivity|exact R]. }
    clear Hg. induction pre0 as [|o pre0 IH]; intros mode m Hm Hg.
    - cbn [app mq_run legal] in *. destruct Hg as (H1 & H2 & H3 & Hg). destruct (mode_tables buf mode m Hm) as [T1 T2]. destruct (init_ok buf m p n false Hb Hl H1 H2 H3 T1 T2) as (m1 & E & _ & _ & M1). rewrite E. cbn [bind].
      apply K1; auto.
      + clear - E Hb Hl H1 H2 H3 T1 T2. unfold init in E. rewrite wrap32_small in E by (unfold two32; lia).
        match type of E with context [fill_LSBs buf ?x] => assert (Common buf x) as C0 by (constructor; cbn; auto; lia); destruct (fill_ok buf x C0) as (m2 & E2 & C1 & _ & _ & _ & _ & L1 & X1) end. rewrite E2 in E. cbn [bind] in E.
        assert (Common buf (set_C m2 (C m2 * 2 ^ t m2))) as C2 by (destruct C1; constructor; assumption). destruct (fill_ok buf _ C2) as (m3 & E3 & C3 & _ & _ & _ & _ & L3 & X3). rewrite E3 in E. cbn [bind] in E. apply Ret_inj in E. subst m1. cbn in *. congruence.
      + clear - E Hb Hl H1 H2 H3 T1 T2. unfold init in E. rewrite wrap32_small in E by (unfold two32; lia).
        match type of E with context [fill_LSBs buf ?x] => assert (Common buf x) as C0 by (constructor; cbn; auto; lia); destruct (fill_ok buf x C0) as (m2 & E2 & C1 & _ & _ & _ & _ & L1 & X1) end. rewrite E2 in E. cbn [bind] in E.
        assert (Common buf (set_C m2 (C m2 * 2 ^ t m2))) as C2 by (destruct C1; constructor; assumption). destruct (fill_ok buf _ C2) as (m3 & E3 & C3 & _ & _ & _ & _ & L3 & X3). rewrite E3 in E. cbn [bind] in E. apply Ret_inj in E. subst m1. cbn in *. congruence.
    - destruct o as [q k b| |l|]; cbn [app mq_run legal] in *.
      + destruct Hg as (H1 & H2 & H3 & Hg). destruct (mode_tables buf mode m Hm) as [T1 T2]. destruct (init_ok buf m q k b Hb Hl H1 H2 H3 T1 T2) as (m1 & -> & _ & _ & M1). cbn [bind].
        apply (IH (Some b) m1); auto. destruct b; cbn; [|exact M1]. destruct M1. split; [assumption|lia].
      + apply (IH mode); auto. now apply reset_mode.
      + destruct Hg as (-> & H1 & Hg). destruct (decode_ok buf m l Hm H1) as (x & m1 & -> & Bx & M1). cbn [bind]. destruct (IH (Some false) m1 M1 Hg) as (xs & m' & -> & R). cbn [bind]. eexists _, m'. split; [reflexivity|exact R].
      + destruct Hg as (-> & Hg). destruct Hm as [Hm1 Hm2]. destruct (raw_ok buf m Hm1 Hm2) as (x & m1 & -> & Bx & M1). cbn [bind]. destruct (IH (Some true) m1 M1 Hg) as (xs & m' & -> & R). cbn [bind]. eexists _, m'. split; [reflexivity|exact R]. }
  destruct (K pre None mq0) as (xs & m & E & (Cm & Ha & Ht) & S1 & S2); [cbn; split; split; try reflexivity; repeat constructor; lia|exact Hg|].
  exists xs, m. split; [exact E|]. destruct Cm as [_ G1 G2 _ _ [_ G3] [_ G4]]. unfold Areg_min in Ha. change (2 ^ 24) with (2 * 2 ^ 23). repeat split; auto; lia.
Qed.
Print Assumptions C38_normalised.

(** ** C53: the standard's procedure *)

(** The coded segments contain no byte pair FF 80 .. FF 8F.  The standard's
    encoder never produces one: after FF it emits at most seven bits. *)
Fixpoint clean (buf : list Z) (ops : list mqop) : Prop :=
  match ops with
  | [] => True
  | Segment p n b :: ops => (b = false /\ forall i, p <= i -> i + 1 < p + n -> znth 0 buf i = 255 -> znth 0 buf (i + 1) < 128 \/ 143 < znth 0 buf (i + 1)) /\ clean buf ops
  | _ :: ops => clean buf ops
  end.

Lemma fits_small v : 0 <= v < 2 * Areg_min -> fits v = true /\ i32 v = v.
Proof. unfold Areg_min. change (2 ^ 23) with 8388608. intros H. unfold fits, i32. change (2 ^ 31) with 2147483648. change (2 ^ 32) with 4294967296. split; [lia|]. rewrite Z.mod_small; lia. Qed.
Lemma lt_of_mul a b c : 0 <= a -> 0 < b -> a * b < c -> a < c.
Proof. nia. Qed.

Section Equivalence.
  Variables (buf : list Z) (p n : Z).
  Hypothesis Hclean : forall i, p <= i -> i + 1 < p + n -> znth 0 buf i = 255 -> znth 0 buf (i + 1) < 128 \/ 143 < znth 0 buf (i + 1).
  Hypothesis Hp : 0 <= p.
  Hypothesis Hn : 0 <= n.
  Notation B := (stream buf p n).
  Lemma B_in i : 0 <= i < n -> B i = znth 0 buf (p + i).
  Proof. intros H. unfold stream. replace ((0 <=? i) && (i <? n)) with true by lia. reflexivity. Qed.
  Lemma B_out i : n <= i -> B i = 255.
  Proof. intros H. unfold stream. replace ((0 <=? i) && (i <? n)) with false by lia. reflexivity. Qed.

  Definition Pos (m : mq) (bp : Z) : Prop := Common buf m /\ L_start m = p /\ Lmax m = p + n /\
    ((0 <= bp < n /\ L m = p + bp + 1 /\ T m = B bp) \/ (bp = n /\ L m = p + n)).
  Lemma fill_std m s : Pos m (sBP s) -> exists d m1, fill_LSBs buf m = Ret m1 /\ Pos m1 (sBP (BYTEIN B s)) /\
    C m1 = i32 (C m + d) /\ ovf m1 = (ovf m || negb (fits (C m + d))) /\ A m1 = A m /\ Sigma m1 = Sigma m /\ sk m1 = sk m /\
    (t m1 = 7 \/ t m1 = 8) /\ 0 <= d <= 255 /\ d mod 2 ^ (8 - t m1) = 0 /\
    sA (BYTEIN B s) = sA s /\ sC (BYTEIN B s) = sC s + 256 * d /\ sCT (BYTEIN B s) = t m1 /\ sI (BYTEIN B s) = sI s /\ sMPS (BYTEIN B s) = sMPS s.
  Proof.
    intros (Cm & S1 & S2 & Ps). destruct (fill_ok buf m Cm) as (m1 & E & C1 & _). rewrite E.
    unfold fill_LSBs in E. destruct (Z.eqb_spec (L m) (Lmax m)) as [H|H].
    - cbn [bind] in E. apply Ret_inj in E. exists 255, m1. split; [reflexivity|].
      assert (BYTEIN B s = Std (sA s) (sC s + 65280) 8 (if B (sBP s) =? 255 then sBP s else sBP s + 1) (sI s) (sMPS s)) as Es.
      { unfold BYTEIN. rewrite (B_out (sBP s + 1)) by lia. destruct (B (sBP s) =? 255); reflexivity. }
      rewrite Es. subst m1. cbn [sA sC sCT sBP sI sMPS C A Sigma sk t ovf set_C]. split; [|repeat split; auto; try lia; reflexivity].
      split; [exact C1|]. split; [exact S1|]. split; [exact S2|]. cbn [L T set_C]. destruct Ps as [(P1 & P2 & P3)|(P1 & P2)].
      + destruct (Z.eqb_spec (B (sBP s)) 255); [left; auto|right; lia].
      + rewrite (B_out (sBP s)) by lia. cbn. right. lia.
    - destruct Ps as [(P1 & P2 & P3)|(P1 & P2)]; [|lia]. destruct (seg_byte_ok buf m Cm H) as [Sb Sr]. rewrite Sb in E. cbn [bind] in E.
      assert (wrap32 (L m + 1) = L m + 1) as W by (apply wrap32_small; destruct Cm; unfold two32; lia). rewrite W in E.
      assert (B (sBP s + 1) = znth 0 buf (L m)) as Eb by (rewrite B_in by lia; f_equal; lia). unfold BYTEIN. rewrite Eb, <- P3.
      destruct (Z.eqb_spec (T m) 255) as [T2|T2]; cbn [bind] in E.
      + destruct (Z.ltb_spec 143 (znth 0 buf (L m))); apply Ret_inj in E.
        * exists 255, m1. split; [reflexivity|]. subst m1. cbn [sA sC sCT sBP sI sMPS C A Sigma sk t ovf set_C]. split; [|repeat split; auto; try lia; reflexivity].
          split; [exact C1|]. split; [exact S1|]. split; [exact S2|]. cbn [L T set_C]. left. auto.
        * change (2 ^ (8 - 7)) with 2 in E. assert (znth 0 buf (L m) < 128) as Hc.
          { destruct (Hclean (L m - 1)) as [K|K]; try lia; [rewrite B_in in P3 by lia; rewrite <- T2, P3; f_equal; lia| |]; replace (L m - 1 + 1) with (L m) in K by lia; lia. }
          exists (znth 0 buf (L m) * 2), m1. split; [reflexivity|]. subst m1. cbn [sA sC sCT sBP sI sMPS C A Sigma sk t ovf set_C]. split; [|change (2 ^ (8 - 7)) with 2; repeat split; auto; lia].
          split; [exact C1|]. split; [exact S1|]. split; [exact S2|]. cbn [L T set_C]. left. rewrite Eb. lia.
      + apply Ret_inj in E. change (2 ^ (8 - 8)) with 1 in E. rewrite Z.mul_1_r in E. exists (znth 0 buf (L m)), m1. split; [reflexivity|]. subst m1. cbn [sA sC sCT sBP sI sMPS C A Sigma sk t ovf set_C].
        split; [|change (2 ^ (8 - 8)) with 1; repeat split; auto; lia].
        split; [exact C1|]. split; [exact S1|]. split; [exact S2|]. cbn [L T set_C]. left. rewrite Eb. lia.
  Qed.

  Record Rel (m : mq) (s : std) : Prop := {
    r_pos : Pos m (sBP s); r_A : A m = 256 * sA s; r_C : sC s = 256 * C m; r_t : sCT s = t m; r_I : sI s = Sigma m; r_M : sMPS s = sk m;
    r_ovf : ovf m = false; r_bound : 0 <= C m < A m; r_max : A m < 2 * Areg_min; r_tb : 0 <= t m <= 8; r_mod : C m mod 2 ^ (8 - t m) = 0 }.
  Lemma rel_fill m s : Rel m s -> t m = 0 -> exists m1, fill_LSBs buf m = Ret m1 /\ Rel m1 (BYTEIN B s) /\ 7 <= t m1.
  Proof.
    intros [Ps RA RC Rt RI RM Ro Rb Rx Rtb Rm] T0. destruct (fill_std m s Ps) as (d & m1 & E & P1 & Ec & Eo & Ea & Es & Ek & Et & Hd & Hm & E1 & E2 & E3 & E4 & E5).
    exists m1. split; [exact E|]. split; [|lia]. rewrite T0 in Rm. change (2 ^ (8 - 0)) with 256 in Rm.
    assert (C m + d < A m) by lia. destruct (fits_small (C m + d)) as [F1 F2]; [lia|]. rewrite F1, Ro in Eo. rewrite F2 in Ec.
    constructor; rewrite ?E1, ?E2, ?E3, ?E4, ?E5, ?Ea, ?Ec, ?Es, ?Ek, ?Eo; auto; try lia.
    destruct Et as [Et|Et]; rewrite Et in *; [change (2 ^ (8 - 7)) with 2 in *|change (2 ^ (8 - 8)) with 1 in *]; lia.
  Qed.

  Fixpoint iter (k : nat) (s : std) : std := match k with O => s | S k => iter k (RENORM_step B s) end.
  Lemma iter_add j k s : iter (j + k) s = iter k (iter j s).
  Proof. revert s. induction j; intros s; cbn; auto. Qed.
  (* [k] shifts without refilling *)
  Lemma iter_shift k : forall s, Z.of_nat k <= sCT s -> iter k s = Std (sA s * 2 ^ Z.of_nat k) (sC s * 2 ^ Z.of_nat k) (sCT s - Z.of_nat k) (sBP s) (sI s) (sMPS s).
  Proof.
    induction k as [|k IH]; intros s H; [cbn; destruct s; cbn; f_equal; lia|]. cbn [iter]. unfold RENORM_step. replace (sCT s =? 0) with false by lia.
    rewrite IH by (cbn [sCT]; lia). cbn [sA sC sCT sBP sI sMPS]. rewrite Nat2Z.inj_succ, Z.pow_succ_r by lia. f_equal; lia.
  Qed.
  Lemma rel_shift m s k : Rel m s -> 0 <= k <= t m -> A m * 2 ^ k < 2 * Areg_min -> Rel (shift m k) (iter (Z.to_nat k) s).
  Proof.
    intros [Ps RA RC Rt RI RM Ro Rb Rx Rtb Rm] Hk Ha. assert (0 < 2 ^ k) by (apply Z.pow_pos_nonneg; lia). rewrite iter_shift by lia. rewrite Z2Nat.id by lia.
    destruct (fits_small (C m * 2 ^ k)) as [F1 F2]; [nia|]. constructor; cbn [A t C T L Sigma sk ovf shift set_C sA sC sCT sBP sI sMPS]; rewrite ?F1, ?F2, ?Ro; auto; try nia.
    - destruct Ps as (Cm & Ps). split; [now apply common_shift|exact Ps].
    - replace (8 - (t m - k)) with (8 - t m + k) by lia. rewrite Z.pow_add_r by lia. rewrite Z.mul_mod_distr_r by (try apply Z.pow_nonzero; lia). rewrite Rm. lia.
  Qed.
  Lemma iter_fill k s : sCT s = 0 -> (0 < k)%nat -> iter k s = iter k (BYTEIN B s).
  Proof.
    intros H Hk. destruct k as [|k]; [lia|]. cbn [iter]. f_equal. unfold RENORM_step at 1. rewrite H. cbn [Z.eqb]. unfold RENORM_step.
    assert (sCT (BYTEIN B s) = 7 \/ sCT (BYTEIN B s) = 8) as [E|E] by (unfold BYTEIN; destruct (_ =? 255); [destruct (143 <? _)|]; cbn; auto); replace (sCT (BYTEIN B s) =? 0) with false by lia; reflexivity.
  Qed.
  Lemma rel_loop fuel : forall m s k, Rel m s -> t m = 0 -> 0 < k <= Z.of_nat fuel -> A m * 2 ^ k < 2 * Areg_min ->
    exists m', renorm_loop fuel buf m k = Ret m' /\ Rel m' (iter (Z.to_nat k) s).
  Proof.
    induction fuel as [|fuel IH]; intros m s k R T0 Hk Ha; [lia|]. cbn [renorm_loop]. destruct (rel_fill m s R T0) as (m1 & E & R1 & T1).
    assert (A m1 = A m) as Ea by (destruct (fill_ok buf m (proj1 (r_pos _ _ R))) as (x & Ex & _ & _ & Ax & _); rewrite Ex in E; apply Ret_inj in E; subst x; exact Ax).
    rewrite E. cbn [bind]. rewrite (iter_fill (Z.to_nat k) s) by (rewrite ?(r_t _ _ R); lia). destruct (Z.leb_spec k (t m1)) as [H|H].
    - replace (0 <? k - k) with false by lia. eexists. split; [reflexivity|]. apply rel_shift; [exact R1|lia|now rewrite Ea].
    - replace (0 <? k - t m1) with true by lia. assert (A m1 * 2 ^ t m1 * 2 ^ (k - t m1) = A m * 2 ^ k) as Ep by (rewrite Ea, <- Z.mul_assoc, <- Z.pow_add_r by lia; do 2 f_equal; lia).
      assert (0 < 2 ^ (k - t m1)) by (apply Z.pow_pos_nonneg; lia). assert (0 < 2 ^ t m1) by (apply Z.pow_pos_nonneg; lia). pose proof (r_bound _ _ R1).
      destruct (IH (shift m1 (t m1)) (iter (Z.to_nat (t m1)) (BYTEIN B s)) (k - t m1)) as (m' & E' & R').
      + apply rel_shift; [exact R1|lia|]. apply (lt_of_mul _ (2 ^ (k - t m1))); [apply Z.mul_nonneg_nonneg; lia|assumption|rewrite Ep; assumption || lia].
      + cbn. lia.
      + lia.
      + cbn [A shift]. lia.
      + exists m'. split; [exact E'|]. rewrite <- iter_add in R'. replace (Z.to_nat (t m1) + Z.to_nat (k - t m1))%nat with (Z.to_nat k) in R' by lia. exact R'.
  Qed.
  Lemma renormd_iter k : forall fuel s, (0 < k)%nat -> (k <= fuel)%nat -> 0 < sA s -> sA s * 2 ^ (Z.of_nat k - 1) < 0x8000 <= sA s * 2 ^ Z.of_nat k -> RENORMD fuel B s = iter k s.
  Proof.
    induction k as [|k IH]; intros fuel s H1 H2 H3 H4; [lia|]. destruct fuel as [|fuel]; [lia|]. cbn [RENORMD iter].
    assert (sA (RENORM_step B s) = sA s * 2) as Ea by (unfold RENORM_step; destruct (sCT s =? 0); [unfold BYTEIN; destruct (_ =? 255); [destruct (143 <? _)|]|]; reflexivity). rewrite Ea.
    replace (Z.of_nat (S k) - 1) with (Z.of_nat k) in H4 by lia. rewrite Nat2Z.inj_succ, Z.pow_succ_r in H4 by lia. destruct k as [|k].
    - change (2 ^ Z.of_nat 0) with 1 in H4. replace (sA s * 2 <? 0x8000) with false by lia. reflexivity.
    - replace (sA s * 2 <? 0x8000) with true by (rewrite Nat2Z.inj_succ, Z.pow_succ_r in H4 by lia; assert (0 < 2 ^ Z.of_nat k) by (apply Z.pow_pos_nonneg; lia); nia).
      apply IH; try lia. rewrite Ea. replace (Z.of_nat (S k) - 1) with (Z.of_nat k) by lia. rewrite Nat2Z.inj_succ, Z.pow_succ_r in H4 |- * by lia. nia.
  Qed.
  Lemma rel_renorm m s : Rel m s -> A m < Areg_min -> exists m', renormalize buf m = Ret m' /\ Rel m' (RENORMD 16 B s) /\ Areg_min <= A m'.
  Proof.
    intros R Ha. pose proof (r_bound _ _ R) as Hb. pose proof (r_A _ _ R) as RA. pose proof (r_tb _ _ R) as Htb. set (k := 23 - Z.log2 (A m)). pose proof (renorm_A (A m) ltac:(lia) Ha) as HA. fold k in HA.
    assert (0 <= Z.log2 (A m) < 23) as Lg by (split; [apply Z.log2_nonneg|apply Z.log2_lt_pow2; [lia|unfold Areg_min in Ha; lia]]).
    assert (8 <= Z.log2 (A m)) by (apply Z.log2_le_pow2; [lia|]; change (2 ^ 8) with 256; lia).
    assert (RENORMD 16 B s = iter (Z.to_nat k) s) as ->.
    { apply renormd_iter; try lia. rewrite Z2Nat.id by lia. replace (2 ^ k) with (2 * 2 ^ (k - 1)) in * by (rewrite <- Z.pow_succ_r by lia; f_equal; lia). rewrite RA in HA. unfold Areg_min in HA. change (2 ^ 23) with (256 * 0x8000) in HA. nia. }
    unfold renormalize, count_leading_zeros. replace (31 - Z.log2 (A m) - 8) with k by lia.
    assert (exists m1 s1, (if t m =? 0 then fill_LSBs buf m else Ret m) = Ret m1 /\ Rel m1 s1 /\ iter (Z.to_nat k) s = iter (Z.to_nat k) s1 /\ 0 < t m1 /\ A m1 = A m) as (m1 & s1 & -> & R1 & -> & T1 & A1).
    { destruct (Z.eqb_spec (t m) 0) as [T0|T0]; [|exists m, s; repeat split; auto; try apply R; lia]. destruct (rel_fill m s R T0) as (m1 & E & R1 & T1).
      assert (A m1 = A m) as Ea by (destruct (fill_ok buf m (proj1 (r_pos _ _ R))) as (x & Ex & _ & _ & Ax & _); rewrite Ex in E; apply Ret_inj in E; subst x; exact Ax).
      exists m1, (BYTEIN B s). split; [exact E|]. split; [exact R1|]. split; [apply iter_fill; rewrite ?(r_t _ _ R); lia|]. split; [lia|exact Ea]. }
    cbn [bind]. pose proof (r_bound _ _ R1) as Hb1. pose proof (r_tb _ _ R1) as Htb1. destruct (Z.leb_spec k (t m1)) as [H1|H1].
    - eexists. split; [reflexivity|]. split; [apply rel_shift; [exact R1|lia|rewrite A1; lia]|]. cbn [A shift]. rewrite A1. lia.
    - assert (A m1 * 2 ^ t m1 * 2 ^ (k - t m1) = A m * 2 ^ k) as Ep by (rewrite A1, <- Z.mul_assoc, <- Z.pow_add_r by lia; do 2 f_equal; lia).
      assert (0 < 2 ^ (k - t m1)) by (apply Z.pow_pos_nonneg; lia). assert (0 < 2 ^ t m1) by (apply Z.pow_pos_nonneg; lia).
      destruct (rel_loop 32 (shift m1 (t m1)) (iter (Z.to_nat (t m1)) s1) (k - t m1)) as (m' & E' & R').
      + apply rel_shift; [exact R1|lia|]. apply (lt_of_mul _ (2 ^ (k - t m1))); [apply Z.mul_nonneg_nonneg; lia|assumption|rewrite Ep; assumption || lia].
      + cbn. lia.
      + lia.
      + cbn [A shift]. lia.
      + exists m'. split; [exact E'|]. rewrite <- iter_add in R'. replace (Z.to_nat (t m1) + Z.to_nat (k - t m1))%nat with (Z.to_nat k) in R' by lia. split; [exact R'|].
        destruct (renorm_loop_ok buf 32 (shift m1 (t m1)) (k - t m1)) as (m2 & E2 & _ & A2 & _); [apply common_shift, R1|lia|]. rewrite E' in E2. apply Ret_inj in E2. subst m2. rewrite A2. cbn [A shift]. lia.
  Qed.

  Lemma rel_decode m s l : Rel m s -> Areg_min <= A m -> 0 <= l < 19 -> exists x m' s', decode buf m l = Ret (x, m') /\ DECODE B s l = (x, s') /\ Rel m' s' /\ Areg_min <= A m'.
  Proof.
    intros R Ha Hl. pose proof R as [Ps RA RC Rt RI RM Ro Rb Rx Rtb Rm]. pose proof (proj1 Ps) as Cm. pose proof Cm as [_ _ _ _ _ [Z1 F1] [Z2 F2]]. unfold decode. rewrite rd_in by lia. cbn [bind].
    assert (0 <= znth 0 (Sigma m) l < 47) as Hs by (refine (proj1 (Forall_forall _ _) F1 _ (znth_In 0 _ l _)); lia).
    assert (bit (znth 0 (sk m) l)) as Hk by (refine (proj1 (Forall_forall _ _) F2 _ (znth_In 0 _ l _)); lia).
    destruct (table_row _ Hs) as (Qe & N & NL & X & E & -> & U & HQ & HN & HNL & HS). cbn [bind]. unfold unpack in U. apply pair_inj in U. destruct U as [U U4]. apply pair_inj in U. destruct U as [U U3]. apply pair_inj in U. destruct U as [U1 U2].
    rewrite U1, U2, U3, U4. rewrite rd_in by lia. cbn [bind]. rewrite Z.shiftl_mul_pow2 by lia. change (2 ^ 8) with 256.
    unfold DECODE. rewrite RI, RM, E. set (k := znth 0 (sk m) l) in *.
    assert (forall x k' sg m1 s1, bit x -> Rel m1 s1 -> Areg_min <= A m1 -> 0 <= sg < 47 -> bit k' ->
      exists m', (let* (x, s, Sigma_k, m) := Ret (x, k', sg, m1) in Ret (x mod 256, Mq (A m) (t m) (C m) (T m) (L m) (L_start m) (Lmax m) (wr (Sigma m) l Sigma_k) (wr (sk m) l s) (ovf m))) = Ret (x, m') /\
        Rel m' (Std (sA s1) (sC s1) (sCT s1) (sBP s1) (wr (sI s1) l sg) (wr (sMPS s1) l k')) /\ Areg_min <= A m') as K.
    { intros x k' sg m1 s1 Bx R1 Ha1 Hsg Hk'. cbn [bind]. eexists. split; [destruct Bx; subst x; reflexivity|]. destruct R1 as [(Cm1 & Ps1) ? ? ? R1I R1M ? ? ? ? ?]. split; [|exact Ha1]. constructor; cbn; auto; try (f_equal; assumption); try (rewrite R1I; reflexivity); try (rewrite R1M; reflexivity).
      split; [|exact Ps1]. destruct Cm1 as [? ? ? ? ? [G1 G2] [G3 G4]]. constructor; cbn; auto; rewrite wr_len by lia; (split; [assumption|]); apply wr_Forall; auto. }
    assert (forall fuel s0 i0 m0, RENORMD fuel B (Std (sA s0) (sC s0) (sCT s0) (sBP s0) i0 m0) = let s1 := RENORMD fuel B s0 in Std (sA s1) (sC s1) (sCT s1) (sBP s1) i0 m0) as Fr.
    { clear. induction fuel as [|fuel IH]; intros s0 i0 m0; [reflexivity|]. cbn [RENORMD].
      assert (RENORM_step B (Std (sA s0) (sC s0) (sCT s0) (sBP s0) i0 m0) = let s1 := RENORM_step B s0 in Std (sA s1) (sC s1) (sCT s1) (sBP s1) i0 m0) as Est.
      { unfold RENORM_step. cbn [sCT]. destruct (sCT s0 =? 0); [unfold BYTEIN; cbn [sBP]; destruct (_ =? 255); [destruct (143 <? _)|]|]; reflexivity. }
      rewrite Est. cbv zeta. cbn [sA]. destruct (sA (RENORM_step B s0) <? 0x8000); [apply IH|reflexivity]. }
    assert (forall fuel s0, sI (RENORMD fuel B s0) = sI s0 /\ sMPS (RENORMD fuel B s0) = sMPS s0) as Fi.
    { clear. induction fuel as [|fuel IH]; intros s0; [auto|]. cbn [RENORMD]. assert (sI (RENORM_step B s0) = sI s0 /\ sMPS (RENORM_step B s0) = sMPS s0) as [Q1 Q2].
      { unfold RENORM_step. destruct (sCT s0 =? 0); [unfold BYTEIN; destruct (_ =? 255); [destruct (143 <? _)|]|]; auto. }
      destruct (_ <? 0x8000); [|auto]. destruct (IH (RENORM_step B s0)). split; congruence. }
    unfold Areg_min in *. change (2 ^ 23) with 8388608 in *.
    assert (sC s / 65536 <? Qe = negb (Qe * 256 <=? C m)) as Ecmp.
    { rewrite RC. assert (256 * C m / 65536 = C m / 256) as -> by (replace 65536 with (256 * 256) by reflexivity; rewrite Z.div_mul_cancel_l; lia). destruct (Z.leb_spec (Qe * 256) (C m)); cbn [negb]; lia. }
    rewrite Ecmp. cbn [C set_A]. destruct (Z.leb_spec (Qe * 256) (C m)) as [H|H]; cbn [negb].
    - assert (fits (C m - Qe * 256) = true /\ i32 (C m - Qe * 256) = C m - Qe * 256) as [G1 G2] by (apply fits_small; unfold Areg_min; lia).
      assert (sA s - Qe <? 32768 = (A m - Qe * 256 <? 8388608)) as E1 by lia. assert (sA s - Qe <? Qe = (A m - Qe * 256 <? Qe * 256)) as E2 by lia.
      assert (Rel (set_C (set_A m (A m - Qe * 256)) (C m - Qe * 256)) (Std (sA s - Qe) (sC s - Qe * 65536) (sCT s) (sBP s) (sI s) (sMPS s))) as R1.
      { constructor; cbn [A C t T L Sigma sk ovf set_A set_C sA sC sCT sBP sI sMPS]; rewrite ?G1, ?G2, ?Ro; auto; try lia.
        - destruct Ps as (Cm0 & Ps). split; [destruct Cm0; constructor; assumption|exact Ps].
        - unfold Areg_min. change (2 ^ 23) with 8388608. lia.
        - apply Z.mod_divide; [apply Z.pow_nonzero; lia|]. apply Z.divide_sub_r; [apply Z.mod_divide; [apply Z.pow_nonzero; lia|exact Rm]|]. exists (Qe * 2 ^ t m). rewrite <- Z.mul_assoc, <- Z.pow_add_r by lia. replace (t m + (8 - t m)) with 8 by lia. reflexivity. }
      rewrite E1, E2. cbn [A set_C set_A]. destruct (Z.ltb_spec (A m - Qe * 256) 8388608) as [H2|H2].
      + destruct (rel_renorm _ _ R1) as (m1 & Er & R2 & A2); [cbn [A set_C set_A]; unfold Areg_min; lia|]. rewrite Er. cbn [bind].
        change 65536 with (256 * 256) in *. destruct (Z.ltb_spec (A m - Qe * 256) (Qe * 256)) as [H3|H3]; cbn [Z.eqb Pos.eqb].
        * destruct (K (1 - k) (if X =? 1 then 1 - k else k) NL m1 _ ltac:(unfold bit in *; lia) R2 A2 HNL) as (m' & Ek & Rk & Ak); [unfold bit in *; destruct (X =? 1); lia|].
          exists (1 - k), m'. eexists. split; [|split; [reflexivity|split; [|exact Ak]]].
          -- replace (Z.lxor k 1) with (1 - k) by (destruct Hk as [->| ->]; reflexivity). replace (Z.lxor k (Z.land X (- (1)))) with (if X =? 1 then 1 - k else k) by (destruct Hk as [->| ->], HS as [->| ->]; reflexivity). exact Ek.
          -- pose proof (Fr 16%nat (Std (sA s - Qe) (sC s - Qe * (256 * 256)) (sCT s) (sBP s) (sI s) (sMPS s)) (wr (Sigma m) l NL) (wr (sk m) l (if X =? 1 then 1 - k else k))) as Fr'. cbv zeta in Fr'. cbn [sA sC sCT sBP] in Fr'. rewrite Fr'.
             destruct (Fi 16%nat (Std (sA s - Qe) (sC s - Qe * (256 * 256)) (sCT s) (sBP s) (sI s) (sMPS s))) as [Q1 Q2]. rewrite Q1, Q2 in Rk. cbn [sI sMPS] in Rk. rewrite <- RI, <- RM. exact Rk.
        * destruct (K k k N m1 _ Hk R2 A2 HN Hk) as (m' & Ek & Rk & Ak).
          exists k, m'. eexists. split; [|split; [reflexivity|split; [|exact Ak]]].
          -- change (- 0) with 0. rewrite Z.land_0_r, !Z.lxor_0_r. exact Ek.
          -- pose proof (Fr 16%nat (Std (sA s - Qe) (sC s - Qe * (256 * 256)) (sCT s) (sBP s) (sI s) (sMPS s)) (wr (Sigma m) l N) (wr (sk m) l k)) as Fr'. cbv zeta in Fr'. cbn [sA sC sCT sBP] in Fr'. rewrite Fr'.
             destruct (Fi 16%nat (Std (sA s - Qe) (sC s - Qe * (256 * 256)) (sCT s) (sBP s) (sI s) (sMPS s))) as [Q1 Q2]. rewrite Q1, Q2 in Rk. cbn [sI sMPS] in Rk. rewrite <- RI, <- RM. exact Rk.
      + cbn [bind]. replace (k mod 256) with k by (destruct Hk as [Q|Q]; rewrite Q; reflexivity).
        assert (forall (v : list Z) i, 0 <= i < zlen v -> wr v i (znth 0 v i) = v) as W.
        { clear. intros v i Hi. unfold wr, ztake, zskip, znth. replace (Z.to_nat (i + 1)) with (S (Z.to_nat i)) by lia. unfold zlen in Hi. assert (Z.to_nat i < length v)%nat as Hi' by lia. clear Hi. revert Hi'. generalize (Z.to_nat i) as j. clear i. induction v as [|a v IH]; intros [|j] H; cbn in *; try lia; [reflexivity|]. f_equal. apply IH. lia. }
        cbn [A t C T L L_start Lmax Sigma sk ovf set_C set_A]. unfold k. rewrite !W by lia. eexists _, _, _. split; [reflexivity|]. split; [reflexivity|]. split; [|cbn [A set_C set_A]; lia].
        rewrite RI, RM in R1. exact R1.
    - assert (Rel (set_A (set_A m (A m - Qe * 256)) (Qe * 256)) (Std Qe (sC s) (sCT s) (sBP s) (sI s) (sMPS s))) as R1.
      { constructor; cbn [A C t T L Sigma sk ovf set_A set_C sA sC sCT sBP sI sMPS]; auto; try lia.
        - destruct Ps as (Cm0 & Ps). split; [destruct Cm0; constructor; assumption|exact Ps].
        - unfold Areg_min. change (2 ^ 23) with 8388608. lia. }
      destruct (rel_renorm _ _ R1) as (m1 & Er & R2 & A2); [cbn [A set_C set_A]; unfold Areg_min; lia|]. rewrite Er. cbn [bind].
      cbn [A set_A]. replace (sA s - Qe <? Qe) with (negb (Qe * 256 <=? A m - Qe * 256)) by lia. destruct (Z.leb_spec (Qe * 256) (A m - Qe * 256)) as [H3|H3]; cbn [Z.eqb Pos.eqb negb].
      + destruct (K (1 - k) (if X =? 1 then 1 - k else k) NL m1 _ ltac:(unfold bit in *; lia) R2 A2 HNL) as (m' & Ek & Rk & Ak); [unfold bit in *; destruct (X =? 1); lia|].
        exists (1 - k), m'. eexists. split; [|split; [reflexivity|split; [|exact Ak]]].
        * replace (Z.lxor k 1) with (1 - k) by (destruct Hk as [->| ->]; reflexivity). replace (Z.lxor k (Z.land X (- (1)))) with (if X =? 1 then 1 - k else k) by (destruct Hk as [->| ->], HS as [->| ->]; reflexivity). exact Ek.
        * pose proof (Fr 16%nat (Std Qe (sC s) (sCT s) (sBP s) (sI s) (sMPS s)) (wr (Sigma m) l NL) (wr (sk m) l (if X =? 1 then 1 - k else k))) as Fr'. cbv zeta in Fr'. cbn [sA sC sCT sBP] in Fr'. rewrite Fr'.
          destruct (Fi 16%nat (Std Qe (sC s) (sCT s) (sBP s) (sI s) (sMPS s))) as [Q1 Q2]. rewrite Q1, Q2 in Rk. cbn [sI sMPS] in Rk. rewrite <- RI, <- RM. exact Rk.
      + destruct (K k k N m1 _ Hk R2 A2 HN Hk) as (m' & Ek & Rk & Ak).
        exists k, m'. eexists. split; [|split; [reflexivity|split; [|exact Ak]]].
        * change (- 0) with 0. rewrite Z.land_0_r, !Z.lxor_0_r. exact Ek.
        * pose proof (Fr 16%nat (Std Qe (sC s) (sCT s) (sBP s) (sI s) (sMPS s)) (wr (Sigma m) l N) (wr (sk m) l k)) as Fr'. cbv zeta in Fr'. cbn [sA sC sCT sBP] in Fr'. rewrite Fr'.
          destruct (Fi 16%nat (Std Qe (sC s) (sCT s) (sBP s) (sI s) (sMPS s))) as [Q1 Q2]. rewrite Q1, Q2 in Rk. cbn [sI sMPS] in Rk. rewrite <- RI, <- RM. exact Rk.
  Qed.
End Equivalence.

Lemma rel_init buf p n m s : bytes_ok buf -> zlen buf < 2 ^ 32 -> 0 <= p -> 0 <= n -> p + n <= zlen buf ->
  (forall i, p <= i -> i + 1 < p + n -> znth 0 buf i = 255 -> znth 0 buf (i + 1) < 128 \/ 143 < znth 0 buf (i + 1)) ->
  zlen (Sigma m) = 19 /\ Forall (fun s => 0 <= s < 47) (Sigma m) -> zlen (sk m) = 19 /\ Forall bit (sk m) ->
  sI s = Sigma m -> sMPS s = sk m -> ovf m = false ->
  exists m', init buf m p n false = Ret m' /\ Rel buf p n m' (INITDEC (stream buf p n) s) /\ Areg_min <= A m'.
Proof.
  intros Hb Hl Hp Hn Hs Hc S1 S2 E1 E2 Eo. unfold init. rewrite wrap32_small by (unfold two32; lia).
  set (b0 := stream buf p n 0).
  match goal with |- context [fill_LSBs buf ?x] => assert (Common buf x) as C0 by (constructor; cbn; auto; lia);
    assert (exists m1, fill_LSBs buf x = Ret m1 /\ Pos buf p n m1 0 /\ C m1 = b0 /\ t m1 = 8 /\ ovf m1 = false /\ A m1 = Areg_min /\ Sigma m1 = Sigma m /\ sk m1 = sk m) as (m1 & -> & P1 & Ec & Et & Eov & Ea & Es & Ek) end.
  { match goal with |- context [fill_LSBs buf ?x] => destruct (fill_ok buf x C0) as (m1 & E & C1 & _) end. rewrite E. exists m1. split; [reflexivity|].
    unfold fill_LSBs in E. cbn [L Lmax T] in E. destruct (Z.eqb_spec p (p + n)) as [H|H].
    - cbn [bind] in E. apply Ret_inj in E. subst m1. assert (b0 = 255) as -> by (apply B_out; lia). split; [|cbn; rewrite Eo; auto 10]. split; [exact C1|]. cbn. split; [reflexivity|]. split; [reflexivity|]. right. lia.
    - cbn [bind] in E. match type of E with context [seg_byte buf ?x] => destruct (seg_byte_ok buf x C0) as [Sb Sr]; [cbn; lia|] end. rewrite Sb in E. cbn [bind L C] in E. apply Ret_inj in E. change (if 0 =? 255 then 7 else 8) with 8 in E. rewrite wrap32_small in E by (unfold two32; lia).
      cbn [L] in Sr. assert (b0 = znth 0 buf p) as Eb by (unfold b0; rewrite B_in by lia; f_equal; lia).
      assert (fits (0 + znth 0 buf p * 2 ^ (8 - 8)) = true /\ i32 (0 + znth 0 buf p * 2 ^ (8 - 8)) = znth 0 buf p) as [F1 F2].
      { change (2 ^ (8 - 8)) with 1. rewrite Z.mul_1_r, Z.add_0_l. apply fits_small. unfold Areg_min. change (2 ^ 23) with 8388608. lia. }
      subst m1. split; [|cbn [C t ovf A Sigma sk set_C]; rewrite F1, F2, Eo; auto 10]. split; [exact C1|]. cbn [L L_start Lmax T set_C]. split; [reflexivity|]. split; [reflexivity|]. left. rewrite B_in by lia. rewrite Z.add_0_r. lia. }
  cbn [bind]. assert (0 <= b0 <= 255) as Hb0 by (unfold b0, stream; destruct ((0 <=? 0) && (0 <? n)) eqn:Q; [|lia]; pose proof (bytes_ok_nth buf (p + 0) Hb); lia).
  rewrite Ec, Et. destruct (fits_small (b0 * 2 ^ 8)) as [F1 F2]; [unfold Areg_min; change (2 ^ 23) with 8388608; change (2 ^ 8) with 256; lia|].
  destruct (fill_std buf p n Hc Hp Hn (set_C m1 (b0 * 2 ^ 8)) (Std 0 (b0 * 65536) 0 0 (sI s) (sMPS s))) as (d & m2 & -> & P2 & Ec2 & Eo2 & Ea2 & Es2 & Ek2 & Et2 & Hd & Hm & G1 & G2 & G3 & G4 & G5).
  { destruct P1 as (C1 & P1). split; [destruct C1; constructor; assumption|exact P1]. }
  cbn [bind]. cbn [C ovf A Sigma sk set_C] in *. rewrite F2 in Ec2, Eo2. rewrite F1, Eov in Eo2. change (2 ^ 8) with 256 in *.
  destruct (fits_small (b0 * 256 + d)) as [F3 F4]; [unfold Areg_min; change (2 ^ 23) with 8388608; lia|]. rewrite F3 in Eo2. rewrite F4 in Ec2.
  destruct (fits_small (C m2 * 2 ^ 7)) as [F5 F6]; [unfold Areg_min; change (2 ^ 23) with 8388608; change (2 ^ 7) with 128; lia|].
  eexists. split; [reflexivity|]. split; [|cbn [A]; rewrite Ea2, Ea; lia]. unfold INITDEC. fold b0.
  constructor; cbn [A t C T L Sigma sk ovf set_C sA sC sCT sBP sI sMPS]; rewrite ?F5, ?F6, ?G1, ?G2, ?G3, ?G4, ?G5, ?Eo2, ?Ea2, ?Ea, ?Es2, ?Es, ?Ek2, ?Ek, ?Ec2; auto; unfold Areg_min; change (2 ^ 23) with 8388608; try change (2 ^ 7) with 128; try lia.
  - destruct P2 as (C2 & P2). split; [destruct C2; constructor; assumption|exact P2].
  - cbn [sC]. lia.
  - replace (8 - (t m2 - 7)) with (8 - t m2 + 7) by lia. change 128 with (2 ^ 7). rewrite Z.pow_add_r by lia. rewrite Z.mul_mod_distr_r by (try apply Z.pow_nonzero; lia).
    assert ((b0 * 256 + d) mod 2 ^ (8 - t m2) = 0) as ->; [|reflexivity]. destruct Et2 as [Et2|Et2]; rewrite Et2 in *; [change (2 ^ (8 - 7)) with 2 in *|change (2 ^ (8 - 8)) with 1 in *]; lia.
Qed.

(** On segments that a conforming encoder can produce, the decoder's symbols
    are those of the standard's decoding procedure, across any number of
    segments and context resets, and its register never overflows. *)
Theorem C53_standard : forall buf ops, bytes_ok buf -> zlen buf < 2 ^ 32 -> legal buf None ops -> clean buf ops ->
  exists m, mq_run buf mq0 ops = Ret (std_run buf (fun _ => 255) std0 ops, m) /\ ovf m = false.
Proof.
  intros buf ops Hb Hl.
  assert (forall ops p n m s, 0 <= p -> 0 <= n -> p + n <= zlen buf ->
    (forall i, p <= i -> i + 1 < p + n -> znth 0 buf i = 255 -> znth 0 buf (i + 1) < 128 \/ 143 < znth 0 buf (i + 1)) -> Rel buf p n m s -> Areg_min <= A m ->
    legal buf (Some false) ops -> clean buf ops -> exists m', mq_run buf m ops = Ret (std_run buf (stream buf p n) s ops, m') /\ ovf m' = false) as K.
  { induction ops0 as [|o ops0 IH]; intros p n m s Hp Hn Hs Hc R Ha Hg Hcl; [exists m; split; [reflexivity|apply R]|]. destruct o as [q k b| |l|]; cbn [mq_run std_run legal clean] in *.
    - destruct Hg as (H1 & H2 & H3 & Hg). destruct Hcl as [[-> Hc'] Hcl]. pose proof R as [[Cm _] _ _ _ RI RM Ro _ _ _ _]. pose proof Cm as [_ _ _ _ _ Sg1 Sg2].
      destruct (rel_init buf q k m s Hb Hl H1 H2 H3 Hc' Sg1 Sg2 RI RM Ro) as (m1 & -> & R1 & A1). cbn [bind]. apply IH; auto.
    - apply IH; auto. destruct R as [[Cm Ps] RA RC Rt RI RM Ro Rb Rx Rtb Rm]. constructor; cbn [A t C T L Sigma sk ovf init_states_for_all_contexts sA sC sCT sBP sI sMPS INIT_CX]; auto.
      split; [|exact Ps]. destruct Cm. constructor; cbn [Sigma sk L L_start Lmax T init_states_for_all_contexts]; auto; (split; [reflexivity|]); repeat constructor; lia.
    - destruct Hg as (_ & H1 & Hg). destruct (rel_decode buf p n Hc Hp Hn m s l R Ha H1) as (x & m1 & s1 & -> & -> & R1 & A1). cbn [bind]. destruct (IH p n m1 s1 Hp Hn Hs Hc R1 A1 Hg Hcl) as (m' & -> & Eo). cbn [bind]. eexists. split; [reflexivity|exact Eo].
    - destruct Hg as (D & _). discriminate D. }
  assert (forall ops m s, zlen (Sigma m) = 19 /\ Forall (fun s => 0 <= s < 47) (Sigma m) -> zlen (sk m) = 19 /\ Forall bit (sk m) -> sI s = Sigma m -> sMPS s = sk m -> ovf m = false ->
    legal buf None ops -> clean buf ops -> exists m', mq_run buf m ops = Ret (std_run buf (fun _ => 255) s ops, m') /\ ovf m' = false) as K0.
  { induction ops0 as [|o ops0 IH]; intros m s S1 S2 E1 E2 Eo Hg Hcl; [exists m; auto|]. destruct o as [q k b| |l|]; cbn [mq_run std_run legal clean] in *.
    - destruct Hg as (H1 & H2 & H3 & Hg). destruct Hcl as [[-> Hc'] Hcl]. destruct (rel_init buf q k m s Hb Hl H1 H2 H3 Hc' S1 S2 E1 E2 Eo) as (m1 & -> & R1 & A1). cbn [bind]. apply K; auto.
    - apply IH; auto; cbn [Sigma sk init_states_for_all_contexts]; (split; [reflexivity|]); repeat constructor; lia.
    - destruct Hg as (D & _). discriminate D.
    - destruct Hg as (D & _). discriminate D. }
  intros Hg Hcl. apply K0; auto; (split; [reflexivity|]); repeat constructor; lia.
Qed.
Print Assumptions C53_standard.

(** The encoded test sequence of T.800 (JBIG2 Annex H.2): one context, 256
    symbols.  It decodes to the 32 bytes given there. *)
Definition test_data : list Z :=
  [0x84; 0xC7; 0x3B; 0xFC; 0xE1; 0xA1; 0x43; 0x04; 0x02; 0x20; 0x00; 0x00; 0x41; 0x0D; 0xBB; 0x86; 0xF4; 0x31; 0x7F; 0xFF; 0x88; 0xFF; 0x37; 0x47; 0x1A; 0xDB; 0x6A; 0xDF; 0xFF; 0xAC].
Fixpoint pack8 (bs : list Z) (fuel : nat) : list Z :=
  match fuel with
  | O => []
  | S f => match bs with [] => [] | _ => fold_left (fun a b => 2 * a + b) (firstn 8 bs) 0 :: pack8 (skipn 8 bs) f end
  end.
Example C53_case : exists xs m, mq_run test_data mq0 (Segment 0 30 false :: repeat (Decode 1) 256) = Ret (xs, m) /\ xs = std_run test_data (fun _ => 255) std0 (Segment 0 30 false :: repeat (Decode 1) 256) /\
  pack8 xs 32 = [0x00; 0x02; 0x00; 0x51; 0x00; 0x00; 0x00; 0xC0; 0x03; 0x52; 0x87; 0x2A; 0xAA; 0xAA; 0xAA; 0xAA; 0x82; 0xC0; 0x20; 0x00; 0xFC; 0xD7; 0x9E; 0xF6; 0xBF; 0x7F; 0xED; 0x90; 0x4F; 0x46; 0xA3; 0xBF].
Proof. eexists _, _. split; [vm_compute; reflexivity|]. split; vm_compute; reflexivity. Qed.

(** Not so for arbitrary bytes: a segment starting FF 8F makes the int32_t code
    register overflow, which is undefined behaviour. *)
Theorem C38_overflow_refuted : ~ (forall buf ops, bytes_ok buf -> zlen buf < 2 ^ 32 -> legal buf None ops ->
  exists xs m, mq_run buf mq0 ops = Ret (xs, m) /\ ovf m = false).
Proof.
  intros H. destruct (H [255; 143; 0; 0; 0; 0; 0; 0; 0; 0] ([Segment 0 10 false; ResetStates] ++ repeat (Decode 18) 18)) as (xs & m & E & O).
  - unfold bytes_ok. repeat constructor; lia.
  - reflexivity.
  - cbn. repeat split; lia.
  - vm_compute in E. apply Ret_inj, pair_inj in E. destruct E as [_ E]. subst m. discriminate O.
Qed.
Print Assumptions C38_overflow_refuted.

(** Two segments, the second raw, ending in FF. *)
Example C38_case : exists m, mq_run [0x84; 0xC7; 0x3B; 0xA5; 0xFF; 0x52; 0xFF] mq0 ([ResetStates; Segment 0 3 false; Decode 0; Decode 17; Decode 18; Segment 3 4 true] ++ repeat Raw 30) =
  Ret ([0; 0; 0] ++ [1; 0; 1; 0; 0; 1; 0; 1] ++ [1; 1; 1; 1; 1; 1; 1; 1] ++ [1; 0; 1; 0; 0; 1; 0] ++ [1; 1; 1; 1; 1; 1; 1], m).
Proof. eexists. vm_compute. reflexivity. Qed.
