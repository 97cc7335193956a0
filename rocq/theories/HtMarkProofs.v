(** An encoded HT block never contains a marker code. *)
From Verif Require Import Base BaseLemmas HtTables HtBits HtReaders HtStreamModel HtReadProofs HtMsProofs
  HtMelReadProofs HtMelEncProofs HtVlcProofs HtBlockModel HtQuadProofs HtEncProofs HtDec1Proofs HtDec2Proofs HtRoundProofs.
Require Import Lia.

(** No byte 0xFF followed by a byte above 0x8F; [u]: the byte before was 0xFF. *)
Fixpoint nm (u : bool) (l : list Z) : Prop :=
  match l with [] => True | b :: t => (u = true -> b <= 143) /\ nm (b =? 255) t end.

Lemma nm_app a : forall u b, nm u (a ++ b) <-> nm u a /\ nm (fflag u a) b.
Proof.
  induction a as [|x a IH]; intros u b; cbn [app nm fflag]; [tauto|]. rewrite IH. tauto.
Qed.
Lemma fflag_app a : forall u b, fflag u (a ++ b) = fflag (fflag u a) b.
Proof. induction a as [|x a IH]; intros u b; cbn [app fflag]; auto. Qed.
Lemma nm_weak l u : nm true l -> nm u l.
Proof. destruct l as [|b t]; cbn [nm]; [auto|]. intros [H1 H2]. split; [intros _; auto|exact H2]. Qed.
Lemma fwf_nm l : forall u, fwf u l -> nm u l.
Proof. induction l as [|b t IH]; intros u; cbn [fwf nm]; [auto|]. intros [H1 H2]. split; [intros E; specialize (H1 E); lia|now apply IH]. Qed.
Lemma mwf_nm l : forall u, mwf u l -> nm u l.
Proof. induction l as [|b t IH]; intros u; cbn [mwf nm]; [auto|]. intros [H1 H2]. split; [intros E; specialize (H1 E); lia|now apply IH]. Qed.
Lemma mflag_fflag l : forall u, mflag u l = fflag u l.
Proof. induction l as [|b t IH]; intros u; cbn [mflag fflag]; auto. Qed.

(** Seen from the other end. *)
Lemma vwf_nm l : forall u, vwf u l -> bytes_ok l -> nm false (rev l) /\ (u = true -> hd 0 l <> 255).
Proof.
  induction l as [|b t IH]; intros u W B; cbn [rev]; [cbn; split; [auto|intros _; lia]|].
  cbn [vwf] in W. destruct W as [W1 W2]. inversion B as [|? ? Bb Bt]; subst.
  destruct (IH _ W2 Bt) as [I1 I2]. split.
  - apply nm_app. split; [exact I1|]. cbn [nm]. split; [|auto]. intros Hf.
    destruct (143 <? b) eqn:E; [|lia]. exfalso. specialize (I2 eq_refl).
    destruct t as [|x t]; [cbn in Hf; discriminate|]. cbn [rev hd] in *. rewrite fflag_app in Hf. cbn [fflag] in Hf. lia.
  - intros ->. cbn [hd]. intros ->. specialize (W1 eq_refl eq_refl). discriminate.
Qed.

Lemma no_ff_flag l : ~ In 255 l -> l <> [] -> fflag false l = false /\ (forall u, fflag u l = false).
Proof.
  intros N H. assert (forall u, fflag u l = false) as A; [|split; auto].
  destruct l as [|x l]; [congruence|]. clear H. revert x N. induction l as [|y l IH]; intros x N u; cbn [fflag].
  - apply Z.eqb_neq. intros ->. apply N. now left.
  - cbn [fflag] in IH. apply (IH y); [|exact true]. intros Hi. apply N. now right.
Qed.
Lemma no_ff_nm l : forall u, ~ In 255 l -> (u = true -> hd 255 l <= 143) -> (l = [] \/ u = false \/ hd 255 l <= 143) -> nm u l.
Proof.
  induction l as [|b t IH]; intros u N H _; cbn [nm]; [auto|]. split; [exact H|].
  apply IH; [intros Hi; apply N; now right| |]; replace (b =? 255) with false by (symmetry; apply Z.eqb_neq; intros ->; apply N; now left); [discriminate|auto].
Qed.

(** The suffix before the length is written into it. *)
Lemma suffix_nm v m lv lm d rest : vlc_ok v ([true; true; true; true] ++ lv) -> mel_ok m lm ->
  rev (term_mel_vlc v m) = 255 :: d :: rest ->
  nm false (rev rest ++ [d]) /\ d <> 255.
Proof.
  intros HV HM E. rewrite term_join in E.
  destruct (join_mid_spec v m _ _ HV HM) as (_ & J1 & J2 & J3 & J4).
  destruct (vfirst_15 v lv HV) as [_ F2].
  destruct HV as [Vb V8 Vt VL Vw Vs]. destruct HM as [Mb Mr Mt Mw Ms].
  assert (rev (me_buf m) ++ join_mid v m ++ ve_buf v = rev rest ++ [d]) as S.
  { apply (f_equal (@rev Z)) in E. rewrite rev_involutive in E. cbn [rev] in E.
    rewrite !app_assoc in E. apply app_inj_tail in E as [E _]. now rewrite <- app_assoc in E. }
  assert (bytes_ok (rev (ve_buf v))) as Vbr by (apply Forall_rev; exact Vb).
  destruct (vwf_nm _ _ Vw Vbr) as [N1 N2]. rewrite rev_involutive in N1. specialize (N2 eq_refl).
  split.
  - rewrite <- S. apply nm_app. split; [apply mwf_nm; exact Mw|]. rewrite <- mflag_fflag.
    destruct J4 as [(Jm & Jr & Jv)|(x & y & _ & _ & Jn & _)].
    + rewrite Jm. cbn [app]. unfold me_width in Mr. destruct (mflag false (rev (me_buf m))); [lia|exact N1].
    + apply nm_app. split.
      * apply no_ff_nm; auto; [intros Hf; specialize (J3 Hf); lia|].
        destruct (mflag false (rev (me_buf m))); [right; right; specialize (J3 eq_refl); lia|auto].
      * destruct (no_ff_flag _ J2 Jn) as [_ A]. rewrite A. exact N1.
  - intros ->. destruct (rev (ve_buf v)) as [|z t] eqn:Ev.
    + specialize (F2 eq_refl). destruct J4 as [(_ & _ & J)|(x & y & _ & _ & Jn & _)]; [lia|].
      assert (ve_buf v = []) as Ve by (rewrite <- (rev_involutive (ve_buf v)), Ev; reflexivity).
      rewrite Ve, app_nil_r in S. apply J2.
      destruct (exists_last Jn) as (l' & z & El). rewrite El in S |- *. rewrite app_assoc in S. apply app_inj_tail in S as [_ ->].
      apply in_or_app. right. now left.
    + assert (ve_buf v = rev t ++ [z]) as Ve by (rewrite <- (rev_involutive (ve_buf v)), Ev; reflexivity).
      rewrite Ve in S. rewrite !app_assoc in S. apply app_inj_tail in S as [_ ->]. now apply N2.
Qed.

Lemma nib_le d k : byte_ok d -> d <= 143 -> Z.lor (Z.land d 240) (Z.land k 15) <= 143.
Proof.
  intros B H. assert (Z.land k 15 = k mod 16) as -> by apply land_15.
  pose proof (Z.mod_pos_bound k 16 ltac:(lia)).
  pose proof (sweep3 (fun d k _ => (143 <? d) || (Z.lor (Z.land d 240) k <=? 143)) (n1 := 256) (n2 := 16) (n3 := 1)
    ltac:(vm_compute; reflexivity) d (k mod 16) 0 B H0 ltac:(lia)) as S. cbv beta in S. lia.
Qed.
Lemma nib_ff d k : byte_ok d -> Z.land d 15 = 15 -> d <> 255 -> Z.lor (Z.land d 240) (Z.land k 15) <> 255.
Proof.
  intros B H N. assert (Z.land k 15 = k mod 16) as -> by apply land_15.
  pose proof (Z.mod_pos_bound k 16 ltac:(lia)).
  pose proof (sweep3 (fun d k _ => negb (Z.land d 15 =? 15) || (d =? 255) || negb (Z.lor (Z.land d 240) k =? 255)) (n1 := 256) (n2 := 16) (n3 := 1)
    ltac:(vm_compute; reflexivity) d (k mod 16) 0 B H0 ltac:(lia)) as S. cbv beta in S. lia.
Qed.

Lemma finish_nm g data : finish g = Ret data -> Forall call_ok (g_ms g) -> Forall vcall_ok (g_vlc g) ->
  nm false data /\ fflag false data = false.
Proof.
  intros E Hms Hvl. unfold finish in E.
  pose proof (ms_term_ok _ _ (ms_run_ok _ Hms)) as M. cbv zeta in M. destruct M as (M1 & M3 & M4 & _).
  destruct (mel_term_inv _ _ (mel_run_ok (g_mel g))) as (lm & rs & x & L1 & _ & _).
  pose proof (term_ok _ _ _ _ (vlc_run_ok _ Hvl) L1) as T. cbv zeta in T.
  destruct T as (T1 & _ & _ & d & rest & T4 & T5 & _).
  destruct (suffix_nm _ _ _ _ d rest (vlc_run_ok _ Hvl) L1 T4) as [S1 S2].
  set (ms := rev (ms_term (ms_run (g_ms g)))) in *.
  set (suf := term_mel_vlc (vlc_run (g_vlc g)) (mel_term (mel_run (g_mel g)))) in *. clearbody ms suf.
  cbv zeta in E. destruct ((zlen suf <=? MAX_Scup) && (zlen ms + zlen suf <=? MAX_Lcup)) eqn:B; [|discriminate].
  apply Ret_inj in E. apply andb_prop in B as [B1 B2]. unfold MAX_Scup, MAX_Lcup in *.
  assert (suf = rev rest ++ [d; 255]) as Es.
  { rewrite <- (rev_involutive suf), T4. cbn [rev]. now rewrite <- app_assoc. }
  assert (zlen suf = zlen rest + 2) as Ls by (rewrite Es, zlen_app, zlen_rev; reflexivity).
  assert (znth 0 suf (zlen suf - 2) = d) as Ed.
  { rewrite Ls, Es. replace (zlen rest + 2 - 2) with (zlen (rev rest)) by (rewrite zlen_rev; lia).
    rewrite znth_app_r by lia. rewrite Z.sub_diag. reflexivity. }
  assert (ztake (zlen suf - 2) suf = rev rest) as Et.
  { rewrite Ls, Es. apply ztake_app. rewrite zlen_rev. lia. }
  rewrite Ed, Et in E.
  assert (byte_ok d) as Bd.
  { unfold bytes_ok in T1. rewrite Es in T1. apply Forall_app in T1 as [_ T1]. now inversion T1. }
  pose proof (zlen_nonneg rest).
  assert (0 <= Z.shiftr (zlen suf) 4 <= 254) as Hy.
  { rewrite Z.shiftr_div_pow2 by lia. change (2 ^ 4) with 16. lia. }
  set (y := Z.shiftr (zlen suf) 4) in *. set (k := zlen suf) in *.
  set (d' := Z.lor (Z.land d 240) (Z.land k 15)) in *.
  assert (d' <> 255) as D1 by (apply nib_ff; assumption).
  subst data. split.
  - apply nm_app. split; [now apply fwf_nm|]. rewrite M4. apply nm_app in S1 as [S1 S3].
    apply nm_app. split; [exact S1|]. cbn [nm] in S3 |- *. destruct S3 as [S3 _].
    split; [intros Hf; apply nib_le; auto|]. split; [intros Hf; lia|auto].
  - rewrite !fflag_app. cbn [fflag]. lia.
Qed.
