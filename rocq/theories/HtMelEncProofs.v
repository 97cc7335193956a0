(** The MEL encoder: its bits code the events it was given. *)
From Verif Require Import Base BaseLemmas HtBits HtStreamModel HtReaders HtMelReadProofs.

(** ** Bits emitted *)

Fixpoint mflag (u : bool) (bs : list Z) : bool :=
  match bs with [] => u | b :: t => mflag (b =? 255) t end.
Fixpoint mwf (u : bool) (bs : list Z) : Prop :=
  match bs with
  | [] => True
  | b :: t => (u = true -> b < 128) /\ mwf (b =? 255) t
  end.
Lemma mbits_snoc u bs b : mbits u (bs ++ [b]) = mbits u bs ++ bitsBE (if mflag u bs then 7 else 8) b.
Proof.
  revert u. induction bs as [|a t IH]; intros u; cbn [app mbits mflag].
  - now rewrite app_nil_r.
  - now rewrite IH, app_assoc.
Qed.
Lemma mbits_app u a b : mbits u (a ++ b) = mbits u a ++ mbits (mflag u a) b.
Proof. revert u. induction a as [|x t IH]; intros u; cbn [app mbits mflag]; auto. now rewrite IH, app_assoc. Qed.
Lemma mwf_snoc u bs b : mwf u (bs ++ [b]) <-> mwf u bs /\ (mflag u bs = true -> b < 128).
Proof.
  revert u. induction bs as [|a t IH]; intros u; cbn [app mwf mflag]; [tauto|].
  rewrite IH. tauto.
Qed.
Lemma mflag_snoc u bs b : mflag u (bs ++ [b]) = (b =? 255).
Proof. revert u. induction bs as [|a t IH]; intros u; cbn [app mflag]; auto. Qed.

Definition me_width (s : mel_enc) : Z := if mflag false (rev (me_buf s)) then 7 else 8.

Record mel_ok (s : mel_enc) (l : list bool) : Prop := MkMe {
  eo_bytes : bytes_ok (me_buf s);
  eo_rem : 1 <= me_rem s <= me_width s;
  eo_tmp : 0 <= me_tmp s < 2 ^ (me_width s - me_rem s);
  eo_wf : mwf false (rev (me_buf s));
  eo_bits : mbits false (rev (me_buf s)) ++ bitsBE (Z.to_nat (me_width s - me_rem s)) (me_tmp s) = l }.

Lemma mel_init_ok : mel_ok mel_init [].
Proof. constructor; cbn; auto; try lia. Qed.

Lemma bitsBE_snoc n v b : bitsBE (S n) (2 * v + Z.b2z b) = bitsBE n v ++ [b].
Proof.
  unfold bitsBE. rewrite bitsLE_S. cbn [rev]. f_equal.
  - f_equal. rewrite Z.shiftr_div_pow2 by lia. change (2 ^ 1) with 2. f_equal. destruct b; cbn [Z.b2z]; lia.
  - f_equal. apply Z.testbit_0_r.
Qed.

Lemma mel_bit_ok s l b : mel_ok s l ->
  mel_ok (mel_bit s (Z.b2z b)) (l ++ [b]) /\
  me_k (mel_bit s (Z.b2z b)) = me_k s /\ me_run (mel_bit s (Z.b2z b)) = me_run s /\ me_t (mel_bit s (Z.b2z b)) = me_t s.
Proof.
  intros [Hb Hr Ht Hw Hl]. unfold mel_bit.
  pose proof (b2z_le b) as Hb01.
  assert (7 <= me_width s <= 8) as W by (unfold me_width; destruct (mflag _ _); lia).
  set (n := me_width s - me_rem s) in *.
  assert (0 <= 2 * me_tmp s + Z.b2z b < 2 ^ (n + 1)) as Hv.
  { rewrite Z.pow_add_r by lia. change (2 ^ 1) with 2. lia. }
  assert (2 ^ (n + 1) <= 2 ^ me_width s) as Hp by (apply Z.pow_le_mono_r; lia).
  assert (2 ^ me_width s <= 256) as Hp8 by (unfold me_width; destruct (mflag _ _); reflexivity || (cbn; lia)).
  assert (Z.land (Z.shiftl (me_tmp s) 1 + Z.b2z b) 255 = 2 * me_tmp s + Z.b2z b) as E.
  { rewrite Z.shiftl_mul_pow2 by lia. change (2 ^ 1) with 2. rewrite land_255, Z.mod_small by lia. lia. }
  rewrite E. set (t := 2 * me_tmp s + Z.b2z b) in *.
  assert (bitsBE (Z.to_nat (n + 1)) t = bitsBE (Z.to_nat n) (me_tmp s) ++ [b]) as EB.
  { replace (Z.to_nat (n + 1)) with (S (Z.to_nat n)) by lia. apply bitsBE_snoc. }
  destruct (me_rem s - 1 =? 0) eqn:E0; cbn [me_k me_run me_t]; (split; [|auto]).
  - assert (n + 1 = me_width s) as En by lia.
    assert (byte_ok t) as Bt by (unfold byte_ok; lia).
    assert ((if mflag false (rev (me_buf s)) then 7%nat else 8%nat) = Z.to_nat (n + 1)) as Ew.
    { rewrite En. unfold me_width. now destruct (mflag _ _). }
    constructor; cbn [me_buf me_rem me_tmp]; unfold me_width; cbn [me_buf rev]; rewrite ?mflag_snoc.
    + constructor; auto.
    + destruct (t =? 255); lia.
    + destruct (t =? 255); cbn; lia.
    + apply mwf_snoc. split; auto. intros Hf. unfold me_width in En. rewrite Hf in En. rewrite En in Hv. cbn in Hv. lia.
    + replace ((if t =? 255 then 7 else 8) - (if t =? 255 then 7 else 8)) with 0 by lia.
      change (bitsBE (Z.to_nat 0) 0) with (@nil bool). rewrite app_nil_r, mbits_snoc, Ew, EB, <- Hl.
      now rewrite app_assoc.
  - constructor; cbn [me_buf me_rem me_tmp]; unfold me_width in *; cbn [me_buf]; auto; try lia.
    + replace ((if mflag false (rev (me_buf s)) then 7 else 8) - (me_rem s - 1)) with (n + 1) by lia. lia.
    + replace ((if mflag false (rev (me_buf s)) then 7 else 8) - (me_rem s - 1)) with (n + 1) by lia.
      rewrite EB, app_assoc, Hl. reflexivity.
Qed.

Lemma mel_run_bits_ok n : forall s l, mel_ok s l ->
  mel_ok (mel_run_bits s n) (l ++ bitsBE n (me_run s)).
Proof.
  induction n as [|n IH]; intros s l H; cbn [mel_run_bits].
  - unfold bitsBE; cbn. now rewrite app_nil_r.
  - assert (Z.land (Z.shiftr (me_run s) (Z.of_nat n)) 1 = Z.b2z (Z.testbit (me_run s) (Z.of_nat n))) as ->.
    { rewrite land_1. rewrite Z.testbit_spec' by lia. now rewrite Z.shiftr_div_pow2 by lia. }
    destruct (mel_bit_ok s l (Z.testbit (me_run s) (Z.of_nat n)) H) as (B1 & B2 & B3 & B4).
    specialize (IH _ _ B1). rewrite B3, <- app_assoc in IH.
    replace (bitsBE (S n) (me_run s)) with ([Z.testbit (me_run s) (Z.of_nat n)] ++ bitsBE n (me_run s)); auto.
    unfold bitsBE. replace (S n) with (n + 1)%nat by lia. rewrite bitsLE_split, rev_app_distr.
    f_equal. unfold bitsLE. cbn [seq map rev app]. now rewrite Z.shiftr_spec by lia.
Qed.

(** ** Runs coded *)

(** [mel_path k l rs k']: the bits [l] code exactly the runs [rs] and lead
    from state [k] to state [k']. *)
Inductive mel_path : Z -> list bool -> list Z -> Z -> Prop :=
| mp_nil k : mel_path k [] [] k
| mp_one k l rs k' : mel_path (Z.min 12 (k + 1)) l rs k' -> mel_path k (true :: l) (2 * (2 ^ MEL_E k - 1) :: rs) k'
| mp_zero k n l rs k' : 0 <= n < 2 ^ MEL_E k -> mel_path (Z.max 0 (k - 1)) l rs k' ->
    mel_path k (false :: bitsBE (Z.to_nat (MEL_E k)) n ++ l) (2 * n + 1 :: rs) k'.

Lemma mel_path_app k l rs k1 l2 rs2 k2 : mel_path k l rs k1 -> mel_path k1 l2 rs2 k2 -> mel_path k (l ++ l2) (rs ++ rs2) k2.
Proof.
  intros H. induction H; intros H2; cbn [app]; auto.
  - constructor; auto.
  - rewrite <- app_assoc. constructor; auto.
Qed.
Lemma mel_path_codes k l rs k' x : mel_path k l rs k' -> mel_codes k (l ++ x) rs.
Proof.
  intros H. induction H; cbn [app]; [constructor|now constructor|].
  rewrite <- app_assoc. now constructor.
Qed.

Lemma evs_of_even n : 0 < n -> evs_of (2 * (n - 1)) = repeat false (Z.to_nat n).
Proof.
  intros H. unfold evs_of. rewrite Z.odd_mul. cbn [Z.odd andb].
  replace (2 * (n - 1) / 2) with (n - 1) by lia. f_equal. lia.
Qed.
Lemma evs_of_odd n : 0 <= n -> evs_of (2 * n + 1) = repeat false (Z.to_nat n) ++ [true].
Proof.
  intros H. unfold evs_of. rewrite Z.odd_add, Z.odd_mul. cbn [Z.odd andb xorb].
  replace ((2 * n + 1) / 2) with n by lia. reflexivity.
Qed.

(** The encoder after the events [evs]. *)
Record mel_enc_inv (s : mel_enc) (evs : list bool) : Prop := MkMei {
  mv_k : 0 <= me_k s <= 12;
  mv_t : me_t s = 2 ^ MEL_E (me_k s);
  mv_run : 0 <= me_run s < 2 ^ MEL_E (me_k s);
  mv_code : exists l rs, mel_ok s l /\ mel_path 0 l rs (me_k s) /\
              evs = concat (map evs_of rs) ++ repeat false (Z.to_nat (me_run s)) }.

Lemma mel_enc_init : mel_enc_inv mel_init [].
Proof.
  constructor; cbn; try lia; auto. exists [], []. repeat split; auto using mel_init_ok; try constructor; cbn; try lia.
Qed.

Lemma mel_ok_state s k r t l : mel_ok s l -> mel_ok (MeE k r t (me_rem s) (me_tmp s) (me_buf s)) l.
Proof. intros [H1 H2 H3 H4 H5]. constructor; auto. Qed.

Lemma repeat_snoc {A} (x : A) n : repeat x n ++ [x] = repeat x (S n).
Proof. induction n; cbn; auto. now rewrite IHn. Qed.

Lemma mel_encode_inv s evs e : mel_enc_inv s evs -> mel_enc_inv (mel_encode s e) (evs ++ [e]).
Proof.
  intros [Hk Ht Hr (l & rs & Hok & Hp & He)]. pose proof (MEL_E_range _ Hk) as HE. unfold mel_encode. destruct e.
  - destruct (mel_bit_ok s l false Hok) as (B1 & B2 & B3 & B4). cbn [Z.b2z] in *.
    pose proof (mel_run_bits_ok (Z.to_nat (MEL_E (me_k s))) _ _ B1) as R1. rewrite B3 in R1.
    set (s1 := mel_run_bits (mel_bit s 0) (Z.to_nat (MEL_E (me_k s)))) in *.
    assert (0 <= Z.max 0 (me_k s - 1) <= 12) as Hk' by lia.
    pose proof (MEL_E_range _ Hk') as HE'.
    constructor; cbn [me_k me_run me_t]; auto.
    + now rewrite Z.shiftl_1_l.
    + split; [lia|]. apply Z.pow_pos_nonneg; lia.
    + eexists. exists (rs ++ [2 * me_run s + 1]). split; [apply mel_ok_state; exact R1|]. split.
      * rewrite <- app_assoc. eapply mel_path_app; [exact Hp|].
        rewrite <- (app_nil_r (bitsBE _ _)). cbn [app]. apply mp_zero; [lia|constructor].
      * rewrite map_app, concat_app. cbn [map concat]. rewrite evs_of_odd by lia.
        rewrite He. cbn [Z.to_nat repeat]. rewrite !app_nil_r, app_assoc. reflexivity.
  - destruct (me_t s <=? me_run s + 1) eqn:E.
    + destruct (mel_bit_ok s l true Hok) as (B1 & B2 & B3 & B4). cbn [Z.b2z] in *.
      assert (0 <= Z.min 12 (me_k s + 1) <= 12) as Hk' by lia.
      pose proof (MEL_E_range _ Hk') as HE'.
      constructor; cbn [me_k me_run me_t]; auto.
      * now rewrite Z.shiftl_1_l.
      * split; [lia|]. apply Z.pow_pos_nonneg; lia.
      * eexists. exists (rs ++ [2 * (2 ^ MEL_E (me_k s) - 1)]). split; [apply mel_ok_state; exact B1|]. split.
        -- eapply mel_path_app; [exact Hp|]. apply mp_one. constructor.
        -- rewrite map_app, concat_app. cbn [map concat]. rewrite evs_of_even by lia.
           rewrite He. cbn [Z.to_nat repeat]. rewrite !app_nil_r, <- app_assoc. f_equal.
           rewrite repeat_snoc. f_equal. lia.
    + constructor; cbn [me_k me_run me_t]; auto; try lia.
      exists l, rs. split; [apply mel_ok_state; exact Hok|]. split; auto.
      rewrite He, <- app_assoc. f_equal. rewrite repeat_snoc. f_equal. lia.
Qed.

(** After termination the emitted bits code runs covering the events. *)
Lemma mel_term_inv s evs : mel_enc_inv s evs ->
  exists l rs x, mel_ok (mel_term s) l /\ (forall y, mel_codes 0 (l ++ y) rs) /\ evs ++ x = concat (map evs_of rs).
Proof.
  intros [Hk Ht Hr (l & rs & Hok & Hp & He)]. unfold mel_term. destruct (0 <? me_run s) eqn:E.
  - destruct (mel_bit_ok s l true Hok) as (B1 & B2 & B3 & B4). cbn [Z.b2z] in *.
    exists (l ++ [true]), (rs ++ [2 * (2 ^ MEL_E (me_k s) - 1)]), (repeat false (Z.to_nat (2 ^ MEL_E (me_k s) - me_run s))).
    split; auto. split.
    + intros y. eapply mel_path_codes. eapply mel_path_app; [exact Hp|]. apply mp_one. constructor.
    + rewrite He, map_app, concat_app, <- app_assoc. f_equal. cbn [map concat]. rewrite app_nil_r, evs_of_even by lia.
      rewrite <- repeat_app. f_equal. lia.
  - exists l, rs, []. split; auto. split.
    + intros y. eapply mel_path_codes; eauto.
    + rewrite app_nil_r, He. replace (Z.to_nat (me_run s)) with 0%nat by lia. cbn. apply app_nil_r.
Qed.
