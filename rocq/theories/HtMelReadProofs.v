(** The MEL reader returns the runs coded in the unstuffed MEL bit stream. *)
From Verif Require Import Base BaseLemmas HtBits HtStreamModel HtReaders.

(** The bits in a byte list, MSB first, seven bits after a 0xFF. *)
Fixpoint mbits (u : bool) (bs : list Z) : list bool :=
  match bs with
  | [] => []
  | b :: t => bitsBE (if u then 7 else 8) b ++ mbits (b =? 255) t
  end.

(** [mpre u bs l]: the stream in [bs], continued with 0xFF, starts with [l]. *)
Definition mpre (u : bool) (bs : list Z) (l : list bool) : Prop :=
  exists k r, mbits u (bs ++ repeat 255 k) = l ++ r.

Lemma mpre_nil u bs : mpre u bs [].
Proof. exists 0%nat. eexists. reflexivity. Qed.
Lemma mpre_app u bs l m : mpre u bs (l ++ m) -> mpre u bs l.
Proof. intros (k & r & H). exists k, (m ++ r). now rewrite app_assoc. Qed.

Lemma bitsBE_nth n v i : (i < n)%nat -> nth i (bitsBE n v) false = Z.testbit v (Z.of_nat n - 1 - Z.of_nat i).
Proof.
  intros H. unfold bitsBE. rewrite rev_nth; rewrite bitsLE_length by lia; auto.
  rewrite bitsLE_nth by lia. f_equal. lia.
Qed.

Lemma mpre_cons_step u b t k l r : mbits u (b :: t ++ repeat 255 k) = l ++ r ->
  (forall i, 0 <= i < 8 - Z.b2z u -> i < zlen l -> znth false l i = Z.testbit b (7 - Z.b2z u - i)) /\
  mpre (b =? 255) t (zskip (8 - Z.b2z u) l).
Proof.
  cbn [mbits]. set (w := (if u then 7%nat else 8%nat)). intros H.
  assert (8 - Z.b2z u = Z.of_nat w) as Ew by (subst w; destruct u; reflexivity).
  split.
  - intros i Hi Hl. unfold znth. rewrite <- (app_nth1 l r) by (unfold zlen in Hl; lia).
    rewrite <- H. rewrite app_nth1 by (rewrite bitsBE_length; lia).
    rewrite bitsBE_nth by lia. f_equal. lia.
  - unfold zskip. rewrite Ew, Nat2Z.id. destruct (Nat.le_gt_cases (length l) w).
    + rewrite skipn_all2 by lia. apply mpre_nil.
    + exists k, r. apply (f_equal (skipn w)) in H.
      rewrite !skipn_app, bitsBE_length, Nat.sub_diag, skipn_O in H.
      rewrite (skipn_all2 (bitsBE w b)) in H by (rewrite bitsBE_length; lia).
      replace (w - length l)%nat with 0%nat in H by lia. exact H.
Qed.

Lemma mpre_step u bs l : mpre u bs l ->
  (forall i, 0 <= i < 8 - Z.b2z u -> i < zlen l -> znth false l i = Z.testbit (hd 255 bs) (7 - Z.b2z u - i)) /\
  mpre (hd 255 bs =? 255) (tl bs) (zskip (8 - Z.b2z u) l).
Proof.
  intros (k & r & H). destruct bs as [|b t].
  - destruct k as [|k].
    + cbn in H. symmetry in H. apply app_eq_nil in H as [-> _]. split.
      * intros i Hi Hl. unfold zlen in Hl; cbn in Hl. lia.
      * unfold zskip. rewrite skipn_nil. apply mpre_nil.
    + apply (mpre_cons_step u 255 [] k l r). exact H.
  - apply (mpre_cons_step u b t k l r). exact H.
Qed.

(** What the reader knows: [tmp] holds [bits] bits from bit 63 downwards. *)
Record minv (tmp bits : Z) (u : bool) (rest : list Z) (l : list bool) : Prop := MkMinv {
  mi_t : 0 <= tmp;
  mi_b : 0 <= bits <= 64;
  mi_in : forall i, 0 <= i < bits -> i < zlen l -> Z.testbit tmp (63 - i) = znth false l i;
  mi_out : forall i, bits <= i < 64 -> Z.testbit tmp (63 - i) = false;
  mi_u : u = true -> 0 < bits -> Z.testbit tmp (64 - bits) = true;
  mi_pre : mpre u rest (zskip bits l);
  mi_ok : bytes_ok rest }.

Lemma minv_wrap t bits u rest l : minv t bits u rest l -> minv (wrap64 t) bits u rest l.
Proof.
  intros [H1 H2 H3 H4 H5 H6 H7]. constructor; auto.
  - apply wrap64_range.
  - intros i Hi Hl. rewrite wrap64_testbit by lia. replace (63 - i <? 64) with true by lia. cbn [andb]. auto.
  - intros i Hi. rewrite wrap64_testbit by lia. replace (63 - i <? 64) with true by lia. cbn [andb]. auto.
  - intros Hu Hb. rewrite wrap64_testbit by lia. replace (64 - bits <? 64) with true by lia. cbn [andb]. auto.
Qed.

Lemma zskip_zskip {A} a b (l : list A) : 0 <= a -> 0 <= b -> zskip b (zskip a l) = zskip (a + b) l.
Proof.
  intros Ha Hb. unfold zskip. replace (Z.to_nat (a + b)) with (Z.to_nat b + Z.to_nat a)%nat by lia.
  generalize (Z.to_nat a) as n. generalize (Z.to_nat b) as m. clear.
  intros m n. revert l m. induction n; intros l m; [now rewrite Nat.add_0_r|].
  rewrite Nat.add_succ_r. destruct l; cbn [skipn]; [apply skipn_nil|apply IHn].
Qed.

Lemma mabsorb t bits u rest l : minv t bits u rest l -> bits + (8 - Z.b2z u) <= 64 ->
  minv (Z.lor t (Z.shiftl (hd 255 rest) (64 - bits - (8 - Z.b2z u)))) (bits + (8 - Z.b2z u))
       (hd 255 rest =? 255) (tl rest) l.
Proof.
  intros [Ht Hb Hi Ho Hu Hp Hk] Hle.
  set (d := hd 255 rest) in *. set (w := 8 - Z.b2z u) in *.
  assert (7 <= w <= 8) as Hw by (subst w; destruct u; cbn; lia).
  assert (byte_ok d) as Hd by (apply hd_ok; auto; unfold byte_ok; lia).
  unfold byte_ok in Hd.
  destruct (mpre_step u rest _ Hp) as [Hs1 Hs2]. fold d w in Hs1, Hs2.
  constructor.
  - apply Z.lor_nonneg. split; auto. apply Z.shiftl_nonneg. lia.
  - lia.
  - intros i Hi1 Hi2. rewrite Z.lor_spec, Z.shiftl_spec by lia.
    destruct (Z.lt_ge_cases i bits).
    + rewrite Hi by lia. destruct (Z.eq_dec i (bits - 1)) as [->|Hne].
      * destruct u eqn:Eu.
        -- assert (znth false l (bits - 1) = true) as ->; [|reflexivity].
           rewrite <- Hi by lia. replace (63 - (bits - 1)) with (64 - bits) by lia. apply Hu; auto. lia.
        -- assert (w = 8) by reflexivity; rewrite (testbit_high d 8) by lia. apply orb_false_r.
      * rewrite (testbit_high d 8) by lia. apply orb_false_r.
    + rewrite Ho by lia. cbn [orb].
      specialize (Hs1 (i - bits)). rewrite znth_zskip in Hs1 by lia.
      replace (bits + (i - bits)) with i in Hs1 by lia. rewrite Hs1.
      * f_equal. subst w. lia.
      * lia.
      * unfold zskip, zlen in *. rewrite skipn_length. lia.
  - intros i Hi1. rewrite Z.lor_spec, Z.shiftl_spec by lia. rewrite Ho by lia. cbn [orb].
    apply Z.testbit_neg_r. lia.
  - intros E Hpos. assert (d = 255) as -> by lia. rewrite Z.lor_spec, Z.shiftl_spec by lia.
    replace (64 - (bits + w) - (64 - bits - w)) with 0 by lia. apply orb_true_r.
  - rewrite <- zskip_zskip by lia. exact Hs2.
  - destruct rest; cbn [tl]; auto. inversion Hk; auto.
Qed.

(** ** The last byte is read with its low nibble set *)

Fixpoint orlast (l : list Z) : list Z :=
  match l with
  | [] => []
  | [d] => [Z.lor d 15]
  | d :: t => d :: orlast t
  end.
Lemma orlast_cons d x t : orlast (d :: x :: t) = d :: orlast (x :: t).
Proof. reflexivity. Qed.
Lemma orlast_snoc l d : orlast (l ++ [d]) = l ++ [Z.lor d 15].
Proof.
  induction l as [|a t IH]; [reflexivity|]. cbn [app]. destruct t; [reflexivity|].
  cbn [app] in *. rewrite orlast_cons. now rewrite IH.
Qed.
Lemma orlast_removelast l : l <> [] -> removelast l ++ [Z.lor (last l 0) 15] = orlast l.
Proof.
  intros H. rewrite (app_removelast_last 0 H) at 3. now rewrite orlast_snoc.
Qed.
Lemma lor15_ok d : byte_ok d -> byte_ok (Z.lor d 15).
Proof. unfold byte_ok. intros H. change 256 with (2 ^ 8). apply lor_range; lia. Qed.
Lemma orlast_ok l : bytes_ok l -> bytes_ok (orlast l).
Proof.
  induction l as [|a [|b t] IH]; intros H; auto.
  - inversion H; subst. constructor; [now apply lor15_ok|constructor].
  - rewrite orlast_cons. inversion H; subst. constructor; [assumption|apply IH; assumption].
Qed.
Lemma orlast_length l : length (orlast l) = length l.
Proof. induction l as [|a [|b t] IH]; auto. rewrite orlast_cons. cbn [length] in *. now rewrite IH. Qed.

Definition mel_inv (s : meldec) (l : list bool) : Prop :=
  minv (l_tmp s) (l_bits s) (l_unstuff s) (orlast (l_rest s)) l.

Lemma mel_load rest : bytes_ok rest ->
  let r := orlast rest in
  let '(val, rest') := mel_load4 rest in
  Z.land val 255 = nth 0 r 255 /\ byte_of val 1 = nth 1 r 255 /\ byte_of val 2 = nth 2 r 255 /\
  byte_of val 3 = nth 3 r 255 /\ orlast rest' = skipn 4 r.
Proof.
  intros H r. subst r.
  assert (rest <> [] -> (length rest <= 4)%nat ->
    let v := put_bytes 4294967295 0 (removelast rest ++ [Z.lor (last rest 0) 15]) in
    Z.land v 255 = nth 0 (orlast rest) 255 /\ byte_of v 1 = nth 1 (orlast rest) 255 /\
    byte_of v 2 = nth 2 (orlast rest) 255 /\ byte_of v 3 = nth 3 (orlast rest) 255 /\
    orlast [] = skipn 4 (orlast rest)) as Hshort.
  { intros Hne Hl v. subst v. rewrite orlast_removelast by auto.
    destruct (put_bytes_spec (orlast rest)) as (P0 & P1 & P2 & P3).
    - now apply orlast_ok.
    - now rewrite orlast_length.
    - rewrite byte_of_0. repeat split; auto. symmetry. apply skipn_all2. now rewrite orlast_length. }
  destruct rest as [|b0 [|b1 [|b2 [|b3 [|b4 t]]]]].
  - cbn. repeat split; reflexivity.
  - apply Hshort; [discriminate|cbn; lia].
  - apply Hshort; [discriminate|cbn; lia].
  - apply Hshort; [discriminate|cbn; lia].
  - apply Hshort; [discriminate|cbn; lia].
  - cbn [mel_load4]. unfold bytes_ok in H.
    repeat match goal with H : Forall byte_ok (_ :: _) |- _ => apply Forall_cons_inv in H; destruct H end.
    destruct (byte_of_le32 b0 b1 b2 b3) as (P0 & P1 & P2 & P3); try assumption.
    rewrite byte_of_0. rewrite !orlast_cons. cbn [nth skipn]. auto.
Qed.

Lemma b2z_le b : 0 <= Z.b2z b <= 1.
Proof. destruct b; cbn; lia. Qed.

Lemma nth_hd_tl l : nth 0 l 255 = hd 255 l /\ nth 1 l 255 = hd 255 (tl l) /\ nth 2 l 255 = hd 255 (tl (tl l)) /\
  nth 3 l 255 = hd 255 (tl (tl (tl l))) /\ skipn 4 l = tl (tl (tl (tl l))).
Proof. destruct l as [|a [|b [|c [|d t]]]]; cbn; auto 10. Qed.

Lemma wrap32_shiftl_small v n m : 0 <= n -> 0 <= m -> 0 <= v < 2 ^ m -> n + m <= 32 -> wrap32 (Z.shiftl v n) = Z.shiftl v n.
Proof.
  intros H1 H0 H2 H3. apply wrap32_small. unfold two32.
  pose proof (shiftl_range v n m ltac:(lia) H2 ltac:(lia)) as R.
  assert (2 ^ (m + n) <= 2 ^ 32) by (apply Z.pow_le_mono_r; lia). change (2 ^ 32) with 4294967296 in *. lia.
Qed.

Lemma mel_read_inv s l : mel_inv s l -> l_bits s <= 32 ->
  mel_inv (mel_read s) l /\ l_bits s + 28 <= l_bits (mel_read s) <= 64 /\
  l_k (mel_read s) = l_k s /\ l_num (mel_read s) = l_num s /\ l_runs (mel_read s) = l_runs s.
Proof.
  intros H Hb. unfold mel_inv in *. unfold mel_read. replace (32 <? l_bits s) with false by lia.
  assert (bytes_ok (l_rest s)) as Hbytes.
  { pose proof (mi_ok _ _ _ _ _ H) as Hk. revert Hk. generalize (l_rest s). clear.
    induction l as [|a [|b t] IH]; intros Hk; auto.
    - cbn in Hk. inversion Hk as [|? ? K1 K2]; subst. constructor; [|constructor].
      unfold byte_ok in *. split.
      + destruct (Z.lt_ge_cases a 0); auto. assert (Z.lor a 15 < 0) by (apply Z.lor_neg; lia). lia.
      + destruct (Z.lt_ge_cases a 256); auto. exfalso.
        assert (0 <= a) by lia.
        assert (Z.land a (Z.lor a 15) = a) as E by (apply Z.bits_inj'; intros n Hn; rewrite Z.land_spec, Z.lor_spec; destruct (Z.testbit a n); reflexivity).
        assert (Z.land a (Z.lor a 15) <= Z.lor a 15).
        { rewrite Z.land_comm. clear E. apply Z.ldiff_le; [lia|]. apply Z.bits_inj'. intros n Hn.
          rewrite Z.ldiff_spec, Z.land_spec, Z.bits_0. destruct (Z.testbit (Z.lor a 15) n), (Z.testbit a n); reflexivity. }
        lia.
    - rewrite orlast_cons in Hk. inversion Hk; subst. constructor; [assumption|apply IH; assumption]. }
  pose proof (mel_load (l_rest s) Hbytes) as HL.
  destruct (mel_load4 (l_rest s)) as [val rest'] eqn:EL. cbv zeta in HL. cbv beta iota zeta.
  destruct HL as (B0 & B1 & B2 & B3 & BR). cbn [l_tmp l_bits l_unstuff l_rest l_k l_num l_runs].
  rewrite B0, B1, B2, B3, BR. clear EL B0 B1 B2 B3 BR val rest'.
  destruct (nth_hd_tl (orlast (l_rest s))) as (-> & -> & -> & -> & ->).
  set (R := orlast (l_rest s)) in *.
  pose proof (mi_b _ _ _ _ _ H) as Hbits.
  assert (forall b, 0 <= Z.b2z b <= 1) as Hz by apply b2z_le.
  pose proof (Hz (l_unstuff s)) as Z0. pose proof (Hz (hd 255 R =? 255)) as Z1.
  pose proof (Hz (hd 255 (tl R) =? 255)) as Z2. pose proof (Hz (hd 255 (tl (tl R)) =? 255)) as Z3.
  assert (bytes_ok R) as KR by (apply (mi_ok _ _ _ _ _ H)).
  assert (forall q, bytes_ok q -> 0 <= hd 255 q < 2 ^ 8) as Kd.
  { intros q Hq. apply (hd_ok 255); auto. unfold byte_ok; lia. }
  assert (forall q : list Z, bytes_ok q -> bytes_ok (tl q)) as Kt by (intros [|? ?] Hq; [constructor|inversion Hq; auto]).
  pose proof (Kd R KR) as D0. pose proof (Kd _ (Kt _ KR)) as D1. pose proof (Kd _ (Kt _ (Kt _ KR))) as D2.
  pose proof (Kd _ (Kt _ (Kt _ (Kt _ KR)))) as D3.
  pose proof (mabsorb _ _ _ _ _ H ltac:(lia)) as A1.
  pose proof (mabsorb _ _ _ _ _ A1 ltac:(lia)) as A2.
  pose proof (mabsorb _ _ _ _ _ A2 ltac:(lia)) as A3.
  pose proof (mabsorb _ _ _ _ _ A3 ltac:(lia)) as A4.
  apply minv_wrap in A4. clear A1 A2 A3 H.
  set (d0 := hd 255 R) in *. set (d1 := hd 255 (tl R)) in *. set (d2 := hd 255 (tl (tl R))) in *.
  set (d3 := hd 255 (tl (tl (tl R)))) in *.
  set (f0 := Z.b2z (d0 =? 255)) in *. set (f1 := Z.b2z (d1 =? 255)) in *. set (f2 := Z.b2z (d2 =? 255)) in *.
  set (uu := Z.b2z (l_unstuff s)) in *.
  clearbody f0 f1 f2 d0 d1 d2 uu.
  rewrite (wrap32_shiftl_small d0 (8 - f0) 8) by lia.
  assert (0 <= Z.lor (Z.shiftl d0 (8 - f0)) d1 < 2 ^ 16) as T1.
  { apply lor_range; try lia.
    pose proof (shiftl_range d0 (8 - f0) 8 ltac:(lia) D0 ltac:(lia)) as Q.
    assert (2 ^ (8 + (8 - f0)) <= 2 ^ 16) by (apply Z.pow_le_mono_r; lia). lia. }
  rewrite (wrap32_shiftl_small _ (8 - f1) 16) by lia.
  assert (0 <= Z.lor (Z.shiftl (Z.lor (Z.shiftl d0 (8 - f0)) d1) (8 - f1)) d2 < 2 ^ 24) as T2.
  { apply lor_range; try lia.
    pose proof (shiftl_range _ (8 - f1) 16 ltac:(lia) T1 ltac:(lia)) as Q.
    assert (2 ^ (16 + (8 - f1)) <= 2 ^ 24) by (apply Z.pow_le_mono_r; lia). lia. }
  rewrite (wrap32_shiftl_small _ (8 - f2) 24) by lia.
  split; [|cbn [l_bits l_k l_num l_runs]; repeat split; lia].
  match goal with |- minv (wrap64 (Z.lor ?t ?x)) ?b _ _ _ =>
    match type of A4 with minv (wrap64 ?y) ?c _ _ _ =>
      replace (Z.lor t x) with y; [replace b with c by lia; exact A4|] end end.
  rewrite !Z.shiftl_lor, !Z.shiftl_shiftl by lia. rewrite <- !Z.lor_assoc.
  assert (forall a b a' b' c c' d d' : Z, a = a' -> b = b' -> c = c' -> d = d' ->
    Z.lor (l_tmp s) (Z.lor (Z.shiftl d0 a) (Z.lor (Z.shiftl d1 b) (Z.lor (Z.shiftl d2 c) (Z.shiftl d3 d)))) =
    Z.lor (l_tmp s) (Z.lor (Z.shiftl d0 a') (Z.lor (Z.shiftl d1 b') (Z.lor (Z.shiftl d2 c') (Z.shiftl d3 d'))))) as E
    by (intros; subst; reflexivity).
  apply E; lia.
Qed.

(** ** Initialisation *)

Lemma orlast_hd_tl rest :
  match rest with [] => (255, []) | [d] => (Z.lor d 15, []) | d :: t => (d, t) end =
  (hd 255 (orlast rest), tl rest) /\ orlast (tl rest) = tl (orlast rest).
Proof. destruct rest as [|a [|b t]]; split; reflexivity. Qed.

(** The right-aligned state of the loop. *)
Definition mel_right (s : meldec) (l : list bool) : Prop :=
  minv (Z.shiftl (l_tmp s) (64 - l_bits s)) (l_bits s) (l_unstuff s) (orlast (l_rest s)) l /\
  0 <= l_tmp s < 2 ^ l_bits s /\ (l_unstuff s = true -> 7 <= l_bits s).

Lemma mel_init_byte_inv s l : mel_right s l -> l_bits s <= 24 ->
  mel_right (mel_init_byte s) l /\ l_bits s + 7 <= l_bits (mel_init_byte s) <= l_bits s + 8.
Proof.
  intros (H & Hr & Hu) Hb. unfold mel_init_byte.
  destruct (orlast_hd_tl (l_rest s)) as [-> Et].
  set (w := 8 - Z.b2z (l_unstuff s)).
  pose proof (mi_b _ _ _ _ _ H) as Hbits. pose proof (b2z_le (l_unstuff s)) as Hz.
  pose proof (mabsorb _ _ _ _ _ H ltac:(lia)) as A. fold w in A.
  set (d := hd 255 (orlast (l_rest s))) in *.
  assert (0 <= d < 2 ^ 8) as Hd.
  { apply (hd_ok 255); [unfold byte_ok; lia|apply (mi_ok _ _ _ _ _ H)]. }
  assert (0 <= Z.lor (Z.shiftl (l_tmp s) w) d < 2 ^ (l_bits s + w)) as Hx.
  { apply lor_range; [lia| |].
    - apply shiftl_range; lia.
    - assert (2 ^ 8 <= 2 ^ (l_bits s + w)); [|lia].
      apply Z.pow_le_mono_r; [lia|]. subst w. destruct (l_unstuff s); cbn [Z.b2z] in *; [|lia].
      specialize (Hu eq_refl). lia. }
  assert (2 ^ (l_bits s + w) <= 2 ^ 64) by (apply Z.pow_le_mono_r; lia).
  rewrite wrap64_small by (unfold two64; lia).
  unfold mel_right; cbn [l_tmp l_bits l_unstuff l_rest]. repeat apply conj; try lia.
  rewrite Et. rewrite Z.shiftl_lor, Z.shiftl_shiftl by lia.
  replace (w + (64 - (l_bits s + w))) with (64 - l_bits s) by lia.
  replace (64 - (l_bits s + w)) with (64 - l_bits s - w) by lia. exact A.
Qed.

Lemma iter_mel_init_byte n s l : mel_right s l -> l_bits s + 8 * Z.of_nat n <= 32 ->
  mel_right (Nat.iter n mel_init_byte s) l /\ l_bits (Nat.iter n mel_init_byte s) <= l_bits s + 8 * Z.of_nat n.
Proof.
  intros H. induction n; intros Hn; [split; [exact H|cbn; lia]|].
  destruct IHn as [I1 I2]; [lia|].
  change (Nat.iter (S n) mel_init_byte s) with (mel_init_byte (Nat.iter n mel_init_byte s)).
  destruct (mel_init_byte_inv _ _ I1) as [J1 J2]; [lia|]. split; auto. lia.
Qed.

Lemma mel_dec_init_inv al seg l : (al <= 3)%nat -> bytes_ok seg ->
  mpre false (orlast (removelast seg)) l ->
  mel_inv (mel_dec_init al seg) l /\ l_bits (mel_dec_init al seg) <= 32 /\
  l_k (mel_dec_init al seg) = 0 /\ l_num (mel_dec_init al seg) = 0 /\ l_runs (mel_dec_init al seg) = 0.
Proof.
  intros Hal Hok Hp. unfold mel_dec_init.
  set (s0 := Mel (removelast seg) 0 0 false 0 0 0).
  assert (bytes_ok (removelast seg)) as Hr.
  { destruct (list_eq_dec Z.eq_dec seg []) as [->|Hne]; [constructor|].
    rewrite (app_removelast_last 0 Hne) in Hok. now apply bytes_ok_app in Hok. }
  assert (mel_right s0 l) as H0.
  { unfold mel_right; cbn [s0 l_tmp l_bits l_unstuff l_rest]. repeat apply conj; try lia; try discriminate.
    rewrite Z.shiftl_0_l. constructor; try lia; auto.
    - intros i Hi. apply Z.bits_0.
    - now apply orlast_ok. }
  destruct (iter_mel_init_byte (4 - al) s0 l H0) as [(H1 & H2 & H3) H4]; [cbn [s0 l_bits]; lia|].
  set (s1 := Nat.iter (4 - al) mel_init_byte s0) in *. clearbody s1. unfold mel_inv.
  cbn [l_tmp l_bits l_unstuff l_rest l_k l_num l_runs]. split; [now apply minv_wrap|].
  cbn [s0 l_bits] in H4. repeat split; lia.
Qed.

(** ** Runs *)

(** A bit list codes a sequence of runs from the MEL state [k] on.  A run
    value is what get_run returns: an even value [2n] stands for [n + 1] events
    0, an odd value [2n+1] for [n] events 0 followed by an event 1. *)
Inductive mel_codes : Z -> list bool -> list Z -> Prop :=
| mc_nil k l : mel_codes k l []
| mc_one k l rs : mel_codes (Z.min 12 (k + 1)) l rs -> mel_codes k (true :: l) (2 * (2 ^ MEL_E k - 1) :: rs)
| mc_zero k n l rs : 0 <= n < 2 ^ MEL_E k -> mel_codes (Z.max 0 (k - 1)) l rs ->
    mel_codes k (false :: bitsBE (Z.to_nat (MEL_E k)) n ++ l) (2 * n + 1 :: rs).

Definition evs_of (r : Z) : list bool :=
  if Z.odd r then repeat false (Z.to_nat (r / 2)) ++ [true] else repeat false (Z.to_nat (r / 2) + 1).

Lemma MEL_E_range k : 0 <= k <= 12 -> 0 <= MEL_E k <= 5.
Proof.
  intros H. assert (In k [0;1;2;3;4;5;6;7;8;9;10;11;12]) as Hin by (cbn; lia).
  cbn [In] in Hin. repeat (destruct Hin as [<-|Hin]; [vm_compute; split; discriminate|]). contradiction.
Qed.

(** Taking [n] bits out of [tmp]. *)
Lemma minv_shift t bits u rest l n : minv t bits u rest l -> 0 <= n <= bits ->
  minv (wrap64 (Z.shiftl t n)) (bits - n) u rest (zskip n l).
Proof.
  intros [Ht Hb Hi Ho Hu Hp Hk] Hn. apply minv_wrap.
  assert (zlen (zskip n l) = Z.max 0 (zlen l - n)) as EL by (unfold zlen, zskip; rewrite skipn_length; lia).
  constructor; auto.
  - apply Z.shiftl_nonneg; auto.
  - lia.
  - intros i H1 H2. rewrite Z.shiftl_spec by lia. rewrite znth_zskip by lia.
    replace (63 - i - n) with (63 - (n + i)) by lia. apply Hi; lia.
  - intros i H1. rewrite Z.shiftl_spec by lia.
    destruct (Z.lt_ge_cases (63 - i - n) 0); [apply Z.testbit_neg_r; lia|].
    replace (63 - i - n) with (63 - (i + n)) by lia. apply Ho; lia.
  - intros Hu1 Hb1. rewrite Z.shiftl_spec by lia. replace (64 - (bits - n) - n) with (64 - bits) by lia.
    apply Hu; auto. lia.
  - rewrite zskip_zskip by lia. replace (n + (bits - n)) with bits by lia. exact Hp.
Qed.

(** The run queue. *)
Fixpoint pack (q : list Z) : Z := match q with [] => 0 | r :: t => r + 128 * pack t end.

Lemma pack_range q : Forall (fun r => 0 <= r < 64) q -> 0 <= pack q < 128 ^ zlen q.
Proof.
  induction q as [|r t IH]; intros H; [cbn; lia|].
  inversion_clear H. specialize (IH H1). rewrite zlen_cons, Z.pow_add_r by (try lia; apply zlen_nonneg).
  cbn [pack]. lia.
Qed.
Lemma pack_snoc q r : pack (q ++ [r]) = pack q + r * 128 ^ zlen q.
Proof.
  induction q as [|a t IH]; cbn [app pack]; [cbn; lia|].
  rewrite IH. rewrite zlen_cons, Z.pow_add_r by (try lia; apply zlen_nonneg). lia.
Qed.

Lemma pack_put q r : Forall (fun r => 0 <= r < 64) q -> 0 <= r < 64 -> zlen q < 8 ->
  wrap64 (Z.lor (Z.land (pack q) (wrap64 (Z.lnot (Z.shiftl 63 (zlen q * 7))))) (Z.shiftl r (zlen q * 7)))
  = pack (q ++ [r]).
Proof.
  intros Hq Hr Hl. pose proof (pack_range q Hq) as R. pose proof (zlen_nonneg q) as L0.
  assert (128 ^ zlen q = 2 ^ (zlen q * 7)) as E128.
  { change 128 with (2 ^ 7). rewrite <- Z.pow_mul_r by lia. f_equal. lia. }
  rewrite E128 in R.
  assert (Z.land (pack q) (wrap64 (Z.lnot (Z.shiftl 63 (zlen q * 7)))) = pack q) as ->.
  { apply Z.bits_inj'. intros i Hi. rewrite Z.land_spec.
    destruct (Z.lt_ge_cases i (zlen q * 7)).
    - rewrite wrap64_testbit, Z.lnot_spec, Z.shiftl_spec_low by lia.
      replace (i <? 64) with true by lia. apply andb_true_r.
    - rewrite (testbit_high (pack q) (zlen q * 7)) by lia. reflexivity. }
  rewrite Z.lor_comm, lor_shift_add by lia. rewrite pack_snoc, E128.
  rewrite wrap64_small; [lia|]. unfold two64.
  assert (2 ^ (zlen q * 7) <= 2 ^ 49) by (apply Z.pow_le_mono_r; lia).
  change (2 ^ 49) with 562949953421312 in *. change (2 ^ 64) with 18446744073709551616. nia.
Qed.

Lemma pack_take r q : 0 <= r < 64 -> Z.land (pack (r :: q)) 127 = r /\ Z.shiftr (pack (r :: q)) 7 = pack q.
Proof.
  intros Hr. cbn [pack]. rewrite land_127, Z.shiftr_div_pow2 by lia. change (2 ^ 7) with 128. lia.
Qed.

(** The state delivers the runs [rs] (and then anything). *)
Definition delivers (s : meldec) (rs : list Z) : Prop :=
  exists q rs2 l x,
    l_runs s = pack q /\ l_num s = zlen q /\ Forall (fun r => 0 <= r < 64) q /\ zlen q <= 8 /\
    0 <= l_k s <= 12 /\ mel_inv s l /\ mel_codes (l_k s) l rs2 /\ rs ++ x = q ++ rs2.

(** One decoded run. *)
Lemma mel_decode1_spec s l rs : 0 <= l_k s <= 12 -> mel_inv s l -> 6 <= l_bits s -> mel_codes (l_k s) l rs ->
  exists r l' rs',
    l_runs (mel_decode1 s) = wrap64 (Z.lor (Z.land (l_runs s) (wrap64 (Z.lnot (Z.shiftl 63 (l_num s * 7)))))
                                           (Z.shiftl r (l_num s * 7))) /\
    l_num (mel_decode1 s) = l_num s + 1 /\ 0 <= r < 64 /\ 0 <= l_k (mel_decode1 s) <= 12 /\
    mel_inv (mel_decode1 s) l' /\ mel_codes (l_k (mel_decode1 s)) l' rs' /\
    (rs = r :: rs' \/ rs = [] /\ rs' = []).
Proof.
  intros Hk H Hb Hc. pose proof (MEL_E_range _ Hk) as HE.
  pose proof (mi_in _ _ _ _ _ H) as Hin.
  assert (2 ^ MEL_E (l_k s) <= 2 ^ 5) as HP by (apply Z.pow_le_mono_r; lia).
  assert (0 < 2 ^ MEL_E (l_k s)) as HP0 by (apply Z.pow_pos_nonneg; lia).
  change (2 ^ 5) with 32 in HP.
  assert (forall n, 0 <= n <= l_bits s -> mel_inv
     (Mel (l_rest s) (wrap64 (Z.shiftl (l_tmp s) n)) (l_bits s - n) (l_unstuff s) 0 0 0) (zskip n l)) as Hsh.
  { intros n Hn. unfold mel_inv. cbn [l_tmp l_bits l_unstuff l_rest]. apply minv_shift; auto. }
  unfold mel_decode1. destruct (Z.testbit (l_tmp s) 63) eqn:E63.
  - exists (2 * (2 ^ MEL_E (l_k s) - 1)), (zskip 1 l), (tl rs).
    cbn [l_runs l_num l_k].
    replace (Z.shiftl (Z.shiftl 1 (MEL_E (l_k s)) - 1) 1) with (2 * (2 ^ MEL_E (l_k s) - 1))
      by (rewrite Z.shiftl_1_l, (Z.shiftl_mul_pow2 _ 1) by lia; change (2 ^ 1) with 2; lia).
    replace (if l_k s + 1 <? 12 then l_k s + 1 else 12) with (Z.min 12 (l_k s + 1)) by (destruct (l_k s + 1 <? 12) eqn:?; lia).
    repeat apply conj; try lia.
    + apply (Hsh 1). lia.
    + inversion Hc as [|k' l' rs' Hc' |k' n l' rs' Hn Hc']; subst; cbn [tl].
      * constructor.
      * exact Hc'.
      * exfalso. specialize (Hin 0 ltac:(lia)). cbn [Z.sub Z.add Z.opp] in Hin. change (63 - 0) with 63 in Hin.
        rewrite E63 in Hin. unfold zlen, znth in Hin. cbn in Hin. discriminate Hin. lia.
    + inversion Hc as [|k' l' rs' Hc' |k' n l' rs' Hn Hc']; subst; cbn [tl]; auto.
      exfalso. specialize (Hin 0 ltac:(lia)). change (63 - 0) with 63 in Hin.
      rewrite E63 in Hin. unfold zlen, znth in Hin. cbn in Hin. discriminate Hin. lia.
  - set (E := MEL_E (l_k s)) in *.
    set (m := Z.land (Z.shiftr (l_tmp s) (63 - E)) (Z.shiftl 1 E - 1)).
    assert (0 <= m < 2 ^ E) as Hm.
    { unfold m. rewrite Z.shiftl_1_l, land_ones_mod by lia. apply Z.mod_pos_bound. lia. }
    exists (2 * m + 1), (zskip (E + 1) l), (tl rs). cbn [l_runs l_num l_k].
    replace (Z.shiftl m 1 + 1) with (2 * m + 1) by (rewrite Z.shiftl_mul_pow2 by lia; change (2 ^ 1) with 2; lia).
    replace (if 0 <? l_k s - 1 then l_k s - 1 else 0) with (Z.max 0 (l_k s - 1)) by (destruct (0 <? l_k s - 1) eqn:?; lia).
    assert (rs = [] \/ exists rs' l', rs = 2 * m + 1 :: rs' /\ zskip (E + 1) l = l' /\ mel_codes (Z.max 0 (l_k s - 1)) l' rs') as HR.
    { inversion Hc as [|k' l' rs' Hc' |k' n l' rs' Hn Hc']; subst; auto.
      - exfalso. specialize (Hin 0 ltac:(lia)). change (63 - 0) with 63 in Hin.
        rewrite E63 in Hin. unfold zlen, znth in Hin. cbn in Hin. discriminate Hin. lia.
      - right. fold E in Hn, Hin |- *. exists rs', l'.
        assert (n = m) as <-.
        { rewrite <- (Z.mod_small n (2 ^ E)) by lia. rewrite <- (Z.mod_small m (2 ^ E)) by lia.
          apply testbit_mod_eq; [lia|]. intros i Hi. unfold m. rewrite Z.shiftl_1_l, land_ones_mod by lia.
          rewrite Z.mod_pow2_bits_low by lia. rewrite Z.shiftr_spec by lia.
          replace (i + (63 - E)) with (63 - (E - i)) by lia. rewrite Hin.
          - rewrite znth_cons by lia. rewrite znth_app_l by (unfold zlen; rewrite bitsBE_length; lia).
            unfold znth. rewrite bitsBE_nth by lia. f_equal. lia.
          - lia.
          - rewrite zlen_cons, zlen_app. pose proof (zlen_nonneg l'). unfold zlen at 1. rewrite bitsBE_length. lia. }
        repeat split; auto.
        unfold zskip. replace (Z.to_nat (E + 1)) with (S (Z.to_nat E)) by lia. cbn [skipn].
        rewrite skipn_app, bitsBE_length, Nat.sub_diag, skipn_O, skipn_all2; auto. rewrite bitsBE_length. lia. }
    repeat apply conj; try lia.
    + apply (Hsh (E + 1)). lia.
    + destruct HR as [->|(rs' & l' & -> & <- & HR)]; cbn [tl]; [constructor|exact HR].
    + destruct HR as [->|(rs' & l' & -> & <- & HR)]; cbn [tl]; auto.
Qed.

Lemma mel_decode1_delivers s rs : delivers s rs -> 6 <= l_bits s -> l_num s < 8 ->
  delivers (mel_decode1 s) rs /\ l_num (mel_decode1 s) = l_num s + 1.
Proof.
  intros (q & rs2 & l & x & Hq & Hn & Hr & H8 & Hk & Hi & Hc & He) Hb Hlt.
  destruct (mel_decode1_spec s l rs2 Hk Hi Hb Hc) as (r & l' & rs' & S1 & S2 & S3 & S4 & S5 & S6 & S7).
  split; auto. rewrite Hq, Hn in S1. rewrite pack_put in S1 by (auto; lia).
  exists (q ++ [r]), rs', l', (match rs2 with [] => x ++ [r] | _ => x end).
  rewrite S1, S2, Hn, zlen_app. repeat apply conj; auto; try (change (zlen [r]) with 1; lia).
  - apply Forall_app. split; auto.
  - destruct S7 as [->|[-> ->]].
    + rewrite He, <- app_assoc. reflexivity.
    + rewrite app_nil_r in *. rewrite app_assoc, He. reflexivity.
Qed.

Lemma mel_decode_loop_delivers fuel : forall s rs, delivers s rs ->
  delivers (mel_decode_loop fuel s) rs /\ l_num s <= l_num (mel_decode_loop fuel s).
Proof.
  induction fuel as [|f IH]; intros s rs H; cbn [mel_decode_loop]; [split; auto; lia|].
  destruct ((6 <=? l_bits s) && (l_num s <? 8)) eqn:E; [|split; auto; lia].
  apply andb_true_iff in E as [E1 E2].
  destruct (mel_decode1_delivers s rs H) as [D1 D2]; try lia.
  destruct (IH _ _ D1) as [I1 I2]. split; auto. lia.
Qed.

Lemma mel_decode_delivers s rs : delivers s rs -> l_num s = 0 ->
  delivers (mel_decode s) rs /\ 1 <= l_num (mel_decode s).
Proof.
  intros H H0. unfold mel_decode.
  assert (exists s1, (if l_bits s <? 6 then mel_read s else s) = s1 /\ delivers s1 rs /\ 6 <= l_bits s1 /\ l_num s1 = 0)
    as (s1 & -> & D & B & N).
  { destruct (l_bits s <? 6) eqn:E.
    - exists (mel_read s). destruct H as (q & rs2 & l & x & Hq & Hn & Hr & H8 & Hk & Hi & Hc & He).
      destruct (mel_read_inv s l Hi) as (M1 & M2 & M3 & M4 & M5); [lia|].
      pose proof (mi_b _ _ _ _ _ Hi). split; [reflexivity|]. split; [|lia].
      exists q, rs2, l, x. rewrite M3, M4, M5. auto 10.
    - exists s. repeat split; auto. lia. }
  change (mel_decode_loop 8 s1) with (if (6 <=? l_bits s1) && (l_num s1 <? 8) then mel_decode_loop 7 (mel_decode1 s1) else s1).
  replace ((6 <=? l_bits s1) && (l_num s1 <? 8)) with true by (symmetry; apply andb_true_iff; lia).
  destruct (mel_decode1_delivers s1 rs D) as [D1 D2]; try lia.
  destruct (mel_decode_loop_delivers 7 _ _ D1) as [I1 I2]. split; auto. lia.
Qed.

Lemma mel_get_run_spec s rs : delivers s rs ->
  let '(r, s') := mel_get_run s in
  0 <= r < 64 /\ delivers s' (tl rs) /\ (rs <> [] -> r = hd 0 rs).
Proof.
  intros H. unfold mel_get_run.
  assert (exists s1, (if l_num s =? 0 then mel_decode s else s) = s1 /\ delivers s1 rs /\ 1 <= l_num s1) as (s1 & -> & D & N).
  { eexists; split; [reflexivity|]. destruct (l_num s =? 0) eqn:E.
    - apply mel_decode_delivers; auto. lia.
    - split; auto. destruct H as (q & _ & _ & _ & _ & Hn & _). pose proof (zlen_nonneg q). lia. }
  destruct D as (q & rs2 & l & x & Hq & Hn & Hr & H8 & Hk & Hi & Hc & He).
  destruct q as [|r q]; [unfold zlen in Hn; cbn in Hn; lia|].
  inversion_clear Hr as [|? ? R1 R2]. destruct (pack_take r q R1) as [P1 P2]. rewrite Hq, P1, P2.
  split; [auto|]. rewrite zlen_cons in *. split.
  - exists q, rs2, l, (match rs with [] => q ++ rs2 | _ => x end). cbn [l_runs l_num l_k].
    repeat apply conj; auto; try lia.
    destruct rs as [|a t]; [reflexivity|]. cbn [tl]. cbn [app] in He. now injection He.
  - intros Hne. destruct rs as [|a t]; [contradiction|]. cbn [app] in He. now injection He.
Qed.

(** ** Events *)

(** The reader, holding the run [run], yields the events [evs]. *)
Fixpoint mel_yields (run : Z) (s : meldec) (evs : list bool) : Prop :=
  match evs with
  | [] => True
  | e :: t => let '(b, (run', s')) := mel_event run s in b = e /\ mel_yields run' s' t
  end.

Definition pend (run : Z) (s : meldec) (evs : list bool) : Prop :=
  exists rs x, 0 <= run < 64 /\ delivers s rs /\ evs ++ x = evs_of run ++ concat (map evs_of rs).

Lemma evs_of_step run : 0 <= run ->
  evs_of run = (run - 2 =? -1) :: (if run - 2 <? 0 then [] else evs_of (run - 2)).
Proof.
  intros H. unfold evs_of. assert (Z.odd (run - 2) = Z.odd run) as Eo by (rewrite Z.odd_sub; cbn; now rewrite xorb_false_r).
  rewrite Eo. destruct (Z.odd run) eqn:E.
  - destruct (run - 2 <? 0) eqn:E2.
    + assert (run = 1) as -> by (destruct (Z.eq_dec run 0); [subst; discriminate|lia]). reflexivity.
    + replace (run - 2 =? -1) with false by lia.
      replace (Z.to_nat (run / 2)) with (S (Z.to_nat ((run - 2) / 2))) by lia. reflexivity.
  - destruct (run - 2 <? 0) eqn:E2.
    + assert (run = 0) as -> by (destruct (Z.eq_dec run 1); [subst; discriminate|lia]). reflexivity.
    + replace (run - 2 =? -1) with false.
      * replace (Z.to_nat (run / 2)) with (S (Z.to_nat ((run - 2) / 2))) by lia. reflexivity.
      * lia.
Qed.

Lemma mel_event_pend run s e evs : pend run s (e :: evs) ->
  let '(b, (run', s')) := mel_event run s in
  b = e /\ (evs = [] \/ pend run' s' evs).
Proof.
  intros (rs & x & Hr & D & He). unfold mel_event. rewrite evs_of_step in He by lia.
  cbn [app] in He. injection He as Hb He. destruct (run - 2 <? 0) eqn:E.
  - cbn [app] in He. pose proof (mel_get_run_spec s rs D) as G. destruct (mel_get_run s) as [r s'].
    destruct G as (G1 & G2 & G3). split; auto. destruct rs as [|a rs].
    + cbn in He. apply app_eq_nil in He as [-> _]. auto.
    + right. exists rs, x. repeat apply conj; auto; try lia. cbn [map concat] in He.
      rewrite G3 by discriminate. exact He.
  - split; auto. right. exists rs, x. repeat apply conj; auto; lia.
Qed.

Lemma pend_yields evs : forall run s, pend run s evs -> mel_yields run s evs.
Proof.
  induction evs as [|e t IH]; intros run s H; [exact I|]. cbn [mel_yields].
  pose proof (mel_event_pend run s e t H) as HE. destruct (mel_event run s) as [b [run' s']].
  destruct HE as [-> [->|HE]]; split; auto; cbn; auto.
Qed.

(** Reading a segment whose stream codes runs covering the events. *)
Lemma mel_reads al seg l rs evs x : (al <= 3)%nat -> bytes_ok seg ->
  mpre false (orlast (removelast seg)) l -> mel_codes 0 l rs -> evs ++ x = concat (map evs_of rs) ->
  let '(run, s) := mel_get_run (mel_dec_init al seg) in mel_yields run s evs.
Proof.
  intros Hal Hok Hp Hc He.
  destruct (mel_dec_init_inv al seg l Hal Hok Hp) as (M1 & M2 & M3 & M4 & M5).
  assert (delivers (mel_dec_init al seg) rs) as D.
  { exists [], rs, l, []. rewrite M3, M4, M5. rewrite app_nil_r. repeat apply conj; auto; try lia.
    - cbn. lia. }
  pose proof (mel_get_run_spec _ _ D) as G. destruct (mel_get_run (mel_dec_init al seg)) as [r s].
  destruct G as (G1 & G2 & G3). destruct rs as [|a rs].
  - cbn in He. apply app_eq_nil in He as [-> _]. exact I.
  - apply pend_yields. exists rs, x. repeat apply conj; auto; try lia.
    cbn [map concat] in He. rewrite G3 by discriminate. exact He.
Qed.
