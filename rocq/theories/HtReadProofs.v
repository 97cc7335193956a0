(** The MagSgn reader and the VLC reader deliver the stream of their segment. *)
From Verif Require Import Base BaseLemmas HtBits HtStreamModel HtReaders.

Lemma sweep256 (P : Z -> bool) : forallb P (zseq 256) = true -> forall b, byte_ok b -> P b = true.
Proof. intros H b Hb. rewrite forallb_forall in H. apply H. apply zseq_In. exact Hb. Qed.

(** ** MagSgn *)

Definition fwd_width (u : bool) (b : Z) : Z := 8 - Z.b2z u.
Definition is_ff (b : Z) : bool := b =? 255.
Definition fwd_pre := pre fwd_width is_ff 255.

Lemma fwd_width_78 u b : fwd_width u b = 7 \/ fwd_width u b = 8.
Proof. unfold fwd_width. destruct u; cbn; auto. Qed.
Lemma byte_ok_255 : byte_ok 255. Proof. unfold byte_ok. lia. Qed.
Lemma byte_ok_0 : byte_ok 0. Proof. unfold byte_ok. lia. Qed.

Definition fwd_inv (s : fwd) (l : list bool) : Prop :=
  Inv fwd_width is_ff 255 (f_creg s) (f_bits s) (f_unstuff s) (f_rest s) l /\ f_bits s <= 64.

Lemma fwd_byte_inv s l : fwd_inv s l -> f_bits s <= 56 ->
  fwd_inv (fwd_byte s) l /\ f_bits s + 7 <= f_bits (fwd_byte s) <= f_bits s + 8.
Proof.
  intros [H Hb] Hc. unfold fwd_byte.
  pose proof (absorb _ _ _ fwd_width_78 byte_ok_255 _ _ _ _ _ H) as A.
  assert (forall u, 7 <= 8 - Z.b2z u <= 8) as Hu by (intros []; cbn; lia).
  specialize (Hu (f_unstuff s)).
  destruct s as [rest c bits u]. cbn [f_creg f_bits f_unstuff f_rest] in *.
  destruct rest as [|d rest]; cbn [f_creg f_bits f_unstuff f_rest hd tl] in *;
    (split; [|lia]); split; cbn [f_creg f_bits f_unstuff f_rest]; try (unfold fwd_width in *; lia);
    apply Inv_wrap in A; auto; unfold fwd_width in *; lia.
Qed.

Lemma fwd_load rest : bytes_ok rest ->
  let vr := fwd_load4 rest in
  byte_of (fst vr) 0 = hd 255 rest /\ byte_of (fst vr) 1 = hd 255 (tl rest) /\
  byte_of (fst vr) 2 = hd 255 (tl (tl rest)) /\ byte_of (fst vr) 3 = hd 255 (tl (tl (tl rest))) /\
  snd vr = tl (tl (tl (tl rest))).
Proof.
  intros H. unfold bytes_ok in H.
  destruct rest as [|a [|b [|c [|d rest]]]]; cbv zeta; cbn [fst snd hd tl fwd_load4 rev_load4].
  - repeat split; reflexivity.
  - destruct (put_bytes_spec [a]) as (-> & -> & -> & ->); [exact H|cbn; lia|]. cbn. auto.
  - destruct (put_bytes_spec [a; b]) as (-> & -> & -> & ->); [exact H|cbn; lia|]. cbn. auto.
  - destruct (put_bytes_spec [a; b; c]) as (-> & -> & -> & ->); [exact H|cbn; lia|]. cbn. auto.
  - repeat match goal with H : Forall byte_ok (_ :: _) |- _ => apply Forall_cons_inv in H; destruct H end.
    destruct (byte_of_le32 a b c d) as (-> & -> & -> & ->); auto.
Qed.

Lemma fwd_read_inv s l : fwd_inv s l -> f_bits s <= 32 ->
  exists s', fwd_read s = Some s' /\ fwd_inv s' l /\ f_bits s + 28 <= f_bits s' <= f_bits s + 32.
Proof.
  intros [H Hb] Hc. unfold fwd_read. replace (32 <? f_bits s) with false by lia.
  pose proof (fwd_load (f_rest s) (inv_ok _ _ _ _ _ _ _ _ H)) as L. cbv zeta in L.
  destruct (fwd_load4 (f_rest s)) as [val rest]. cbn [fst snd] in L. destruct L as (L0 & L1 & L2 & L3 & L4).
  rewrite byte_of_0. rewrite L0, L1, L2, L3. rewrite L4.
  eexists. split; [reflexivity|].
  assert (forall u, 7 <= 8 - Z.b2z u <= 8) as Hu by (intros []; cbn; lia).
  set (b0 := hd 255 (f_rest s)) in *. set (b1 := hd 255 (tl (f_rest s))) in *.
  set (b2 := hd 255 (tl (tl (f_rest s)))) in *. set (b3 := hd 255 (tl (tl (tl (f_rest s))))) in *.
  pose proof (Hu (f_unstuff s)). pose proof (Hu (b0 =? 255)). pose proof (Hu (b1 =? 255)).
  pose proof (Hu (b2 =? 255)).
  split; [|cbn [f_bits]; lia].
  split; [|cbn [f_bits]; lia].
  cbn [f_bits f_creg f_unstuff f_rest].
  apply (absorb4 fwd_width is_ff 255 fwd_width_78 byte_ok_255 _ _ _ _ _ b0 b1 b2 b3 _ _ _ _ H); auto.
Qed.

Lemma fwd_fetch_inv s l : fwd_inv s l ->
  exists v s', fwd_fetch s = Some (v, s') /\ fwd_inv s' l /\ 32 <= f_bits s' /\ 0 <= v < 2 ^ 32 /\
  (forall i, 0 <= i < 32 -> i < zlen l -> Z.testbit v i = znth false l i).
Proof.
  intros H. unfold fwd_fetch.
  assert (exists s', (if f_bits s <? 32 then
           match fwd_read s with
           | Some s1 => if f_bits s1 <? 32 then fwd_read s1 else Some s1
           | None => None
           end
         else Some s) = Some s' /\ fwd_inv s' l /\ 32 <= f_bits s') as (s' & -> & H' & Hb).
  { destruct (f_bits s <? 32) eqn:E; [|exists s; repeat split; auto; try apply H; lia].
    destruct (fwd_read_inv s l H ltac:(lia)) as (s1 & -> & H1 & Hb1).
    pose proof (inv_b _ _ _ _ _ _ _ _ (proj1 H)).
    destruct (f_bits s1 <? 32) eqn:E1; [|exists s1; repeat split; auto; try apply H1; lia].
    destruct (fwd_read_inv s1 l H1 ltac:(lia)) as (s2 & -> & H2 & Hb2).
    exists s2. split; [reflexivity|]. split; [assumption|lia]. }
  exists (wrap32 (f_creg s')), s'. split; [reflexivity|]. split; [assumption|]. split; [assumption|].
  split; [apply wrap32_range|].
  intros i Hi Hl. rewrite wrap32_testbit by lia. replace (i <? 32) with true by lia. cbn.
  apply (inv_in _ _ _ _ _ _ _ _ (proj1 H')); lia.
Qed.

Lemma fwd_advance_inv s l n : fwd_inv s l -> 0 <= n <= f_bits s ->
  exists s', fwd_advance s n = Some s' /\ fwd_inv s' (zskip n l).
Proof.
  intros [H Hb] Hn. unfold fwd_advance. replace (f_bits s <? n) with false by lia.
  eexists. split; [reflexivity|]. split; cbn [f_creg f_bits f_unstuff f_rest]; [|lia].
  apply Inv_advance; [exact H|lia].
Qed.

Lemma iter_fwd_byte n s l : fwd_inv s l -> f_bits s + 8 * Z.of_nat n <= 64 ->
  fwd_inv (Nat.iter n fwd_byte s) l /\ f_bits s <= f_bits (Nat.iter n fwd_byte s) <= f_bits s + 8 * Z.of_nat n.
Proof.
  intros H. induction n as [|n IH]; intros Hn; [cbn; split; auto; lia|].
  destruct IH as [IH1 IH2]; [lia|]. change (Nat.iter (S n) fwd_byte s) with (fwd_byte (Nat.iter n fwd_byte s)).
  destruct (fwd_byte_inv _ _ IH1) as [J1 J2]; [lia|]. split; [exact J1|lia].
Qed.

Lemma fwd_init_inv al seg l : (al <= 3)%nat -> bytes_ok seg -> fwd_pre false seg l ->
  exists s, fwd_init al seg = Some s /\ fwd_inv s l.
Proof.
  intros Ha Hs Hp. unfold fwd_init.
  assert (fwd_inv (Fwd seg 0 0 false) l) as H0.
  { split; cbn; [|lia]. constructor; auto; try lia.
    - intros i Hi. rewrite Z.bits_0. discriminate. }
  destruct (iter_fwd_byte (4 - al) _ _ H0) as [H1 H2]; [cbn [f_bits]; lia|].
  cbn [f_bits] in H2.
  destruct (fwd_read_inv _ _ H1) as (s & -> & H3 & _); [lia|]. eauto.
Qed.

(** ** VLC *)

Definition gt_8f (b : Z) : bool := 143 <? b.
Definition rev_pre := pre rev_width gt_8f 0.

Lemma rev_width_78 u b : rev_width u b = 7 \/ rev_width u b = 8.
Proof. unfold rev_width. destruct (u && _); cbn; auto. Qed.

Definition rev_inv (s : rbuf) (l : list bool) : Prop :=
  Inv rev_width gt_8f 0 (r_creg s) (r_bits s) (r_unstuff s) (r_rest s) l /\ r_bits s <= 64.

Lemma rev_byte_inv s l : rev_inv s l -> r_bits s <= 56 ->
  rev_inv (rev_byte s) l /\ r_bits s <= r_bits (rev_byte s) <= r_bits s + 8.
Proof.
  intros [H Hb] Hc. unfold rev_byte.
  pose proof (absorb _ _ _ rev_width_78 byte_ok_0 _ _ _ _ _ H) as A.
  destruct s as [rest c bits u]. cbn [r_creg r_bits r_unstuff r_rest] in *.
  destruct rest as [|d rest]; cbn [r_creg r_bits r_unstuff r_rest hd tl] in *.
  - split; [split; auto|lia].
  - destruct (rev_width_78 u d) as [W|W]; rewrite W in *;
    (split; [|lia]); split; cbn [r_creg r_bits r_unstuff r_rest]; try lia;
    apply Inv_wrap in A; auto; lia.
Qed.

Lemma rev_load rest : bytes_ok rest ->
  let vr := rev_load4 rest in
  Z.shiftr (fst vr) 24 = hd 0 rest /\ byte_of (fst vr) 2 = hd 0 (tl rest) /\
  byte_of (fst vr) 1 = hd 0 (tl (tl rest)) /\ byte_of (fst vr) 0 = hd 0 (tl (tl (tl rest))) /\
  snd vr = tl (tl (tl (tl rest))).
Proof.
  intros H. pose proof H as H'. unfold bytes_ok in H'.
  assert (forall a b c d, byte_ok a -> byte_ok b -> byte_ok c -> byte_ok d ->
    Z.shiftr (le32 d c b a) 24 = a /\ byte_of (le32 d c b a) 2 = b /\ byte_of (le32 d c b a) 1 = c /\
    byte_of (le32 d c b a) 0 = d) as L.
  { intros a b c d Ha Hb Hc Hd. rewrite shiftr24 by now apply le32_range.
    destruct (byte_of_le32 d c b a) as (-> & -> & -> & ->); auto. }
  destruct rest as [|a [|b [|c [|d rest]]]]; cbv zeta; cbn [fst snd hd tl fwd_load4 rev_load4].
  - repeat split; reflexivity.
  - rewrite put_high_spec by (auto; cbn; lia). cbn [nth].
    repeat match goal with H : Forall byte_ok (_ :: _) |- _ => apply Forall_cons_inv in H; destruct H end.
    destruct (L a 0 0 0) as (-> & -> & -> & ->); auto using byte_ok_0.
  - rewrite put_high_spec by (auto; cbn; lia). cbn [nth].
    repeat match goal with H : Forall byte_ok (_ :: _) |- _ => apply Forall_cons_inv in H; destruct H end.
    destruct (L a b 0 0) as (-> & -> & -> & ->); auto using byte_ok_0.
  - rewrite put_high_spec by (auto; cbn; lia). cbn [nth].
    repeat match goal with H : Forall byte_ok (_ :: _) |- _ => apply Forall_cons_inv in H; destruct H end.
    destruct (L a b c 0) as (-> & -> & -> & ->); auto using byte_ok_0.
  - repeat match goal with H : Forall byte_ok (_ :: _) |- _ => apply Forall_cons_inv in H; destruct H end.
    destruct (L a b c d) as (-> & -> & -> & ->); auto.
Qed.

Lemma rev_read_inv s l : rev_inv s l ->
  rev_inv (rev_read s) l /\ (r_bits s <= 32 -> r_bits s + 28 <= r_bits (rev_read s) <= r_bits s + 32).
Proof.
  intros [H Hb]. unfold rev_read. destruct (32 <? r_bits s) eqn:E; [split; [split; auto|lia]|].
  pose proof (rev_load (r_rest s) (inv_ok _ _ _ _ _ _ _ _ H)) as L. cbv zeta in L.
  destruct (rev_load4 (r_rest s)) as [val rest]. cbn [fst snd] in L. destruct L as (L0 & L1 & L2 & L3 & L4).
  rewrite byte_of_0. rewrite L0, L1, L2, L3. rewrite L4.
  set (b0 := hd 0 (r_rest s)) in *. set (b1 := hd 0 (tl (r_rest s))) in *.
  set (b2 := hd 0 (tl (tl (r_rest s)))) in *. set (b3 := hd 0 (tl (tl (tl (r_rest s))))) in *.
  assert (forall u b, 7 <= rev_width u b <= 8) as Hu by (intros u b; destruct (rev_width_78 u b); lia).
  pose proof (Hu (r_unstuff s) b0). pose proof (Hu (143 <? b0) b1). pose proof (Hu (143 <? b1) b2).
  pose proof (Hu (143 <? b2) b3).
  split; [|cbn [r_bits]; lia].
  split; [|cbn [r_bits]; lia].
  cbn [r_bits r_creg r_unstuff r_rest].
  apply (absorb4 rev_width gt_8f 0 rev_width_78 byte_ok_0 _ _ _ _ _ b0 b1 b2 b3 _ _ _ _ H); auto.
  lia.
Qed.

Lemma rev_fetch_inv s l : rev_inv s l ->
  let (v, s') := rev_fetch s in
  rev_inv s' l /\ 32 <= r_bits s' /\ v = wrap32 (r_creg s').
Proof.
  intros H. unfold rev_fetch. pose proof (inv_b _ _ _ _ _ _ _ _ (proj1 H)).
  destruct (r_bits s <? 32) eqn:E; [|repeat split; try apply H; lia].
  destruct (rev_read_inv s l H) as [H1 B1].
  destruct (r_bits (rev_read s) <? 32) eqn:E1; [|repeat split; try apply H1; lia].
  destruct (rev_read_inv _ l H1) as [H2 B2]. split; [assumption|]. split; [lia|reflexivity].
Qed.

(** The 32-bit window shows the next bits of the stream. *)
Lemma rev_window s l i : rev_inv s l -> 0 <= i < 32 -> i < r_bits s -> i < zlen l ->
  Z.testbit (wrap32 (r_creg s)) i = znth false l i.
Proof.
  intros H Hi Hb Hl. rewrite wrap32_testbit by lia. replace (i <? 32) with true by lia. cbn.
  apply (inv_in _ _ _ _ _ _ _ _ (proj1 H)); lia.
Qed.

Lemma rev_advance_inv s l n : rev_inv s l -> 0 <= n <= r_bits s ->
  exists s', rev_advance s n = Some (wrap32 (r_creg s'), s') /\ rev_inv s' (zskip n l) /\
             r_bits s' = r_bits s - n.
Proof.
  intros [H Hb] Hn. unfold rev_advance. replace (r_bits s <? n) with false by lia.
  eexists (Rev _ _ _ _). cbn [r_creg]. split; [reflexivity|]. cbn [r_bits]. split; [|reflexivity].
  split; cbn [r_creg r_bits r_unstuff r_rest]; [|lia].
  apply Inv_advance; [exact H|lia].
Qed.

Lemma iter_rev_byte n s l : rev_inv s l -> r_bits s + 8 * Z.of_nat n <= 64 ->
  rev_inv (Nat.iter n rev_byte s) l /\ r_bits s <= r_bits (Nat.iter n rev_byte s) <= r_bits s + 8 * Z.of_nat n.
Proof.
  intros H. induction n as [|n IH]; intros Hn; [cbn; split; auto; lia|].
  destruct IH as [IH1 IH2]; [lia|]. change (Nat.iter (S n) rev_byte s) with (rev_byte (Nat.iter n rev_byte s)).
  destruct (rev_byte_inv _ _ IH1) as [J1 J2]; [lia|]. split; [exact J1|lia].
Qed.

Lemma first_vlc_byte d : byte_ok d -> Z.land d 15 = 15 ->
  4 - Z.b2z (Z.land (Z.shiftr d 4) 7 =? 7) = rev_width true d - 4 /\ Z.lor d 15 = d /\
  bitsLE 4 d = [true; true; true; true].
Proof.
  intros H H15.
  pose proof (sweep256 (fun d => negb (Z.land d 15 =? 15) ||
    ((4 - Z.b2z (Z.land (Z.shiftr d 4) 7 =? 7) =? rev_width true d - 4) && (Z.lor d 15 =? d)
     && forallb (fun b => b) (bitsLE 4 d))) ltac:(vm_compute; reflexivity) d H) as S.
  cbv beta in S. rewrite H15 in S. cbn [Z.eqb negb orb] in S.
  change (15 =? 15) with true in S. cbn [negb orb] in S.
  apply andb_true_iff in S as [S S3]. apply andb_true_iff in S as [S1 S2].
  repeat split; [lia|lia|]. unfold bitsLE in *. cbn in *. 
  repeat (apply andb_true_iff in S3 as [-> S3]). reflexivity.
Qed.

Lemma rev_init_inv al seg d rest x l : (al <= 3)%nat -> bytes_ok seg -> rev seg = x :: d :: rest ->
  Z.land d 15 = 15 -> rev_pre true (d :: rest) ([true; true; true; true] ++ l) ->
  exists s, rev_init al seg = Some s /\ rev_inv s l.
Proof.
  intros Ha Hs Er H15 Hp. unfold rev_init. rewrite Er.
  assert (bytes_ok (d :: rest)) as Hok.
  { unfold bytes_ok in *. apply Forall_rev in Hs. rewrite Er in Hs. now inversion Hs. }
  assert (byte_ok d) as Hd by now inversion Hok.
  destruct (first_vlc_byte d Hd H15) as (F1 & F2 & F3).
  eexists. split; [reflexivity|]. apply rev_read_inv. rewrite F1, F2.
  assert (rev_width true d = 7 \/ rev_width true d = 8) as W by apply rev_width_78.
  apply iter_rev_byte; [|cbn [r_bits]; lia].
  assert (Inv rev_width gt_8f 0 0 0 true (d :: rest) ([true; true; true; true] ++ l)) as I0.
  { constructor; auto; try lia.
    - intros i Hi. rewrite Z.bits_0. discriminate. }
  apply (absorb _ _ _ rev_width_78 byte_ok_0) in I0. cbn [hd tl] in I0.
  rewrite Z.lor_0_l, Z.shiftl_0_r in I0.
  split; cbn [r_creg r_bits r_unstuff r_rest]; [|lia].
  apply Inv_advance with (n := 4) in I0; [|lia]. exact I0.
Qed.

(** Only the four bits dropped from the first byte matter for hostile data. *)
Lemma rev_init_any al seg d rest x : (al <= 3)%nat -> bytes_ok seg -> rev seg = x :: d :: rest ->
  Z.land d 15 = 15 -> exists s, rev_init al seg = Some s /\ rev_inv s [].
Proof.
  intros Ha Hs Er H15. apply (rev_init_inv al seg d rest x []); auto.
  assert (byte_ok d) as Hd.
  { unfold bytes_ok in *. apply Forall_rev in Hs. rewrite Er in Hs. inversion Hs as [|? ? ? H]. now inversion H. }
  destruct (first_vlc_byte d Hd H15) as (_ & _ & F3). rewrite app_nil_r.
  left; cbn [hd length]; [destruct (rev_width_78 true d); lia|]. now symmetry.
Qed.
