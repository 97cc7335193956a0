(** Proofs about the passes of PassModel.v. *)
From Verif Require Import Base BaseLemmas OutModel OutProofs StripProofs PassModel PassSpec.

Lemma upd_same {A} (f : Z -> A) i v : upd f i v i = v.
Proof. unfold upd. rewrite Z.eqb_refl. reflexivity. Qed.
Lemma upd_other {A} (f : Z -> A) i v j : j <> i -> upd f i v j = f j.
Proof. intros H. unfold upd. destruct (Z.eqb_spec j i); [contradiction|reflexivity]. Qed.
Lemma up2_same {A} (f : Z -> Z -> A) y x v : up2 f y x v y x = v.
Proof. unfold up2. rewrite !Z.eqb_refl. reflexivity. Qed.
Lemma up2_other {A} (f : Z -> Z -> A) y x v y' x' : ~ (y' = y /\ x' = x) -> up2 f y x v y' x' = f y' x'.
Proof. intros H. unfold up2. destruct (Z.eqb_spec y' y), (Z.eqb_spec x' x); cbn [andb]; try reflexivity. exfalso. apply H. split; assumption. Qed.

(** ** The state byte *)
Definition pack (a r c : bool) (P : Z) : Z := b2z a + 2 * b2z r + 4 * b2z c + 8 * P.
Definition allP (f : Z -> bool) : bool := forallb f (zseq 32).
Lemma allP_at f P : allP f = true -> 0 <= P < 32 -> f P = true.
Proof. intros H HP. unfold allP in H. rewrite forallb_forall in H. apply H. apply zseq_In. exact HP. Qed.
Ltac sweepP P HP := match goal with |- ?l = ?r =>
  let f := eval pattern P in (l =? r) in match f with ?g _ => apply Z.eqb_eq; change (g P = true); apply (allP_at g P); [vm_compute; reflexivity|exact HP] end end.
Lemma pack_plane a r c P p : 0 <= P < 32 -> 0 <= p < 32 -> Z.lor (Z.land (pack a r c P) 7) ((p * 8) mod 256) = pack a r c p.
Proof.
  intros HP Hp. assert (E : Z.land (pack a r c P) 7 = pack a r c 0) by (destruct a, r, c; sweepP P HP). rewrite E. clear E HP. destruct a, r, c; sweepP p Hp.
Qed.
Lemma pack_sig a r c P : 0 <= P < 32 -> Z.lor (pack a r c P) 1 = pack true r c P.
Proof. intros HP. destruct a, r, c; sweepP P HP. Qed.
Lemma pack_ref a r c P : 0 <= P < 32 -> Z.lor (pack a r c P) 2 = pack a true c P.
Proof. intros HP. destruct a, r, c; sweepP P HP. Qed.
Lemma pack_cod a r c P : 0 <= P < 32 -> Z.lor (pack a r c P) 4 = pack a r true P.
Proof. intros HP. destruct a, r, c; sweepP P HP. Qed.
Lemma pack_uncod a r c P : 0 <= P < 32 -> Z.land (pack a r c P) 251 = pack a r false P.
Proof. intros HP. destruct a, r, c; sweepP P HP. Qed.
Lemma pack_land1 a r c P : 0 <= P < 32 -> Z.land (pack a r c P) 1 = b2z a.
Proof. intros HP. destruct a, r, c; sweepP P HP. Qed.
Lemma pack_land2 a r c P : 0 <= P < 32 -> Z.land (pack a r c P) 2 = 2 * b2z r.
Proof. intros HP. destruct a, r, c; sweepP P HP. Qed.
Lemma pack_land4 a r c P : 0 <= P < 32 -> Z.land (pack a r c P) 4 = 4 * b2z c.
Proof. intros HP. destruct a, r, c; sweepP P HP. Qed.

(** ** The tables *)
Definition D1_bits (o i : Z) : Z :=
  let t := Z.testbit i in table_D1 o (count [t 3; t 5]) (count [t 1; t 7]) (count [t 0; t 2; t 6; t 8]).
Lemma LUT9_table o i : 0 <= o < 4 -> 0 <= i < 512 -> sig_LUT9 o i = Ret (D1_bits o i).
Proof.
  intros Ho Hi. assert (F : forallb (fun o => forallb (fun i => match sig_LUT9 o i with Ret v => v =? D1_bits o i | _ => false end) (zseq 512)) (zseq 4) = true) by (vm_compute; reflexivity).
  rewrite forallb_forall in F. pose proof (F o ltac:(apply zseq_In; lia)) as G. cbv beta in G. rewrite forallb_forall in G. pose proof (G i ltac:(apply zseq_In; lia)) as K. cbv beta in K.
  destruct (sig_LUT9 o i); try discriminate K. f_equal. lia.
Qed.
Definition sgn_of (a n : bool) : Z := if a then (if n then -1 else 1) else 0.
Definition sign_idx (t l r d tn ln rn dn : bool) : Z :=
  b2z t + Z.shiftl (b2z l) 2 + Z.shiftl (b2z r) 3 + Z.shiftl (b2z d) 1 + Z.shiftl (b2z tn) 4 + Z.shiftl (b2z ln) 6 + Z.shiftl (b2z rn) 7 + Z.shiftl (b2z dn) 5.
Lemma sign_table (cut : bool) t l r d tn ln rn dn : (tn = true -> t = true) -> (ln = true -> l = true) -> (rn = true -> r = true) -> (dn = true -> d = true) ->
  let i := if cut then Z.land (sign_idx t l r d tn ln rn dn) 0xDD else sign_idx t l r d tn ln rn dn in
  let d' := d && negb cut in
  let e := table_D3 (contribution (sgn_of l ln) (sgn_of r rn)) (contribution (sgn_of t tn) (sgn_of d' dn)) in
  rd (znth [] sign_LUT 0) i = Ret (fst e) /\ rd (znth [] sign_LUT 1) i = Ret (snd e).
Proof.
  intros A B C D. destruct cut, t, l, r, d, tn, ln, rn, dn;
    try (discriminate (A eq_refl)); try (discriminate (B eq_refl)); try (discriminate (C eq_refl)); try (discriminate (D eq_refl)); vm_compute; split; reflexivity.
Qed.
Lemma D1_zero o H V D : 0 <= o < 4 -> 0 <= H <= 2 -> 0 <= V <= 2 -> 0 <= D <= 4 -> table_D1 o H V D = 0 <-> H = 0 /\ V = 0 /\ D = 0.
Proof.
  intros Ho HH HV HD. assert (o = 0 \/ o = 1 \/ o = 2 \/ o = 3) as [->|[->|[->| ->]]] by lia;
    assert (H = 0 \/ H = 1 \/ H = 2) as [->|[->| ->]] by lia; assert (V = 0 \/ V = 1 \/ V = 2) as [->|[->| ->]] by lia;
    assert (D = 0 \/ D = 1 \/ D = 2 \/ D = 3 \/ D = 4) as [->|[->|[->|[->| ->]]]] by lia; vm_compute; split; intros X; try discriminate X; try (destruct X as (X1 & X2 & X3); discriminate); repeat split.
Qed.
Lemma D1_range o H V D : 0 <= H <= 2 -> 0 <= V <= 2 -> 0 <= D <= 4 -> 0 <= table_D1 o H V D <= 8.
Proof. intros HH HV HD. unfold table_D1, table_D1_HH, table_D1_LL. repeat match goal with |- context [if ?b then _ else _] => destruct b eqn:? end; lia. Qed.

(** ** Addresses *)
Lemma up8_ge v : v <= up8 v.
Proof. unfold up8. lia. Qed.
Lemma up8_4 v : up8 v = 4 * (up8 v / 4).
Proof. unfold up8. lia. Qed.
Lemma line_inj T a b a' b' : 0 <= b < T -> 0 <= b' < T -> a * T + b = a' * T + b' -> a = a' /\ b = b'.
Proof. intros H H' E. assert (a = a') by nia. subst a'. split; [reflexivity|lia]. Qed.

Section Sim.
  Variable src : Type.
  Variable dec : src -> Z -> out (Z * src).
  Variable raw : src -> out (Z * src).
  Variables w h orient : Z.
  Variable causal : bool.
  Hypothesis Hw : 1 <= w.
  Hypothesis Hh : 1 <= h.
  Hypothesis Ho : 0 <= orient < 4.
  (** What is assumed of the decoder: [okS] is an invariant under which its
      symbols are bits. *)
  Variable okS : src -> Prop.
  Hypothesis Hdec : forall s l x s', okS s -> dec s l = Ret (x, s') -> (x = 0 \/ x = 1) /\ okS s'.
  Hypothesis Hraw : forall s x s', okS s -> raw s = Ret (x, s') -> (x = 0 \/ x = 1) /\ okS s'.

  Notation blk := (blk src).
  Notation coefs := (coefs src).
  Definition inside (y x : Z) : Prop := 0 <= y < h /\ 0 <= x < w.
  Definition adr (y x : Z) : Z := (y + 1) * tstr w + (x + 1).
  Definition sadr (y x : Z) : Z := y * sstr w + x.
  Definition cadr (n x : Z) : Z := (n + 1) * tstr w + (x + 1).

  Lemma adr_in y x : -1 <= y <= h -> -1 <= x <= w -> ((0 <=? adr y x) && (adr y x <? n_st w h)) = true.
  Proof using. clear. intros Hy Hx. unfold adr, n_st, tstr. pose proof (up8_ge w). pose proof (up8_ge h). apply andb_true_iff. rewrite Z.leb_le, Z.ltb_lt. nia. Qed.
  Lemma adr_inj y x y' x' : -1 <= x <= w -> -1 <= x' <= w -> adr y x = adr y' x' -> y = y' /\ x = x'.
  Proof using. clear. intros Hx Hx' E. unfold adr, tstr in E. pose proof (up8_ge w). apply line_inj in E; lia. Qed.
  Lemma sadr_in y x : inside y x -> ((0 <=? sadr y x) && (sadr y x <? n_sm w h)) = true.
  Proof using. clear. intros [Hy Hx]. unfold sadr, n_sm, sstr. pose proof (up8_ge w). pose proof (up8_ge h). apply andb_true_iff. rewrite Z.leb_le, Z.ltb_lt. nia. Qed.
  Lemma sadr_inj y x y' x' : 0 <= x < w -> 0 <= x' < w -> sadr y x = sadr y' x' -> y = y' /\ x = x'.
  Proof using. clear. intros Hx Hx' E. unfold sadr, sstr in E. pose proof (up8_ge w). apply line_inj in E; lia. Qed.
  Lemma cadr_in n x : -1 <= n -> 4 * n <= h + 3 -> -1 <= x <= w -> ((0 <=? cadr n x) && (cadr n x <? n_cx w h)) = true.
  Proof using. clear.
    intros H1 H2 Hx. unfold cadr, n_cx, tstr. pose proof (up8_ge w). pose proof (up8_ge h). pose proof (up8_4 h). assert (n <= up8 h / 4) by lia.
    apply andb_true_iff. rewrite Z.leb_le, Z.ltb_lt. nia.
  Qed.
  Lemma cadr_eq n x n' x' : -1 <= x <= w -> -1 <= x' <= w -> (cadr n x =? cadr n' x') = (n =? n') && (x =? x').
  Proof using. clear.
    intros Hx Hx'. destruct (Z.eqb_spec (cadr n x) (cadr n' x')) as [E|N].
    - unfold cadr, tstr in E. pose proof (up8_ge w). apply line_inj in E; lia.
    - destruct (Z.eqb_spec n n'), (Z.eqb_spec x x'); try reflexivity. exfalso. apply N. subst. reflexivity.
  Qed.

  (** ** Relation to the coefficients *)
  Definition Rst (t : Z -> Z) (s : coefs) : Prop := forall y x, -1 <= y <= h -> -1 <= x <= w ->
    (inside y x -> exists P, 0 <= P < 32 /\ t (adr y x) = pack (sig s y x) (refd s y x) (cod s y x) P /\ (sig s y x = true -> P = low s y x)) /\
    (~ inside y x -> t (adr y x) = 0).
  Definition val (n : bool) (m : Z) : Z := if n then Z.lor m (2 ^ 31) else m.
  Definition Rsm (m : Z -> Z) (s : coefs) : Prop := forall y x, inside y x ->
    m (sadr y x) = val (neg s y x) (mag s y x) /\ 0 <= mag s y x < 2 ^ 31 /\ (sig s y x = false -> mag s y x = 0 /\ neg s y x = false).
  Definition Rcx (c : Z -> Z) (f : Z -> Z -> bool) : Prop := forall n x k d, 0 <= n -> 4 * n < h -> 0 <= x < w -> 0 <= k < 6 -> 0 <= d < 3 ->
    Z.testbit (c (cadr n x)) (3 * k + d) = f (4 * n - 1 + k) (x - 1 + d).
  Definition Inv (s : coefs) : Prop := (forall y x, inside y x -> cod s y x = true -> sig s y x = true \/ context src w h orient causal s y x <> 0) /\ okS (cso s).
  Definition R (b : blk) (s : coefs) : Prop := Rst (st b) s /\ Rsm (sm b) s /\ Rcx (cx b) (on src w h s) /\ so b = cso s /\ Inv s.
  Definition same (o : out blk) (o' : out coefs) : Prop :=
    match o, o' with Ret b, Ret s => R b s | UB, UB => True | NoFuel, NoFuel => True | _, _ => False end.

  Lemma foldo_same {A} (f : blk -> A -> out blk) (g : coefs -> A -> out coefs) l :
    (forall b s e, In e l -> R b s -> same (f b e) (g s e)) -> forall b s, R b s -> same (foldo f b l) (foldo g s l).
  Proof using. clear.
    induction l as [|e l IH]; intros H b s Hr; [exact Hr|]. cbn [foldo]. pose proof (H b s e (or_introl eq_refl) Hr) as X.
    destruct (f b e), (g s e); try contradiction; cbn [bind]; try exact I. apply IH; [|exact X]. intros. apply H; [right; assumption|assumption].
  Qed.
  Lemma inside_dec y x : {inside y x} + {~ inside y x}.
  Proof using. clear. unfold inside. destruct (Z_le_dec 0 y), (Z_lt_dec y h), (Z_le_dec 0 x), (Z_lt_dec x w); try (left; lia); right; lia. Qed.
  Lemma inside_adr y x : inside y x -> -1 <= y <= h /\ -1 <= x <= w.
  Proof using. clear. unfold inside. lia. Qed.

  (** Changing one sample. *)
  Lemma Rst_upd t t' s s' y x P : Rst t s -> inside y x ->
    (forall y' x', ~ (y' = y /\ x' = x) -> sig s' y' x' = sig s y' x' /\ refd s' y' x' = refd s y' x' /\ cod s' y' x' = cod s y' x' /\ low s' y' x' = low s y' x') ->
    (forall i, i <> adr y x -> t' i = t i) -> t' (adr y x) = pack (sig s' y x) (refd s' y x) (cod s' y x) P -> 0 <= P < 32 -> (sig s' y x = true -> P = low s' y x) -> Rst t' s'.
  Proof using. clear.
    intros Ht Hi Hs Ho Hv HP Hl y' x' Hy' Hx'. destruct (inside_adr _ _ Hi) as [_ Hx]. assert (D : (y' = y /\ x' = x) \/ ~ (y' = y /\ x' = x)) by lia. destruct D as [[-> ->]|N].
    - split; [|intros N; contradiction]. intros _. exists P. split; [exact HP|]. split; assumption.
    - assert (Ne : adr y' x' <> adr y x) by (intros E; apply N; apply adr_inj in E; assumption). rewrite (Ho _ Ne). destruct (Hs _ _ N) as (-> & -> & -> & ->). apply Ht; assumption.
  Qed.
  Lemma Rsm_upd m m' s s' y x : Rsm m s -> inside y x ->
    (forall y' x', ~ (y' = y /\ x' = x) -> sig s' y' x' = sig s y' x' /\ neg s' y' x' = neg s y' x' /\ mag s' y' x' = mag s y' x') ->
    (forall i, i <> sadr y x -> m' i = m i) -> m' (sadr y x) = val (neg s' y x) (mag s' y x) -> 0 <= mag s' y x < 2 ^ 31 -> (sig s' y x = false -> mag s' y x = 0 /\ neg s' y x = false) -> Rsm m' s'.
  Proof using. clear.
    intros Hm Hi Hs Ho Hv Hr Hz y' x' Hi'. assert (D : (y' = y /\ x' = x) \/ ~ (y' = y /\ x' = x)) by lia. destruct D as [[-> ->]|N].
    - split; [exact Hv|]. split; assumption.
    - assert (Ne : sadr y' x' <> sadr y x) by (intros E; apply N; apply sadr_inj in E; [exact E|apply Hi'|apply Hi]). rewrite (Ho _ Ne). destruct (Hs _ _ N) as (-> & -> & ->). apply Hm. exact Hi'.
  Qed.
  Lemma Rcx_ext c f g : Rcx c f -> (forall y x, f y x = g y x) -> Rcx c g.
  Proof using. clear. intros H E n x k d H1 H2 H3 H4 H5. rewrite <- E. apply H; assumption. Qed.

  (** ** Primitive accesses *)
  Lemma plane_run b y x p a r c P : inside y x -> st b (adr y x) = pack a r c P -> 0 <= P < 32 -> 0 <= p < 32 ->
    plane src w h b (adr y x) p = Ret (Blk (sm b) (upd (st b) (adr y x) (pack a r c p)) (cx b) (so b)).
  Proof using. clear.
    intros Hi E HP Hp. destruct (inside_adr _ _ Hi) as [A B]. unfold plane, rd_st, wr_st. rewrite (adr_in y x A B). cbn [bind]. rewrite E, pack_plane by assumption. reflexivity.
  Qed.
  Lemma or_st_run b y x v : inside y x -> or_st src w h b (adr y x) v = Ret (Blk (sm b) (upd (st b) (adr y x) (Z.lor (st b (adr y x)) v)) (cx b) (so b)).
  Proof using. clear. intros Hi. destruct (inside_adr _ _ Hi) as [A B]. unfold or_st, rd_st, wr_st. rewrite (adr_in y x A B). reflexivity. Qed.
  Lemma rd_st_run b y x : -1 <= y <= h -> -1 <= x <= w -> rd_st src w h b (adr y x) = Ret (st b (adr y x)).
  Proof using. clear. intros A B. unfold rd_st. rewrite (adr_in y x A B). reflexivity. Qed.
  Lemma rd_sm_run b y x : inside y x -> rd_sm src w h b (sadr y x) = Ret (sm b (sadr y x)).
  Proof using. clear. intros A. unfold rd_sm. rewrite (sadr_in y x A). reflexivity. Qed.
  Lemma or_sm_run b y x p : inside y x -> 0 <= p < 32 -> or_sm src w h b (sadr y x) p = Ret (Blk (upd (sm b) (sadr y x) (Z.lor (sm b (sadr y x)) (2 ^ p))) (st b) (cx b) (so b)).
  Proof using. clear. intros A Hp. unfold or_sm. rewrite (sadr_in y x A). replace (0 <=? p) with true by lia. replace (p <? 32) with true by lia. reflexivity. Qed.
  Definition orc (c : Z -> Z) (i n : Z) : Z -> Z := upd c i (Z.lor (c i) (2 ^ n)).
  Lemma or_cx_run b n x i : -1 <= n -> 4 * n <= h + 3 -> -1 <= x <= w -> 0 <= i < 32 -> or_cx src w h b (cadr n x) i = Ret (Blk (sm b) (st b) (orc (cx b) (cadr n x) i) (so b)).
  Proof using. clear. intros A B C Hi. unfold or_cx. rewrite (cadr_in n x A B C). replace (0 <=? i) with true by lia. replace (i <? 32) with true by lia. reflexivity. Qed.
  Lemma orc_bit c i n a m : 0 <= n -> 0 <= m -> Z.testbit (orc c i n a) m = ((a =? i) && (m =? n)) || Z.testbit (c a) m.
  Proof using. clear.
    intros Hn Hm. unfold orc, upd. destruct (Z.eqb_spec a i) as [->|N]; cbn [andb orb]; [|reflexivity].
    rewrite Z.lor_spec, Z.pow2_bits_eqb by lia. rewrite (Z.eqb_sym n m). apply orb_comm.
  Qed.

  Lemma broadcast_run b y x f : inside y x -> Rcx (cx b) f ->
    exists c', broadcast src w h b y x = Ret (Blk (sm b) (st b) c' (so b)) /\ Rcx c' (fun y' x' => ((y' =? y) && (x' =? x)) || f y' x').
  Proof using Hh. clear - Hh.
    intros [Hy Hx] Hc. unfold broadcast. cbv zeta.
    replace ((y / 4 + 1) * tstr w + (x + 1 - 1)) with (cadr (y / 4) (x - 1)) by (unfold cadr; lia).
    replace ((y / 4 + 1) * tstr w + (x + 1)) with (cadr (y / 4) x) by (unfold cadr; lia).
    replace ((y / 4 + 1) * tstr w + (x + 1 + 1)) with (cadr (y / 4) (x + 1)) by (unfold cadr; lia).
    replace ((y / 4 + 1) * tstr w - tstr w + (x + 1 - 1)) with (cadr (y / 4 - 1) (x - 1)) by (unfold cadr; lia).
    replace ((y / 4 + 1) * tstr w - tstr w + (x + 1)) with (cadr (y / 4 - 1) x) by (unfold cadr; lia).
    replace ((y / 4 + 1) * tstr w - tstr w + (x + 1 + 1)) with (cadr (y / 4 - 1) (x + 1)) by (unfold cadr; lia).
    replace ((y / 4 + 1) * tstr w + tstr w + (x + 1 - 1)) with (cadr (y / 4 + 1) (x - 1)) by (unfold cadr; lia).
    replace ((y / 4 + 1) * tstr w + tstr w + (x + 1)) with (cadr (y / 4 + 1) x) by (unfold cadr; lia).
    replace ((y / 4 + 1) * tstr w + tstr w + (x + 1 + 1)) with (cadr (y / 4 + 1) (x + 1)) by (unfold cadr; lia).
    pose proof (Z.div_mod y 4 ltac:(lia)) as Dy. pose proof (Z.mod_pos_bound y 4 ltac:(lia)) as My. set (q := y / 4) in *. set (e := y mod 4) in *. clearbody q e.
    rewrite !or_cx_run by lia. cbn [bind]. rewrite !or_cx_run by lia. cbn [bind]. rewrite !or_cx_run by lia. cbn [bind cx sm st so].
    destruct (Z.eqb_spec e 0) as [E0|N0]; [|destruct (Z.eqb_spec e 3) as [E3|N3]].
    - rewrite !or_cx_run by lia. cbn [bind]. rewrite !or_cx_run by lia. cbn [bind]. rewrite !or_cx_run by lia. cbn [cx sm st so]. eexists. split; [reflexivity|].
      intros n u k d H1 H2 H3 H4 H5. rewrite !orc_bit by lia. rewrite !cadr_eq by lia. rewrite (Hc n u k d H1 H2 H3 H4 H5).
      rewrite !orb_assoc. f_equal. apply eq_true_iff_eq. rewrite !orb_true_iff, !andb_true_iff, !Z.eqb_eq. clear - Dy My E0 H4 H5. lia.
    - rewrite !or_cx_run by lia. cbn [bind]. rewrite !or_cx_run by lia. cbn [bind]. rewrite !or_cx_run by lia. cbn [cx sm st so]. eexists. split; [reflexivity|].
      intros n u k d H1 H2 H3 H4 H5. rewrite !orc_bit by lia. rewrite !cadr_eq by lia. rewrite (Hc n u k d H1 H2 H3 H4 H5).
      rewrite !orb_assoc. f_equal. apply eq_true_iff_eq. rewrite !orb_true_iff, !andb_true_iff, !Z.eqb_eq. clear - Dy My E3 H4 H5. lia.
    - eexists. split; [reflexivity|].
      intros n u k d H1 H2 H3 H4 H5. rewrite !orc_bit by lia. rewrite !cadr_eq by lia. rewrite (Hc n u k d H1 H2 H3 H4 H5).
      rewrite !orb_assoc. f_equal. apply eq_true_iff_eq. rewrite !orb_true_iff, !andb_true_iff, !Z.eqb_eq. clear - Dy My N0 N3 H4 H5. lia.
  Qed.

  (** ** Contexts *)
  Lemma same_bind (o : out blk) (o' : out coefs) f g : same o o' -> (forall b s, R b s -> same (f b) (g s)) -> same (bind o f) (bind o' g).
  Proof using. clear. intros H K. destruct o, o'; try contradiction; cbn [bind]; try exact I. apply K. exact H. Qed.
  Lemma count_range l : 0 <= count l <= zlen l.
  Proof using. clear. induction l as [|a l IH]; [unfold zlen; cbn; lia|]. rewrite zlen_cons. cbn [count fold_right]. fold (count l). destruct a; cbn [b2z]; lia. Qed.
  Lemma count_zero l : count l = 0 <-> Forall (fun a => a = false) l.
  Proof using. clear.
    induction l as [|a l IH]; [split; [constructor|reflexivity]|]. cbn [count fold_right]. fold (count l). pose proof (count_range l).
    split; [intros E|intros E; inversion E as [|? ? E1 E2]; subst; apply IH in E2; cbn [b2z]; lia].
    destruct a; cbn [b2z] in E; [lia|]. constructor; [reflexivity|]. apply IH. lia.
  Qed.
  Notation context := (context src w h orient causal).
  Notation sees := (sees src w h causal).
  Notation on := (on src w h).
  Lemma context_range s y x : 0 <= context s y x <= 8.
  Proof using Ho. clear - Ho.
    unfold PassSpec.context. apply D1_range; match goal with |- context [count ?l] => pose proof (count_range l) as E; vm_compute (zlen _) in E; exact E end.
  Qed.
  Lemma context_zero s y x : context s y x = 0 <->
    (sees s y y (x - 1) = false /\ sees s y y (x + 1) = false /\ sees s y (y - 1) x = false /\ sees s y (y + 1) x = false) /\
    (sees s y (y - 1) (x - 1) = false /\ sees s y (y - 1) (x + 1) = false /\ sees s y (y + 1) (x - 1) = false /\ sees s y (y + 1) (x + 1) = false).
  Proof using Ho. clear - Ho.
    unfold PassSpec.context. rewrite D1_zero; [|exact Ho|..]; [|match goal with |- context [count ?l] => pose proof (count_range l) as E; vm_compute (zlen _) in E; exact E end..].
    rewrite !count_zero, !Forall_cons_iff, Forall_nil_iff. tauto.
  Qed.
  Lemma sees_mono (s s' : coefs) y y' x' : (forall y x, sig s y x = true -> sig s' y x = true) -> sees s' y y' x' = false -> sees s y y' x' = false.
  Proof using. clear.
    intros M. unfold PassSpec.sees, PassSpec.on. pose proof (M y' x'). destruct (sig s y' x'); [rewrite (H eq_refl); tauto|]. rewrite !andb_false_r. reflexivity.
  Qed.
  Lemma context_mono (s s' : coefs) y x : (forall y x, sig s y x = true -> sig s' y x = true) -> context s y x <> 0 -> context s' y x <> 0.
  Proof using Ho. clear - Ho.
    intros M N E. apply N. apply context_zero in E. apply context_zero. destruct E as [(E1 & E2 & E3 & E4) (E5 & E6 & E7 & E8)].
    repeat split; eapply sees_mono; eassumption.
  Qed.
  Lemma Inv_mono (s s' : coefs) : cso s' = cso s -> Inv s -> (forall y x, sig s y x = true -> sig s' y x = true) ->
    (forall y x, inside y x -> cod s' y x = true -> cod s y x = true \/ sig s' y x = true \/ context s' y x <> 0) -> Inv s'.
  Proof using Ho. clear - Ho.
    intros Eo [H Hk] M C. split; [|rewrite Eo; exact Hk]. intros y x Hi E. destruct (C y x Hi E) as [D|D]; [|exact D]. destruct (H y x Hi D) as [A|A]; [left; apply M; exact A|right]. eapply context_mono; eassumption.
  Qed.
  Lemma next_stripe y : (y / 4 <? (y + 1) / 4) = (y mod 4 =? 3).
  Proof using. clear. destruct (Z.ltb_spec (y / 4) ((y + 1) / 4)), (Z.eqb_spec (y mod 4) 3); try reflexivity; lia. Qed.
  Lemma sees_up s y x : sees s y (y - 1) x = on s (y - 1) x.
  Proof using. clear. unfold PassSpec.sees. replace (y / 4 <? (y - 1) / 4) with false by lia. rewrite andb_false_r. apply andb_true_r. Qed.
  Lemma sees_row s y x : sees s y y x = on s y x.
  Proof using. clear. unfold PassSpec.sees. rewrite Z.ltb_irrefl. rewrite andb_false_r. apply andb_true_r. Qed.
  Lemma sees_down s y x : sees s y (y + 1) x = on s (y + 1) x && negb (causal && (y mod 4 =? 3)).
  Proof using. clear. unfold PassSpec.sees. rewrite next_stripe. reflexivity. Qed.

  Lemma bit_of word (cut : bool) sr j : 0 <= sr -> 0 <= j < 9 ->
    Z.testbit (if cut then Z.land (Z.land (Z.shiftr word (3 * sr)) 511) 63 else Z.land (Z.shiftr word (3 * sr)) 511) j = Z.testbit word (3 * sr + j) && negb (cut && (6 <=? j)).
  Proof using. clear.
    intros Hs Hj. destruct cut; rewrite !Z.land_spec, Z.shiftr_spec by lia; replace (j + 3 * sr) with (3 * sr + j) by lia;
      (assert (j = 0 \/ j = 1 \/ j = 2 \/ j = 3 \/ j = 4 \/ j = 5 \/ j = 6 \/ j = 7 \/ j = 8) as [->|[->|[->|[->|[->|[->|[->|[->| ->]]]]]]]] by lia); cbn; rewrite ?andb_true_r, ?andb_false_r; reflexivity.
  Qed.
  Lemma label_run b s y x : inside y x -> Rcx (cx b) (on s) -> label_sig src w h orient causal b y x = Ret (context s y x).
  Proof using Ho Hh. clear - Ho Hh.
    intros Hi Hc. destruct Hi as [Hy Hx]. unfold label_sig, rd_cx. change ((y / 4 + 1) * tstr w + (x + 1)) with (cadr (y / 4) x).
    rewrite cadr_in by lia. cbn [bind]. set (word := cx b (cadr (y / 4) x)).
    assert (Hb : forall j k d, j = 3 * k + d -> 0 <= k < 3 -> 0 <= d < 3 -> Z.testbit word (3 * (y mod 4) + j) = on s (y - 1 + k) (x - 1 + d)).
    { intros j k d -> Hk Hd. pose proof (Hc (y / 4) x (y mod 4 + k) d ltac:(lia) ltac:(lia) Hx ltac:(lia) Hd) as E. fold word in E.
      replace (3 * (y mod 4 + k) + d) with (3 * (y mod 4) + (3 * k + d)) in E by lia. replace (4 * (y / 4) - 1 + (y mod 4 + k)) with (y - 1 + k) in E by lia. exact E. }
    rewrite LUT9_table; [|exact Ho|].
    - f_equal. unfold D1_bits. cbv zeta. rewrite !bit_of by lia. unfold PassSpec.context.
      rewrite (Hb 0 0 0), (Hb 1 0 1), (Hb 2 0 2), (Hb 3 1 0), (Hb 5 1 2), (Hb 6 2 0), (Hb 7 2 1), (Hb 8 2 2) by lia.
      rewrite !sees_up, !sees_row, !sees_down.
      replace (y - 1 + 0) with (y - 1) by lia. replace (y - 1 + 1) with y by lia. replace (y - 1 + 2) with (y + 1) by lia.
      replace (x - 1 + 0) with (x - 1) by lia. replace (x - 1 + 1) with x by lia. replace (x - 1 + 2) with (x + 1) by lia.
      change (6 <=? 3) with false. change (6 <=? 5) with false. change (6 <=? 1) with false. change (6 <=? 7) with true. change (6 <=? 0) with false. change (6 <=? 2) with false. change (6 <=? 6) with true. change (6 <=? 8) with true.
      rewrite ?andb_false_r, ?andb_true_r. cbn [negb]. rewrite ?andb_true_r. reflexivity.
    - change 511 with (Z.ones 9). rewrite Z.land_ones by lia. change 63 with (Z.ones 6). pose proof (Z.mod_pos_bound (Z.shiftr word (3 * (y mod 4))) (2 ^ 9) ltac:(lia)).
      destruct (causal && (y mod 4 =? 3)); [rewrite Z.land_ones by lia; pose proof (Z.mod_pos_bound (Z.shiftr word (3 * (y mod 4)) mod 2 ^ 9) (2 ^ 6) ltac:(lia)); change (2 ^ 6) with 64 in *; lia|change (2 ^ 9) with 512 in *; lia].
  Qed.

  (** ** Signs *)
  Lemma st_on t s y x : Rst t s -> -1 <= y <= h -> -1 <= x <= w -> Z.land (t (adr y x)) 1 = b2z (on s y x).
  Proof using. clear.
    intros Ht Hy Hx. destruct (Ht y x Hy Hx) as [A B]. unfold PassSpec.on. destruct (inside_dec y x) as [i|n].
    - destruct (A i) as (P & HP & E & _). rewrite E, pack_land1 by exact HP. destruct i as [i1 i2].
      replace (0 <=? y) with true by lia. replace (y <? h) with true by lia. replace (0 <=? x) with true by lia. replace (x <? w) with true by lia. reflexivity.
    - rewrite (B n). unfold inside in n. destruct (0 <=? y) eqn:E1, (y <? h) eqn:E2, (0 <=? x) eqn:E3, (x <? w) eqn:E4; try reflexivity. exfalso. lia.
  Qed.
  Lemma val_sign n m : 0 <= m < 2 ^ 31 -> Z.land (Z.shiftr (val n m) 31) 1 = b2z n.
  Proof using. clear.
    intros Hm. unfold val. destruct n; [rewrite Z.shiftr_lor|]; rewrite (Z.shiftr_div_pow2 m) by lia; rewrite (Z.div_small m) by exact Hm; reflexivity.
  Qed.
  Definition ng (s : coefs) (y x : Z) : bool := on s y x && neg s y x.
  Lemma sm_ng m s y x : Rsm m s -> inside y x -> Z.land (Z.shiftr (m (sadr y x)) 31) 1 = b2z (ng s y x).
  Proof using. clear.
    intros Hm Hi. destruct (Hm y x Hi) as (E & Hr & Hz). rewrite E, val_sign by exact Hr. unfold ng, PassSpec.on. destruct Hi as [i1 i2].
    replace (0 <=? y) with true by lia. replace (y <? h) with true by lia. replace (0 <=? x) with true by lia. replace (x <? w) with true by lia. cbn [andb].
    destruct (sig s y x); [reflexivity|]. destruct (Hz eq_refl) as [_ ->]. reflexivity.
  Qed.
  Lemma ng_out s y x : ~ inside y x -> ng s y x = false.
  Proof using. clear. intros N. unfold ng, PassSpec.on. unfold inside in N. destruct (0 <=? y) eqn:E1, (y <? h) eqn:E2, (0 <=? x) eqn:E3, (x <? w) eqn:E4; try reflexivity. exfalso. lia. Qed.
  Lemma sign_index_run b s y x : inside y x -> Rst (st b) s -> Rsm (sm b) s ->
    sign_index src w h b y x = Ret (sign_idx (on s (y - 1) x) (on s y (x - 1)) (on s y (x + 1)) (on s (y + 1) x) (ng s (y - 1) x) (ng s y (x - 1)) (ng s y (x + 1)) (ng s (y + 1) x)).
  Proof using. clear.
    intros Hi Ht Hm. pose proof Hi as [Hy Hx]. unfold sign_index. cbv zeta.
    replace (y * tstr w + x + 1) with (adr (y - 1) x) by (unfold adr; lia).
    replace ((y + 1) * tstr w + x + 0) with (adr y (x - 1)) by (unfold adr; lia).
    replace ((y + 1) * tstr w + x + 2) with (adr y (x + 1)) by (unfold adr; lia).
    replace ((y + 2) * tstr w + x + 1) with (adr (y + 1) x) by (unfold adr; lia).
    replace (y * sstr w + x - sstr w) with (sadr (y - 1) x) by (unfold sadr; lia).
    replace (y * sstr w + x - 1) with (sadr y (x - 1)) by (unfold sadr; lia).
    replace (y * sstr w + x + 1) with (sadr y (x + 1)) by (unfold sadr; lia).
    replace (y * sstr w + x + sstr w) with (sadr (y + 1) x) by (unfold sadr; lia).
    rewrite !rd_st_run by lia. cbn [bind].
    assert (G : forall (c : bool) y' x', (c = true -> inside y' x') -> (c = false -> ~ inside y' x') ->
      (if c then let* v := rd_sm src w h b (sadr y' x') in Ret (Z.land (Z.shiftr v 31) 1) else Ret 0) = Ret (b2z (ng s y' x'))).
    { intros c y' x' H1 H2. destruct c; [rewrite rd_sm_run by (apply H1; reflexivity); cbn [bind]; rewrite (sm_ng _ s) by (exact Hm || (apply H1; reflexivity)); reflexivity|].
      rewrite ng_out by (apply H2; reflexivity). reflexivity. }
    rewrite !G by (unfold inside; lia). cbn [bind]. rewrite !(st_on _ s) by (exact Ht || lia). reflexivity.
  Qed.
  Lemma sense_of s y y' x' : sense src w h causal s y y' x' = sgn_of (sees s y y' x') (ng s y' x').
  Proof using. clear. unfold sense, sgn_of, ng, PassSpec.sees. destruct (on s y' x'); reflexivity. Qed.
  Lemma ng_on s y x : ng s y x = true -> on s y x = true.
  Proof using. clear. unfold ng. intros E. apply andb_true_iff in E. tauto. Qed.
  Lemma flip_01 H V : snd (table_D3 H V) = 0 \/ snd (table_D3 H V) = 1.
  Proof using. clear. unfold table_D3. repeat match goal with |- context [if ?b then _ else _] => destruct b end; cbn; tauto. Qed.

  (** Setting the sign of a sample that has just become significant. *)
  Lemma set_neg_R b s y x v : R b s -> inside y x -> sig s y x = true -> neg s y x = false ->
    same (if v : bool then or_sm src w h b (sadr y x) 31 else Ret b) (Ret (set_neg src s y x v)).
  Proof using. clear.
    intros (Ht & Hm & Hc & Hs & Hv) Hi Hg Hn. destruct (Hm y x Hi) as (E & Hr & _). rewrite Hn in E. cbn [val] in E.
    destruct v; [rewrite or_sm_run by (exact Hi || lia)|]; cbn [same]; (split; [intros y' x' A B; apply Ht; assumption|]); (split; [|split; [exact Hc|split; [exact Hs|exact Hv]]]); cbn [sm].
    - eapply (Rsm_upd _ _ s _ y x Hm Hi); cbn [sig neg mag set_neg].
      + intros y' x' N. rewrite up2_other by exact N. repeat split.
      + intros i N. apply upd_other. exact N.
      + rewrite upd_same, up2_same, E. reflexivity.
      + exact Hr.
      + rewrite Hg. discriminate.
    - eapply (Rsm_upd _ _ s _ y x Hm Hi); cbn [sig neg mag set_neg].
      + intros y' x' N. rewrite up2_other by exact N. repeat split.
      + intros i N. reflexivity.
      + rewrite up2_same, E. reflexivity.
      + exact Hr.
      + rewrite Hg. discriminate.
  Qed.

  Lemma R_src b s o : R b s -> okS o -> R (with_so src b o) (with_cso src s o).
  Proof using. clear. intros (A & B & C & D & E & _) K. split; [exact A|]. split; [exact B|]. split; [exact C|]. split; [reflexivity|]. split; [exact E|exact K]. Qed.
  Lemma R_ok b s : R b s -> okS (cso s).
  Proof using. clear. intros (_ & _ & _ & _ & _ & K). exact K. Qed.
  Lemma sign_mq_R b s y x : R b s -> inside y x -> sig s y x = true -> neg s y x = false ->
    same (sign_mq src dec w h causal b y x) (let '(label, flip) := sign_context src w h causal s y x in let* (v, s) := decide src dec s label in Ret (set_neg src s y x (negb (v =? flip)))).
  Proof using Hdec. clear - Hdec.
    intros Hr Hi Hg Hn. pose proof Hr as (Ht & Hm & Hc & Hs & Hv). unfold sign_mq. rewrite (sign_index_run b s y x Hi Ht Hm). cbn [bind].
    pose proof (sign_table (causal && (y mod 4 =? 3)) (on s (y - 1) x) (on s y (x - 1)) (on s y (x + 1)) (on s (y + 1) x) (ng s (y - 1) x) (ng s y (x - 1)) (ng s y (x + 1)) (ng s (y + 1) x)
      (ng_on _ _ _) (ng_on _ _ _) (ng_on _ _ _) (ng_on _ _ _)) as T. cbv zeta in T.
    rewrite <- (sees_up s y x), <- (sees_row s y (x - 1)), <- (sees_row s y (x + 1)), <- (sees_down s y x) in T. rewrite <- !sense_of in T. 
    fold (sign_context src w h causal s y x) in T. rewrite !sees_up, !sees_row in T. destruct T as [T1 T2]. cbv zeta. rewrite T1, T2. cbn [bind].
    pose proof (flip_01 (contribution (sense src w h causal s y y (x - 1)) (sense src w h causal s y y (x + 1))) (contribution (sense src w h causal s y (y - 1) x) (sense src w h causal s y (y + 1) x))) as F.
    fold (sign_context src w h causal s y x) in F. destruct (sign_context src w h causal s y x) as [label flip]. cbn [fst snd] in *.
    unfold ask, decide. rewrite Hs. destruct (dec (cso s) label) as [[v o]| |] eqn:Ed; cbn [bind]; try exact I.
    destruct (Hdec _ _ _ _ (R_ok _ _ Hr) Ed) as [Hb Hk]. pose proof (set_neg_R (with_so src b o) (with_cso src s o) y x (negb (v =? flip)) (R_src b s o Hr Hk) Hi Hg Hn) as K.
    destruct Hb as [-> | ->]; destruct F as [-> | ->]; exact K.
  Qed.
  Lemma sign_raw_R b s y x : R b s -> inside y x -> sig s y x = true -> neg s y x = false ->
    same (sign_raw src raw w h b y x) (let* (v, s) := bit src raw s in Ret (set_neg src s y x (v =? 1))).
  Proof using Hraw. clear - Hraw.
    intros Hr Hi Hg Hn. pose proof Hr as (Ht & Hm & Hc & Hs & Hv). unfold sign_raw, ask_raw, bit. rewrite Hs. destruct (raw (cso s)) as [[v o]| |] eqn:Ed; cbn [bind]; try exact I.
    destruct (Hraw _ _ _ (R_ok _ _ Hr) Ed) as [Hb Hk]. pose proof (set_neg_R (with_so src b o) (with_cso src s o) y x (v =? 1) (R_src b s o Hr Hk) Hi Hg Hn) as K. destruct Hb as [-> | ->]; exact K.
  Qed.

  (** ** A coefficient becoming significant *)
  Lemma plane_R b s y x p : R b s -> inside y x -> 0 <= p < 32 ->
    exists t', plane src w h b (adr y x) p = Ret (Blk (sm b) t' (cx b) (so b)) /\ R (Blk (sm b) t' (cx b) (so b)) (set_low src s y x p) /\
      t' (adr y x) = pack (sig s y x) (refd s y x) (cod s y x) p.
  Proof using. clear.
    intros (Ht & Hm & Hc & Hs & Hv) Hi Hp. destruct (inside_adr _ _ Hi) as [Hy Hx]. destruct (Ht y x Hy Hx) as [A _]. destruct (A Hi) as (P & HP & E & _).
    eexists. split; [apply (plane_run _ _ _ _ _ _ _ _ Hi E HP Hp)|]. split; [|apply upd_same]. split; [|split; [exact Hm|split; [exact Hc|split; [exact Hs|exact Hv]]]]. cbn [st].
    apply (Rst_upd (st b) _ s _ y x p Ht Hi); cbn [sig refd cod low set_low].
    - intros y' x' N. rewrite up2_other by exact N. repeat split.
    - intros i N. apply upd_other. exact N.
    - apply upd_same.
    - exact Hp.
    - intros _. rewrite up2_same. reflexivity.
  Qed.
  Lemma on_set s y x p : inside y x -> forall y' x', ((y' =? y) && (x' =? x)) || on s y' x' = on (set_sig src (set_mag src s y x p) y x) y' x'.
  Proof using. clear.
    intros [Hy Hx] y' x'. unfold PassSpec.on. cbn [sig set_sig set_mag]. unfold up2. destruct (Z.eqb_spec y' y) as [->|Ny], (Z.eqb_spec x' x) as [->|Nx]; cbn [andb orb]; try reflexivity.
    replace (0 <=? y) with true by lia. replace (y <? h) with true by lia. replace (0 <=? x) with true by lia. replace (x <? w) with true by lia. reflexivity.
  Qed.
  Lemma becomes_R (by_raw : bool) b s y x p : R b s -> inside y x -> 0 <= p < 31 -> sig s y x = false -> low s y x = p -> st b (adr y x) = pack false (refd s y x) (cod s y x) p ->
    same (let* b := or_st src w h (Blk (upd (sm b) (sadr y x) (2 ^ p)) (st b) (cx b) (so b)) (adr y x) 1 in
          let* b := broadcast src w h b y x in
          if by_raw then sign_raw src raw w h b y x else sign_mq src dec w h causal b y x)
      (becomes src dec raw w h causal by_raw p s y x).
  Proof using Hh Ho Hdec Hraw. clear - Hh Ho Hdec Hraw.
    intros (Ht & Hm & Hc & Hs & Hv) Hi Hp Hg Hl He. destruct (Hm y x Hi) as (_ & _ & Hz). destruct (Hz Hg) as [Hz1 Hz2]. clear Hz.
    rewrite or_st_run by exact Hi. cbn [bind sm st cx so].
    set (b1 := Blk (upd (sm b) (sadr y x) (2 ^ p)) (upd (st b) (adr y x) (Z.lor (st b (adr y x)) 1)) (cx b) (so b)).
    destruct (broadcast_run b1 y x (on s) Hi Hc) as (c' & Ec & Hc'). rewrite Ec. cbn [bind]. unfold becomes. cbv zeta. set (s1 := set_sig src (set_mag src s y x p) y x).
    assert (Hr : R (Blk (sm b1) (st b1) c' (so b1)) s1).
    { split; [|split; [|split; [|split]]]; cbn [sm st cx so b1].
      - apply (Rst_upd (st b) _ s _ y x p Ht Hi); cbn [sig refd cod low set_sig set_mag s1].
        + intros y' x' N. rewrite up2_other by exact N. repeat split.
        + intros i N. apply upd_other. exact N.
        + rewrite upd_same, up2_same, He, pack_sig by lia. reflexivity.
        + lia.
        + intros _. symmetry. exact Hl.
      - apply (Rsm_upd (sm b) _ s _ y x Hm Hi); cbn [sig neg mag set_sig set_mag s1].
        + intros y' x' N. rewrite !up2_other by exact N. repeat split.
        + intros i N. apply upd_other. exact N.
        + rewrite upd_same, up2_same, Hz1, Hz2. cbn [val]. rewrite Z.setbit_spec', Z.lor_0_l. reflexivity.
        + rewrite up2_same, Hz1, Z.setbit_spec', Z.lor_0_l. split; [apply Z.pow_nonneg; lia|apply Z.pow_lt_mono_r; lia].
        + rewrite up2_same. discriminate.
      - eapply Rcx_ext; [exact Hc'|]. intros y' x'. apply on_set. exact Hi.
      - exact Hs.
      - apply (Inv_mono s); [reflexivity|exact Hv| |intros y' x' _ C; left; exact C]. intros y' x' C. cbn [sig set_sig set_mag s1]. unfold up2. destruct ((y' =? y) && (x' =? x)); [reflexivity|exact C]. }
    assert (Hg1 : sig s1 y x = true) by apply up2_same.
    destruct by_raw; [apply sign_raw_R|apply sign_mq_R]; assumption.
  Qed.

  (** ** One coefficient in each pass *)
  Lemma byte_at b s y x : R b s -> inside y x -> exists P, 0 <= P < 32 /\ st b (adr y x) = pack (sig s y x) (refd s y x) (cod s y x) P.
  Proof using. clear. intros (Ht & _) Hi. destruct (inside_adr _ _ Hi) as [A B]. destruct (Ht y x A B) as [K _]. destruct (K Hi) as (P & HP & E & _). exists P. split; assumption. Qed.
  Lemma mag_0 b s y x : R b s -> inside y x -> sig s y x = false -> sm b (sadr y x) = 0.
  Proof using. clear. intros (_ & Hm & _) Hi Hg. destruct (Hm y x Hi) as (E & _ & Hz). destruct (Hz Hg) as [H1 H2]. rewrite E, H1, H2. reflexivity. Qed.
  (** Rewriting the state byte without touching its plane. *)
  Lemma byte_R b s s' y x t' : R b s -> inside y x ->
    (forall i, i <> adr y x -> t' i = st b i) -> (forall P, 0 <= P < 32 -> st b (adr y x) = pack (sig s y x) (refd s y x) (cod s y x) P -> t' (adr y x) = pack (sig s y x) (refd s' y x) (cod s' y x) P) ->
    sig s' = sig s -> neg s' = neg s -> mag s' = mag s -> low s' = low s -> cso s' = cso s ->
    (forall y' x', ~ (y' = y /\ x' = x) -> refd s' y' x' = refd s y' x' /\ cod s' y' x' = cod s y' x') -> Inv s' -> R (Blk (sm b) t' (cx b) (so b)) s'.
  Proof using. clear.
    intros (Ht & Hm & Hc & Hs & Hv) Hi Ho He Eg En Em El Eo Hrc Hv'. destruct (inside_adr _ _ Hi) as [Hy Hx]. destruct (Ht y x Hy Hx) as [A _]. destruct (A Hi) as (P & HP & E & Hl).
    split; [|split; [|split; [|split]]]; cbn [sm st cx so].
    - apply (Rst_upd (st b) _ s _ y x P Ht Hi); rewrite ?Eg, ?El.
      + intros y' x' N. destruct (Hrc _ _ N) as [-> ->]. repeat split.
      + exact Ho.
      + apply He; assumption.
      + exact HP.
      + exact Hl.
    - intros y' x' Hi'. rewrite Em, En, Eg. apply Hm. exact Hi'.
    - eapply Rcx_ext; [exact Hc|]. intros y' x'. unfold PassSpec.on. rewrite Eg. reflexivity.
    - rewrite Eo. exact Hs.
    - exact Hv'.
  Qed.
  Lemma cod_R b s y x : R b s -> inside y x -> sig s y x = true \/ context s y x <> 0 -> same (or_st src w h b (adr y x) 4) (Ret (set_cod src s y x true)).
  Proof using Ho. clear - Ho.
    intros Hr Hi Hn. rewrite or_st_run by exact Hi. cbn [same]. apply (byte_R b s _ y x _ Hr Hi); try reflexivity; cbn [refd cod set_cod].
    - intros i N. apply upd_other. exact N.
    - intros P HP E. rewrite upd_same, up2_same, E. apply pack_cod. exact HP.
    - intros y' x' N. rewrite up2_other by exact N. split; reflexivity.
    - destruct Hr as (_ & _ & _ & _ & Hv). apply (Inv_mono s); [reflexivity|exact Hv|intros ? ? C; exact C|]. intros y' x' Hi' C. cbn [cod set_cod] in C.
      assert (D : (y' = y /\ x' = x) \/ ~ (y' = y /\ x' = x)) by lia. destruct D as [[-> ->]|N]; [right; exact Hn|]. rewrite up2_other in C by exact N. left. exact C.
  Qed.

  Lemma or_sm_0 b s y x p : R b s -> inside y x -> sig s y x = false -> 0 <= p < 31 ->
    or_sm src w h b (sadr y x) p = Ret (Blk (upd (sm b) (sadr y x) (2 ^ p)) (st b) (cx b) (so b)).
  Proof using. clear. intros Hr Hi Hg Hp. rewrite or_sm_run by (exact Hi || lia). rewrite (mag_0 b s y x Hr Hi Hg), Z.lor_0_l. reflexivity. Qed.

  Lemma becomes_sig by_raw p s y x s' : becomes src dec raw w h causal by_raw p s y x = Ret s' -> sig s' y x = true.
  Proof using. clear.
    unfold becomes. cbv zeta. destruct by_raw.
    - unfold bit. destruct (raw _) as [[v o]| |]; cbn [bind]; try discriminate. intros [= <-]. apply up2_same.
    - destruct (sign_context _ _ _ _ _ _ _) as [label flip]. unfold decide. destruct (dec _ _) as [[v o]| |]; cbn [bind]; try discriminate. intros [= <-]. apply up2_same.
  Qed.
  Lemma sigprop_R by_raw p b s y x : R b s -> inside y x -> 0 <= p < 31 -> same (sigprop_at src dec raw w h orient causal by_raw p b (y, x)) (spp_at src dec raw w h orient causal by_raw p s (y, x)).
  Proof using Hh Ho Hdec Hraw. clear - Hh Ho Hdec Hraw.
    intros Hr Hi Hp. pose proof Hr as (Ht & Hm & Hc & Hs & Hv). destruct (byte_at b s y x Hr Hi) as (P & HP & E). destruct (inside_adr _ _ Hi) as [Hy Hx].
    unfold sigprop_at, spp_at. change ((y + 1) * tstr w + (x + 1)) with (adr y x). change (y * sstr w + x) with (sadr y x). cbv zeta. rewrite rd_st_run by assumption. cbn [bind]. rewrite E.
    rewrite pack_land1 by exact HP. pose proof (context_range s y x) as Hcr.
    assert (Hno : forall b0 s0, R b0 s0 -> sig s0 = sig s -> st b0 = st b -> (sig s y x = true \/ context s y x = 0) -> cod s0 = cod s -> refd s0 = refd s ->
      same (wr_st src w h b0 (adr y x) (Z.land (st b (adr y x)) 251)) (Ret (set_cod src s0 y x false))).
    { intros b0 s0 Hr0 Eg Et Hn Ecd Erf. unfold wr_st. rewrite (adr_in y x Hy Hx). cbn [same]. apply (byte_R b0 s0 _ y x _ Hr0 Hi); try reflexivity; cbn [refd cod set_cod].
      - intros i N. apply upd_other. exact N.
      - intros P' HP' E'. rewrite upd_same, up2_same. rewrite <- Et, E'. apply pack_uncod. exact HP'.
      - intros y' x' N. rewrite up2_other by exact N. split; reflexivity.
      - destruct Hr0 as (_ & _ & _ & _ & Hv0). apply (Inv_mono s0); [reflexivity|exact Hv0|intros ? ? C; exact C|]. intros y' x' Hi' C. left. cbn [cod set_cod] in C. unfold up2 in C. destruct ((y' =? y) && (x' =? x)); [discriminate C|exact C]. }
    destruct (sig s y x) eqn:Hg; cbn [b2z negb andb].
    - change (1 =? 0) with false. cbn [bind andb]. pose proof (Hno b s Hr eq_refl eq_refl (or_introl eq_refl) eq_refl eq_refl) as K. rewrite E in K. exact K.
    - change (0 =? 0) with true. cbn [andb]. rewrite (label_run b s y x Hi Hc). cbn [bind]. destruct (Z.eqb_spec (context s y x) 0) as [Hz|Hz]; cbn [negb].
      { rewrite Hz. change (0 <? 0) with false. pose proof (Hno b s Hr eq_refl eq_refl (or_intror Hz) eq_refl eq_refl) as K. rewrite E in K. exact K. }
      replace (0 <? context s y x) with true by lia. destruct (plane_R b s y x p Hr Hi ltac:(lia)) as (t' & Ep & Hr' & Et). rewrite Ep. cbn [bind]. rewrite Hg in Et.
      set (b1 := Blk (sm b) t' (cx b) (so b)) in *.
      assert (Hk : forall v o, (v = 0 \/ v = 1) /\ okS o ->
        same (let* b2 := if v =? 0 then Ret (with_so src b1 o) else
                let* b2 := or_sm src w h (with_so src b1 o) (sadr y x) p in
                let* b2 := or_st src w h b2 (adr y x) v in
                let* b2 := broadcast src w h b2 y x in
                if by_raw then sign_raw src raw w h b2 y x else sign_mq src dec w h causal b2 y x in or_st src w h b2 (adr y x) 4)
          (let s2 := set_low src (with_cso src s o) y x p in
           let* s2 := if v =? 1 then becomes src dec raw w h causal by_raw p s2 y x else Ret s2 in Ret (set_cod src s2 y x true))).
      { intros v o [Hvv Hko]. cbv zeta. assert (Hr2 : R (with_so src b1 o) (set_low src (with_cso src s o) y x p)) by exact (R_src _ _ o Hr' Hko).
        destruct Hvv as [-> | ->].
        - change (0 =? 0) with true. change (0 =? 1) with false. cbn [bind]. apply cod_R; [exact Hr2|exact Hi|right; exact Hz].
        - change (1 =? 0) with false. change (1 =? 1) with true. cbv iota. rewrite (or_sm_0 _ _ y x p Hr2 Hi Hg Hp). cbn [bind].
          pose proof (becomes_R by_raw _ _ y x p Hr2 Hi Hp Hg (up2_same _ _ _ _) Et) as K.
          match type of K with same ?a ?c => set (A := a) in *; set (C := c) in * end. 
          change (same (bind A (fun b2 => or_st src w h b2 (adr y x) 4)) (bind C (fun s2 => Ret (set_cod src s2 y x true)))).
          destruct A as [b3| |], C as [s3| |] eqn:EC; try contradiction; cbn [bind]; try exact I. apply cod_R; [exact K|exact Hi|left]. eapply becomes_sig. exact EC. }
      destruct by_raw.
      + unfold ask_raw, bit. replace (so b1) with (cso s) by (symmetry; exact Hs). destruct (raw (cso s)) as [[v o]| |] eqn:Er; cbn [bind]; try exact I. apply Hk. eapply Hraw; [exact (R_ok _ _ Hr)|exact Er].
      + unfold ask, decide. replace (so b1) with (cso s) by (symmetry; exact Hs). destruct (dec (cso s) (context s y x)) as [[v o]| |] eqn:Er; cbn [bind]; try exact I. apply Hk. eapply Hdec; [exact (R_ok _ _ Hr)|exact Er].
  Qed.

  Lemma lor_lt a c n : 0 <= n -> 0 <= a < 2 ^ n -> 0 <= c < 2 ^ n -> 0 <= Z.lor a c < 2 ^ n.
  Proof using. clear.
    intros Hn Ha Hc. split; [apply Z.lor_nonneg; lia|]. destruct (Z.eq_dec (Z.lor a c) 0) as [->|N]; [lia|].
    apply Z.log2_lt_pow2; [pose proof (proj2 (Z.lor_nonneg a c) ltac:(lia)); lia|]. rewrite Z.log2_lor by lia. apply Z.max_lub_lt.
    - destruct (Z.eq_dec a 0) as [->|]; [change (Z.log2 0) with 0; destruct (Z.eq_dec n 0) as [->|]; [change (2 ^ 0) with 1 in *; assert (c = 0) by lia; subst; contradiction N; reflexivity|lia]|apply Z.log2_lt_pow2; lia].
    - destruct (Z.eq_dec c 0) as [->|]; [change (Z.log2 0) with 0; destruct (Z.eq_dec n 0) as [->|]; [change (2 ^ 0) with 1 in *; assert (a = 0) by lia; subst; contradiction N; reflexivity|lia]|apply Z.log2_lt_pow2; lia].
  Qed.
  Lemma set_mag_R b s y x p : R b s -> inside y x -> 0 <= p < 31 -> sig s y x = true -> same (or_sm src w h b (sadr y x) p) (Ret (set_mag src s y x p)).
  Proof using. clear.
    intros (Ht & Hm & Hc & Hs & Hv) Hi Hp Hg. rewrite or_sm_run by (exact Hi || lia). cbn [same]. destruct (Hm y x Hi) as (E & Hr & _).
    split; [exact Ht|]. split; [|split; [exact Hc|split; [exact Hs|exact Hv]]]. cbn [sm]. apply (Rsm_upd (sm b) _ s _ y x Hm Hi); cbn [sig neg mag set_mag].
    - intros y' x' N. rewrite up2_other by exact N. repeat split.
    - intros i N. apply upd_other. exact N.
    - rewrite upd_same, up2_same, E, Z.setbit_spec'. unfold val. destruct (neg s y x); [|reflexivity]. rewrite <- !Z.lor_assoc. f_equal. apply Z.lor_comm.
    - rewrite up2_same, Z.setbit_spec'. apply lor_lt; [lia|exact Hr|]. split; [apply Z.pow_nonneg; lia|apply Z.pow_lt_mono_r; lia].
    - rewrite Hg. discriminate.
  Qed.
  Lemma refd_R b s y x : R b s -> inside y x -> same (or_st src w h b (adr y x) 2) (Ret (set_refd src s y x)).
  Proof using. clear.
    intros Hr Hi. rewrite or_st_run by exact Hi. cbn [same]. apply (byte_R b s _ y x _ Hr Hi); try reflexivity; cbn [refd cod set_refd].
    - intros i N. apply upd_other. exact N.
    - intros P HP E. rewrite upd_same, up2_same, E. apply pack_ref. exact HP.
    - intros y' x' N. rewrite up2_other by exact N. split; reflexivity.
    - apply Hr.
  Qed.
  Lemma magref_R by_raw p b s y x : R b s -> inside y x -> 0 <= p < 31 -> same (magref_at src dec raw w h orient causal by_raw p b (y, x)) (mrp_at src dec raw w h orient causal by_raw p s (y, x)).
  Proof using Hh Ho Hdec Hraw. clear - Hh Ho Hdec Hraw.
    intros Hr Hi Hp. pose proof Hr as (Ht & Hm & Hc & Hs & Hv). destruct (byte_at b s y x Hr Hi) as (P & HP & E). destruct (inside_adr _ _ Hi) as [Hy Hx].
    unfold magref_at, mrp_at. change ((y + 1) * tstr w + (x + 1)) with (adr y x). change (y * sstr w + x) with (sadr y x). cbv zeta. rewrite rd_st_run by assumption. cbn [bind]. rewrite E.
    rewrite pack_land1, pack_land4 by exact HP. pose proof (context_range s y x) as Hcr.
    destruct (sig s y x) eqn:Hg; [|exact Hr]. cbn [b2z andb]. change (1 =? 1) with true. cbn [andb]. destruct (cod s y x) eqn:Hcd; [exact Hr|]. change (4 * b2z false =? 0) with true. cbn [negb].
    destruct (plane_R b s y x p Hr Hi ltac:(lia)) as (t' & Ep & Hr' & Et). rewrite Ep. cbn [bind]. rewrite Hg, Hcd in Et. set (b1 := Blk (sm b) t' (cx b) (so b)) in *.
    assert (Hk : forall v o, (v = 0 \/ v = 1) /\ okS o ->
        same (let* b2 := if v =? 0 then Ret (with_so src b1 o) else or_sm src w h (with_so src b1 o) (sadr y x) p in or_st src w h b2 (adr y x) 2)
          (let s2 := if v =? 1 then set_mag src (with_cso src s o) y x p else with_cso src s o in Ret (set_low src (set_refd src s2 y x) y x p))).
    { intros v o [Hvv Hko]. cbv zeta. assert (Hr2 : R (with_so src b1 o) (set_low src (with_cso src s o) y x p)) by exact (R_src _ _ o Hr' Hko).
      destruct Hvv as [-> | ->].
      - exact (refd_R _ _ y x Hr2 Hi).
      - change (1 =? 0) with false. change (1 =? 1) with true. cbv iota. pose proof (set_mag_R _ _ y x p Hr2 Hi Hp Hg) as K.
        destruct (or_sm src w h (with_so src b1 o) (sadr y x) p) as [b3| |]; try contradiction. cbn [bind]. exact (refd_R _ _ y x K Hi). }
    destruct by_raw.
    - unfold ask_raw, bit. replace (so b1) with (cso s) by (symmetry; exact Hs). destruct (raw (cso s)) as [[v o]| |] eqn:Er; cbn [bind]; try exact I. apply Hk. eapply Hraw; [exact (R_ok _ _ Hr)|exact Er].
    - rewrite (label_run b1 s y x Hi Hc). cbn [bind]. rewrite rd_st_run by assumption. cbn [bind]. change (st b1) with t'. rewrite Et, pack_land2 by lia.
      assert (Em : rd mmm (Z.lor (2 * b2z (refd s y x)) (if 0 <? context s y x then 1 else 0)) = Ret (if refd s y x then 16 else if context s y x =? 0 then 14 else 15)).
      { destruct (Z.eqb_spec (context s y x) 0) as [->|N]; [|replace (0 <? context s y x) with true by lia]; destruct (refd s y x); reflexivity. }
      rewrite Em. cbn [bind]. unfold ask, decide. replace (so b1) with (cso s) by (symmetry; exact Hs).
      destruct (dec (cso s) _) as [[v o]| |] eqn:Er; cbn [bind]; try exact I. apply Hk. eapply Hdec; [exact (R_ok _ _ Hr)|exact Er].
  Qed.

  (** ** Cleanup *)
  Lemma found_R b s y x p : R b s -> inside y x -> 0 <= p < 31 -> sig s y x = false -> low s y x = p -> st b (adr y x) = pack false (refd s y x) (cod s y x) p ->
    same (found src dec w h causal (Blk (upd (sm b) (sadr y x) (2 ^ p)) (st b) (cx b) (so b)) y x) (becomes src dec raw w h causal false p s y x).
  Proof using Hh Ho Hdec Hraw. clear - Hh Ho Hdec Hraw. intros A B C D E F. exact (becomes_R false b s y x p A B C D E F). Qed.
  Lemma cup_R p b s y x : R b s -> inside y x -> 0 <= p < 31 -> same (cleanup_at src dec w h orient causal p b y x) (cup_at src dec raw w h orient causal p s (y, x)).
  Proof using Hh Ho Hdec Hraw. clear - Hh Ho Hdec Hraw.
    intros Hr Hi Hp. pose proof Hr as (Ht & Hm & Hc & Hs & Hv). destruct (byte_at b s y x Hr Hi) as (P & HP & E). destruct (inside_adr _ _ Hi) as [Hy Hx].
    unfold cleanup_at, cup_at. change ((y + 1) * tstr w + (x + 1)) with (adr y x). change (y * sstr w + x) with (sadr y x). cbv zeta. rewrite rd_st_run by assumption. cbn [bind]. rewrite E.
    rewrite pack_land1, pack_land4 by exact HP. destruct (sig s y x) eqn:Hg; [exact Hr|]. change (b2z false =? 0) with true. cbn [andb negb]. destruct (cod s y x) eqn:Hcd; [exact Hr|]. change (4 * b2z false =? 0) with true. cbn [negb].
    destruct (plane_R b s y x p Hr Hi ltac:(lia)) as (t' & Ep & Hr' & Et). rewrite Ep. cbn [bind]. rewrite Hg in Et. set (b1 := Blk (sm b) t' (cx b) (so b)) in *.
    rewrite (label_run b1 s y x Hi Hc). cbn [bind]. unfold ask, decide. replace (so b1) with (cso s) by (symmetry; exact Hs).
    destruct (dec (cso s) (context s y x)) as [[v o]| |] eqn:Er; cbn [bind]; try exact I.
    destruct (Hdec _ _ _ _ (R_ok _ _ Hr) Er) as [Hb Hko]. assert (Hr2 : R (with_so src b1 o) (set_low src (with_cso src s o) y x p)) by exact (R_src _ _ o Hr' Hko).
    destruct Hb as [-> | ->]; [exact Hr2|]. change (1 =? 0) with false. change (1 =? 1) with true. cbv iota.
    rewrite (or_sm_0 _ _ y x p Hr2 Hi Hg Hp). cbn [bind]. exact (found_R _ _ y x p Hr2 Hi Hp Hg (up2_same _ _ _ _) Et).
  Qed.

  (** A coefficient of a full stripe outside the run mode. *)
  Definition plain (p : Z) (b : blk) (j1 j2 : Z) : out blk :=
    let sp := (j1 + 1) * tstr w + (j2 + 1) in
    let* v := rd_st src w h b sp in
    if (Z.land v 1 =? 0) && (Z.land v 4 =? 0) then
      let* b := plane src w h b sp p in
      let* b := (let* label := label_sig src w h orient causal b j1 j2 in
                 let* (x, b) := ask src dec b label in
                 if x =? 0 then Ret b else or_sm src w h b (j1 * sstr w + j2) p) in
      let* s := rd_sm src w h b (j2 + j1 * sstr w) in
      if s =? 2 ^ p then found src dec w h causal b j1 j2 else Ret b
    else Ret b.
  Lemma plain_R p b s y x : R b s -> inside y x -> 0 <= p < 31 -> same (plain p b y x) (cup_at src dec raw w h orient causal p s (y, x)).
  Proof using Hh Ho Hdec Hraw. clear - Hh Ho Hdec Hraw.
    intros Hr Hi Hp. pose proof Hr as (Ht & Hm & Hc & Hs & Hv). destruct (byte_at b s y x Hr Hi) as (P & HP & E). destruct (inside_adr _ _ Hi) as [Hy Hx].
    unfold plain, cup_at. change ((y + 1) * tstr w + (x + 1)) with (adr y x). rewrite (Z.add_comm x (y * sstr w)). change (y * sstr w + x) with (sadr y x). cbv zeta. rewrite rd_st_run by assumption. cbn [bind]. rewrite E.
    rewrite pack_land1, pack_land4 by exact HP. destruct (sig s y x) eqn:Hg; [exact Hr|]. change (b2z false =? 0) with true. cbn [andb negb]. destruct (cod s y x) eqn:Hcd; [exact Hr|]. change (4 * b2z false =? 0) with true. cbn [negb].
    destruct (plane_R b s y x p Hr Hi ltac:(lia)) as (t' & Ep & Hr' & Et). rewrite Ep. cbn [bind]. rewrite Hg in Et. set (b1 := Blk (sm b) t' (cx b) (so b)) in *.
    rewrite (label_run b1 s y x Hi Hc). cbn [bind]. unfold ask, decide. replace (so b1) with (cso s) by (symmetry; exact Hs).
    destruct (dec (cso s) (context s y x)) as [[v o]| |] eqn:Er; cbn [bind]; try exact I.
    destruct (Hdec _ _ _ _ (R_ok _ _ Hr) Er) as [Hb Hko]. assert (Hr2 : R (with_so src b1 o) (set_low src (with_cso src s o) y x p)) by exact (R_src _ _ o Hr' Hko).
    pose proof (Z.pow_pos_nonneg 2 p ltac:(lia) ltac:(lia)) as Pp.
    destruct Hb as [-> | ->].
    - change (0 =? 0) with true. change (0 =? 1) with false. cbv iota. cbn [bind]. rewrite rd_sm_run by exact Hi. cbn [bind]. rewrite (mag_0 _ _ y x Hr2 Hi Hg).
      replace (0 =? 2 ^ p) with false by (symmetry; apply Z.eqb_neq; lia). exact Hr2.
    - change (1 =? 0) with false. change (1 =? 1) with true. cbv iota.
      rewrite (or_sm_0 _ _ y x p Hr2 Hi Hg Hp). cbn [bind]. rewrite rd_sm_run by exact Hi. cbn [bind sm]. rewrite upd_same, Z.eqb_refl.
      exact (found_R _ _ y x p Hr2 Hi Hp Hg (up2_same _ _ _ _) Et).
  Qed.
  Notation cleanup_col := (cleanup_col src dec w h orient causal).
  Notation cup_at := (cup_at src dec raw w h orient causal).
  Lemma col_step fuel p j1s x k b : 0 < k -> (j1s + 4 - k) mod 4 <> 0 ->
    cleanup_col (S fuel) p j1s x k b = let* b := plain p b (j1s + 4 - k) x in cleanup_col fuel p j1s x (k - 1) b.
  Proof using. clear.
    intros Hk Hn. cbn [PassModel.cleanup_col]. replace (k <=? 0) with false by lia. replace ((j1s + 4 - k) mod 4 =? 0) with false by lia. cbn [andb bind]. change (0 <=? -1) with false. cbv zeta. unfold plain. cbv zeta. destruct (rd_st src w h b _); reflexivity.
  Qed.
  Lemma col_done fuel p j1s x k b : k <= 0 -> cleanup_col fuel p j1s x k b = Ret b.
  Proof using. clear. intros Hk. destruct fuel; cbn [PassModel.cleanup_col]; replace (k <=? 0) with true by lia; reflexivity. Qed.
  Lemma col_rest p n x : 0 <= p < 31 -> 0 <= n -> 4 * n + 4 <= h -> 0 <= x < w -> forall m fuel b s, (m <= 3)%nat -> (m <= fuel)%nat -> R b s ->
    same (cleanup_col fuel p (4 * n) x (Z.of_nat m) b) (foldo (cup_at p) s (map (fun i => (4 * n + 4 - Z.of_nat m + i, x)) (zseq (Z.of_nat m)))).
  Proof using Hh Ho Hdec Hraw. clear - Hh Ho Hdec Hraw.
    intros Hp Hn H4 Hx. induction m as [|m IH]; intros fuel b s H3 Hf Hr.
    - rewrite col_done by lia. exact Hr.
    - destruct fuel as [|fuel]; [lia|]. rewrite col_step by lia. rewrite zseq_cons by lia. cbn [map foldo]. rewrite Z.add_0_r. apply same_bind.
      + apply plain_R; [exact Hr|unfold inside; lia|exact Hp].
      + intros b' s' Hr'. replace (Z.of_nat (S m) - 1) with (Z.of_nat m) by lia. rewrite map_map.
        rewrite (map_ext _ (fun i => (4 * n + 4 - Z.of_nat m + i, x))) by (intros i; f_equal; lia). apply IH; [lia|lia|exact Hr'].
  Qed.
  Lemma word_zero word N : 0 <= N -> Z.land word (Z.ones N) =? 0 = true <-> (forall j, 0 <= j < N -> Z.testbit word j = false).
  Proof using. clear.
    intros HN. rewrite Z.eqb_eq. split.
    - intros E j Hj. assert (X : Z.testbit (Z.land word (Z.ones N)) j = false) by (rewrite E; apply Z.bits_0). rewrite Z.land_spec, Z.ones_spec_low, andb_true_r in X by lia. exact X.
    - intros H. apply Z.bits_inj'. intros j Hj. rewrite Z.bits_0, Z.land_spec. destruct (Z_lt_dec j N) as [L|L]; [rewrite H by lia; reflexivity|]. rewrite Z.ones_spec_high by lia. apply andb_false_r.
  Qed.
  Notation idle := (idle src w h orient causal).
  Lemma idle_iff s y x : idle s y x = true <-> sig s y x = false /\ cod s y x = false /\ context s y x = 0.
  Proof using. clear. unfold PassSpec.idle. rewrite !andb_true_iff, !negb_true_iff, Z.eqb_eq. tauto. Qed.
  Lemma on_in s y x : inside y x -> on s y x = sig s y x.
  Proof using. clear. intros [Hy Hx]. unfold PassSpec.on. replace (0 <=? y) with true by lia. replace (y <? h) with true by lia. replace (0 <=? x) with true by lia. replace (x <? w) with true by lia. reflexivity. Qed.
  Lemma run_mode b s n x : R b s -> 0 <= n -> 4 * n + 4 <= h -> 0 <= x < w ->
    (Z.land (cx b (cadr n x)) (if causal then 0x07FFF else 0x3FFFF) =? 0) = idle s (4 * n) x && idle s (4 * n + 1) x && idle s (4 * n + 2) x && idle s (4 * n + 3) x.
  Proof using Ho. clear - Ho.
    intros (Ht & Hm & Hc & Hs & Hv) Hn H4 Hx. set (word := cx b (cadr n x)).
    assert (Hb : forall k d, 0 <= k < 6 -> 0 <= d < 3 -> Z.testbit word (3 * k + d) = on s (4 * n - 1 + k) (x - 1 + d)) by (intros k d Hk Hd; apply Hc; lia).
    assert (Hin : forall i, 0 <= i < 4 -> inside (4 * n + i) x) by (intros i Hi; unfold inside; lia).
    assert (W : Z.land word (if causal then 0x07FFF else 0x3FFFF) =? 0 = true <-> (forall k d, 0 <= k < (if causal then 5 else 6) -> 0 <= d < 3 -> on s (4 * n - 1 + k) (x - 1 + d) = false)).
    { replace (if causal then 0x07FFF else 0x3FFFF) with (Z.ones (if causal then 15 else 18)) by (destruct causal; reflexivity). rewrite word_zero by (destruct causal; lia). split.
      - intros H k d Hk Hd. rewrite <- Hb by (destruct causal; lia). apply H. destruct causal; lia.
      - intros H j Hj. pose proof (H (j / 3) (j mod 3) ltac:(destruct causal; lia) ltac:(lia)) as E. rewrite <- Hb in E by (destruct causal; lia). replace (3 * (j / 3) + j mod 3) with j in E by lia. exact E. }
    apply eq_true_iff_eq. rewrite W, !andb_true_iff, !idle_iff. clear W Hb Hc Ht Hm Hs. clearbody word. split.
    - intros H.
      assert (Hz : forall i, 0 <= i < 4 -> sig s (4 * n + i) x = false /\ cod s (4 * n + i) x = false /\ context s (4 * n + i) x = 0).
      { intros i Hi.
        assert (G : forall y' x', 4 * n + i - 1 <= y' <= 4 * n + i + 1 -> x - 1 <= x' <= x + 1 -> sees s (4 * n + i) y' x' = false).
        { intros y' x' Hy' Hx'. unfold PassSpec.sees. destruct causal eqn:Ec.
          - destruct (Z_lt_dec y' (4 * n + 4)) as [L|L].
            + replace y' with (4 * n - 1 + (y' - 4 * n + 1)) by lia. replace x' with (x - 1 + (x' - x + 1)) by lia. rewrite H by lia. reflexivity.
            + replace ((4 * n + i) / 4 <? y' / 4) with true by lia. apply andb_false_r.
          - replace y' with (4 * n - 1 + (y' - 4 * n + 1)) by lia. replace x' with (x - 1 + (x' - x + 1)) by lia. rewrite H by lia. reflexivity. }
        assert (C : context s (4 * n + i) x = 0) by (apply context_zero; repeat split; apply G; lia).
        assert (Sg : sig s (4 * n + i) x = false). { rewrite <- on_in by (apply Hin; lia). pose proof (H (1 + i) 1 ltac:(destruct causal; lia) ltac:(lia)) as E. replace (4 * n - 1 + (1 + i)) with (4 * n + i) in E by lia. replace (x - 1 + 1) with x in E by lia. exact E. }
        split; [exact Sg|]. split; [|exact C]. destruct (cod s (4 * n + i) x) eqn:Cd; [|reflexivity]. destruct (proj1 Hv _ _ (Hin i Hi) Cd) as [A|A]; [rewrite Sg in A; discriminate A|contradiction]. }
      pose proof (Hz 0 ltac:(lia)) as H0. rewrite Z.add_0_r in H0. pose proof (Hz 1 ltac:(lia)). pose proof (Hz 2 ltac:(lia)). pose proof (Hz 3 ltac:(lia)). tauto.
    - intros (((H0 & H1) & H2) & H3).
      assert (Hz : forall i, 0 <= i < 4 -> sig s (4 * n + i) x = false /\ context s (4 * n + i) x = 0).
      { intros i Hi. assert (i = 0 \/ i = 1 \/ i = 2 \/ i = 3) as [->|[->|[->| ->]]] by lia; [rewrite Z.add_0_r|..]; tauto. }
      intros k d Hk Hd.
      assert (Hs : forall i y' x', 0 <= i < 4 -> 4 * n + i - 1 <= y' <= 4 * n + i + 1 -> x - 1 <= x' <= x + 1 -> on s y' x' && negb (causal && ((4 * n + i) / 4 <? y' / 4)) = false).
      { intros i y' x' Hi Hy' Hx'. destruct (Hz i Hi) as [Sg Cz]. apply context_zero in Cz. unfold PassSpec.sees in Cz.
        assert ((y' = 4 * n + i - 1 \/ y' = 4 * n + i \/ y' = 4 * n + i + 1) /\ (x' = x - 1 \/ x' = x \/ x' = x + 1)) as [[->|[->| ->]] [->|[->| ->]]] by lia; try tauto.
        rewrite on_in by (apply Hin; exact Hi). rewrite Sg. reflexivity. }
      set (i := if k =? 0 then 0 else if k =? 5 then 3 else k - 1). assert (Hi : 0 <= i < 4 /\ k - 2 <= i <= k) by (unfold i; destruct causal; destruct (Z.eqb_spec k 0), (Z.eqb_spec k 5); lia).
      pose proof (Hs i (4 * n - 1 + k) (x - 1 + d) ltac:(lia) ltac:(lia) ltac:(lia)) as E. destruct causal.
      + replace ((4 * n + i) / 4 <? (4 * n - 1 + k) / 4) with false in E by lia. cbn [andb negb] in E. rewrite andb_true_r in E. exact E.
      + cbn [andb negb] in E. rewrite andb_true_r in E. exact E.
  Qed.
  Lemma low_free b s y x p : R b (set_low src s y x p) -> sig s y x = false -> R b s.
  Proof using. clear.
    intros (Ht & Hm & Hc & Hs & Hv) Hg. split; [|split; [exact Hm|split; [exact Hc|split; [exact Hs|exact Hv]]]].
    intros y' x' Hy' Hx'. destruct (Ht y' x' Hy' Hx') as [A B]. split; [|exact B]. intros Hi. destruct (A Hi) as (P & HP & E & Hl). exists P. split; [exact HP|]. split; [exact E|].
    intros C. cbn [sig set_low low] in Hl. specialize (Hl C). unfold up2 in Hl. destruct (Z.eqb_spec y' y) as [->|], (Z.eqb_spec x' x) as [->|]; cbn [andb] in Hl; try exact Hl. rewrite Hg in C. discriminate C.
  Qed.

  Notation cup_column := (cup_column src dec raw w h orient causal).
  Lemma column_R f p b s n x : (3 <= f)%nat -> R b s -> 0 <= p < 31 -> 0 <= n -> 4 * n + 4 <= h -> 0 <= x < w -> same (cleanup_col (S f) p (4 * n) x 4 b) (cup_column p s (n, x)).
  Proof using Hh Ho Hdec Hraw. clear - Hh Ho Hdec Hraw.
    intros Hf Hr Hp Hn H4 Hx. pose proof Hr as (Ht & Hm & Hc & Hs & Hv). unfold PassSpec.cup_column. replace (4 * n + 4 <=? h) with true by lia. cbn [andb]. rewrite <- (run_mode b s n x Hr Hn H4 Hx).
    assert (Hin : forall i, 0 <= i < 4 -> inside (4 * n + i) x) by (intros i Hi; unfold inside; lia).
    cbn [PassModel.cleanup_col]. change (4 <=? 0) with false. cbv iota. replace (4 * n + 4 - 4) with (4 * n) by lia. replace (4 * n mod 4 =? 0) with true by lia. replace (4 * n <=? h - 4) with true by lia. cbn [andb].
    replace (4 * n / 4) with n by lia. change ((n + 1) * tstr w + (x + 1)) with (cadr n x). unfold rd_cx at 1. rewrite cadr_in by lia. cbn [bind].
    destruct (Z.land (cx b (cadr n x)) (if causal then 32767 else 262143) =? 0) eqn:Rm.
    2: { cbn [bind]. change (0 <=? -1) with false. cbv iota.
      unfold column_of. rewrite Z.min_l by lia. rewrite zseq_cons by lia. cbn [map foldo]. rewrite Z.add_0_r. change (4 - 1) with 3. rewrite map_map.
      pose proof (plain_R p b s (4 * n) x Hr ltac:(unfold inside; lia) Hp) as K. 
      enough (K2 : same (let* b0 := plain p b (4 * n) x in cleanup_col f p (4 * n) x 3 b0) (let* a := cup_at p s (4 * n, x) in foldo (cup_at p) a (map (fun i => (4 * n + (1 + i), x)) (zseq 3)))).
      - match type of K2 with same ?A' _ => match goal with |- same ?A _ => replace A with A'; [exact K2|] end end. unfold plain. cbv zeta. destruct (rd_st src w h b _); reflexivity.
      - apply same_bind; [exact K|]. intros b' s' Hr'. pose proof (col_rest p n x Hp Hn H4 Hx 3 f b' s' ltac:(lia) ltac:(lia) Hr') as Z3. change (Z.of_nat 3) with 3 in Z3.
        rewrite (map_ext _ (fun i => (4 * n + 4 - 3 + i, x))) by (intros i; f_equal; lia). exact Z3. }
    pose proof Rm as Id. rewrite (run_mode b s n x Hr Hn H4 Hx) in Id. rewrite !andb_true_iff, !idle_iff in Id.
    assert (Hz : forall i, 0 <= i < 4 -> sig s (4 * n + i) x = false /\ cod s (4 * n + i) x = false).
    { intros i Hi. assert (i = 0 \/ i = 1 \/ i = 2 \/ i = 3) as [->|[->|[->| ->]]] by lia; [rewrite Z.add_0_r|..]; tauto. }
    clear Id. unfold ask, decide. rewrite Hs. destruct (dec (cso s) 17) as [[v o]| |] eqn:Er; cbn [bind]; try exact I.
    pose proof (Z.pow_pos_nonneg 2 p ltac:(lia) ltac:(lia)) as Pp.
    destruct (Hdec _ _ _ _ (R_ok _ _ Hr) Er) as [[-> | ->] Hko].
    - change (0 =? 0) with true. change (0 =? 1) with false. cbv iota. cbn [bind]. change (4 - 4 =? 0) with true. change (4 - 4 - 1) with (-1). cbv iota. change (0 <=? 4) with true. cbv iota.
      pose proof (R_src b s o Hr Hko) as Hr1. set (b1 := with_so src b o) in *. set (s1 := with_cso src s o) in *. destruct (Hz 0 ltac:(lia)) as [Sg Cd]. pose proof (Hin 0 ltac:(lia)) as Hi. rewrite Z.add_0_r in *.
      destruct (inside_adr _ _ Hi) as [Hy Hx']. change ((4 * n + 1) * tstr w + (x + 1)) with (adr (4 * n) x). destruct (byte_at b1 s1 (4 * n) x Hr1 Hi) as (P & HP & E). rewrite rd_st_run by assumption. cbn [bind]. rewrite E.
      rewrite pack_land1, pack_land4 by exact HP. change (sig s1) with (sig s). change (cod s1) with (cod s). rewrite Sg, Cd. change (b2z false =? 0) with true. change (4 * b2z false =? 0) with true. cbn [andb].
      destruct (plane_R b1 s1 (4 * n) x p Hr1 Hi ltac:(lia)) as (t' & Ep & Hr' & Et). rewrite Ep. cbn [bind]. rewrite (Z.add_comm x). change (4 * n * sstr w + x) with (sadr (4 * n) x). rewrite rd_sm_run by exact Hi. cbn [bind].
      rewrite (mag_0 _ _ (4 * n) x Hr' Hi Sg). replace (0 =? 2 ^ p) with false by (symmetry; apply Z.eqb_neq; lia). cbn [bind].
      rewrite col_done by lia.
      exact (low_free _ _ _ _ _ Hr' Sg).
    - change (1 =? 0) with false. change (1 =? 1) with true. cbv iota. cbn [so with_so cso with_cso].
      destruct (dec o 18) as [[u o2]| |] eqn:E2; cbn [bind]; [|exact I|exact I]. cbn [so with_so cso with_cso].
      destruct (dec o2 18) as [[v o3]| |] eqn:E3; cbn [bind]; [|exact I|exact I].
      set (r := 2 * u + v) in *. destruct (Hdec _ _ _ _ Hko E2) as [Hb2 Hko2]. destruct (Hdec _ _ _ _ Hko2 E3) as [Hb3 Hko3]. assert (Hrr : 0 <= r < 4) by (unfold r; lia). clearbody r.
      change (with_so src (with_so src (with_so src b o) o2) o3) with (with_so src b o3). change (with_cso src (with_cso src (with_cso src s o) o2) o3) with (with_cso src s o3).
      pose proof (R_src b s o3 Hr Hko3) as Hr1. set (b1 := with_so src b o3) in *. set (s1 := with_cso src s o3) in *. destruct (Hz r Hrr) as [Sg Cd]. pose proof (Hin r Hrr) as Hi.
      change ((4 * n + r) * sstr w + x) with (sadr (4 * n + r) x). rewrite (or_sm_0 b1 s1 (4 * n + r) x p Hr1 Hi Sg Hp). cbn [bind].
      replace (4 - r =? 0) with false by lia. replace (4 * n + 4 - (4 - r)) with (4 * n + r) by lia. replace (4 - r - 1) with (3 - r) by lia.
      replace (0 <=? r) with true by lia. cbv iota. destruct (inside_adr _ _ Hi) as [Hy Hx']. change ((4 * n + r + 1) * tstr w + (x + 1)) with (adr (4 * n + r) x).
      rewrite rd_st_run by assumption. cbn [bind st]. destruct (byte_at b1 s1 (4 * n + r) x Hr1 Hi) as (P & HP & E). rewrite E.
      rewrite pack_land1, pack_land4 by exact HP. change (sig s1) with (sig s). change (cod s1) with (cod s). rewrite Sg, Cd. change (b2z false =? 0) with true. change (4 * b2z false =? 0) with true. cbn [andb].
      pose proof (plane_R b1 s1 (4 * n + r) x p Hr1 Hi ltac:(lia)) as (t' & Ep & Hr' & Et).
      assert (Ep' : plane src w h (Blk (upd (sm b1) (sadr (4 * n + r) x) (2 ^ p)) (st b1) (cx b1) (so b1)) (adr (4 * n + r) x) p = Ret (Blk (upd (sm b1) (sadr (4 * n + r) x) (2 ^ p)) t' (cx b1) (so b1))).
      { revert Ep. unfold plane. rewrite !rd_st_run by assumption. cbn [bind st]. unfold wr_st. rewrite (adr_in _ _ Hy Hx'). cbn [sm cx so]. intros [= <-]. reflexivity. }
      rewrite Ep'. cbn [bind]. rewrite (Z.add_comm x). change ((4 * n + r) * sstr w + x) with (sadr (4 * n + r) x). rewrite rd_sm_run by exact Hi. cbn [bind sm]. rewrite upd_same, Z.eqb_refl.
      change (sig s1) with (sig s) in Et. rewrite Sg in Et.
      match goal with |- same (bind ?A ?F) (bind ?B ?G) => change (same (bind A (fun b0 => cleanup_col f p (4 * n) x (3 - r) b0)) (bind B G)) end.
      apply same_bind; [exact (found_R _ _ (4 * n + r) x p Hr' Hi Hp Sg (up2_same _ _ _ _) Et)|].
      intros b' s' Hr2. pose proof (col_rest p n x Hp Hn H4 Hx (Z.to_nat (3 - r)) f b' s' ltac:(lia) ltac:(lia) Hr2) as Z3. rewrite Z2Nat.id in Z3 by lia.
      rewrite (map_ext _ (fun i => (4 * n + 4 - (3 - r) + i, x))) by (intros i; f_equal; lia). exact Z3.
  Qed.

  (** ** A whole pass *)
  Lemma foldo_flat {A B C} (f : A -> C -> out A) (g : B -> list C) l : forall a, foldo f a (flat_map g l) = foldo (fun a e => foldo f a (g e)) a l.
  Proof using. clear. induction l as [|e l IH]; intros a; [reflexivity|]. cbn [flat_map foldo]. rewrite foldo_app. destruct (foldo f a (g e)); cbn [bind]; [apply IH|reflexivity|reflexivity]. Qed.
  Lemma foldo_ext_in {A B} (f g : A -> B -> out A) l : (forall a e, In e l -> f a e = g a e) -> forall a, foldo f a l = foldo g a l.
  Proof using. clear.
    induction l as [|e l IH]; intros H a; [reflexivity|]. cbn [foldo]. rewrite (H a e (or_introl eq_refl)). destruct (g a e); cbn [bind]; [|reflexivity|reflexivity]. apply IH. intros a' e' He. apply H. right. exact He.
  Qed.
  Lemma stripes_split : zseq (stripes h) = zseq (h / 4) ++ (if h mod 4 =? 0 then [] else [h / 4]).
  Proof using Hh. clear - Hh.
    unfold stripes. destruct (Z.eqb_spec (h mod 4) 0) as [E|E].
    - rewrite app_nil_r. f_equal. lia.
    - rewrite <- zseq_snoc by lia. f_equal. lia.
  Qed.
  Lemma columns_each {A} (g : A -> Z * Z -> out A) a : foldo g a (stripe_columns w h) =
    let* a := foldo (fun a n => foldo (fun a x => g a (n, x)) a (zseq w)) a (zseq (h / 4)) in
    if h mod 4 =? 0 then Ret a else foldo (fun a x => g a (h / 4, x)) a (zseq w).
  Proof using Hh. clear - Hh.
    unfold stripe_columns. rewrite foldo_flat, stripes_split, foldo_app.
    rewrite (foldo_ext_in _ (fun a n => foldo (fun a x => g a (n, x)) a (zseq w))) by (intros; apply foldo_map). destruct (foldo _ a (zseq (h / 4))) as [a'| |]; cbn [bind]; try reflexivity.
    destruct (h mod 4 =? 0); [reflexivity|]. cbn [foldo]. rewrite foldo_map. destruct (foldo _ a' (zseq w)); reflexivity.
  Qed.
  Lemma column_full n : 0 <= n < h / 4 -> forall x, column_of h n x = map (fun i => (4 * n + i, x)) (zseq 4).
  Proof using. clear. intros Hn x. unfold column_of. rewrite Z.min_l by lia. reflexivity. Qed.
  Lemma column_last : forall x, h mod 4 <> 0 -> column_of h (h / 4) x = map (fun i => (4 * (h / 4) + i, x)) (zseq (h mod 4)).
  Proof using. clear. intros x E. unfold column_of. do 2 f_equal. lia. Qed.
  Lemma scan_each {A} (g : A -> Z * Z -> out A) a : foldo g a (scan w h) =
    let* a := foldo (fun a n => foldo (fun a j2 => foldo (fun a r => g a (4 * n + r, j2)) a (zseq 4)) a (zseq w)) a (zseq (h / 4)) in
    if h mod 4 =? 0 then Ret a else foldo (fun a j2 => foldo (fun a r => g a (4 * (h / 4) + r, j2)) a (zseq (h mod 4))) a (zseq w).
  Proof using Hh. clear - Hh.
    unfold scan. rewrite foldo_flat, columns_each. cbn [fst snd].
    rewrite (foldo_ext_in _ (fun a n => foldo (fun a j2 => foldo (fun a r => g a (4 * n + r, j2)) a (zseq 4)) a (zseq w))).
    - destruct (foldo _ a (zseq (h / 4))) as [a'| |]; cbn [bind]; try reflexivity. destruct (Z.eqb_spec (h mod 4) 0) as [E|E]; [reflexivity|].
      apply foldo_ext_in. intros a0 x _. rewrite column_last by exact E. apply foldo_map.
    - intros a0 n Hn. apply zseq_In in Hn. apply foldo_ext_in. intros a1 x _. rewrite column_full by exact Hn. apply foldo_map.
  Qed.
  Lemma each_R (f : blk -> Z * Z -> out blk) (g : coefs -> Z * Z -> out coefs) : (forall b s y x, R b s -> inside y x -> same (f b (y, x)) (g s (y, x))) ->
    forall b s, R b s -> same (each src w h f b) (foldo g s (scan w h)).
  Proof using Hh. clear - Hh.
    intros H b s Hr. rewrite scan_each. unfold each. apply same_bind.
    - apply foldo_same; [|exact Hr]. intros b1 s1 n Hn Hr1. apply zseq_In in Hn. apply foldo_same; [|exact Hr1]. intros b2 s2 x Hx Hr2. apply zseq_In in Hx.
      apply foldo_same; [|exact Hr2]. intros b3 s3 r Hrr Hr3. apply zseq_In in Hrr. apply H; [exact Hr3|unfold inside; lia].
    - intros b1 s1 Hr1. destruct (Z.eqb_spec (h mod 4) 0) as [E|E]; [exact Hr1|]. apply foldo_same; [|exact Hr1]. intros b2 s2 x Hx Hr2. apply zseq_In in Hx.
      apply foldo_same; [|exact Hr2]. intros b3 s3 r Hrr Hr3. apply zseq_In in Hrr. apply H; [exact Hr3|unfold inside; lia].
  Qed.
  Lemma spp_R by_raw p b s : 0 <= p < 31 -> R b s -> same (sigprop src dec raw w h orient causal by_raw p b) (spp src dec raw w h orient causal by_raw p s).
  Proof using Hh Ho Hdec Hraw. intros Hp Hr. apply each_R; [|exact Hr]. intros. apply sigprop_R; assumption. Qed.
  Lemma mrp_R by_raw p b s : 0 <= p < 31 -> R b s -> same (magref src dec raw w h orient causal by_raw p b) (mrp src dec raw w h orient causal by_raw p s).
  Proof using Hh Ho Hdec Hraw. intros Hp Hr. apply each_R; [|exact Hr]. intros. apply magref_R; assumption. Qed.
  Lemma cup_pass_R p b s : 0 <= p < 31 -> R b s -> same (cleanup src dec w h orient causal p b) (cup src dec raw w h orient causal p s).
  Proof using Hh Ho Hdec Hraw. clear - Hh Ho Hdec Hraw.
    intros Hp Hr. unfold cleanup, cup. rewrite columns_each. apply same_bind.
    - apply foldo_same; [|exact Hr]. intros b1 s1 n Hn Hr1. apply zseq_In in Hn. apply foldo_same; [|exact Hr1]. intros b2 s2 x Hx Hr2. apply zseq_In in Hx.
      apply column_R; [lia|exact Hr2|exact Hp|lia|lia|exact Hx].
    - intros b1 s1 Hr1. destruct (Z.eqb_spec (h mod 4) 0) as [E|E]; [exact Hr1|]. apply foldo_same; [|exact Hr1]. intros b2 s2 x Hx Hr2. apply zseq_In in Hx.
      unfold PassSpec.cup_column. replace (4 * (h / 4) + 4 <=? h) with false by lia. cbn [andb]. rewrite column_last by exact E. rewrite foldo_map.
      apply foldo_same; [|exact Hr2]. intros b3 s3 r Hrr Hr3. apply zseq_In in Hrr. apply cup_R; [exact Hr3|unfold inside; lia|exact Hp].
  Qed.
End Sim.
