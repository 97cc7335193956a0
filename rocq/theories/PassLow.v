(** What Annex D's passes keep: a significant coefficient's magnitude is a
    multiple of its last decoded bit-plane, which is no lower than the last
    plane. *)
From Verif Require Import Base BaseLemmas OutModel OutProofs StripProofs PassModel PassSpec PassProofs PassRun.

Section Low.
  Variable src : Type.
  Variable dec : src -> Z -> out (Z * src).
  Variable raw : src -> out (Z * src).
  Variables w h orient : Z.
  Variable causal : bool.
  Notation coefs := (coefs src).

  Definition D (p : Z) (s : coefs) : Prop :=
    forall y x, if sig s y x then p <= low s y x /\ (2 ^ low s y x | mag s y x) /\ 0 < mag s y x else mag s y x = 0.
  Definition keeps (p : Z) (o : out coefs) : Prop := forall s, o = Ret s -> D p s.
  Lemma keeps_bind {A} p (o : out A) f : (forall a, o = Ret a -> keeps p (f a)) -> keeps p (bind o f).
  Proof using. clear. intros K s E. destruct o as [a| |]; try discriminate E. exact (K a eq_refl s E). Qed.
  Lemma keeps_fold {A} p (f : coefs -> A -> out coefs) l : (forall s e, D p s -> keeps p (f s e)) -> forall s, D p s -> keeps p (foldo f s l).
  Proof using. clear. intros K. induction l as [|e l IH]; intros s G; cbn [foldo]; [intros s' E; injection E as <-; exact G|].
    apply keeps_bind. intros a Ea. apply IH. exact (K s e G a Ea). Qed.
  Lemma D_decide p s l v s' : D p s -> decide src dec s l = Ret (v, s') -> D p s' /\ (sig s' = sig s /\ mag s' = mag s /\ low s' = low s).
  Proof using. clear. unfold decide. intros G E. destruct (dec (cso s) l) as [[x o]| |]; try discriminate E. injection E as <- <-. split; [exact G|repeat split]. Qed.
  Lemma D_bit p s v s' : D p s -> bit src raw s = Ret (v, s') -> D p s' /\ (sig s' = sig s /\ mag s' = mag s /\ low s' = low s).
  Proof using. clear. unfold bit. intros G E. destruct (raw (cso s)) as [[x o]| |]; try discriminate E. injection E as <- <-. split; [exact G|repeat split]. Qed.
  Lemma setbit_div p m : 0 <= p -> (2 ^ p | m) -> 0 <= m -> (2 ^ p | Z.setbit m p) /\ 0 < Z.setbit m p.
  Proof using. clear. intros Hp Hd Hm. assert (Z.testbit (Z.setbit m p) p = true) as T by (apply Z.setbit_eq; exact Hp). split.
    - apply Z.mod_divide; [lia|]. apply Z.bits_inj'. intros i Hi. rewrite Z.bits_0. destruct (Z_lt_dec i p) as [L|L]; [|apply Z.mod_pow2_bits_high; lia].
      rewrite Z.mod_pow2_bits_low, Z.setbit_eqb by lia. replace (p =? i) with false by lia. cbn [orb]. destruct Hd as [q ->]. apply Z.mul_pow2_bits_low. lia.
    - assert (0 <= Z.setbit m p) by (unfold Z.setbit; rewrite Z.shiftl_1_l; apply Z.lor_nonneg; split; [exact Hm|lia]). assert (Z.setbit m p <> 0) by (intros E; rewrite E, Z.bits_0 in T; discriminate T). lia.
  Qed.
  Lemma up2_eq {A} (f : Z -> Z -> A) y x v : up2 f y x v y x = v.
  Proof using. clear. unfold up2. rewrite !Z.eqb_refl. reflexivity. Qed.
  Lemma div_le p q m : p <= q -> 0 <= p -> (2 ^ q | m) -> (2 ^ p | m).
  Proof using. clear. intros H Hp [k ->]. exists (k * 2 ^ (q - p)). rewrite <- Z.mul_assoc, <- Z.pow_add_r by lia. do 2 f_equal. lia. Qed.

  (** Becoming significant, after the last plane has been noted. *)
  Lemma D_neg p s y x v : D p s -> D p (set_neg src s y x v). Proof using. clear. exact (fun G => G). Qed.
  Lemma D_cod p s y x v : D p s -> D p (set_cod src s y x v). Proof using. clear. exact (fun G => G). Qed.
  Lemma D_low p s y x : D p s -> sig s y x = false -> D p (set_low src s y x p).
  Proof using. clear. intros G Hs y' x'. specialize (G y' x'). cbn [sig mag low set_low]. unfold up2. destruct (Z.eqb_spec y' y) as [->|]; cbn [andb]; [|exact G]. destruct (Z.eqb_spec x' x) as [->|]; [|exact G]. rewrite Hs in *. exact G. Qed.
  Lemma D_set p s y x : 0 <= p -> D p s -> low s y x = p -> D p (set_sig src (set_mag src s y x p) y x).
  Proof using. clear. intros Hp G Hl y' x'. pose proof (G y' x') as G'. cbn [sig mag low set_sig set_mag]. unfold up2.
    destruct (Z.eqb_spec y' y) as [->|]; cbn [andb]; [|exact G']. destruct (Z.eqb_spec x' x) as [->|]; [|exact G']. rewrite Hl. split; [lia|].
    apply setbit_div; [exact Hp| |]; destruct (sig s y x); try lia. { rewrite <- Hl. apply G'. } rewrite G'. apply Z.divide_0_r. Qed.
  Lemma becomes_D by_raw p s y x : 0 <= p -> D p s -> low s y x = p -> keeps p (becomes src dec raw w h causal by_raw p s y x).
  Proof using. clear. intros Hp G Hl. unfold becomes. pose proof (D_set p s y x Hp G Hl) as G1. destruct by_raw.
    - apply keeps_bind. intros [v s'] E. destruct (D_bit p _ _ _ G1 E) as [G2 _]. intros s2 E2. injection E2 as <-. exact G2.
    - destruct (sign_context src w h causal _ y x) as [l f]. apply keeps_bind. intros [v s'] E. destruct (D_decide p _ _ _ _ G1 E) as [G2 _]. intros s2 E2. injection E2 as <-. exact G2.
  Qed.
  Lemma spp_D by_raw p s yx : 0 <= p -> D p s -> keeps p (spp_at src dec raw w h orient causal by_raw p s yx).
  Proof using. clear. intros Hp G. destruct yx as [y x]. unfold spp_at. destruct (sig s y x) eqn:Hs; cbn [negb andb]; [intros s' E; injection E as <-; exact G|].
    destruct (negb (context src w h orient causal s y x =? 0)); [|intros s' E; injection E as <-; exact G]. apply keeps_bind. intros [v s1] E.
    assert (Q : D p s1 /\ (sig s1 = sig s /\ mag s1 = mag s /\ low s1 = low s)) by (destruct by_raw; [eapply D_bit|eapply D_decide]; eassumption). destruct Q as (G1 & Es & _).
    pose proof (D_low p s1 y x G1 ltac:(rewrite Es; exact Hs)) as G2. apply keeps_bind. intros s2 E2. enough (G3 : D p s2) by (intros s3 E3; injection E3 as <-; exact G3).
    destruct (v =? 1); [|injection E2 as <-; exact G2]. eapply becomes_D; [exact Hp|exact G2| |exact E2]. apply up2_eq. Qed.
  Lemma mrp_D by_raw p s yx : 0 <= p -> D p s -> keeps p (mrp_at src dec raw w h orient causal by_raw p s yx).
  Proof using. clear. intros Hp G. destruct yx as [y x]. unfold mrp_at. destruct (sig s y x && negb (cod s y x)) eqn:Hs; [|intros s' E; injection E as <-; exact G].
    apply andb_prop in Hs as [Hs _]. apply keeps_bind. intros [v s1] E.
    assert (Q : D p s1 /\ (sig s1 = sig s /\ mag s1 = mag s /\ low s1 = low s)) by (destruct by_raw; [eapply D_bit|eapply D_decide]; eassumption). destruct Q as (G1 & Es & _).
    intros s2 E2. injection E2 as <-. intros y' x'. pose proof (G1 y' x') as G2. rewrite Es in G2. destruct (v =? 1); cbn [sig mag low set_low set_refd set_mag]; rewrite Es; unfold up2.
    - destruct (Z.eqb_spec y' y) as [->|]; cbn [andb]; [|exact G2]. destruct (Z.eqb_spec x' x) as [->|]; [|exact G2]. rewrite Hs in *. split; [lia|]. apply setbit_div; [exact Hp| |lia]. eapply div_le; [|exact Hp|]; apply G2.
    - destruct (Z.eqb_spec y' y) as [->|]; cbn [andb]; [|exact G2]. destruct (Z.eqb_spec x' x) as [->|]; [|exact G2]. rewrite Hs in *. split; [lia|]. split; [|apply G2]. eapply div_le; [|exact Hp|]; apply G2. Qed.
  Lemma cup_at_D p s yx : 0 <= p -> D p s -> keeps p (cup_at src dec raw w h orient causal p s yx).
  Proof using. clear. intros Hp G. destruct yx as [y x]. unfold cup_at. destruct (sig s y x) eqn:Hs; cbn [negb andb]; [intros s' E; injection E as <-; exact G|].
    destruct (negb (cod s y x)); [|intros s' E; injection E as <-; exact G]. apply keeps_bind. intros [v s1] E. destruct (D_decide p _ _ _ _ G E) as (G1 & Es & _).
    pose proof (D_low p s1 y x G1 ltac:(rewrite Es; exact Hs)) as G2. destruct (v =? 1); [|intros s2 E2; injection E2 as <-; exact G2]. apply becomes_D; [exact Hp|exact G2|apply up2_eq]. Qed.
  Lemma D_low' p s y x : 0 <= p -> D p s -> D p (set_low src s y x p).
  Proof using. clear. intros Hp G y' x'. specialize (G y' x'). cbn [sig mag low set_low]. unfold up2. destruct (Z.eqb_spec y' y) as [->|]; cbn [andb]; [|exact G]. destruct (Z.eqb_spec x' x) as [->|]; [|exact G].
    destruct (sig s y x); [|exact G]. split; [lia|]. split; [|apply G]. eapply div_le; [|exact Hp|]; apply G. Qed.
  Lemma cup_column_D p s nx : 0 <= p -> D p s -> keeps p (cup_column src dec raw w h orient causal p s nx).
  Proof using. clear. intros Hp G. destruct nx as [n x]. unfold cup_column. match goal with |- keeps _ (if ?c then _ else _) => destruct c end; [|apply keeps_fold; [intros; apply cup_at_D; assumption|exact G]].
    apply keeps_bind. intros [v s1] E. destruct (D_decide p _ _ _ _ G E) as [G1 _]. destruct (v =? 1); [|intros s2 E2; injection E2 as <-; exact G1].
    apply keeps_bind. intros [a s2] E2. destruct (D_decide p _ _ _ _ G1 E2) as [G2 _]. apply keeps_bind. intros [b s3] E3. destruct (D_decide p _ _ _ _ G2 E3) as [G3 _]. cbv zeta.
    apply keeps_bind. intros s4 E4. apply keeps_fold; [intros; apply cup_at_D; assumption|]. eapply becomes_D; [exact Hp| | |exact E4]; [apply D_low'; assumption|apply up2_eq]. Qed.

  Variable seg : src -> Z -> Z -> bool -> out src.
  Variable reset : src -> src.
  Variables bypass reset_cx restart segmark : bool.
  Variable plen : list Z.
  Variables length num_pass planes : Z.
  Lemma D_le p q s : q <= p -> D p s -> D q s.
  Proof using. clear. intros H G y x. specialize (G y x). destruct (sig s y x); [|exact G]. split; [lia|apply G]. Qed.
  Lemma a_pass_D z s s' : 0 <= plane_of planes z -> D (plane_of planes z) s ->
    a_pass src dec raw w h orient causal seg reset bypass reset_cx restart segmark plen length num_pass planes s z = ret s' -> D (plane_of planes z) s'.
  Proof using. clear. intros Hp G. unfold a_pass.
    assert (K : forall s, D (plane_of planes z) s -> forall s', (let s := if (z =? 0) || reset_cx then with_cso src s (reset (cso s)) else s in
      let p := plane_of planes z in
      if kind z =? 0 then let* s := spp src dec raw w h orient causal (is_raw_pass bypass z) p s in ret s
      else if kind z =? 1 then let* s := mrp src dec raw w h orient causal (is_raw_pass bypass z) p s in ret s
      else let* s := cup src dec raw w h orient causal p s in
        if segmark then
        let* (a, s) := decide src dec s 18 in
        let* (b, s) := decide src dec s 18 in
        let* (c, s) := decide src dec s 18 in
        let* (d, s) := decide src dec s 18 in
        if (a =? 1) && (b =? 0) && (c =? 1) && (d =? 0) then ret s else throw else ret s) = ret s' -> D (plane_of planes z) s').
    { clear s s' G. intros s G s'. cbv zeta. set (s1 := if (z =? 0) || reset_cx then with_cso src s (reset (cso s)) else s).
      assert (G1 : D (plane_of planes z) s1) by (unfold s1; destruct ((z =? 0) || reset_cx); exact G). clearbody s1. generalize dependent (plane_of planes z). intros p Hp _ G1.
      assert (X : forall o, keeps p o -> (let* s := o in ret s) = ret s' -> D p s') by (intros [o| |] Ko E; try discriminate E; injection E as <-; apply Ko; reflexivity).
      destruct (kind z =? 0); [apply X, keeps_fold; [intros; apply spp_D; assumption|exact G1]|]. destruct (kind z =? 1); [apply X, keeps_fold; [intros; apply mrp_D; assumption|exact G1]|].
      pose proof (keeps_fold p (cup_column src dec raw w h orient causal p) (stripe_columns w h) (fun s e G => cup_column_D p s e Hp G) s1 G1) as Kc. fold (cup src dec raw w h orient causal p s1) in Kc.
      destruct (cup src dec raw w h orient causal p s1) as [s2| |]; cbn [bind]; intros E; try discriminate E. specialize (Kc s2 eq_refl). destruct segmark; [|injection E as <-; exact Kc].
      do 4 match type of E with bind ?d _ = _ => let E' := fresh "E" in destruct d as [[? ?]| |] eqn:E'; cbn [bind] in E; try discriminate E; apply (D_decide p) in E'; [|assumption]; destruct E' as [? _] end.
      match type of E with (if ?c then _ else _) = _ => destruct c end; [|discriminate E]. injection E as <-. assumption. }
    destruct (starts bypass restart z); [|exact (K s G s')].
    destruct (length <? _); [discriminate|]. destruct (seg (cso s) _ _ _) as [o| |]; cbn [bind bindx ret]; try discriminate. exact (K (with_cso src s o) G s').
  Qed.
  Lemma all_D o s p : 0 <= p -> (forall z, 0 <= z < num_pass -> p <= plane_of planes z) ->
    all_passes src dec raw w h orient causal seg reset bypass reset_cx restart segmark plen length num_pass planes o = ret s -> D p s.
  Proof using. clear. intros Hp Hz. unfold all_passes. set (f := a_pass _ _ _ _ _ _ _ _ _ _ _ _ _ _ _ _ _).
    assert (G0 : forall q, D q (nothing src o)) by (intros q y x; reflexivity).
    assert (K : forall n, 0 <= n -> n <= num_pass -> forall s, foldx f (nothing src o) (zseq n) = ret s -> D p s /\ D (plane_of planes n) s).
    { apply (natlike_ind (fun n => n <= num_pass -> forall s, foldx f (nothing src o) (zseq n) = ret s -> D p s /\ D (plane_of planes n) s)).
      - intros _ s' E. injection E as <-. split; apply G0.
      - intros n Hn IH Hl s' E. unfold Z.succ in *. rewrite zseq_snoc, foldx_app in E by exact Hn. destruct (foldx f (nothing src o) (zseq n)) as [[s1|]| |]; try discriminate E. cbn [bindx bind ret foldx] in E.
        destruct (f s1 n) as [[s2|]| |] eqn:E2; try discriminate E. injection E as <-. destruct (IH ltac:(lia) s1 eq_refl) as [_ G]. specialize (Hz n ltac:(lia)).
        apply a_pass_D in E2; [|lia|exact G]. split; [eapply D_le; [exact Hz|exact E2]|]. eapply D_le; [|exact E2]. unfold plane_of. pose proof (Z.div_le_mono (n + 2) (n + 1 + 2) 3). lia. }
    intros E. destruct (Z_lt_dec num_pass 0) as [L|L]; [rewrite zseq_0 in E by lia; injection E as <-; apply G0|]. apply (K num_pass); [lia|lia|exact E].
  Qed.
End Low.
