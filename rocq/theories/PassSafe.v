(** The passes with a decoder that always answers, and the MQ decoder as one. *)
From Verif Require Import Base BaseLemmas OutModel OutProofs StripProofs PassModel PassSpec PassProofs PassRun MqModel MqProps.

Section Total.
  Variable src : Type.
  Variable dec : src -> Z -> out (Z * src).
  Variable raw : src -> out (Z * src).
  Variables w h orient : Z.
  Variable causal : bool.
  Hypothesis Ho : 0 <= orient < 4.
  Variable seg : src -> Z -> Z -> bool -> out src.
  Variable reset : src -> src.
  Variables bypass reset_cx restart segmark : bool.
  Variable plen : list Z.
  Variable length : Z.
  Variable num_pass planes : Z.
  Variable good : option bool -> src -> Prop.
  Hypothesis Gdec : forall s l, good (Some false) s -> 0 <= l < 19 -> exists x s', dec s l = Ret (x, s') /\ (x = 0 \/ x = 1) /\ good (Some false) s'.
  Hypothesis Graw : forall s, good (Some true) s -> exists x s', raw s = Ret (x, s') /\ (x = 0 \/ x = 1) /\ good (Some true) s'.
  Hypothesis Gseg : forall s m pos n r, good m s -> 0 <= pos -> 0 <= n -> pos + n <= length -> exists s', seg s pos n r = Ret s' /\ good (Some r) s'.
  Hypothesis Greset : forall m s, good m s -> good m (reset s).
  Hypothesis Hpl : forall v, In v plen -> 0 <= v.
  Hypothesis Hpn : num_pass <= zlen plen.

  Notation coefs := (coefs src).
  Definition tot (m : bool) (o : out coefs) : Prop := exists s, o = Ret s /\ good (Some m) (cso s).
  Lemma tot_bind m m' o f : tot m o -> (forall s, good (Some m) (cso s) -> tot m' (f s)) -> tot m' (bind o f).
  Proof using. clear. intros (s & -> & G) K. apply K. exact G. Qed.
  Lemma tot_fold {A} m (f : coefs -> A -> out coefs) l : (forall s e, good (Some m) (cso s) -> tot m (f s e)) -> forall s, good (Some m) (cso s) -> tot m (foldo f s l).
  Proof using. clear. intros K. induction l as [|e l IH]; intros s G; [exists s; split; [reflexivity|exact G]|]. cbn [foldo]. eapply tot_bind; [apply K; exact G|exact IH]. Qed.
  Lemma D3_label H V : 9 <= fst (table_D3 H V) <= 13.
  Proof using. clear. unfold table_D3. repeat match goal with |- context [if ?b then _ else _] => destruct b end; cbn; lia. Qed.
  Lemma becomes_tot by_raw p s y x : good (Some by_raw) (cso s) -> tot by_raw (becomes src dec raw w h causal by_raw p s y x).
  Proof using Gdec Graw. clear - Gdec Graw.
    intros G. unfold becomes. cbv zeta. destruct by_raw.
    - unfold PassSpec.bit. cbn [cso set_sig set_mag]. destruct (Graw _ G) as (v & o & -> & _ & G'). cbn [bind]. eexists. split; [reflexivity|exact G'].
    - unfold sign_context. match goal with |- context [table_D3 ?a ?b] => pose proof (D3_label a b) as L; destruct (table_D3 a b) as [label flip] end. cbn [fst] in L.
      unfold decide. cbn [cso set_sig set_mag]. destruct (Gdec _ label G ltac:(lia)) as (v & o & -> & _ & G'). cbn [bind]. eexists. split; [reflexivity|exact G'].
  Qed.
  Lemma spp_at_tot by_raw p s yx : good (Some by_raw) (cso s) -> tot by_raw (spp_at src dec raw w h orient causal by_raw p s yx).
  Proof using Ho Gdec Graw. clear - Ho Gdec Graw.
    intros G. destruct yx as [y x]. unfold spp_at. destruct (negb (sig s y x) && negb (context src w h orient causal s y x =? 0)); [|eexists; split; [reflexivity|exact G]].
    pose proof (context_range src w h orient causal Ho s y x) as L.
    assert (K : forall v o, good (Some by_raw) o -> tot by_raw (let s0 := set_low src (with_cso src s o) y x p in
      let* s1 := if v =? 1 then becomes src dec raw w h causal by_raw p s0 y x else Ret s0 in Ret (set_cod src s1 y x true))).
    { intros v o G'. cbv zeta. apply (tot_bind by_raw).
      - destruct (v =? 1); [apply becomes_tot; exact G'|eexists; split; [reflexivity|exact G']].
      - intros s1 G1. eexists. split; [reflexivity|exact G1]. }
    destruct by_raw.
    - unfold PassSpec.bit. destruct (Graw _ G) as (v & o & -> & _ & G'). cbn [bind]. apply K. exact G'.
    - unfold decide. destruct (Gdec _ (context src w h orient causal s y x) G ltac:(lia)) as (v & o & -> & _ & G'). cbn [bind]. apply K. exact G'.
  Qed.
  Lemma mrp_at_tot by_raw p s yx : good (Some by_raw) (cso s) -> tot by_raw (mrp_at src dec raw w h orient causal by_raw p s yx).
  Proof using Gdec Graw. clear - Gdec Graw.
    intros G. destruct yx as [y x]. unfold mrp_at. destruct (sig s y x && negb (cod s y x)); [|eexists; split; [reflexivity|exact G]].
    assert (K : forall v o, good (Some by_raw) o -> tot by_raw (Ret (set_low src (set_refd src (if v =? 1 then set_mag src (with_cso src s o) y x p else with_cso src s o) y x) y x p))).
    { intros v o G'. eexists. split; [reflexivity|]. destruct (v =? 1); exact G'. }
    destruct by_raw.
    - unfold PassSpec.bit. destruct (Graw _ G) as (v & o & -> & _ & G'). cbn [bind]. apply K. exact G'.
    - unfold decide. destruct (Gdec _ (if refd s y x then 16 else if context src w h orient causal s y x =? 0 then 14 else 15) G) as (v & o & -> & _ & G'); [destruct (refd s y x); [lia|]; destruct (context src w h orient causal s y x =? 0); lia|].
      cbn [bind]. apply K. exact G'.
  Qed.
  Lemma cup_at_tot p s yx : good (Some false) (cso s) -> tot false (cup_at src dec raw w h orient causal p s yx).
  Proof using Ho Gdec Graw. clear - Ho Gdec Graw.
    intros G. destruct yx as [y x]. unfold cup_at. destruct (negb (sig s y x) && negb (cod s y x)); [|eexists; split; [reflexivity|exact G]].
    pose proof (context_range src w h orient causal Ho s y x) as L. unfold decide. destruct (Gdec _ (context src w h orient causal s y x) G ltac:(lia)) as (v & o & -> & _ & G'). cbn [bind].
    destruct (v =? 1); [apply becomes_tot; exact G'|eexists; split; [reflexivity|exact G']].
  Qed.
  Lemma cup_column_tot p s nx : good (Some false) (cso s) -> tot false (cup_column src dec raw w h orient causal p s nx).
  Proof using Ho Gdec Graw. clear - Ho Gdec Graw.
    intros G. destruct nx as [n x]. unfold cup_column. match goal with |- tot _ (if ?c then _ else _) => destruct c end; [|apply tot_fold; [intros; apply cup_at_tot; assumption|exact G]].
    unfold decide. destruct (Gdec _ 17 G ltac:(lia)) as (v & o & -> & _ & G1). cbn [bind]. destruct (v =? 1); [|eexists; split; [reflexivity|exact G1]]. cbn [cso with_cso].
    destruct (Gdec _ 18 G1 ltac:(lia)) as (a & o2 & -> & _ & G2). cbn [bind cso with_cso]. destruct (Gdec _ 18 G2 ltac:(lia)) as (b & o3 & -> & _ & G3). cbn [bind].
    apply (tot_bind false); [apply becomes_tot; exact G3|]. intros s1 G4. apply tot_fold; [intros; apply cup_at_tot; assumption|exact G4].
  Qed.

  Definition totx (m : bool) (o : ex coefs) : Prop := o = throw \/ exists s, o = ret s /\ good (Some m) (cso s).
  Lemma tot_x m o : tot m o -> totx m (let* s := o in ret s).
  Proof using. clear. intros (s & -> & G). right. exists s. split; [reflexivity|exact G]. Qed.
  Lemma a_pass_tot s z m : 0 <= z < num_pass -> good m (cso s) -> starts bypass restart z = true \/ m = Some (is_raw_pass bypass z) ->
    totx (is_raw_pass bypass z) (a_pass src dec raw w h orient causal seg reset bypass reset_cx restart segmark plen length num_pass planes s z).
  Proof using Ho Gdec Graw Gseg Greset Hpl Hpn. clear - Ho Gdec Graw Gseg Greset Hpl Hpn.
    intros Hz G Hm.
    assert (Hb : forall s, good (Some (is_raw_pass bypass z)) (cso s) -> totx (is_raw_pass bypass z) (body src dec raw w h orient causal reset bypass reset_cx segmark (30 - planes) s z)).
    { clear s G Hm. intros s G. unfold body. replace (30 - (30 - planes)) with planes by lia. set (s1 := if (z =? 0) || reset_cx then with_cso src s (reset (cso s)) else s).
      assert (G1 : good (Some (is_raw_pass bypass z)) (cso s1)) by (unfold s1; destruct ((z =? 0) || reset_cx); [apply Greset|]; exact G). clearbody s1. clear s G. cbv zeta.
      destruct (Z.eqb_spec (kind z) 0) as [K0|K0]; [apply tot_x, tot_fold; [intros; apply spp_at_tot; assumption|exact G1]|].
      destruct (Z.eqb_spec (kind z) 1) as [K1|K1]; [apply tot_x, tot_fold; [intros; apply mrp_at_tot; assumption|exact G1]|].
      assert (K2 : kind z = 2) by (unfold kind in *; lia). assert (Er : is_raw_pass bypass z = false) by (unfold is_raw_pass; rewrite K2; apply andb_false_r). rewrite Er in *.
      assert (T : tot false (cup src dec raw w h orient causal (planes - (z + 2) / 3) s1)) by (apply tot_fold; [intros; apply cup_column_tot; assumption|exact G1]).
      unfold plane_of. destruct T as (s2 & -> & G2). cbn [bind]. destruct segmark; [|right; exists s2; split; [reflexivity|exact G2]]. unfold decide.
      destruct (Gdec _ 18 G2 ltac:(lia)) as (a & o1 & -> & _ & A1). cbn [bind cso with_cso]. destruct (Gdec _ 18 A1 ltac:(lia)) as (b & o2 & -> & _ & A2). cbn [bind cso with_cso].
      destruct (Gdec _ 18 A2 ltac:(lia)) as (c & o3 & -> & _ & A3). cbn [bind cso with_cso]. destruct (Gdec _ 18 A3 ltac:(lia)) as (d & o4 & -> & _ & A4). cbn [bind].
      match goal with |- totx _ (if ?c then _ else _) => destruct c end; [right; eexists; split; [reflexivity|exact A4]|left; reflexivity]. }
    replace (a_pass src dec raw w h orient causal seg reset bypass reset_cx restart segmark plen length num_pass planes s z) with (a_pass src dec raw w h orient causal seg reset bypass reset_cx restart segmark plen length num_pass (30 - (30 - planes)) s z) by (f_equal; lia).
    rewrite a_pass_eq. destruct (starts bypass restart z) eqn:Hs.
    - destruct (Z.ltb_spec length (bytes_before plen z + seg_bytes bypass restart plen num_pass z)) as [L|L]; [left; reflexivity|].
      assert (B0 : 0 <= bytes_before plen z). { pose proof (bytes_mono plen z 0 Hpl ltac:(lia) ltac:(lia) ltac:(lia)) as M. rewrite Z.add_0_l, bytes_0 in M. exact M. }
      assert (B1 : 0 <= seg_bytes bypass restart plen num_pass z).
      { unfold seg_bytes. set (e := seg_end bypass restart num_pass (Z.to_nat num_pass) (z + 1)).
        assert (He : z + 1 <= e <= num_pass).
        { unfold e. assert (Q : forall f y, y <= num_pass -> y <= seg_end bypass restart num_pass f y <= num_pass).
          { induction f as [|f IH]; intros y Hy; cbn [seg_end]; [lia|]. destruct (Z.leb_spec num_pass y); cbn [orb]; [lia|]. destruct (starts bypass restart y); [lia|]. specialize (IH (y + 1) ltac:(lia)). lia. }
          apply Q. lia. }
        pose proof (bytes_mono plen (e - z) z Hpl ltac:(lia) ltac:(lia) ltac:(lia)) as M. replace (z + (e - z)) with e in M by lia. lia. }
      destruct (Gseg (cso s) m (bytes_before plen z) (seg_bytes bypass restart plen num_pass z) (is_raw_pass bypass z) G B0 B1 L) as (o & -> & G'). cbn [bind bindx ret]. apply Hb. exact G'.
    - destruct Hm as [Hm|Hm]; [discriminate Hm|]. subst m. cbn [bindx bind ret]. apply Hb. exact G.
  Qed.

  Lemma raw_kept z : 0 <= z -> starts bypass restart (z + 1) = true \/ is_raw_pass bypass z = is_raw_pass bypass (z + 1).
  Proof using. clear.
    intros Hz. unfold starts, is_raw_pass, kind. destruct bypass, restart; cbn [andb orb]; rewrite ?orb_true_r; try (left; reflexivity); try (right; reflexivity).
    replace (z + 1 =? 0) with false by lia. cbn [orb]. destruct (Z.leb_spec 10 (z + 1)) as [L|L]; cbn [andb].
    - destruct (Z.eqb_spec ((z + 1 + 2) mod 3) 1) as [K|K]; [|left; reflexivity]. right. replace (10 <=? z) with true by lia. replace ((z + 2) mod 3 =? 2) with false by lia. replace ((z + 1 + 2) mod 3 =? 2) with false by lia. reflexivity.
    - right. replace (10 <=? z) with false by lia. reflexivity.
  Qed.
  Lemma all_tot o m : good m o -> exists r, all_passes src dec raw w h orient causal seg reset bypass reset_cx restart segmark plen length num_pass planes o = Ret r.
  Proof using Ho Gdec Graw Gseg Greset Hpl Hpn. clear - Ho Gdec Graw Gseg Greset Hpl Hpn.
    intros G. unfold all_passes.
    set (f := a_pass src dec raw w h orient causal seg reset bypass reset_cx restart segmark plen length num_pass planes).
    destruct (Z_lt_dec num_pass 0) as [L|L]; [rewrite zseq_0 by lia; eexists; reflexivity|].
    assert (K : forall n, 0 <= n -> n <= num_pass -> foldx f (nothing src o) (zseq n) = throw \/
      exists s m, foldx f (nothing src o) (zseq n) = ret s /\ good m (cso s) /\ (starts bypass restart n = true \/ m = Some (is_raw_pass bypass n))).
    { apply (natlike_ind (fun n => n <= num_pass -> foldx f (nothing src o) (zseq n) = throw \/
        exists s m, foldx f (nothing src o) (zseq n) = ret s /\ good m (cso s) /\ (starts bypass restart n = true \/ m = Some (is_raw_pass bypass n)))).
      - intros _. right. exists (nothing src o), m. split; [reflexivity|]. split; [exact G|left; reflexivity].
      - intros n Hn IH Hl. unfold Z.succ in *. rewrite zseq_snoc, foldx_app by exact Hn. destruct (IH ltac:(lia)) as [E|(s & m' & E & G' & Hm)]; [left; rewrite E; reflexivity|]. rewrite E. cbn [bindx bind ret].
        destruct (a_pass_tot s n m' ltac:(lia) G' Hm) as [E'|(s' & E' & G2)]; fold f in E'; cbn [foldx]; rewrite E'; [left; reflexivity|]. right. exists s', (Some (is_raw_pass bypass n)). split; [reflexivity|]. split; [exact G2|].
        destruct (raw_kept n Hn) as [Q|Q]; [left; exact Q|right; rewrite Q; reflexivity]. }
    destruct (K num_pass ltac:(lia) ltac:(lia)) as [E|(s & m' & E & _)]; rewrite E; eexists; reflexivity.
  Qed.
End Total.

(** ** The MQ decoder *)
Definition bits_ok (m : mq) : Prop := Forall bit (sk m).
Lemma fill_sk buf m m' : fill_LSBs buf m = Ret m' -> sk m' = sk m.
Proof.
  unfold fill_LSBs. intros E.
  destruct (if L m =? Lmax m then Ret true else if T m =? 255 then let* b := seg_byte buf m in Ret (143 <? b) else Ret false) as [e| |]; try discriminate E. cbn [bind] in E.
  destruct e; [injection E as <-; reflexivity|]. destruct (seg_byte buf m); try discriminate E. cbn [bind] in E. injection E as <-. reflexivity.
Qed.
Lemma renorm_loop_sk buf fuel : forall m n m', renorm_loop fuel buf m n = Ret m' -> sk m' = sk m.
Proof.
  induction fuel as [|fuel IH]; intros m n m' E; [discriminate E|]. cbn [renorm_loop] in E. destruct (fill_LSBs buf m) as [m1| |] eqn:F; try discriminate E. cbn [bind] in E.
  rewrite <- (fill_sk _ _ _ F). cbv zeta in E. match type of E with (if ?c then _ else _) = _ => destruct c end; [apply IH in E; exact E|injection E as <-; reflexivity].
Qed.
Lemma renorm_sk buf m m' : renormalize buf m = Ret m' -> sk m' = sk m.
Proof.
  unfold renormalize. intros E. destruct (if t m =? 0 then fill_LSBs buf m else Ret m) as [m1| |] eqn:F; try discriminate E. cbn [bind] in E.
  assert (K : sk m1 = sk m). { destruct (t m =? 0); [apply (fill_sk _ _ _ F)|injection F as <-; reflexivity]. } rewrite <- K.
  cbv zeta in E. match type of E with (if ?c then _ else _) = _ => destruct c end; [injection E as <-; reflexivity|]. apply renorm_loop_sk in E. exact E.
Qed.
Lemma mq_dec_bit buf m l x m' : bits_ok m -> decode buf m l = Ret (x, m') -> (x = 0 \/ x = 1) /\ bits_ok m'.
Proof.
  unfold bits_ok, decode. intros H E. destruct (rd (Sigma m) l) as [Sk| |]; try discriminate E. cbn [bind] in E. destruct (rd static_table Sk) as [v| |] eqn:Ev; try discriminate E. cbn [bind] in E.
  destruct (rd (sk m) l) as [s| |] eqn:Es; try discriminate E. cbn [bind] in E.
  assert (Hs : bit s). { unfold rd in Es. destruct ((0 <=? l) && (l <? zlen (sk m))) eqn:C; [|discriminate Es]. injection Es as <-. apply (proj1 (Forall_forall _ _) H). apply znth_In. lia. }
  assert (HX : bit (Z.shiftr v 31)).
  { assert (F : forallb (fun v => (Z.shiftr v 31 =? 0) || (Z.shiftr v 31 =? 1)) static_table = true) by (vm_compute; reflexivity). rewrite forallb_forall in F.
    unfold rd in Ev. destruct ((0 <=? Sk) && (Sk <? zlen static_table)) eqn:C; [|discriminate Ev]. injection Ev as <-. pose proof (F _ (znth_In 0 static_table Sk ltac:(lia))) as Q. unfold bit. lia. }
  assert (B1 : forall b : bool, bit (Z.lxor s (if b then 1 else 0))) by (intros []; apply lxor_bit; unfold bit in *; auto).
  assert (B2 : forall b : bool, bit (Z.lxor s (Z.land (Z.shiftr v 31) (- (if b then 1 else 0))))) by (intros b; apply lxor_bit; [exact Hs|]; destruct HX as [->| ->], b; cbn; unfold bit; auto).
  assert (K : forall y s' sg m1, bit y -> bit s' -> sk m1 = sk m ->
    (let* (x, s, Sigma_k, m) := Ret (y, s', sg, m1) in Ret (x mod 256, Mq (A m) (t m) (C m) (T m) (L m) (L_start m) (Lmax m) (wr (Sigma m) l Sigma_k) (wr (sk m) l s) (ovf m))) = Ret (x, m') -> (x = 0 \/ x = 1) /\ Forall bit (sk m')).
  { intros y s' sg m1 Hy Hs' Hk E'. cbn [bind] in E'. injection E' as <- <-. split; [destruct Hy as [->| ->]; cbn; auto|]. cbn [sk]. apply wr_Forall; [rewrite Hk; exact H|exact Hs']. }
  match type of E with context [if ?c then _ else _] => destruct c end.
  - match type of E with context [if ?c then _ else _] => destruct c end.
    + destruct (renormalize buf _) as [m1| |] eqn:Er; try discriminate E. apply renorm_sk in Er. cbn [bind] in E. eapply K; [| | |exact E]; [apply B1|apply B2|exact Er].
    + eapply K; [| | |exact E]; [exact Hs|exact Hs|reflexivity].
  - destruct (renormalize buf _) as [m1| |] eqn:Er; try discriminate E. apply renorm_sk in Er. cbn [bind] in E. eapply K; [| | |exact E]; [apply B1|apply B2|exact Er].
Qed.
Lemma mq_raw_bit buf m x m' : bits_ok m -> get_raw_symbol buf m = Ret (x, m') -> (x = 0 \/ x = 1) /\ bits_ok m'.
Proof.
  unfold bits_ok, get_raw_symbol. intros H E.
  match type of E with bind ?o _ = _ => assert (K : forall m1, o = Ret m1 -> sk m1 = sk m) end.
  { intros m1 E1. destruct (t m =? 0); [|injection E1 as <-; reflexivity]. destruct (L m =? Lmax m); [injection E1 as <-; reflexivity|]. destruct (seg_byte buf m); try discriminate E1. cbn [bind] in E1. injection E1 as <-. reflexivity. }
  match type of E with bind ?o _ = _ => destruct o as [m1| |] end; try discriminate E. cbn [bind] in E. injection E as <- <-. cbn [sk]. rewrite (K m1 eq_refl). split; [|exact H].
  cbn [T t]. rewrite land_1. lia.
Qed.
Lemma mq_seg_ok buf m pos n r m' : bits_ok m -> init buf m pos n r = Ret m' -> bits_ok m'.
Proof.
  unfold bits_ok, init. intros H E. destruct r; [injection E as <-; exact H|].
  match type of E with bind ?o _ = _ => destruct o as [m1| |] eqn:E1 end; try discriminate E. cbn [bind] in E. apply fill_sk in E1.
  match type of E with bind ?o _ = _ => destruct o as [m2| |] eqn:E2 end; try discriminate E. cbn [bind] in E. apply fill_sk in E2. injection E as <-. cbn [sk set_C]. rewrite E2. cbn [sk set_C]. rewrite E1. exact H.
Qed.
Lemma mq_reset_ok m : bits_ok m -> bits_ok (init_states_for_all_contexts m).
Proof. intros _. unfold bits_ok. cbn [sk init_states_for_all_contexts]. repeat constructor. Qed.
