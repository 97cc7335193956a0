(** Lemmas about batches. *)
From Verif Require Import Base BatchModel BatchSpec.
From Coq Require Import Permutation.

Section P.
  Variable lane : Type.
  Variable setup : blk -> su.
  Variable start : blk -> lane.
  Variable program : bool -> Z -> Z -> Z -> list (lane -> option lane).
  Variable finish : blk -> su -> lane -> Z -> option bool.
  Variable ebcot : blk -> bool.
  Notation dec := (htj2k_decode lane setup start program finish).
  Notation bat := (batch lane setup start program finish).

  Lemma each_map f ls : forall ls', each lane f ls = Some ls' -> map Some ls' = map f ls.
  Proof.
    induction ls as [|l ls IH]; cbn; intros ls' E.
    - injection E as <-. reflexivity.
    - destruct (f l) eqn:F; [|discriminate]. destruct (each lane f ls) as [r|]; [|discriminate]. injection E as <-. cbn. now rewrite (IH r eq_refl).
  Qed.
  Lemma lock_map p : forall ls ls', lock lane p ls = Some ls' -> map Some ls' = map (run1 lane p) ls.
  Proof.
    induction p as [|f p IH]; cbn; intros ls ls' E.
    - injection E as <-. reflexivity.
    - destruct (each lane f ls) as [m|] eqn:F; [|discriminate]. rewrite (IH _ _ E). apply each_map in F. clear E IH.
      revert ls F. induction m as [|a m IHm]; intros [|l ls] F; try discriminate F; [reflexivity|]. cbn in *. injection F as F1 F2. rewrite <- F1. now rewrite (IHm _ F2).
  Qed.

  Lemma combine_setup (g : list blk) : combine g (map setup g) = map (fun b => (b, setup b)) g.
  Proof. induction g as [|b g IH]; [reflexivity|]. cbn. now rewrite IH. Qed.

  Lemma finish_lanes (F : blk -> su -> lane -> option bool) (p : list (lane -> option lane)) g : forall ls,
    map Some ls = map (run1 lane p) (map start g) ->
    map (fun x => (fst (fst x), F (fst (fst x)) (snd (fst x)) (snd x))) (combine (map (fun b => (b, setup b)) g) ls) =
    map (fun b => (b, match run1 lane p (start b) with Some l => F b (setup b) l | None => None end)) g.
  Proof.
    induction g as [|b g IH]; intros [|l ls] E; try discriminate E; [reflexivity|]. cbn in *. injection E as E1 E2. rewrite <- E1, (IH _ E2). reflexivity.
  Qed.

  Lemma in_turn_ok g : let d := in_turn (map (fun b => (b, dec b)) g) in
    stored (fst d) = fst (one_by_one dec g) /\ snd d = snd (one_by_one dec g) /\ prepared (fst d) = [] /\ ~ In Left (fst d) /\ ~ In Failed (fst d).
  Proof.
    cbv zeta. induction g as [|b g IH]; [cbn; tauto|]. cbn [map in_turn one_by_one]. destruct (dec b) as [r|]; [|cbn; tauto].
    destruct (in_turn _) as [e t]. cbn [fst snd] in *. destruct IH as (A & B & C & D & E). cbn [stored flat_map app prepared].
    fold (stored e). fold (prepared e). rewrite A. repeat split; auto; intros [F|F]; try discriminate F; tauto.
  Qed.

  Lemma one_app g r : one_by_one dec (g ++ r) =
    if snd (one_by_one dec g) then one_by_one dec g else (fst (one_by_one dec g) ++ fst (one_by_one dec r), snd (one_by_one dec r)).
  Proof.
    induction g as [|b g IH]; cbn; [now destruct (one_by_one dec r)|]. destruct (dec b) as [x|]; [|reflexivity]. cbn. rewrite IH.
    destruct (snd (one_by_one dec g)) eqn:S; cbn; now rewrite ?S.
  Qed.

  Lemma stored_app a b : stored (a ++ b) = stored a ++ stored b. Proof. apply flat_map_app. Qed.
  Lemma prepared_app a b : prepared (a ++ b) = prepared a ++ prepared b. Proof. apply flat_map_app. Qed.
  Lemma stored_prep g : stored (map Prepared g) = []. Proof. induction g; [reflexivity|assumption]. Qed.
  Lemma prepared_prep g : prepared (map Prepared g) = g. Proof. induction g as [|b g IH]; [reflexivity|]. cbn. f_equal. exact IH. Qed.
  Lemma prep_quiet g : ~ In Left (map Prepared g) /\ ~ In Failed (map Prepared g).
  Proof. split; intros H; apply in_map_iff in H; destruct H as (? & H & _); discriminate H. Qed.

  Definition fine (bs : list blk) (e : list ev) (t : bool) : Prop :=
    stored e = fst (one_by_one dec bs) /\ t = snd (one_by_one dec bs) /\
    (exists rest, bs = prepared e ++ rest /\ (t = false -> rest = [])) /\ ~ In Left e /\ ~ In Failed e.

  Lemma batch_fine BN : (1 <= BN)%nat -> forall fuel bs, (length bs <= fuel)%nat -> exists e t, bat fuel BN bs = Ret (e, t) /\ fine bs e t.
  Proof.
    intros HB. induction fuel as [|fuel IH]; intros [|b0 rest] Hf; try (cbn in Hf; lia).
    - exists [], false. split; [reflexivity|]. repeat split; auto. now exists [].
    - exists [], false. split; [reflexivity|]. repeat split; auto. now exists [].
    - cbn [batch]. set (bs := b0 :: rest) in *. set (g := firstn BN bs).
      set (key := (BN <=? length bs)%nat && forallb (fun b => same_size b b0) g). destruct key eqn:K; cbn [negb].
      2:{ destruct (dec b0) as [r|] eqn:D.
          - destruct (IH rest ltac:(cbn in Hf; lia)) as (e & t & -> & S & T & (q & Q & Qf) & L & F). cbn [bind]. do 2 eexists. split; [reflexivity|].
            unfold fine, bs. cbn [one_by_one]. rewrite D. cbn [fst snd stored flat_map app prepared]. fold (stored e). fold (prepared e).
            rewrite S. repeat split; auto. { exists q. split; [now rewrite Q at 1|exact Qf]. } all: intros [X|[X|X]]; try discriminate X; tauto.
          - do 2 eexists. split; [reflexivity|]. unfold fine, bs. cbn [one_by_one]. rewrite D. cbn. repeat split; auto.
            { exists rest. split; [reflexivity|discriminate]. } all: intros [X|[]]; discriminate X. }
      unfold key in K. apply andb_prop in K. destruct K as [KL KS]. apply Nat.leb_le in KL. rewrite forallb_forall in KS.
      set (d := if negb _ then _ else _).
      assert (Ed : d = map (fun b => (b, dec b)) g).
      { unfold d. rewrite combine_setup. destruct (forallb _ (map setup g) && forallb _ (map setup g)) eqn:G; cbn [negb].
        2:{ rewrite map_map. apply map_ext. intros b. reflexivity. }
        apply andb_prop in G. destruct G as [G1 G2]. rewrite forallb_forall in G1, G2.
        set (p := program _ _ _ _).
        assert (One : forall b, In b g -> dec b = match run1 lane p (start b) with Some l => finish b (setup b) l (sstr b0) | None => None end).
        { intros b Hb. specialize (KS b Hb). unfold same_size in KS. assert (W : k_w b = k_w b0 /\ k_h b = k_h b0) by lia. destruct W as [W H].
          specialize (G1 (setup b) (in_map setup _ _ Hb)). specialize (G2 (setup b) (in_map setup _ _ Hb)). cbv beta in G1, G2.
          apply andb_prop in G1. destruct G1 as [O N]. apply negb_true_iff in N. apply Bool.eqb_prop in G2.
          unfold htj2k_decode, decode_su. rewrite O, N. cbn [negb]. rewrite G2. assert (S : sstr b = sstr b0) by (unfold sstr; now rewrite W). rewrite W, H, S. reflexivity. }
        destruct (lock lane p (map start g)) as [ls|] eqn:L.
        - apply lock_map in L. rewrite (finish_lanes (fun b u l => finish b u l (sstr b0)) p g ls L). apply map_ext_in. intros b Hb. now rewrite (One b Hb).
        - rewrite map_map. apply map_ext_in. intros b Hb. cbn [fst snd]. now rewrite (One b Hb). }
      rewrite Ed. clearbody d. clear d Ed. pose proof (in_turn_ok g) as T. cbv zeta in T. destruct (in_turn _) as [e t]. cbn [fst snd] in T. destruct T as (S & T & P & L & F).
      assert (Split : bs = g ++ skipn BN bs) by (unfold g; symmetry; apply firstn_skipn). destruct (prep_quiet g) as [PL PF].
      assert (Ones := one_app g (skipn BN bs)). rewrite <- Split, <- T in Ones.
      destruct t.
      + do 2 eexists. split; [reflexivity|]. unfold fine. rewrite Ones, stored_app, stored_prep, prepared_app, prepared_prep, P, app_nil_r. cbn [app].
        repeat split; auto. { exists (skipn BN bs). split; [exact Split|discriminate]. } all: rewrite in_app_iff; tauto.
      + destruct (IH (skipn BN bs)) as (e' & t' & -> & S' & T' & (q & Q & Qf) & L' & F').
        { rewrite skipn_length. clear - Hf HB; lia. }
        cbn [bind]. do 2 eexists. split; [reflexivity|]. unfold fine. rewrite Ones, !stored_app, stored_prep, !prepared_app, prepared_prep, P. cbn [app fst snd].
        rewrite S, S'. repeat split; auto. { exists q. split; [rewrite <- app_assoc, <- Q; exact Split|exact Qf]. } all: rewrite !in_app_iff; tauto.
  Qed.

  (** ** Batches as a whole *)
  Lemma refused_stored e : existsb refused e = existsb (fun x => negb (snd x)) (stored e).
  Proof. induction e as [|[| | |] e IH]; cbn; try exact IH; [reflexivity|]. now rewrite IH. Qed.

  Lemma one_bad bs : snd (one_by_one dec bs) || existsb (fun x => negb (snd x)) (fst (one_by_one dec bs)) = true <-> exists b, In b bs /\ dec b <> Some true.
  Proof.
    induction bs as [|b bs IH]; cbn; [split; [discriminate|intros (? & [] & _)]|]. destruct (dec b) as [[]|] eqn:D; cbn.
    - rewrite IH. split; [intros (x & H1 & H2); eauto|intros (x & [<-|H1] & H2); [congruence|eauto]].
    - rewrite orb_true_r. split; [intros _; exists b; split; [auto|congruence]|reflexivity].
    - split; [intros _; exists b; split; [auto|congruence]|reflexivity].
  Qed.
  Lemma one_good bs : snd (one_by_one dec bs) || existsb (fun x => negb (snd x)) (fst (one_by_one dec bs)) = false -> fst (one_by_one dec bs) = map (fun b => (b, true)) bs.
  Proof. induction bs as [|b bs IH]; cbn; [reflexivity|]. destruct (dec b) as [[]|]; cbn; intros H; [now rewrite (IH H)|rewrite orb_true_r in H; discriminate|discriminate]. Qed.

  Lemma batch_whole BN bs fuel : (1 <= BN)%nat -> (length bs <= fuel)%nat -> exists e t, bat fuel BN bs = Ret (e, t) /\ ~ In Left e /\ ~ In Failed e /\
    (t || existsb refused e = true <-> exists b, In b bs /\ dec b <> Some true) /\
    (t || existsb refused e = false -> stored e = map (fun b => (b, true)) bs /\ prepared e = bs).
  Proof.
    intros HB Hf. destruct (batch_fine BN HB fuel bs Hf) as (e & t & E & S & T & (q & Q & Qf) & L & F). exists e, t. rewrite refused_stored, S.
    split; [exact E|]. split; [exact L|]. split; [exact F|]. split; [rewrite T; apply one_bad|]. intros H. split; [apply one_good; now rewrite <- T|].
    apply orb_false_iff in H. destruct H as [Ht _]. specialize (Qf Ht). subst q. now rewrite app_nil_r in Q.
  Qed.

  (** ** Groups *)
  Lemma pack idx cnt : 0 <= idx -> 0 <= cnt < 256 -> Z.shiftr (Z.lor (Z.shiftl idx 8) cnt) 8 = idx /\ Z.land (Z.lor (Z.shiftl idx 8) cnt) 255 = cnt.
  Proof.
    intros Hi Hc. split.
    - rewrite Z.shiftr_lor, Z.shiftr_shiftl_l by lia. rewrite Z.shiftl_0_r. rewrite (Z.shiftr_div_pow2 cnt) by lia. change (2 ^ 8) with 256. rewrite (Z.div_small cnt) by lia. apply Z.lor_0_r.
    - rewrite Z.land_lor_distr_l. change 255 with (Z.ones 8). rewrite !Z.land_ones by lia. rewrite Z.shiftl_mul_pow2, Z.mod_mul by lia. rewrite Z.mod_small by lia. reflexivity.
  Qed.

  Lemma extend_ok b0 : forall room rest, (extend room b0 rest <= room)%nat /\ (extend room b0 rest <= length rest)%nat /\ Forall (fun b => k_ht b = true) (firstn (extend room b0 rest) rest).
  Proof.
    induction room as [|room IH]; intros [|nb rest]; cbn; try (repeat split; try lia; constructor). destruct (k_ht nb && same_size nb b0) eqn:E; cbn; [|repeat split; try lia; constructor].
    destruct (IH rest) as (A & B & C). repeat split; try lia. constructor; [now apply andb_prop in E|exact C].
  Qed.
  Lemma further_ok lanes b0 : (further lanes b0 <= 7)%nat /\ (k_ht b0 = false -> further lanes b0 = O).
  Proof. unfold further. destruct (k_ht b0); cbn [andb]; [|split; [lia|reflexivity]]. split; [|discriminate]. destruct (1 <? lanes); [|lia]. destruct (lanes <? 8) eqn:E; lia. Qed.

  Definition alone (b : blk) : option bool := if k_ht b then dec b else if ebcot b then Some true else None.
  Definition closed (l : list ev) : Prop := exists body, l = body ++ [Left] /\ ~ In Left body.

  Definition group_good (g : list blk) (e : list ev) : Prop :=
    closed e /\ (In Failed e <-> exists b, In b g /\ alone b <> Some true) /\
    (~ In Failed e -> stored e = map (fun b => (b, true)) g /\ prepared e = filter k_ht g).

  Lemma all_ht g : Forall (fun b => k_ht b = true) g -> filter k_ht g = g.
  Proof. induction 1 as [|b g H _ IH]; [reflexivity|]. cbn. now rewrite H, IH. Qed.
  Lemma all_ht_alone g : Forall (fun b => k_ht b = true) g -> ((exists b, In b g /\ dec b <> Some true) <-> exists b, In b g /\ alone b <> Some true).
  Proof. intros H. rewrite Forall_forall in H. split; intros (b & B & N); exists b; (split; [exact B|]); unfold alone in *; now rewrite (H b B) in *. Qed.

  Lemma run_group_good BN pre g post : (1 <= BN)%nat -> g <> [] -> (length g <= 8)%nat ->
    (Forall (fun b => k_ht b = true) g \/ exists b, g = [b] /\ k_ht b = false) ->
    exists e, run_group lane setup start program finish ebcot BN (pre ++ g ++ post) (Z.lor (Z.shiftl (zlen pre) 8) (zlen g)) = Ret e /\ group_good g e.
  Proof.
    intros HB Ne H8 K. unfold run_group. destruct (pack (zlen pre) (zlen g)) as [-> ->]; [unfold zlen; lia|unfold zlen; lia|].
    replace ((8 <? zlen g) || (zlen (pre ++ g ++ post) <? zlen pre + zlen g)) with false by (unfold zlen; rewrite !app_length; lia).
    unfold zlen at 1 2. rewrite !Nat2Z.id. rewrite skipn_app, Nat.sub_diag, skipn_all2 by lia. cbn [app skipn].
    rewrite firstn_app, Nat.sub_diag, firstn_all. cbn [firstn]. rewrite app_nil_r. destruct g as [|b0 g']; [congruence|]. cbv iota. set (g := b0 :: g') in *.
    destruct K as [K|(b & E & Hb)].
    - assert (H0 : k_ht b0 = true) by (apply (Forall_inv K)). rewrite H0.
      destruct (batch_whole BN g (length g) HB ltac:(lia)) as (e & t & -> & L & F & Bad & Good). cbn [bind]. eexists. split; [reflexivity|].
      unfold group_good. rewrite <- (all_ht_alone g K), <- Bad, (all_ht g K). destruct (t || existsb refused e); repeat split.
      + exists (e ++ [Failed]). split; [now rewrite <- app_assoc|]. rewrite in_app_iff. intros [X|[X|[]]]; [tauto|discriminate X].
      + rewrite in_app_iff. cbn. tauto.
      + rewrite in_app_iff in H. cbn in H. tauto.
      + rewrite in_app_iff in H. cbn in H. tauto.
      + now exists e.
      + rewrite in_app_iff. cbn. intros [X|[X|[]]]; [tauto|discriminate X].
      + discriminate.
      + destruct (Good eq_refl) as [S P]. rewrite !stored_app, S. cbn. now rewrite app_nil_r.
      + destruct (Good eq_refl) as [S P]. rewrite !prepared_app, P. cbn. now rewrite app_nil_r.
    - injection E as -> Eg. subst g. subst g'. rewrite Hb. eexists. split; [reflexivity|]. unfold group_good, alone. cbn [filter]. rewrite Hb. destruct (ebcot b) eqn:Eb; repeat split.
      + exists [Stored b true]. split; [reflexivity|]. intros [X|[]]; discriminate X.
      + intros [X|[X|[]]]; discriminate X.
      + intros (x & [<-|[]] & N). rewrite Hb, Eb in N. congruence.
      + exists [Failed]. split; [reflexivity|]. intros [X|[]]; discriminate X.
      + intros _. exists b. split; [now left|]. rewrite Hb, Eb. discriminate.
      + intros _. now left.
      + exfalso. apply H. now left.
  Qed.

  Lemma groups_good BN lanes : (1 <= BN)%nat -> forall fuel pre bs, (length bs <= fuel)%nat ->
    exists gs es parts, build_groups fuel lanes (zlen pre) bs = Ret gs /\
      run_groups lane setup start program finish ebcot BN (pre ++ bs) gs = Ret es /\ concat parts = bs /\ Forall2 group_good parts es.
  Proof.
    intros HB. induction fuel as [|fuel IH]; intros pre [|b0 rest] Hf; try (cbn in Hf; lia).
    1, 2: exists [], [], []; repeat split; constructor.
    cbn [build_groups]. destruct (further_ok lanes b0) as [F7 F0]. destruct (extend_ok b0 (further lanes b0) rest) as (A & Bx & C).
    set (m := extend (further lanes b0) b0 rest) in *. set (g := b0 :: firstn m rest).
    assert (Lg : length g = S m) by (unfold g; cbn [length]; rewrite firstn_length; lia).
    assert (Zg : 1 + Z.of_nat m = zlen g) by (unfold zlen; lia).
    assert (Eb : b0 :: rest = g ++ skipn m rest) by (unfold g; cbn [app]; now rewrite firstn_skipn).
    destruct (IH (pre ++ g) (skipn m rest)) as (gs & es & parts & E1 & E2 & E3 & E4); [rewrite skipn_length; cbn in Hf; lia|].
    replace (zlen (pre ++ g)) with (zlen pre + zlen g) in E1 by (unfold zlen; rewrite app_length; lia). rewrite Zg, E1. cbn [bind].
    destruct (run_group_good BN pre g (skipn m rest) HB ltac:(discriminate) ltac:(lia)) as (e & E & G).
    { destruct (k_ht b0) eqn:H0; [left; constructor; assumption|right]. exists b0. split; [|exact H0]. unfold g. replace m with O by (rewrite (F0 eq_refl) in A; lia). reflexivity. }
    do 2 eexists. exists (g :: parts). split; [reflexivity|]. cbn [run_groups]. rewrite Eb. rewrite E. cbn [bind]. rewrite <- app_assoc in E2. rewrite E2. cbn [bind].
    split; [reflexivity|]. split; [cbn [concat]; now rewrite E3|]. constructor; assumption.
  Qed.
End P.

(** ** Interleavings *)
Lemma shuffle_perm ls q : shuffle ls q -> Permutation q (concat ls).
Proof.
  induction 1 as [ls H|a e l b q _ IH].
  - induction H as [|l ls -> _ IH]; [constructor|exact IH].
  - rewrite concat_app in *. cbn [concat app] in *. etransitivity; [apply perm_skip, IH|]. apply Permutation_middle.
Qed.

Definition rest_closed (l : list ev) : Prop := l = [] \/ closed l.
Lemma rest_tail e l : rest_closed (e :: l) -> rest_closed l.
Proof.
  intros [H|(body & H & N)]; [discriminate H|]. destruct body as [|x body]; cbn in H; injection H as -> ->; [now left|right]. exists body. split; [reflexivity|]. intros X. apply N. now right.
Qed.
Lemma shuffle_suffix p : forall ls q, shuffle ls (p ++ q) -> Forall rest_closed ls -> exists ls', shuffle ls' q /\ Forall rest_closed ls'.
Proof.
  induction p as [|e p IH]; intros ls q H C; [now exists ls|]. cbn in H. inversion H as [|a e' l b q' H' E1 E2]; subst. apply (IH _ _ H'). rewrite Forall_app in *. destruct C as [C1 C2]. split; [exact C1|].
  inversion C2 as [|x y R1 R2]; subst. constructor; [now apply rest_tail in R1|assumption].
Qed.
Lemma lefts_app a b : lefts (a ++ b) = (lefts a + lefts b)%nat.
Proof. unfold lefts. now rewrite filter_app, app_length. Qed.
Lemma lefts_none q : lefts q = O -> ~ In Left q.
Proof. unfold lefts. induction q as [|[| | |] q IH]; cbn; try (intros H [X|X]; [discriminate X|now apply IH]); [tauto|discriminate]. Qed.
Lemma none_lefts q : ~ In Left q -> lefts q = O.
Proof. unfold lefts. induction q as [|[| | |] q IH]; cbn; intros H; try (apply IH; tauto); [reflexivity|tauto]. Qed.
Lemma closed_lefts l : closed l -> lefts l = 1%nat.
Proof. intros (body & -> & N). rewrite lefts_app, (none_lefts _ N). reflexivity. Qed.
Lemma all_lefts ls : Forall closed ls -> lefts (concat ls) = length ls.
Proof. induction 1 as [|l ls H _ IH]; [reflexivity|]. cbn [concat length]. rewrite lefts_app, IH, (closed_lefts _ H). reflexivity. Qed.
Lemma perm_lefts a b : Permutation a b -> lefts a = lefts b.
Proof. unfold lefts. induction 1 as [|x a b _ IH|x y a|]; cbn; try congruence; [destruct x; cbn; congruence|destruct x, y; reflexivity]. Qed.
Lemma perm_flat {A B} (f : A -> list B) a b : Permutation a b -> Permutation (flat_map f a) (flat_map f b).
Proof. intros H. now rewrite H. Qed.

Lemma waited es evs p q : Forall closed es -> shuffle es evs -> evs = p ++ q -> lefts p = length es -> q = [].
Proof.
  intros C S -> L. pose proof (perm_lefts _ _ (shuffle_perm _ _ S)) as P. rewrite (all_lefts _ C), lefts_app in P. assert (Lq : lefts q = O) by lia.
  assert (R : Forall rest_closed es) by (eapply Forall_impl; [|exact C]; intros l H; now right).
  destruct (shuffle_suffix p es q S R) as (ls & S' & R'). pose proof (shuffle_perm _ _ S') as P'. pose proof (perm_lefts _ _ P') as P2. rewrite Lq in P2.
  assert (E : concat ls = []).
  { clear - R' P2. induction R' as [|l ls [->|H] _ IH]; [reflexivity|apply IH; exact P2|]. cbn [concat] in P2. rewrite lefts_app, (closed_lefts _ H) in P2. lia. }
  rewrite E in P'. apply Permutation_sym, Permutation_nil in P'. exact P'.
Qed.

(** ** Scratch *)
Lemma round8_ge v : v <= round8 v.
Proof. unfold round8. lia. Qed.

Lemma place_ok k : forall bs total, Forall (fun b => 0 < k_w b /\ 0 < k_h b) bs ->
  let offs := fst (place k total bs) in let t := snd (place k total bs) in
  length offs = length bs /\ total <= t /\
  (forall i, 0 <= i < zlen bs -> total <= znth 0 offs i /\ znth 0 offs i + row_len k (znth (Blk 0 0 0 false) bs i) * rows_of k (znth (Blk 0 0 0 false) bs i) <= t) /\
  (forall i j, 0 <= i < j -> j < zlen bs -> znth 0 offs i + row_len k (znth (Blk 0 0 0 false) bs i) * rows_of k (znth (Blk 0 0 0 false) bs i) <= znth 0 offs j).
Proof.
  cbv zeta. induction bs as [|b bs IH]; intros total H; cbn [place fst snd].
  - repeat split; try (unfold zlen in *; cbn in *; lia).
  - inversion H as [|? ? [Hw Hh] H']; subst. specialize (IH (total + row_len k b * rows_of k b) H'). destruct (place k _ bs) as [offs t]. cbn [fst snd] in *.
    destruct IH as (L & T & I & J). assert (Pos : 0 <= row_len k b * rows_of k b).
    { pose proof (round8_ge (k_w b)). pose proof (round8_ge (k_h b)). apply Z.mul_nonneg_nonneg; destruct k; cbn [row_len rows_of]; lia. }
    assert (Step : forall (A : Type) (d a : A) l i, 0 < i -> znth d (a :: l) i = znth d l (i - 1)).
    { intros A d a l i Hi. unfold znth. replace (Z.to_nat i) with (S (Z.to_nat (i - 1))) by lia. reflexivity. }
    assert (Lz : zlen (b :: bs) = 1 + zlen bs) by (unfold zlen; cbn [length]; lia).
    split; [cbn; lia|]. split; [lia|]. split.
    + intros i Hi. destruct (Z.eq_dec i 0) as [->|N]; [unfold znth; cbn [Z.to_nat nth]; lia|]. rewrite !Step by lia. specialize (I (i - 1) ltac:(lia)). lia.
    + intros i j Hij Hj. rewrite (Step _ _ _ _ j) by lia. destruct (Z.eq_dec i 0) as [->|N].
      * change (znth 0 (total :: offs) 0) with total. change (znth (Blk 0 0 0 false) (b :: bs) 0) with b. apply (proj1 (I (j - 1) ltac:(lia))).
      * rewrite !(Step _ _ _ _ i) by lia. apply J; lia.
Qed.

Lemma grow_ge k : forall strips cap, cap <= grow k cap strips.
Proof. induction strips as [|bs strips IH]; intros cap; cbn [grow]; [lia|]. specialize (IH (if cap <? snd (place k 0 bs) then snd (place k 0 bs) else cap)). destruct (cap <? _) eqn:E; lia. Qed.
Lemma grow_last k bs : forall strips cap, snd (place k 0 bs) <= grow k cap (strips ++ [bs]).
Proof.
  induction strips as [|x strips IH]; intros cap; cbn [app grow]; [destruct (cap <? _) eqn:E; lia|]. apply IH.
Qed.
