(** Tasks given to the pool run exactly once (C39). *)
From Coq Require Import Permutation.
From Verif Require Import Base BaseLemmas PoolModel.

Section Props.
Context {T : Type}.
Implicit Types (g : sh T) (t : thread T) (l : list (thread T)).

Definition opt {A} (o : option A) : list A := match o with Some x => [x] | None => [] end.
(** Tasks a thread has taken and not finished. *)
Definition infl_f (f : frame T) : list T := match f with Run x => [x] | _ => [] end.
Definition infl_b (b : base T) : list T := match b with WDrain r | WRun r => flat_map opt r | _ => [] end.
Definition in_flight t : list T := flat_map infl_f (snd t) ++ infl_b (fst t).

Definition holds_f (f : frame T) : Z := match f with PCheck _ | PPut _ _ _ | TTest => 1 | _ => 0 end.
Definition holds_b (b : base T) : Z := match b with DStop | WCheck | WBlock | WTest | WDrain _ => 1 | _ => 0 end.
Definition sumz {A} (f : A -> Z) (l : list A) : Z := fold_right Z.add 0 (map f l).
Definition holds t : Z := holds_b (fst t) + sumz holds_f (snd t).

Definition know_f (sp : bool) (f : frame T) : Prop :=
  match f with
  | PLock items | PCheck items => items <> []
  | PPut n done items => sp = false /\ n = done + zlen items /\ 0 <= done /\ 0 < n
  | _ => True
  end.
Definition know_b (sp : bool) (q : list T) (b : base T) : Prop :=
  match b with
  | WBlock => sp = false /\ q = []
  | WDrain r | WRun r => Forall (fun o => o <> None) r
  | WDone | DNotify | DJoin | DDone => sp = true
  | _ => True
  end.
Definition shape t : Prop := snd t = [] \/ match fst t with User | WRun _ => True | _ => False end.
Definition know (sp : bool) (q : list T) t : Prop := know_b sp q (fst t) /\ Forall (know_f sp) (snd t) /\ shape t.

(** Someone who will look at the queue or notify. *)
Definition obl_f (f : frame T) : bool := match f with PPut _ d _ => 0 <? d | PNotify k => 0 <? k | _ => false end.
Definition obl_b (b : base T) : bool :=
  match b with WLock | WCheck | WSleep true | WTest | WDrain _ | WRun _ => true | _ => false end.
Definition obliged t : bool := obl_b (fst t) || existsb obl_f (snd t).

Definition asleep t : bool := match fst t with WSleep false => true | _ => false end.
Definition joining t : bool := match fst t with DJoin | DDone => true | _ => false end.
Definition destroyed t : bool := match fst t with DDone => true | _ => false end.

(** The ring holds the queue [q]. *)
Record Rep g (q : list T) : Prop := {
  r_head : 0 <= head g < two64;
  r_tail : tail g = wrap64 (head g + zlen q);
  r_cap : zlen q <= RING_CAP;
  r_slot : forall i, 0 <= i < zlen q -> ring g ((head g + i) mod RING_CAP) = nth_error q (Z.to_nat i) }.

Record Core (w : Z) (lk sp : bool) (q ta fi : list T) (ct : bool) l : Prop := {
  c_lock : sumz holds l = if lk then 1 else 0;
  c_know : Forall (know sp q) l;
  c_exit : existsb exited l = true -> q = [];
  c_flight : Permutation ta (fi ++ flat_map in_flight l);
  c_workers : zlen (filter worker l) = w;
  c_wake : ct = false -> q <> [] -> 0 < w -> existsb obliged l = true;
  c_join : existsb joining l = true -> existsb asleep l = false;
  c_done : existsb destroyed l = true -> forallb (fun t => negb (worker t) || exited t) l = true }.
Definition Inv (w : Z) (s : st T) : Prop :=
  let '(g, l) := s in
  exists q, Rep g q /\ accepted g = taken g ++ q /\ crashed g = false /\ Core w (locked g) (stop g) q (taken g) (finished g) (cut g) l.

(** ** The ring *)
Lemma mask_mod v : Z.land v RING_MASK = v mod RING_CAP.
Proof. apply (land_ones_mod v 15). lia. Qed.
Lemma wrap_cap v : wrap64 v mod RING_CAP = v mod RING_CAP.
Proof. unfold wrap64, two64, RING_CAP. change (2 ^ 64) with (32768 * 562949953421312). rewrite Z.rem_mul_r by lia. rewrite (Z.mul_comm 32768 (_ mod _)), Z_mod_plus_full. apply Z.mod_mod. lia. Qed.
Lemma rep_size g q : Rep g q -> ring_size g = zlen q.
Proof.
  intros [H1 H2 H3 _]. unfold ring_size. rewrite H2. unfold wrap64. rewrite Zminus_mod_idemp_l. replace (head g + zlen q - head g) with (zlen q) by lia.
  apply Z.mod_small. pose proof (zlen_nonneg q). unfold RING_CAP, two64 in *. lia.
Qed.
Lemma rep_empty g q : Rep g q -> ring_empty g = match q with [] => true | _ => false end.
Proof.
  intros R. pose proof (rep_size g q R) as E. destruct R as [H1 H2 H3 _]. unfold ring_empty. unfold ring_size, wrap64 in E. pose proof (zlen_nonneg q) as N.
  destruct (head g =? tail g) eqn:Q.
  - replace (tail g - head g) with 0 in E by lia. rewrite Zmod_0_l in E. symmetry in E. apply zlen_0 in E. now subst.
  - destruct q; [|reflexivity]. change (zlen (@nil T)) with 0 in *. rewrite Z.add_0_r in H2. unfold wrap64 in H2. rewrite Z.mod_small in H2 by lia. lia.
Qed.
Lemma rep_put g q x : Rep g q -> ring_size g < RING_CAP -> Rep (put g x) (q ++ [x]).
Proof.
  intros R S. rewrite (rep_size g q R) in S. destruct R as [H1 H2 H3 H4]. pose proof (zlen_nonneg q) as N. constructor; cbn [put head tail ring].
  - exact H1.
  - rewrite H2, zlen_app, zlen_cons, zlen_nil. unfold wrap64. rewrite Zplus_mod_idemp_l. f_equal. lia.
  - rewrite zlen_app, zlen_cons, zlen_nil. lia.
  - intros i Hi. assert (zlen (q ++ [x]) = zlen q + 1) as Z1 by (rewrite zlen_app, zlen_cons, zlen_nil; lia). rewrite Z1 in Hi. rewrite mask_mod, H2, wrap_cap.
    destruct (Z.eqb_spec ((head g + i) mod RING_CAP) ((head g + zlen q) mod RING_CAP)) as [E|E].
    + assert (i = zlen q) as -> by (unfold RING_CAP in *; lia). rewrite nth_error_app2 by (unfold zlen; lia).
      replace (Z.to_nat (zlen q) - length q)%nat with 0%nat by (unfold zlen; lia). reflexivity.
    + assert (i <> zlen q) by congruence. rewrite nth_error_app1 by (unfold zlen in *; lia). apply H4. lia.
Qed.
Lemma rep_take g x q : Rep g (x :: q) -> front g = Some x /\ Rep (take g) q.
Proof.
  intros [H1 H2 H3 H4]. rewrite zlen_cons in *. pose proof (zlen_nonneg q) as N. split.
  - unfold front. rewrite mask_mod. specialize (H4 0). rewrite Z.add_0_r in H4. rewrite H4 by lia. reflexivity.
  - constructor; cbn [take head tail ring].
    + unfold wrap64, two64. apply Z.mod_pos_bound. lia.
    + rewrite H2. unfold wrap64. rewrite Zplus_mod_idemp_l. f_equal. lia.
    + lia.
    + intros i Hi. rewrite Zplus_mod, wrap_cap, <- Zplus_mod, mask_mod. destruct (Z.eqb_spec ((head g + 1 + i) mod RING_CAP) (head g mod RING_CAP)) as [E|E].
      * exfalso. unfold RING_CAP in *. lia.
      * rewrite <- Z.add_assoc, H4 by lia. replace (Z.to_nat (1 + i)) with (S (Z.to_nat i)) by lia. reflexivity.
Qed.

Lemma nth_error_map_nth {A} (q : list A) n : nth n (map Some q) None = nth_error q n.
Proof. revert n. induction q as [|x q IH]; intros [|n]; cbn; auto. Qed.

(** ** Lists of threads *)
Lemma sumz_app {A} (f : A -> Z) a b : sumz f (a ++ b) = sumz f a + sumz f b.
Proof. unfold sumz. induction a as [|x a IH]; cbn in *; [lia|]. rewrite IH. lia. Qed.
Lemma sumz_cons {A} (f : A -> Z) x b : sumz f (x :: b) = f x + sumz f b. Proof. reflexivity. Qed.
Lemma sumz_nonneg {A} (f : A -> Z) (l : list A) : (forall x, 0 <= f x) -> 0 <= sumz f l.
Proof. intros H. unfold sumz. induction l as [|x l IH]; cbn; [lia|]. pose proof (H x). lia. Qed.
Lemma holds_f_nonneg f : 0 <= holds_f f. Proof. destruct f; cbn; lia. Qed.
Lemma holds_b_nonneg b : 0 <= holds_b b. Proof. destruct b; cbn; lia. Qed.
Lemma holds_nonneg t : 0 <= holds t.
Proof. unfold holds. pose proof (holds_b_nonneg (fst t)). pose proof (sumz_nonneg holds_f (snd t) holds_f_nonneg). lia. Qed.
Lemma sumz_0 {A} (f : A -> Z) (l : list A) : (forall x, 0 <= f x) -> sumz f l = 0 -> Forall (fun x => f x = 0) l.
Proof.
  intros H. induction l as [|x l IH]; intros E; constructor.
  - rewrite sumz_cons in E. pose proof (H x). pose proof (sumz_nonneg f l H). lia.
  - apply IH. rewrite sumz_cons in E. pose proof (H x). pose proof (sumz_nonneg f l H). lia.
Qed.
(** A thread without the mutex is not invalidated by what its holder does, as
    long as stop is not reset. *)
Lemma know_free sp sp' q q' t : (sp = true -> sp' = true) -> holds t = 0 -> know sp q t -> know sp' q' t.
Proof.
  intros M H (K & F & S). unfold holds in H. pose proof (holds_b_nonneg (fst t)). pose proof (sumz_nonneg holds_f (snd t) holds_f_nonneg).
  split; [|split; [|exact S]].
  - assert (holds_b (fst t) = 0) as E by lia. destruct (fst t); cbn in *; auto; discriminate E.
  - assert (sumz holds_f (snd t) = 0) as E by lia. apply sumz_0 in E; [|exact holds_f_nonneg].
    rewrite Forall_forall in *. intros f I. specialize (F f I). specialize (E f I). destruct f; cbn in *; auto; discriminate E.
Qed.
Lemma know_free_all sp sp' q q' l : (sp = true -> sp' = true) -> sumz holds l = 0 -> Forall (know sp q) l -> Forall (know sp' q') l.
Proof.
  intros M H F. apply sumz_0 in H; [|exact holds_nonneg]. rewrite Forall_forall in *. intros t I. eapply know_free; eauto.
Qed.
Lemma inv0 w c : Inv (Z.of_nat w) (st0 w c).
Proof.
  cbn. exists []. split; [constructor; cbn; [unfold two64; lia|reflexivity|unfold RING_CAP, zlen; cbn; lia|unfold zlen; cbn; lia]|].
  split; [reflexivity|]. split; [reflexivity|].
  assert (forall f : thread T -> bool, f (WLock, []) = false -> f (User, []) = false -> existsb f (repeat (WLock, []) w ++ repeat (User, []) c) = false) as Ex.
  { intros f E1 E2. apply not_true_is_false. intros H. apply existsb_exists in H as (t & I & E). apply in_app_iff in I as [I|I]; apply repeat_spec in I; congruence. }
  constructor.
  - rewrite sumz_app. assert (forall n (t : thread T), holds t = 0 -> sumz holds (repeat t n) = 0) as K.
    { intros n t E. induction n; [reflexivity|]. cbn [repeat]. rewrite sumz_cons. lia. }
    rewrite !K; reflexivity.
  - apply Forall_forall. intros t I. apply in_app_iff in I as [I|I]; apply repeat_spec in I; subst t; repeat split; constructor; reflexivity.
  - intros E. rewrite Ex in E; [discriminate E|reflexivity..].
  - rewrite flat_map_app. assert (forall n (t : thread T), in_flight t = [] -> flat_map in_flight (repeat t n) = []) as K.
    { intros n t E. induction n; [reflexivity|]. cbn [repeat flat_map]. now rewrite E, IHn. }
    rewrite !K by reflexivity. constructor.
  - rewrite filter_app, zlen_app. clear Ex.
    assert (forall n (t : thread T), zlen (filter worker (repeat t n)) = if worker t then Z.of_nat n else 0) as K.
    { intros n t. induction n; [now destruct (worker t)|]. cbn [repeat filter]. destruct (worker t); rewrite ?zlen_cons, IHn; lia. }
    rewrite !K. cbn. lia.
  - congruence.
  - intros E. rewrite Ex in E; [discriminate E|reflexivity..].
  - intros E. rewrite Ex in E; [discriminate E|reflexivity..].
Qed.

Lemma core_local w (lk sp : bool) (q ta fi : list T) (ct : bool) (a : list (thread T)) t (b : list (thread T)) (lk' sp' : bool) (q' ta' fi' : list T) (ct' : bool) t' :
  Core w lk sp q ta fi ct (a ++ t :: b) ->
  holds t' - holds t = (if lk' then 1 else 0) - (if lk then 1 else 0) ->
  know sp' q' t' ->
  (sp' = sp /\ q' = q) \/ ((sp = true -> sp' = true) /\ holds t = 1) ->
  (q = [] -> q' = [] \/ sp = false) -> (exited t' = true -> exited t = true \/ q' = []) ->
  (forall rest : list T, Permutation ta (fi ++ in_flight t ++ rest) -> Permutation ta' (fi' ++ in_flight t' ++ rest)) ->
  worker t' = worker t ->
  (ct' = false -> q' <> [] -> 0 < w -> obliged t' = true \/ (ct = false /\ q <> [] /\ (obliged t = true -> obliged t' = true))) ->
  (joining t' = true -> joining t = true \/ existsb asleep (a ++ t' :: b) = false) -> (asleep t' = true -> asleep t = true \/ sp = false) ->
  (destroyed t' = true -> destroyed t = true \/ (worker t' = false /\ forall u, In u (a ++ b) -> worker u = true -> exited u = true)) -> (exited t = true -> exited t' = true) ->
  Core w lk' sp' q' ta' fi' ct' (a ++ t' :: b).
Proof.
  intros [C1 C2 C3 C4 C5 C6 C7 C8] Hh Hk Ho He1 He2 Hf Hw Hwk Hj Ha Hd Hx.
  rewrite sumz_app, sumz_cons in C1. rewrite Forall_app, Forall_cons_iff in C2. rewrite existsb_app in C3, C6, C7, C8. cbn [existsb] in C3, C6, C7, C8.
  rewrite filter_app in C5. cbn [filter] in C5. rewrite flat_map_app in C4. cbn [flat_map] in C4.
  pose proof (sumz_nonneg holds a holds_nonneg) as Na. pose proof (sumz_nonneg holds b holds_nonneg) as Nb. pose proof (holds_nonneg t) as Nt.
  destruct C2 as (Ka & Kt & Kb).
  assert (forall l, Forall (know sp q) l -> existsb exited l = true \/ existsb joining l = true -> sp = true) as Kx.
  { intros l F [E|E]; apply existsb_exists in E as (u & I & E); rewrite Forall_forall in F; specialize (F u I); destruct F as (F & _); unfold exited, joining in E; destruct (fst u); try discriminate E; exact F. }
  constructor.
  - rewrite sumz_app, sumz_cons. destruct lk, lk'; lia.
  - rewrite Forall_app, Forall_cons_iff. destruct Ho as [(-> & ->)|(M & H1)]; [conj|].
    assert (sumz holds a = 0 /\ sumz holds b = 0) as [Za Zb] by (destruct lk; lia).
    split; [|split; [exact Hk|]]; eapply know_free_all; eauto.
  - rewrite existsb_app. cbn [existsb]. intros E.
    destruct (exited t') eqn:Et.
    + destruct (He2 eq_refl) as [E'|E']; [|exact E']. rewrite E', orb_true_r in C3. destruct (He1 (C3 eq_refl)) as [|S]; [assumption|].
      assert (sp = true); [|congruence]. apply (Kx [t]); [now constructor|]. cbn. rewrite E'. auto.
    + destruct (existsb exited a) eqn:Ea; [|destruct (existsb exited b) eqn:Eb; [|discriminate E]].
      * destruct (He1 (C3 eq_refl)) as [|S]; [assumption|]. rewrite (Kx a Ka) in S by auto. discriminate S.
      * rewrite !orb_true_r in C3. destruct (He1 (C3 eq_refl)) as [|S]; [assumption|]. rewrite (Kx b Kb) in S by auto. discriminate S.
  - rewrite flat_map_app. cbn [flat_map].
    etransitivity; [apply (Hf (flat_map in_flight a ++ flat_map in_flight b))|].
    + etransitivity; [exact C4|]. apply Permutation_app_head. rewrite !app_assoc. apply Permutation_app_tail. apply Permutation_app_comm.
    + apply Permutation_app_head. rewrite !app_assoc. apply Permutation_app_tail. apply Permutation_app_comm.
  - rewrite filter_app. cbn [filter]. rewrite Hw. rewrite zlen_app in *. destruct (worker t); rewrite ?zlen_cons in *; exact C5.
  - intros E1 E2 E3. rewrite existsb_app. cbn [existsb]. destruct (Hwk E1 E2 E3) as [->|(F1 & F2 & F3)]; [now rewrite orb_true_r|].
    specialize (C6 F1 F2 E3). destruct (obliged t); [rewrite F3 by reflexivity; now rewrite orb_true_r|].
    destruct (obliged t'); [now rewrite orb_true_r|exact C6].
  - intros E0. destruct (existsb asleep (a ++ t' :: b)) eqn:Sl; [|reflexivity]. exfalso. rewrite existsb_app in E0, Sl. cbn [existsb] in E0, Sl.
    assert (existsb joining a || (joining t || existsb joining b) = true) as E.
    { destruct (existsb joining a), (joining t), (existsb joining b), (joining t'); auto. destruct (Hj eq_refl); congruence. }
    specialize (C7 E). rewrite existsb_app in C7. cbn [existsb] in C7.
    apply orb_false_elim in C7 as [A1 A2]. apply orb_false_elim in A2 as [A2 A3]. rewrite A1, A3 in Sl. destruct (asleep t') eqn:S; [|discriminate Sl].
    destruct (Ha eq_refl) as [S'|S']; [congruence|].
    assert (sp = true); [|congruence]. apply (Kx (a ++ t :: b)); [rewrite Forall_app, Forall_cons_iff; conj|]. right. rewrite existsb_app. exact E.
  - rewrite existsb_app. cbn [existsb]. intros E0.
    destruct (existsb destroyed a || (destroyed t || existsb destroyed b)) eqn:E.
    + specialize (C8 eq_refl). rewrite forallb_app in *. cbn [forallb] in *. rewrite Hw.
      apply andb_true_iff in C8 as [A1 A2]. apply andb_true_iff in A2 as [A2 A3]. rewrite A1, A3. destruct (worker t); [|reflexivity]. cbn in *. rewrite Hx by assumption. reflexivity.
    + apply orb_false_elim in E as [A1 A2]. apply orb_false_elim in A2 as [A2 A3]. rewrite A1, A3 in E0. destruct (destroyed t'); [|discriminate E0].
      destruct (Hd eq_refl) as [D|(D1 & D2)]; [congruence|]. apply forallb_forall. intros u I. apply in_app_iff in I.
      destruct (worker u) eqn:W; [|reflexivity]. cbn. destruct I as [I|[I|I]]; [|subst u; congruence|]; apply D2; auto; apply in_app_iff; auto.
Qed.
Ltac red1 := unfold holds, know, shape, obliged, in_flight, worker, exited, joining, asleep, destroyed in *; cbn [fst snd holds_b know_b infl_b obl_b existsb flat_map app] in *;
   rewrite ?sumz_cons, ?Forall_cons_iff in *; cbn [holds_f know_f infl_f obl_f existsb flat_map app] in *.
Lemma know_b_free sp q q' b : holds_b b = 0 -> know_b sp q b -> know_b sp q' b.
Proof. intros E. destruct b; cbn in *; auto. discriminate E. Qed.
Lemma inv_local w g (a : list (thread T)) t b g' t' : Inv w (g, a ++ t :: b) -> tstep w g t g' t' -> Inv w (g', a ++ t' :: b).
Proof.
  intros (q & R & Ac & Cr & C) H. cbn. pose proof (rep_empty g q R) as Em. pose proof (rep_size g q R) as Si.
  assert (know (stop g) q t) as K. { pose proof (c_know _ _ _ _ _ _ _ _ C) as F. rewrite Forall_app, Forall_cons_iff in F. tauto. }
  assert (0 < holds t -> locked g = true /\ holds t = 1) as L.
  { pose proof (c_lock _ _ _ _ _ _ _ _ C) as F. rewrite sumz_app, sumz_cons in F. pose proof (sumz_nonneg holds a holds_nonneg). pose proof (sumz_nonneg holds b holds_nonneg). destruct (locked g); [lia|lia]. }
  assert (forall b0 fs, t = (b0, fs) -> code b0 fs -> match b0 with User | WRun _ => True | _ => False end) as Co.
  { intros b0 fs -> E. destruct K as (_ & _ & [S|S]); [cbn in S; subst fs; now destruct b0|exact S]. }
  destruct H.
  all: try (exists q; split; [constructor; destruct R; assumption|]; split; [exact Ac|]; split; [exact Cr|]; cbn [set_lock set_stop set_cut set_closing finish locked stop taken finished cut] in *;
    eapply core_local; [exact C|..]; red1; try rewrite H in *; auto; try lia; try tauto; try discriminate; try (intuition congruence)).
  all: try (pose proof (holds_b_nonneg b0) as Nb0; pose proof (sumz_nonneg holds_f fs holds_f_nonneg) as Nfs).
  all: try (destruct L as [Lk Lh]; [first [lia|cbn; lia]|rewrite Lk; first [lia|cbn; lia]]).
  - (* push *) specialize (Co b0 fs eq_refl H). tauto.
  - conj; try lia; try tauto. apply Z.le_neq. split; [apply zlen_nonneg|]. intros Z. symmetry in Z. apply zlen_0 in Z. tauto. destruct K as (_ & _ & [K|K]); [discriminate K|now right].
  - destruct (0 <? done); [rewrite orb_true_r; discriminate|]. rewrite orb_false_r. cbn. auto.
  - (* put *) exists (q ++ [x]). split; [now apply rep_put|]. split; [cbn; now rewrite Ac, app_assoc|]. split; [exact Cr|]. cbn [put locked stop taken finished cut].
    red1. destruct K as (Kb & ((Ks & Kn & Kd & Kp) & Kf) & Ksh). rewrite zlen_cons in Kn. pose proof (L ltac:(first [lia|cbn; lia])) as [Lk Lh].
    assert (know_b (stop g) (q ++ [x]) b0) as Kb' by (eapply know_b_free; [lia|exact Kb]).
    eapply core_local; [exact C|..]; red1; auto; try lia.
    + conj; try lia. destruct Ksh as [Ksh|Ksh]; [discriminate Ksh|]. auto.

  - intros E1 E2 E3. left. replace (0 <? Z.min ((n + BATCH - 1) / BATCH) w) with true; [now rewrite orb_true_r|].
    destruct K as (_ & ((_ & _ & _ & Kp) & _) & _). unfold BATCH. lia.
  - intros E1 E2 E3. right. conj. replace (0 <? k) with false by lia. auto.
  - (* try *) specialize (Co b0 fs eq_refl H). tauto.
  - (* take *) rewrite Em in H. destruct q as [|y q]; [discriminate H|]. destruct (rep_take g y q R) as [Fr Rt]. assert (x = y) as -> by congruence.
    exists q. split; [destruct Rt; constructor; assumption|]. split; [cbn; rewrite Fr, Ac, <- app_assoc; reflexivity|]. split; [exact Cr|]. cbn [set_lock take locked stop taken finished cut].
    red1. destruct K as (Kb & Kf & Ksh). pose proof (L ltac:(first [lia|cbn; lia])) as [Lk Lh].
    assert (know_b (stop g) q b0) as Kb' by (eapply know_b_free; [lia|exact Kb]).
    eapply core_local; [exact C|..]; red1; auto; try lia; try tauto; try discriminate.
    + rewrite Lk. lia.
    + conj; try tauto. destruct Ksh as [Ksh|Ksh]; [discriminate Ksh|]. auto.
    + intros rest P. rewrite Fr. etransitivity; [symmetry; apply Permutation_cons_append|]. apply Permutation_cons_app. exact P.
    + intros E1 E2 E3. right. conj. discriminate.
  - (* an empty slot is never taken *) exfalso. rewrite Em in H. destruct q as [|y q]; [discriminate H|]. destruct (rep_take g y q R) as [Fr Rt]. congruence.
  - (* a task ends *) intros rest P. rewrite <- app_assoc. exact P.
  - destruct q; [conj|exfalso; congruence].
  - destruct q; [|exfalso; congruence]. intros _ E. now destruct E.
  - destruct q; [auto|exfalso; congruence].
  - destruct q; [|exfalso; congruence]. intros _ E. now destruct E.
  - (* a worker takes *) rewrite Em in *. destruct q as [|y q]; [discriminate|]. destruct (rep_take g y q R) as [Fr Rt].
    exists q. split; [exact Rt|]. split; [cbn; rewrite Fr, Ac, <- app_assoc; reflexivity|]. split; [exact Cr|]. cbn [take locked stop taken finished cut]. rewrite Fr.
    red1. destruct K as (Kb & Kf & Ksh). pose proof (L ltac:(first [lia|cbn; lia])) as [Lk Lh].
    eapply core_local; [exact C|..]; red1; auto; try lia; try tauto; try discriminate.
    + conj. apply Forall_app. split; [assumption|]. now constructor.
    + intros rest P. cbn [flat_map app] in *. rewrite flat_map_app. cbn [flat_map opt app]. rewrite <- app_assoc. cbn [app].
      etransitivity; [symmetry; apply Permutation_cons_append|]. rewrite app_assoc in P |- *. apply Permutation_cons_app. exact P.
  - exfalso. red1. destruct K as (K & _). inversion K. congruence.
Qed.

(** ** Notification, join *)
Lemma core_notify w lk sp q ta fi ct ct' l l' : Core w lk sp q ta fi ct l -> notify_one l l' -> Core w lk sp q ta fi ct' l'.
Proof.
  intros C N. destruct N as [a b fs|l N].
  - assert (know sp q (WSleep false, fs)) as K. { pose proof (c_know _ _ _ _ _ _ _ _ C) as F. rewrite Forall_app, Forall_cons_iff in F. tauto. }
    eapply core_local; [exact C|..]; red1; auto; try lia; try tauto; try discriminate; destruct lk; lia.
  - destruct C as [C1 C2 C3 C4 C5 C6 C7 C8]. constructor; auto. intros _ Q W.
    destruct (filter worker l) as [|t r] eqn:F; [change (zlen (@nil (thread T))) with 0 in C5; lia|].
    assert (In t (filter worker l)) as I by (rewrite F; now left). apply filter_In in I as [I Wt].
    apply existsb_exists. exists t. split; [exact I|]. destruct (existsb exited l) eqn:E; [now destruct Q; apply C3|].
    assert (exited t = false) as Et. { destruct (exited t) eqn:X; [|reflexivity]. rewrite <- E. symmetry. apply existsb_exists. now exists t. }
    rewrite Forall_forall in C2. destruct (C2 t I) as (K & _). destruct t as [bs fs]. unfold worker, exited, obliged in *. cbn [fst snd] in *.
    destruct bs as [| | | | | | | | |[]| | | |]; cbn in *; try discriminate; try reflexivity.
    + destruct K as [_ K]. now destruct Q.
    + now destruct (N fs).
Qed.
Lemma core_wake_all w lk sp q ta fi ct l : Core w lk sp q ta fi ct l -> Core w lk sp q ta fi ct (map wake l) /\ existsb asleep (map wake l) = false.
Proof.
  assert (forall (f : thread T -> bool), (forall t, f (wake t) = f t) -> forall l, existsb f (map wake l) = existsb f l) as Ex.
  { intros f H l0. induction l0 as [|t r IH]; [reflexivity|]. cbn. now rewrite H, IH. }
  assert (forall t, exists r, wake t = t \/ t = (WSleep false, r) /\ wake t = (WSleep true, r)) as W.
  { intros [[| | | | | | | | |[]| | | |] fs]; exists fs; auto. }
  assert (existsb asleep (map wake l) = false) as S.
  { induction l as [|[[| | | | | | | | |[]| | | |] fs] r IH]; cbn in *; auto. }
  intros [C1 C2 C3 C4 C5 C6 C7 C8]. split; [|exact S]. constructor.
  - rewrite <- C1. clear - W. induction l as [|t r IH]; [reflexivity|]. cbn [map]. rewrite !sumz_cons, IH. destruct (W t) as (fs & [->|(-> & ->)]); reflexivity.
  - rewrite Forall_forall in *. intros t' I. apply in_map_iff in I as (t & <- & I). specialize (C2 t I). destruct (W t) as (fs & [->|(-> & ->)]); exact C2.
  - rewrite Ex; [exact C3|]. intros t. destruct (W t) as (fs & [->|(-> & ->)]); reflexivity.
  - replace (flat_map in_flight (map wake l)) with (flat_map in_flight l); [exact C4|]. clear - W. induction l as [|t r IH]; [reflexivity|]. cbn [map flat_map]. rewrite IH. destruct (W t) as (fs & [->|(-> & ->)]); reflexivity.
  - rewrite <- C5. clear - W. induction l as [|t r IH]; [reflexivity|]. cbn [map filter].
    assert (worker (wake t) = worker t) as -> by (destruct (W t) as (fs & [->|(-> & ->)]); reflexivity). destruct (worker t); rewrite ?zlen_cons, IH; reflexivity.
  - intros A B D. specialize (C6 A B D). apply existsb_exists in C6 as (t & I & O). apply existsb_exists. exists (wake t). split; [now apply in_map|].
    destruct (W t) as (fs & [->|(-> & ->)]); [exact O|reflexivity].
  - intros _. exact S.
  - rewrite Ex; [|intros t; destruct (W t) as (fs & [->|(-> & ->)]); reflexivity]. intros D. specialize (C8 D). rewrite forallb_forall in *. intros t' I.
    apply in_map_iff in I as (t & <- & I). specialize (C8 t I). destruct (W t) as (fs & [->|(-> & ->)]); exact C8.
Qed.

Lemma inv_step w (s s' : st T) : Inv w s -> step w s s' -> Inv w s'.
Proof.
  intros I H. destruct H.
  - eapply inv_local; eassumption.
  - destruct I as (q & R & Ac & Cr & C). exists q. do 3 (split; [assumption|]).
    assert (know (stop g) q (bs, PNotify k :: fs)) as K. { pose proof (c_know _ _ _ _ _ _ _ _ C) as F. rewrite Forall_app, Forall_cons_iff in F. tauto. }
    apply core_notify with (ct := true) (l := a ++ (bs, PNotify (k - 1) :: fs) :: b); [|assumption].
    eapply core_local; [exact C|..]; red1; auto; try lia; try tauto; try discriminate.
    conj; try tauto. destruct K as (_ & _ & [K|K]); [discriminate K|auto].
  - destruct I as (q & R & Ac & Cr & C). exists q. do 3 (split; [assumption|]). apply core_wake_all in C as [C S]. rewrite map_app in *. cbn [map wake] in *.
    assert (know (stop g) q (DNotify, [])) as K. { pose proof (c_know _ _ _ _ _ _ _ _ C) as F. rewrite Forall_app, Forall_cons_iff in F. tauto. }
    eapply core_local; [exact C|..]; red1; auto; try lia; try tauto; try discriminate. intros _. right. rewrite existsb_app in *. exact S.
  - destruct I as (q & R & Ac & Cr & C). exists q. do 3 (split; [assumption|]).
    assert (know (stop g) q (DJoin, [])) as K. { pose proof (c_know _ _ _ _ _ _ _ _ C) as F. rewrite Forall_app, Forall_cons_iff in F. tauto. }
    eapply core_local; [exact C|..]; red1; auto; try lia; try tauto; try discriminate.
Qed.
Lemma reach_inv w c s : reach w c s -> Inv (Z.of_nat w) s.
Proof. induction 1; [apply inv0|eapply inv_step; eassumption]. Qed.

(** ** C39 *)

(** What the ring holds, from head to tail. *)
Definition queued g : list (option T) := map (fun i => ring g (Z.land (head g + i) RING_MASK)) (zseq (ring_size g)).
Lemma rep_queued g q : Rep g q -> queued g = map Some q.
Proof.
  intros R. unfold queued. rewrite (rep_size g q R). destruct R as [_ _ _ H]. pose proof (zlen_nonneg q) as N.
  apply (znth_ext None); [rewrite !zlen_map, zseq_len by lia; reflexivity|]. intros i Hi. rewrite zlen_map, zseq_len in Hi by lia.
  rewrite (znth_map 0) by (rewrite zseq_len by lia; lia). rewrite zseq_nth by lia. rewrite mask_mod, H by lia.
  unfold znth. rewrite nth_error_map_nth. reflexivity.
Qed.

(** In every state of every run: the tasks accepted, in order, are those taken
    out, in order, and then those in the ring; those taken have been run to the
    end once or are held by exactly one thread; no empty task has been invoked;
    the ring never holds more than its capacity. *)
Theorem C39_exactly_once : forall w c g l, reach w c (g, l) -> exists q,
  queued g = map Some q /\ accepted g = taken g ++ q /\
  Permutation (taken g) (finished g ++ flat_map in_flight l) /\
  crashed g = false /\ zlen q <= RING_CAP.
Proof.
  intros w c g l H. destruct (reach_inv w c _ H) as (q & R & Ac & Cr & C). exists q. split; [now apply rep_queued|]. destruct C, R. conj.
Qed.

(** One thread at a time has the mutex. *)
Theorem C39_exclusion : forall w c g l, reach w c (g, l) -> sumz holds l <= 1.
Proof. intros w c g l H. destruct (reach_inv w c _ H) as (q & R & Ac & Cr & C). destruct C. destruct (locked g); lia. Qed.

Lemma no_flight l : (forall t, In t l -> in_flight t = []) -> flat_map in_flight l = [].
Proof. induction l as [|t l IH]; intros H; [reflexivity|]. cbn. rewrite (H t) by now left. apply IH. intros u I. apply H. now right. Qed.

(** Nobody is inside a call or a task, and every worker sleeps or has left. *)
Definition quiet l : Prop :=
  forall t, In t l -> t = (User, []) \/ t = (WSleep false, []) \/ t = (WDone, []) \/ t = (DDone, []).

(** A pool with a worker does not come to rest before every accepted task has
    been run, unless an overflow cut a batch short. *)
Theorem C39_no_lost_wakeup : forall w c g l, reach w c (g, l) -> (0 < w)%nat -> cut g = false -> quiet l ->
  Permutation (accepted g) (finished g).
Proof.
  intros w c g l H W Ct Q. destruct (reach_inv w c _ H) as (q & R & Ac & Cr & C). destruct C as [C1 C2 C3 C4 C5 C6 C7 C8].
  assert (q = []) as ->.
  { destruct q as [|x q]; [reflexivity|]. specialize (C6 Ct ltac:(discriminate) ltac:(lia)). apply existsb_exists in C6 as (t & I & O).
    destruct (Q t I) as [->|[->|[->| ->]]]; discriminate O. }
  rewrite Ac, app_nil_r. rewrite (no_flight l), app_nil_r in C4; [exact C4|]. intros t I. destruct (Q t I) as [->|[->|[->| ->]]]; reflexivity.
Qed.

(** A batch is cut short only in a pool that has accepted 32768 tasks or more:
    below that the pool does not rest before every task has been run. *)
Lemma cut_overflow w c (s : st T) : reach w c s -> cut (fst s) = true -> RING_CAP <= zlen (accepted (fst s)).
Proof.
  induction 1 as [|s s' R IH H]; [discriminate|]. pose proof (reach_inv w c s R) as I. destruct H as [g a t b g' t' H|g a bs k fs b l K H|g a b|g a b H]; cbn [fst] in *; try exact IH.
  destruct I as (q & Rp & Ac & _). pose proof (rep_size g q Rp) as Sz.
  destruct H; cbn [put take set_lock set_stop set_cut set_closing set_crashed finish cut accepted] in *; try exact IH.
  - intros _. rewrite Ac, zlen_app. pose proof (zlen_nonneg (taken g)). lia.
  - intros X. specialize (IH X). rewrite zlen_app. pose proof (zlen_nonneg [x]). lia.
Qed.
Theorem C39_runs_all : forall w c g l, reach w c (g, l) -> (0 < w)%nat -> zlen (accepted g) < 32768 -> quiet l ->
  Permutation (accepted g) (finished g).
Proof.
  intros w c g l H W L Q. apply (C39_no_lost_wakeup w c g l H W); [|exact Q].
  destruct (cut g) eqn:E; [|reflexivity]. pose proof (cut_overflow w c _ H E) as X. cbn [fst] in X. unfold RING_CAP in X. lia.
Qed.

(** When the destructor returns, every accepted task has been run to the end,
    or is being run by a client that called try_run_one; the workers have
    ended. *)
Theorem C39_shutdown : forall w c g l fs, reach w c (g, l) -> (0 < w)%nat -> In (DDone, fs) l ->
  Permutation (accepted g) (finished g ++ flat_map in_flight (filter (fun t => negb (worker t)) l)) /\
  forall t, In t l -> worker t = true -> t = (WDone, []).
Proof.
  intros w c g l fs H W D. destruct (reach_inv w c _ H) as (q & R & Ac & Cr & C). destruct C as [C1 C2 C3 C4 C5 C6 C7 C8].
  assert (existsb destroyed l = true) as E by (apply existsb_exists; now exists (DDone, fs)). specialize (C8 E). rewrite forallb_forall in C8. rewrite Forall_forall in C2.
  assert (forall t, In t l -> worker t = true -> t = (WDone, [])) as K.
  { intros t I Wt. specialize (C8 t I). rewrite Wt in C8. cbn in C8. destruct t as [bs fs']. destruct (C2 _ I) as (_ & _ & S). unfold exited, shape in *. cbn [fst snd] in *.
    destruct bs; try discriminate C8. destruct S as [S|[]]. now subst. }
  split; [|exact K].
  assert (q = []) as ->.
  { apply C3. destruct (filter worker l) as [|t r] eqn:F; [change (zlen (@nil (thread T))) with 0 in C5; lia|].
    assert (In t (filter worker l)) as I by (rewrite F; now left). apply filter_In in I as [I Wt]. apply existsb_exists. exists t. split; [exact I|]. now rewrite (K t I Wt). }
  rewrite Ac, app_nil_r. etransitivity; [exact C4|]. apply Permutation_app_head.
  replace (flat_map in_flight (filter (fun t => negb (worker t)) l)) with (flat_map in_flight l); [reflexivity|].
  clear - K. induction l as [|t l IH]; [reflexivity|]. cbn [flat_map filter]. rewrite IH by (intros u I; apply K; now right).
  destruct (worker t) eqn:Wt; cbn [negb]; [|reflexivity]. rewrite (K t) by (auto; now left). reflexivity.
Qed.

(** No worker sleeps once the destructor has notified, so the join cannot wait
    for one that nobody will wake. *)
Theorem C39_shutdown_wakes : forall w c g l t, reach w c (g, l) -> In t l -> fst t = DJoin \/ fst t = DDone ->
  stop g = true /\ forall u, In u l -> fst u <> WSleep false /\ fst u <> WBlock.
Proof.
  intros w c g l t H I D. destruct (reach_inv w c _ H) as (q & R & Ac & Cr & C). destruct C as [C1 C2 C3 C4 C5 C6 C7 C8]. rewrite Forall_forall in C2.
  assert (stop g = true) as S. { destruct (C2 t I) as (K & _). destruct D as [D|D]; rewrite D in K; exact K. }
  split; [exact S|]. intros u J. split; intros E.
  - assert (existsb asleep l = false) as A. { apply C7. apply existsb_exists. exists t. split; [exact I|]. unfold joining. now destruct D as [-> | ->]. }
    assert (existsb asleep l = true); [|congruence]. apply existsb_exists. exists u. split; [exact J|]. unfold asleep. now rewrite E.
  - destruct (C2 u J) as (K & _). rewrite E in K. destruct K. congruence.
Qed.

(** A task is refused only when the pool is shutting down or the ring is full. *)
Theorem C39_refusal : forall w c g l g' b n done x items fs,
  reach w c (g, l) -> In (b, PPut n done (x :: items) :: fs) l ->
  tstep (Z.of_nat w) g (b, PPut n done (x :: items) :: fs) g' (b, fs) -> exists q, queued g = map Some q /\ zlen q = RING_CAP.
Proof.
  intros w c g l g' b n done x items fs H I S. destruct (reach_inv w c _ H) as (q & R & _). exists q. split; [now apply rep_queued|].
  assert (RING_CAP <= ring_size g) as F. { inversion S; subst; auto; exfalso; match goal with X : _ = fs |- _ => apply (f_equal (@length _)) in X; cbn [length] in X; lia end. }
  rewrite (rep_size g q R) in F. destruct R. lia.
Qed.
End Props.
Print Assumptions C39_exactly_once.
Print Assumptions C39_exclusion.
Print Assumptions C39_no_lost_wakeup.
Print Assumptions C39_runs_all.
Print Assumptions C39_shutdown.
Print Assumptions C39_shutdown_wakes.
Print Assumptions C39_refusal.

(** ** Runs *)
Ltac side := first [assumption|discriminate|reflexivity|exact I|now left|now right|vm_compute; discriminate|vm_compute; reflexivity|idtac].
(** One step of the thread between [a] and [b]. *)
Tactic Notation "go" constr(a) constr(b) uconstr(r) :=
  match goal with
  | R : reach ?w ?c (?g, ?l) |- _ =>
    let R' := fresh "R" in
    eassert (reach w c (_, a ++ _ :: b)) as R';
    [eapply reachS; [exact R|apply (s_local _ _ a _ b); eapply r; side]
    |clear R; rename R' into R; cbn [app] in R]
  end.

(** One worker and one client: three tasks are pushed, the client runs the
    first and the worker the others; then the pool is destroyed. *)
Example C39_case : exists g l, reach 1 1 (g, l) /\ accepted g = [1; 2; 3] /\ finished g = [2; 1; 3] /\ In (DDone, []) l.
Proof.
  assert (reach 1 1 (st0 (T := Z) 1 1)) as R by constructor. change (reach 1 1 (fst (st0 (T := Z) 1 1), [(WLock, []); (User, [])])) in R.
  set (W0 := (WLock, []) : thread Z) in *. set (U0 := (User, []) : thread Z) in *.
  go [W0] (@nil (thread Z)) (t_push _ _ _ _ [1; 2; 3]).
  go [W0] (@nil (thread Z)) t_push_lock. go [W0] (@nil (thread Z)) t_push_open.
  do 3 go [W0] (@nil (thread Z)) t_push_put. go [W0] (@nil (thread Z)) t_push_unlock.
  assert (reach 1 1 (set_lock (put (put (put (set_lock (fst (st0 1 1)) true) 1) 2) 3) false, [W0; (User, [PNotify 0])])) as R1.
  { eapply reachS; [exact R|]. apply (s_notify _ _ [W0] User 1 [] []); [lia|]. apply n_none. intros fs [E|[E|E]]; [discriminate E|discriminate E|exact E]. }
  clear R. rename R1 into R.
  go [W0] (@nil (thread Z)) t_push_ret. go [W0] (@nil (thread Z)) t_try.
  go [W0] (@nil (thread Z)) t_try_lock. go [W0] (@nil (thread Z)) t_try_take.
  set (U1 := (User, [Run 1]) : thread Z) in *.
  go (@nil (thread Z)) [U1] t_w_lock. go (@nil (thread Z)) [U1] t_w_go. go (@nil (thread Z)) [U1] t_w_drain.
  do 2 go (@nil (thread Z)) [U1] t_w_take. go (@nil (thread Z)) [U1] t_w_unlock. cbn [app] in *.
  match goal with R : reach 1 1 (?g, _) |- _ => change (reach 1 1 (g, [(WRun [Some 2; Some 3], []); U1])) in R end.
  go (@nil (thread Z)) [U1] t_w_run. go (@nil (thread Z)) [U1] t_end. subst U1.
  match goal with R : reach 1 1 (?g, ?t :: _) |- _ => go [t] (@nil (thread Z)) t_end end.
  go (@nil (thread Z)) [U0] t_w_run. go (@nil (thread Z)) [U0] t_end. go (@nil (thread Z)) [U0] t_w_again.
  go [W0] (@nil (thread Z)) t_d_call. go [W0] (@nil (thread Z)) t_d_lock. go [W0] (@nil (thread Z)) t_d_stop.
  match goal with R : reach 1 1 (?g, _) |- _ => assert (reach 1 1 (g, [W0; (DJoin, [])])) as R1 by (eapply reachS; [exact R|apply (s_notify_all 1 _ [W0] [])]); clear R; rename R1 into R end.
  set (D := (DJoin, []) : thread Z) in *.
  go (@nil (thread Z)) [D] t_w_lock. go (@nil (thread Z)) [D] t_w_go. go (@nil (thread Z)) [D] t_w_exit.
  match goal with R : reach 1 1 (?g, _) |- _ => assert (reach 1 1 (g, [(WDone, []); (DDone, [])])) as R1 by (eapply reachS; [exact R|apply (s_join 1 _ [(WDone, [])] []); cbn; intros t [<-|[]]; reflexivity]); clear R; rename R1 into R end.
  eexists. eexists. split; [exact R|]. split; [reflexivity|]. split; [reflexivity|]. right. now left.
Qed.

Lemma puts w c (items rest : list Z) a b bs fs : forall g q n d, Rep g q -> zlen q + zlen items <= RING_CAP ->
  reach w c (g, a ++ (bs, PPut n d (items ++ rest) :: fs) :: b) ->
  exists g', Rep g' (q ++ items) /\ reach w c (g', a ++ (bs, PPut n (d + zlen items) rest :: fs) :: b) /\ finished g' = finished g.
Proof.
  induction items as [|x items IH]; intros g q n d R L H.
  - exists g. rewrite app_nil_r. change (zlen (@nil Z)) with 0. rewrite Z.add_0_r. conj.
  - rewrite zlen_cons in L. pose proof (zlen_nonneg items) as N. pose proof (rep_size g q R) as Sz.
    destruct (IH (put g x) (q ++ [x]) n (d + 1)) as (g' & R' & H' & L').
    + apply rep_put; [exact R|]. lia.
    + rewrite zlen_app. change (zlen [x]) with 1. lia.
    + eapply reachS; [exact H|]. apply s_local. cbn [app]. apply t_push_put. lia.
    + exists g'. rewrite <- app_assoc in R'. rewrite zlen_cons. replace (d + (1 + zlen items)) with (d + 1 + zlen items) by lia. conj.
Qed.
(** A batch larger than the ring: push_batch throws after queueing 32768 tasks
    and notifies nobody.  The pool is at rest with all of them in the queue. *)
Theorem C39_overflow_refuted : exists g l, reach 1 1 (g, l) /\ quiet l /\ zlen (queued g) = 32768 /\ finished (T := Z) g = [].
Proof.
  assert (reach 1 1 (st0 (T := Z) 1 1)) as R by constructor. change (reach 1 1 (fst (st0 (T := Z) 1 1), [(WLock, []); (User, [])])) in R.
  set (U0 := (User, []) : thread Z) in *.
  go (@nil (thread Z)) [U0] t_w_lock. go (@nil (thread Z)) [U0] t_w_wait. go (@nil (thread Z)) [U0] t_w_block.
  set (W0 := (WSleep false, []) : thread Z) in *.
  assert (exists items : list Z, zlen items = 32768) as (items & Li) by (exists (repeat 7 (Z.to_nat 32768)); rewrite zlen_repeat; apply Z2Nat.id; lia).
  go [W0] (@nil (thread Z)) (t_push _ _ _ _ (items ++ [7])). { destruct items; discriminate. }
  go [W0] (@nil (thread Z)) t_push_lock. go [W0] (@nil (thread Z)) t_push_open.
  match goal with R : reach 1 1 (?g, _) |- _ => set (g0 := g) in R end.
  assert (Rep g0 []) as R0.
  { constructor; cbn; [unfold two64; lia|reflexivity|unfold RING_CAP; lia|unfold zlen; cbn; lia]. }
  destruct (puts 1 1 items [7] [W0] [] User [] g0 [] (zlen (items ++ [7])) 0 R0) as (g' & R' & H' & Fi); [rewrite Li; unfold RING_CAP; cbn; lia|exact R|].
  clear R. cbn [app] in R'. pose proof (rep_size g' items R') as Sz.
  assert (RING_CAP <= ring_size g') as Full by (rewrite Sz, Li; unfold RING_CAP; lia).
  go [W0] (@nil (thread Z)) t_push_over.
  set (g2 := set_lock (set_cut g' (0 <? 0 + zlen items)) false) in *.
  assert (Rep g2 items) as R2 by (destruct R'; constructor; assumption).
  exists g2. eexists. split; [exact H'|]. split; [|split].
  - intros t [<-|[<-|[]]]; auto.
  - rewrite (rep_queued g2 items R2), zlen_map. exact Li.
  - exact Fi.
Qed.
Print Assumptions C39_overflow_refuted.
