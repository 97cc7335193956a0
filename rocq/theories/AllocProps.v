(** The large-buffer cache never hands out a buffer in use (C40). *)
From Coq Require Import Permutation.
From Verif Require Import Base BaseLemmas AllocModel.

(** ** Specification *)
Definition disjoint (a b : block) : Prop := fst a + snd a <= fst b \/ fst b + snd b <= fst a.
(** What the C library promises about a new block: large enough, aligned, apart
    from every block in existence. *)
Definition fresh_ok (h : list block) (bytes align : Z) (b : block) : Prop :=
  0 < fst b /\ 0 < snd b < 2 ^ 63 /\ bytes <= snd b /\ (align | fst b) /\ Forall (disjoint b) h.
(** What callers promise: alignments are powers of two, and only a pointer
    handed out and not yet released is released. *)
Definition legal (w : world) (o : op) : Prop :=
  match o with
  | Alloc t bytes align fresh => (exists k, 0 <= k /\ align = 2 ^ k) /\ match fresh with Some b => fresh_ok (heap w) bytes align b | None => True end
  | Release t p => p = 0 \/ In p (used w)
  | Exit t => True
  end.
Inductive legal_run : world -> list op -> Prop :=
| lr_nil w : legal_run w []
| lr_cons w o ops : legal w o -> (forall w', exec w o = Ret w' -> legal_run w' ops) -> legal_run w (o :: ops).

(** ** Invariant *)
Record Inv (w : world) : Prop := {
  i_apart : ForallOrdPairs disjoint (heap w);
  i_pos : Forall (fun b => 0 < fst b /\ 0 < snd b < 2 ^ 63) (heap w);
  i_used : NoDup (used w);
  i_own : forall p, In p (used w) -> In p (map fst (heap w));
  i_cache : forall t, NoDup (map fst (cache w t));
  i_cown : forall t b, In b (cache w t) -> In b (heap w);
  i_sep : forall t p, In p (map fst (cache w t)) -> ~ In p (used w);
  i_sep2 : forall t t' p, In p (map fst (cache w t)) -> In p (map fst (cache w t')) -> t = t';
  i_count : forall t, zlen (cache w t) <= MAX_SLOTS }.

Lemma disjoint_sym a b : disjoint a b -> disjoint b a. Proof. unfold disjoint. tauto. Qed.
Lemma heap_unique w b c : Inv w -> In b (heap w) -> In c (heap w) -> fst b = fst c -> b = c.
Proof.
  intros I Hb Hc E. destruct I as [A P _ _ _ _ _ _ _]. destruct (ForallOrdPairs_In A b c Hb Hc) as [D|[D|D]]; [exact D|..];
  rewrite Forall_forall in P; pose proof (P b Hb); pose proof (P c Hc); unfold disjoint in D; lia.
Qed.
Lemma heap_apart w b c : Inv w -> In b (heap w) -> In c (heap w) -> fst b <> fst c -> disjoint b c.
Proof. intros I Hb Hc E. destruct I as [A _ _ _ _ _ _ _ _]. destruct (ForallOrdPairs_In A b c Hb Hc) as [D|[D|D]]; [congruence|exact D|now apply disjoint_sym]. Qed.

Lemma usable_size_in w b : Inv w -> In b (heap w) -> usable_size (heap w) (fst b) = Ret (snd b).
Proof.
  intros I H. assert (exists u, usable_size (heap w) (fst b) = Ret u /\ In (fst b, u) (heap w)) as (u & E & J).
  { revert H. generalize (heap w). induction l as [|[q v] l IH]; intros []; cbn.
    - subst b. cbn. rewrite Z.eqb_refl. eauto.
    - destruct (Z.eqb_spec q (fst b)); [subst; eauto|]. destruct (IH H) as (u & E & J). eauto. }
  rewrite E. f_equal. pose proof (heap_unique w b _ I H J eq_refl) as X. rewrite X. reflexivity.
Qed.
(** Freeing removes just that block. *)
Lemma free_in h p : In p (map fst h) -> exists h1 h2 u, h = h1 ++ (p, u) :: h2 /\ free h p = Ret (h1 ++ h2).
Proof.
  induction h as [|[q v] h IH]; intros []; cbn.
  - cbn in H. subst q. rewrite Z.eqb_refl. now exists [], h, v.
  - destruct (Z.eqb_spec q p); [subst; now exists [], h, v|]. destruct (IH H) as (h1 & h2 & u & -> & ->). cbn. now exists ((q, v) :: h1), h2, u.
Qed.
Lemma fop_app {A} (R : A -> A -> Prop) a x b : ForallOrdPairs R (a ++ x :: b) -> ForallOrdPairs R (a ++ b).
Proof.
  induction a as [|y a IH]; cbn; intros H; inversion H; subst; [assumption|]. constructor; [|auto]. rewrite Forall_app in *. inversion H2. inversion H1. auto.
Qed.
Lemma drop_in p l x : NoDup l -> In x (drop p l) <-> In x l /\ x <> p.
Proof.
  induction l as [|q l IH]; intros N; cbn; [tauto|]. inversion N; subst. destruct (Z.eqb_spec q p); [subst; intuition congruence|].
  cbn. rewrite IH by assumption. intuition congruence.
Qed.
Lemma drop_nodup p l : NoDup l -> NoDup (drop p l).
Proof.
  intros N. induction N as [|q l Q N IH]; cbn; [constructor|]. destruct (Z.eqb_spec q p); [exact N|]. constructor; [|exact IH]. rewrite drop_in by assumption. tauto.
Qed.

(** ** The search *)
Lemma land_align p k : 0 <= k -> Z.land p (2 ^ k - 1) = 0 <-> (2 ^ k | p).
Proof. intros H. rewrite land_ones_mod by lia. apply Z.mod_divide. pose proof (Z.pow_pos_nonneg 2 k). lia. Qed.
Definition fits (bytes align : Z) (b : block) : bool := (bytes <=? snd b) && (Z.land (fst b) (align - 1) =? 0).
Lemma best_fit_spec bytes align slots : forall i bi bu pre,
  zlen pre = i -> (bi = -1 /\ bu = SIZE_MAX /\ Forall (fun b => fits bytes align b = false \/ SIZE_MAX <= snd b) pre \/
     0 <= bi < i /\ fits bytes align (znth (0, 0) pre bi) = true /\ snd (znth (0, 0) pre bi) = bu /\ Forall (fun b => fits bytes align b = false \/ bu <= snd b) pre) ->
  let r := best_fit bytes align i slots bi bu in
  r = -1 /\ Forall (fun b => fits bytes align b = false \/ SIZE_MAX <= snd b) (pre ++ slots) \/
  0 <= r < zlen (pre ++ slots) /\ fits bytes align (znth (0, 0) (pre ++ slots) r) = true /\
    Forall (fun b => fits bytes align b = false \/ snd (znth (0, 0) (pre ++ slots) r) <= snd b) (pre ++ slots).
Proof.
  induction slots as [|[p u] slots IH]; intros i bi bu pre L H; cbn [best_fit].
  - rewrite app_nil_r. destruct H as [(-> & -> & F)|(B & F1 & F2 & F3)]; [left; conj|right]. rewrite F2. conj; lia.
  - pose proof (zlen_nonneg pre) as N. destruct ((bytes <=? u) && (u <? bu) && (Z.land p (align - 1) =? 0)) eqn:C.
    + specialize (IH (i + 1) i u (pre ++ [(p, u)])). cbv zeta in IH. rewrite <- app_assoc in IH. cbn [app] in IH. apply IH; [rewrite zlen_app, L; reflexivity|]. right. rewrite znth_app_r by lia. replace (i - zlen pre) with 0 by lia. rewrite znth_0. cbn [snd]. split; [lia|].
      split; [unfold fits; cbn; lia|]. split; [reflexivity|]. rewrite Forall_app. split; [|constructor; [right; cbn; lia|constructor]].
      destruct H as [(-> & -> & F)|(B & F1 & F2 & F3)]; (eapply Forall_impl; [|eassumption]); cbv beta; intros b [K|K]; auto; right; lia.
    + specialize (IH (i + 1) bi bu (pre ++ [(p, u)])). cbv zeta in IH. rewrite <- app_assoc in IH. cbn [app] in IH. apply IH; [rewrite zlen_app, L; reflexivity|]. assert (fits bytes align (p, u) = false \/ bu <= u) as K by (unfold fits; cbn; lia).
      destruct H as [(-> & -> & F)|(B & F1 & F2 & F3)]; [left|right].
      * conj. rewrite Forall_app. auto.
      * rewrite znth_app_l by lia. conj; try lia. rewrite Forall_app. auto.
Qed.
Lemma best_fit_ok bytes align slots : let r := best_fit bytes align 0 slots (-1) SIZE_MAX in
  r = -1 /\ Forall (fun b => fits bytes align b = false \/ SIZE_MAX <= snd b) slots \/
  0 <= r < zlen slots /\ fits bytes align (znth (0, 0) slots r) = true /\
    Forall (fun b => fits bytes align b = false \/ snd (znth (0, 0) slots r) <= snd b) slots.
Proof. apply (best_fit_spec bytes align slots 0 (-1) SIZE_MAX []); [reflexivity|]. left. auto. Qed.

(** Taking slot [i] removes that entry and no other. *)
Lemma take_slot_perm slots i : 0 <= i < zlen slots -> Permutation slots (fst (take_slot slots i) :: snd (take_slot slots i)).
Proof.
  intros H. unfold take_slot. cbn [fst snd].
  assert (slots = ztake (zlen slots - 1) slots ++ [znth (0, 0) slots (zlen slots - 1)]) as E.
  { rewrite <- (ztake_zskip (zlen slots - 1) slots) at 1. f_equal. rewrite (zskip_cons_nth (0, 0)) by lia. f_equal. apply zskip_all. lia. }
  set (n := zlen slots - 1) in *. set (s := ztake n slots) in *. set (z := znth (0, 0) slots n) in *.
  assert (zlen s = n) as Ls by (unfold s; apply zlen_ztake; lia).
  destruct (Z.ltb_spec i n).
  - assert (znth (0, 0) slots i = znth (0, 0) s i) as -> by (rewrite E, znth_app_l by lia; reflexivity).
    assert (s = ztake i s ++ znth (0, 0) s i :: zskip (i + 1) s) as Es.
    { rewrite <- (ztake_zskip i s) at 1. f_equal. apply zskip_cons_nth. lia. }
    rewrite E at 1. rewrite Es at 1. cbn [app].
    etransitivity; [symmetry; apply Permutation_cons_append|].
    etransitivity; [apply perm_skip; symmetry; apply Permutation_middle|].
    etransitivity; [apply perm_swap|]. apply perm_skip. apply Permutation_middle.
  - assert (i = n) as -> by lia. cbn [app]. rewrite (ztake_all n s) by lia. rewrite (zskip_all (n + 1) s) by lia. rewrite app_nil_r. rewrite E at 1. fold z.
    symmetry. apply Permutation_cons_append.
Qed.

(** ** Preservation *)
Lemma inv0 : Inv world0.
Proof. constructor; cbn; intros; try tauto; try apply FOP_nil; try apply Forall_nil; try apply NoDup_nil. unfold MAX_SLOTS. lia. Qed.
Lemma NoDup_app_snoc (l : list Z) x : NoDup l -> ~ In x l -> NoDup (l ++ [x]).
Proof. intros N H. apply (Permutation_NoDup (Permutation_cons_append l x)). now constructor. Qed.
Lemma set_cache_eq c t l u : set_cache c t l u = if Nat.eqb u t then l else c u. Proof. reflexivity. Qed.

(** The cache of one thread loses entries or gains [b], which nobody else has. *)
Lemma alloc_inv w t bytes align fresh : Inv w -> legal w (Alloc t bytes align fresh) -> Inv (fst (alloc w t bytes align fresh)).
Proof.
  intros I [_ Fr]. unfold alloc. set (bi := if THRESHOLD <=? bytes then _ else _).
  destruct (0 <=? bi) eqn:B.
  - assert (0 <= bi < zlen (cache w t)) as Hb.
    { unfold bi in *. destruct (THRESHOLD <=? bytes); [|lia]. destruct (best_fit_ok bytes align (cache w t)) as [(E & _)|(E & _)]; [cbv zeta in E; lia|exact E]. }
    pose proof (take_slot_perm _ _ Hb) as P. destruct (take_slot (cache w t) bi) as [b sl]. cbn [fst snd] in P.
    assert (In b (cache w t)) as Bin by (eapply Permutation_in; [symmetry; exact P|now left]).
    assert (forall x, In x sl -> In x (cache w t)) as Sin by (intros x Hx; eapply Permutation_in; [symmetry; exact P|now right]).
    pose proof (Permutation_map fst P) as Pm. cbn [map] in Pm. pose proof (i_cache w I t) as Nd. apply (Permutation_NoDup Pm) in Nd. inversion Nd; subst.
    assert (forall p, In p (map fst sl) -> In p (map fst (cache w t)) /\ p <> fst b) as Sm.
    { intros p Hp. split; [apply in_map_iff in Hp as (x & <- & Hx); apply in_map; auto|congruence]. }
    assert (In (fst b) (map fst (cache w t))) as Bm by now apply in_map.
    destruct I as [A1 A2 A3 A4 A5 A6 A7 A8 A9]. cbn [fst]. constructor; cbn [heap used cache]; auto.
    + constructor; [|assumption]. now apply (A7 t).
    + intros p [<-|Hp]; [|auto]. apply in_map, (A6 t), Bin.
    + intros u. rewrite set_cache_eq. destruct (Nat.eqb u t); auto.
    + intros u c. rewrite set_cache_eq. destruct (Nat.eqb u t); [|apply A6]. intros Hc. apply (A6 t). auto.
    + intros u p. rewrite set_cache_eq. destruct (Nat.eqb_spec u t) as [->|N]; intros Hp [E|E].
      * destruct (Sm p Hp). congruence.
      * destruct (Sm p Hp). now apply (A7 t p).
      * subst p. apply N. eapply A8; eauto.
      * now apply (A7 u p).
    + intros u v p. rewrite !set_cache_eq. destruct (Nat.eqb_spec u t) as [->|N], (Nat.eqb_spec v t) as [->|M]; auto; intros H1' H2'; try (apply Sm in H1'); try (apply Sm in H2'); eapply A8; intuition eauto.
    + intros u. rewrite set_cache_eq. destruct (Nat.eqb u t); [|apply A9]. specialize (A9 t). apply Permutation_length in P. unfold zlen in *. cbn in P. lia.
  - destruct fresh as [b|]; [|exact I]. destruct Fr as (F1 & F2 & F3 & F4 & F5).
    assert (~ In (fst b) (map fst (heap w))) as Nb.
    { intros H. apply in_map_iff in H as (c & E & Hc). rewrite Forall_forall in F5. specialize (F5 c Hc). pose proof (i_pos w I) as P. rewrite Forall_forall in P. specialize (P c Hc). unfold disjoint in F5. lia. }
    destruct I as [A1 A2 A3 A4 A5 A6 A7 A8 A9]. cbn [fst]. constructor; cbn [heap used cache]; auto.
    + constructor; assumption.
    + constructor; [intros H; now apply Nb, A4|assumption].
    + intros p [<-|Hp]; [now left|right; auto].
    + intros u c Hc. right. eauto.
    + intros u p Hp [E|E]; [|now apply (A7 u p)]. subst p. apply Nb. apply in_map_iff in Hp as (c & E & Hc). rewrite <- E. apply in_map. eauto.
Qed.

Lemma free_inv w p h1 h2 u : Inv w -> heap w = h1 ++ (p, u) :: h2 ->
  forall us ca, NoDup us -> (forall x, In x us -> In x (used w) /\ x <> p) ->
  (forall t, NoDup (map fst (ca t))) -> (forall t b, In b (ca t) -> In b (cache w t) /\ fst b <> p) -> (forall t, zlen (ca t) <= MAX_SLOTS) ->
  Inv (World (h1 ++ h2) us ca).
Proof.
  intros I E us ca N1 S1 N2 S2 C. destruct I as [A1 A2 A3 A4 A5 A6 A7 A8 A9]. rewrite E in *.
  assert (forall c, In c (h1 ++ (p, u) :: h2) -> fst c <> p -> In c (h1 ++ h2)) as K.
  { intros c Hc Hp. apply in_app_iff in Hc as [Hc|[Hc|Hc]]; [apply in_app_iff; auto|subst c; now destruct Hp|apply in_app_iff; auto]. }
  assert (forall t q, In q (map fst (ca t)) -> In q (map fst (cache w t))) as Sm.
  { intros t q Hq. apply in_map_iff in Hq as (b & <- & Hb). apply in_map. now apply S2. }
  constructor; cbn [heap used cache]; auto.
  - eapply fop_app, A1.
  - rewrite Forall_app in *. destruct A2 as [P1 P2]. inversion P2; subst. auto.
  - intros x Hx. destruct (S1 x Hx) as [Hu Hp]. apply A4 in Hu. apply in_map_iff in Hu as (c & <- & Hc). apply in_map. auto.
  - intros t b Hb. destruct (S2 t b Hb) as [Hc Hp]. apply K; eauto.
  - intros t q Hq Hu. apply Sm in Hq. apply S1 in Hu as [Hu _]. now apply (A7 t q).
  - intros t t' q Hq Hq'. apply Sm in Hq, Hq'. eauto.
Qed.

Lemma release_inv w t p : Inv w -> legal w (Release t p) -> exists w', release w t p = Ret w' /\ Inv w'.
Proof.
  intros I L. unfold release. destruct (Z.eqb_spec p 0); [exists w; auto|]. destruct L as [L|L]; [congruence|].
  pose proof (i_own w I p L) as O. apply in_map_iff in O as ((q & u) & E & Hb). cbn in E. subst q.
  pose proof (usable_size_in w (p, u) I Hb) as Us. cbn [fst snd] in Us. rewrite Us. cbn [bind].
  destruct ((THRESHOLD <=? u) && (zlen (cache w t) <? MAX_SLOTS)) eqn:C.
  - assert (zlen (cache w t) <? 128 = true) as -> by (unfold MAX_SLOTS in C; lia). eexists. split; [reflexivity|].
    assert (forall v, In p (map fst (cache w v)) -> False) as Np by (intros v Hv; now apply (i_sep w I v p)).
    destruct I as [A1 A2 A3 A4 A5 A6 A7 A8 A9]. constructor; cbn [heap used cache]; auto.
    + now apply drop_nodup.
    + intros x Hx. apply drop_in in Hx; [|assumption]. apply A4. tauto.
    + intros v. rewrite set_cache_eq. destruct (Nat.eqb v t); [|auto]. rewrite map_app. cbn. apply NoDup_app_snoc; [auto|]. eauto.
    + intros v b. rewrite set_cache_eq. destruct (Nat.eqb v t); [|apply A6]. intros Hv. apply in_app_iff in Hv as [Hv|[<-|[]]]; eauto.
    + intros v x. rewrite set_cache_eq. rewrite drop_in by assumption. destruct (Nat.eqb v t).
      * rewrite map_app, in_app_iff. intros [Hx|[<-|[]]] [H1 H2]; [now apply (A7 t x)|now destruct H2].
      * intros Hx [H1 H2]. now apply (A7 v x).
    + intros v v' x. rewrite !set_cache_eq. destruct (Nat.eqb_spec v t) as [->|N1], (Nat.eqb_spec v' t) as [->|N2]; rewrite ?map_app, ?in_app_iff; cbn; intros H1 H2.
      * reflexivity.
      * destruct H1 as [H1|[<-|[]]]; [eauto|now destruct (Np v')].
      * destruct H2 as [H2|[<-|[]]]; [eauto|now destruct (Np v)].
      * eauto.
    + intros v. rewrite set_cache_eq. destruct (Nat.eqb v t); [|auto]. rewrite zlen_app. change (zlen [(p, u)]) with 1. lia.
  - destruct (free_in (heap w) p) as (h1 & h2 & u' & E & F); [apply in_map_iff; now exists (p, u)|]. rewrite F. cbn [bind]. eexists. split; [reflexivity|].
    apply (free_inv w p h1 h2 u' I E).
    + apply drop_nodup, I.
    + intros x Hx. apply drop_in in Hx; [exact Hx|apply I].
    + apply I.
    + intros v b Hb'. split; [exact Hb'|]. intros <-. apply (i_sep w I v (fst b)); [now apply in_map|exact L].
    + apply I.
Qed.

Lemma exit_inv w t : Inv w -> exists w', thread_exit w t = Ret w' /\ Inv w'.
Proof.
  unfold thread_exit. remember (cache w t) as l eqn:El. revert w El. induction l as [|[p u] l IH]; intros w El I.
  - cbn. eexists. split; [reflexivity|]. destruct I as [A1 A2 A3 A4 A5 A6 A7 A8 A9]. constructor; cbn [heap used cache]; auto; intros v; rewrite ?set_cache_eq; intros; rewrite ?set_cache_eq in *.
    all: destruct (Nat.eqb v t); cbn in *; auto; try tauto; try constructor; try (unfold MAX_SLOTS; rewrite ?zlen_nil; lia); eauto.
    destruct (Nat.eqb t' t); [destruct H0|eauto].
  - cbn [free_all]. assert (In (p, u) (heap w)) as Hin by (apply (i_cown w I t); rewrite <- El; now left).
    destruct (free_in (heap w) p) as (h1 & h2 & u' & E & F); [apply in_map_iff; now exists (p, u)|]. rewrite F. cbn [bind].
    set (w1 := World (h1 ++ h2) (used w) (set_cache (cache w) t l)).
    assert (Inv w1) as I1.
    { apply (free_inv w p h1 h2 u' I E).
      - apply I.
      - intros x Hx. split; [exact Hx|]. intros ->. apply (i_sep w I t p); [rewrite <- El; now left|exact Hx].
      - intros v. rewrite set_cache_eq. destruct (Nat.eqb v t); [|apply I]. pose proof (i_cache w I t) as N. rewrite <- El in N. now inversion N.
      - intros v b. rewrite set_cache_eq. destruct (Nat.eqb_spec v t) as [->|N]; intros Hb.
        + split; [rewrite <- El; now right|]. pose proof (i_cache w I t) as N. rewrite <- El in N. inversion N; subst. intros E'. apply H1. rewrite <- E'. now apply in_map.
        + split; [exact Hb|]. intros E'. apply N. apply (i_sep2 w I v t p); [rewrite <- E'; now apply in_map|rewrite <- El; now left].
      - intros v. rewrite set_cache_eq. pose proof (i_count w I t) as C. rewrite <- El, zlen_cons in C. destruct (Nat.eqb v t); [lia|apply I]. }
    destruct (IH w1) as (w' & R & I'); [cbn; now rewrite set_cache_eq, Nat.eqb_refl|exact I1|]. cbn [heap used cache w1] in R.
    destruct (free_all (h1 ++ h2) l) as [h| |]; try discriminate R. cbn [bind] in *. apply Ret_inj in R. subst w'.
    eexists. split; [reflexivity|]. destruct I' as [A1 A2 A3 A4 A5 A6 A7 A8 A9]. cbn [heap used cache] in *.
    assert (forall v, set_cache (set_cache (cache w) t l) t [] v = set_cache (cache w) t [] v) as Q by (intros v; rewrite !set_cache_eq; now destruct (Nat.eqb v t)).
    constructor; cbn [heap used cache]; auto; intros v; intros; repeat match goal with H : context [set_cache (cache w) t [] ?x] |- _ => rewrite <- (Q x) in H | |- context [set_cache (cache w) t [] ?x] => rewrite <- (Q x) end; eauto.
Qed.

Lemma exec_inv w o : Inv w -> legal w o -> exists w', exec w o = Ret w' /\ Inv w'.
Proof.
  intros I L. destruct o as [t bytes align fresh|t p|t]; cbn [exec].
  - eexists. split; [reflexivity|]. now apply alloc_inv.
  - now apply release_inv.
  - now apply exit_inv.
Qed.
Lemma run_inv ops : forall w, Inv w -> legal_run w ops -> exists w', run w ops = Ret w' /\ Inv w'.
Proof.
  induction ops as [|o ops IH]; intros w I L; [exists w; auto|]. inversion L as [|w0 o0 ops0 Lo Ln]; subst. cbn. destruct (exec_inv w o I Lo) as (w1 & E & I1). rewrite E. cbn [bind]. apply IH; auto.
Qed.

(** ** C40 *)

(** No sequence of operations frees or measures a pointer that is not a block of
    the C library, writes past the table of slots, or keeps more than 128
    buffers for a thread; a buffer in some cache is not in use. *)
Theorem C40_safe : forall ops, legal_run world0 ops -> exists w, run world0 ops = Ret w /\
  (forall t, zlen (cache w t) <= 128) /\ (forall t p u, In (p, u) (cache w t) -> ~ In p (used w) /\ In (p, u) (heap w)).
Proof.
  intros ops L. destruct (run_inv ops world0 inv0 L) as (w & E & I). exists w. split; [exact E|]. split; [apply I|].
  intros t p u H. split; [|now apply (i_cown w I t)]. apply (i_sep w I t). now apply (in_map fst _ (p, u)).
Qed.

(** After any history, a buffer returned is at least as large and as aligned as
    requested and apart from every buffer in use. *)
Theorem C40_no_alias : forall ops w t bytes align fresh w' p,
  legal_run world0 ops -> run world0 ops = Ret w -> legal w (Alloc t bytes align fresh) ->
  alloc w t bytes align fresh = (w', p) -> p <> 0 ->
  exists u, In (p, u) (heap w') /\ bytes <= u /\ (align | p) /\ In p (used w') /\
    forall q v, In q (used w) -> In (q, v) (heap w) -> disjoint (p, u) (q, v) /\ p <> q.
Proof.
  intros ops w t bytes align fresh w' p L R Lg A P. destruct (run_inv ops world0 inv0 L) as (w1 & E & I). rewrite R in E. apply Ret_inj in E. subst w1.
  destruct Lg as ((k & Hk & ->) & Fr). unfold alloc in A. destruct (0 <=? (if THRESHOLD <=? bytes then _ else _)) eqn:B.
  - destruct (THRESHOLD <=? bytes); [|lia]. destruct (best_fit_ok bytes (2 ^ k) (cache w t)) as [(X & _)|(Hr & Ft & _)]; [cbv zeta in X; lia|].
    set (r := best_fit _ _ _ _ _ _) in *. unfold take_slot in A. apply pair_inj in A as [<- <-]. cbn [heap used].
    set (b := znth (0, 0) (cache w t) r) in *. assert (In b (cache w t)) as Hb by now apply znth_In.
    unfold fits in Ft. apply andb_prop in Ft as [F1 F2]. exists (snd b).
    assert (In b (heap w)) as Hh by now apply (i_cown w I t). assert (~ In (fst b) (used w)) as Nu by (apply (i_sep w I t); now apply in_map).
    split; [now destruct b|]. split; [lia|]. split; [apply land_align; lia|]. split; [now left|].
    intros q v Hq Hv. assert (fst b <> q) as N by congruence. split; [|exact N]. replace (fst b, snd b) with b by now destruct b. now apply (heap_apart w b (q, v) I).
  - destruct fresh as [b|]; apply pair_inj in A as [<- <-]; [|congruence]. destruct Fr as (F1 & F2 & F3 & F4 & F5). cbn [heap used].
    exists (snd b). split; [left; now destruct b|]. conj; [now left|..].
    + intros q v Hq Hv. rewrite Forall_forall in F5. specialize (F5 _ Hv). split; [now destruct b|]. intros E. unfold disjoint in F5. cbn in F5.
      pose proof (i_pos w I) as Ps. rewrite Forall_forall in Ps. specialize (Ps _ Hv). cbn in Ps. lia.
Qed.

(** A request of at least 16384 bytes is served from the calling thread's cache
    whenever it has a suitable buffer, with a smallest one. *)
Theorem C40_best_fit : forall ops w t bytes k fresh w' p,
  legal_run world0 ops -> run world0 ops = Ret w -> 0 <= k -> 16384 <= bytes ->
  (exists q v, In (q, v) (cache w t) /\ bytes <= v /\ (2 ^ k | q)) ->
  alloc w t bytes (2 ^ k) fresh = (w', p) ->
  heap w' = heap w /\ exists u, In (p, u) (cache w t) /\ forall q v, In (q, v) (cache w t) -> bytes <= v -> (2 ^ k | q) -> u <= v.
Proof.
  intros ops w t bytes k fresh w' p L R Hk Hb (q & v & Hq & Hv & Hd) A. destruct (run_inv ops world0 inv0 L) as (w1 & E & I). rewrite R in E. apply Ret_inj in E. subst w1.
  unfold alloc in A. assert (THRESHOLD <=? bytes = true) as T by (unfold THRESHOLD; lia). rewrite T in A.
  assert (forall q v, In (q, v) (cache w t) -> bytes <= v -> (2 ^ k | q) -> fits bytes (2 ^ k) (q, v) = true) as Ft.
  { intros q' v' _ H1 H2. unfold fits. cbn [fst snd]. apply land_align in H2; [|exact Hk]. rewrite H2. lia. }
  destruct (best_fit_ok bytes (2 ^ k) (cache w t)) as [(X & F)|(Hr & F1 & F2)].
  - exfalso. rewrite Forall_forall in F. destruct (F _ Hq) as [Y|Y]; [rewrite Ft in Y by assumption; discriminate Y|].
    pose proof (i_pos w I) as Ps. rewrite Forall_forall in Ps. specialize (Ps _ (i_cown w I t _ Hq)). cbn in Y, Ps. unfold SIZE_MAX in Y. lia.
  - set (r := best_fit _ _ _ _ _ _) in *. replace (0 <=? r) with true in A by lia. unfold take_slot in A. apply pair_inj in A as [<- <-]. cbn [heap]. split; [reflexivity|].
    set (b := znth (0, 0) (cache w t) r) in *. exists (snd b). split; [replace (fst b, snd b) with b by (now destruct b); now apply znth_In|].
    intros q' v' H1 H2 H3. rewrite Forall_forall in F2. destruct (F2 _ H1) as [Y|Y]; [rewrite Ft in Y by assumption; discriminate Y|exact Y].
Qed.
Print Assumptions C40_safe.
Print Assumptions C40_no_alias.
Print Assumptions C40_best_fit.

(** A buffer of 20000 bytes is released and reused for 18000; while it is in use
    the next request of that size gets another one. *)
Example C40_case : let ops := [Alloc 0 20000 64 (Some (4096, 20008)); Release 0 4096; Alloc 0 18000 32 (Some (65536, 18008)); Alloc 0 18000 32 (Some (131072, 18008))] in
  legal_run world0 ops /\ exists w, run world0 ops = Ret w /\ used w = [131072; 4096] /\ zlen (heap w) = 2.
Proof.
  split; [|eexists; split; [reflexivity|split; reflexivity]].
  assert (forall k, 0 <= k -> exists k', 0 <= k' /\ 2 ^ k = 2 ^ k') as P by eauto.
  apply lr_cons; [split; [apply (P 6); lia|]|intros w' E; apply Ret_inj in E; subst w'].
  { repeat split; cbn; try lia; [now exists 64|constructor]. }
  apply lr_cons; [right; now left|intros w' E; apply Ret_inj in E; subst w'].
  apply lr_cons; [split; [apply (P 5); lia|]|intros w' E; apply Ret_inj in E; subst w'].
  { repeat split; cbn; try lia; [now exists 2048|]. repeat constructor; unfold disjoint; cbn; lia. }
  apply lr_cons; [split; [apply (P 5); lia|]|intros w' E; apply Ret_inj in E; subst w'; apply lr_nil].
  repeat split; cbn; try lia; [now exists 4096|]. apply Forall_cons; [|apply Forall_nil]. unfold disjoint; cbn; lia.
Qed.
