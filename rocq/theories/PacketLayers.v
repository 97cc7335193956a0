(** The inclusion tag tree over several layers: the code in step with the standard. *)
From Verif Require Import Base BaseLemmas ChainModel PacketModel PacketTree PacketCode PacketSim PacketSafe PacketLayerSpec.

(** A node's value is known, or it is known to be at least [v]. *)
Definition ready (v : Z) (n : node) : Prop := st n <> 0 \/ v <= cur n.
(** Nothing is known below a node that is not known. *)
Definition mono (t : tree) : Prop := forall i, 0 <= i < zlen t - 1 -> st (nd t (par (nd t i))) = 0 -> st (nd t i) = 0 /\ cur (nd t i) <= cur (nd t (par (nd t i))).
(** [t'] is [t] with some nodes of the path raised, but not above their parents. *)
Record rel (P : Z -> Prop) (t t' : tree) : Prop := {
  rl_same : same t t';
  rl_out : forall j, 0 <= j < zlen t -> ~ P j -> nd t' j = nd t j;
  rl_in : forall j, 0 <= j < zlen t -> exists c, nd t' j = set_current c (nd t j) /\ cur (nd t j) <= c /\ (st (nd t j) <> 0 -> c = cur (nd t j)) /\
    c <= Z.max (cur (nd t j)) (if par (nd t j) <? 0 then cur (nd t j) else cur (nd t' (par (nd t j)))) }.
Lemma set_current_id n : set_current (cur n) n = n.
Proof. destruct n; reflexivity. Qed.
Lemma rel_refl P t : rel P t t.
Proof. constructor; [apply same_refl|reflexivity|]. intros j Hj. exists (cur (nd t j)). rewrite set_current_id. split; [reflexivity|]. split; [lia|]. split; [reflexivity|lia]. Qed.
Lemma raise_is n t i : topo n t -> 0 <= i < zlen t -> raise_to_parent t (nd t i) = Ret (std_raise t (nd t i)).
Proof.
  intros T Hi. unfold raise_to_parent, std_raise. destruct (Z.ltb_spec (par (nd t i)) 0) as [G|G]; [reflexivity|]. destruct (Z.eq_dec i (zlen t - 1)) as [->|D]; [destruct (tp_root _ _ T); lia|].
  pose proof (tp_par _ _ T i ltac:(lia)) as (P1 & P2 & P3). rewrite nget_in by lia. go. replace (0 <? lev (nd t i)) with true by lia. cbn [andb]. destruct (Z.ltb_spec (cur (nd t i)) (cur (nd t (par (nd t i))))) as [L|L].
  - rewrite Z.max_r by lia. reflexivity.
  - rewrite Z.max_l by lia. rewrite set_current_id. reflexivity.
Qed.
Lemma raise_keeps t n : lev (std_raise t n) = lev n /\ idx (std_raise t n) = idx n /\ par (std_raise t n) = par n /\ kids (std_raise t n) = kids n.
Proof. unfold std_raise. destruct (par n <? 0); auto. Qed.
Lemma rel_raise n P t t' i : topo n t -> rel P t t' -> P i -> 0 <= i < zlen t -> st (nd t i) = 0 -> rel P t (nput t' i (std_raise t' (nd t' i))).
Proof.
  intros T R Hi Hr Hs. pose proof R as [Sm Ro Ri]. pose proof (sm_len _ _ Sm) as SL. destruct (Ri i Hr) as (c & Ec & C1 & C2 & C3). pose proof (sm_nd _ _ Sm i Hr) as (_ & _ & Ep & _).
  assert (std_raise t' (nd t' i) = set_current (if par (nd t i) <? 0 then c else Z.max c (cur (nd t' (par (nd t i))))) (nd t i)) as Er by (unfold std_raise; rewrite <- Ep, Ec; destruct (par (nd t i) <? 0); reflexivity).
  assert (forall j, 0 <= j < zlen t -> cur (nd t' j) <= cur (nd (nput t' i (std_raise t' (nd t' i))) j)) as Mo.
  { intros j Hj. rewrite nput_nd by lia. destruct (Z.eqb_spec i j) as [<-|]; [|lia]. rewrite Er, Ec. cbn [cur set_current]. destruct (par (nd t i) <? 0); lia. }
  constructor.
  - apply (same_trans _ t'); [exact Sm|]. apply same_nput; [apply same_refl|lia| | | |]; apply raise_keeps.
  - intros j Hj HP. rewrite nput_nd by lia. destruct (Z.eqb_spec i j) as [<-|]; [contradiction|]. auto.
  - intros j Hj. rewrite nput_nd by lia. destruct (Z.eqb_spec i j) as [<-|D].
    + eexists. split; [exact Er|]. destruct (Z.ltb_spec (par (nd t i)) 0) as [G|G]; [split; [lia|]; split; [contradiction|]; lia|]. split; [lia|]. split; [contradiction|].
      assert (par (nd t i) <> i) as Dp. { destruct (Z.eq_dec i (zlen t - 1)) as [->|]; [destruct (tp_root _ _ T); lia|]. pose proof (tp_par _ _ T i ltac:(lia)). lia. }
      assert (0 <= par (nd t i) < zlen t) as Rp. { destruct (Z.eq_dec i (zlen t - 1)) as [->|]; [destruct (tp_root _ _ T); lia|]. pose proof (tp_par _ _ T i ltac:(lia)). lia. }
      rewrite nput_other by lia. lia.
    + destruct (Ri j Hj) as (d & Ed & D1 & D2 & D3). exists d. split; [exact Ed|]. split; [exact D1|]. split; [exact D2|]. destruct (Z.ltb_spec (par (nd t j)) 0) as [G|G]; [exact D3|].
      assert (0 <= par (nd t j) < zlen t) as Rp. { destruct (Z.eq_dec j (zlen t - 1)) as [->|]; [destruct (tp_root _ _ T); lia|]. pose proof (tp_par _ _ T j ltac:(lia)). lia. }
      specialize (Mo (par (nd t j)) Rp). lia.
Qed.

Section Layers.
Context {S : Type}.
Variable get : S -> ex (Z * S).
Hypothesis Hget : forall s, match get s with Ret (Some (b, _)) => bit01 b | _ => True end.

(** Looking for values of at most 0 finds none once all are at least 1. *)
Lemma first_pass n t (P : Z -> Prop) : topo n t -> (forall j, P j -> 0 <= j < zlen t /\ ready 1 (nd t j)) -> forall l t' b s, (forall j, In j l -> P j) -> rel P t t' ->
  exists t2, get_inclusion get 0 l t' b s = ret (t2, b, s) /\ rel P t t2.
Proof.
  intros T HP. induction l as [|i l IH]; intros t' b s Hl R; cbn [get_inclusion]; [exists t'; auto|]. pose proof (Hl i (or_introl eq_refl)) as Hi. destruct (HP i Hi) as [Hr Hd]. pose proof R as [Sm Ro Ri]. pose proof (sm_len _ _ Sm) as SL. destruct (Ri i Hr) as (c & Ec & C1 & C2 & C3).
  unfold get_inclusion_node. rewrite nget_in by lia. go. assert (st (nd t' i) = st (nd t i)) as Es by (rewrite Ec; reflexivity). rewrite Es. destruct (Z.eqb_spec (st (nd t i)) 0) as [E|E].
  - rewrite (raise_is n) by (try lia; eapply topo_same; eauto). go. assert (1 <= cur (std_raise t' (nd t' i))) as G. { assert (1 <= cur (nd t' i)) by (rewrite Ec; cbn [cur set_current]; destruct Hd; [contradiction|lia]). unfold std_raise. destruct (par (nd t' i) <? 0); cbn [cur set_current]; lia. }
    replace (cur (std_raise t' (nd t' i)) <=? 0) with false by lia. cbn [bindx]. rewrite bindx_ret. apply IH; [intros j Hj; apply Hl; right; exact Hj|]. eapply rel_raise; eauto.
  - rewrite bindx_ret. apply IH; [intros j Hj; apply Hl; right; exact Hj|exact R].
Qed.

Definition stepped (layer : Z) (b b' : bool) (n r m : node) : Prop :=
  st n <> 0 /\ m = n /\ b' = b \/
  st n = 0 /\ (layer < cur r /\ m = r /\ b' = b \/ cur r = layer /\ (m = set_state 1 (set_value layer r) /\ b' = true \/ m = set_current (layer + 1) r /\ b' = false)).
Lemma par_in n t i : topo n t -> 0 <= i < zlen t -> 0 <= par (nd t i) -> i < par (nd t i) < zlen t /\ i < zlen t - 1.
Proof. intros T Hi G. destruct (Z.eq_dec i (zlen t - 1)) as [->|D]; [destruct (tp_root _ _ T); lia|]. pose proof (tp_par _ _ T i ltac:(lia)). lia. Qed.
Lemma node_alike n layer i a a' b s (Q : Z -> Prop) : topo n a -> 0 <= layer < 65535 -> 0 <= i < zlen a -> rel Q a a' -> (forall j, Q j -> j <= i) -> ready layer (nd a i) ->
  match std_node get layer i a s, get_inclusion_node get layer i a' b s with
  | Ret (Some (x, s1)), Ret (Some (x', b', s2)) => s1 = s2 /\ rel (fun j => Q j /\ j <> i) x x' /\ exists m, x = nput a i m /\ stepped layer b b' (nd a i) (std_raise a (nd a i)) m
  | Ret None, Ret None | UB, UB | NoFuel, NoFuel => True
  | _, _ => False
  end.
Proof.
  intros T Hl Hi R HQ Hd. pose proof R as [Sm Ro Ri]. pose proof (sm_len _ _ Sm) as SL. pose proof (topo_same _ _ _ T Sm) as T'. destruct (Ri i Hi) as (c & Ec & C1 & C2 & C3).
  assert (std_raise a' (nd a' i) = std_raise a (nd a i)) as Er.
  { unfold std_raise. rewrite Ec. change (par (set_current c (nd a i))) with (par (nd a i)). destruct (Z.ltb_spec (par (nd a i)) 0) as [G|G]; [replace c with (cur (nd a i)) by lia; apply set_current_id|].
    pose proof (par_in _ _ _ T Hi G). rewrite (Ro (par (nd a i))) in C3 |- * by (try lia; intros X; apply HQ in X; lia). change (cur (set_current c (nd a i))) with c. replace (Z.max c _) with (Z.max (cur (nd a i)) (cur (nd a (par (nd a i))))) by lia. reflexivity. }
  assert (cur (nd a' i) <= cur (std_raise a (nd a i))) as Cr. { rewrite <- Er. unfold std_raise. destruct (par (nd a' i) <? 0); cbn [cur set_current]; lia. }
  assert (cur (nd a i) <= cur (std_raise a (nd a i))) as Cr2. { unfold std_raise. destruct (par (nd a i) <? 0); cbn [cur set_current]; lia. }
  assert (forall m, cur (nd a' i) <= cur m -> lev m = lev (nd a i) /\ idx m = idx (nd a i) /\ par m = par (nd a i) /\ kids m = kids (nd a i) -> rel (fun j => Q j /\ j <> i) (nput a i m) (nput a' i m)) as W.
  { intros m Cm (M1 & M2 & M3 & M4). pose proof (sm_nd _ _ Sm i Hi) as (S1 & S2 & S3 & S4). assert (forall j, 0 <= j < zlen a -> par (nd (nput a i m) j) = par (nd a j)) as Pj by (intros j Hj; rewrite nput_nd by lia; destruct (Z.eqb_spec i j) as [<-|]; auto).
    constructor.
    - apply (same_trans _ a); [apply same_sym, same_nput; auto using same_refl|]. apply same_nput; auto; try lia; congruence.
    - rewrite zlen_nput by lia. intros j Hj NQ. rewrite !nput_nd by lia. destruct (Z.eqb_spec i j) as [<-|D]; [reflexivity|]. apply Ro; [lia|]. intros X. apply NQ. auto.
    - rewrite zlen_nput by lia. intros j Hj. rewrite Pj by lia. destruct (Z.eq_dec i j) as [<-|D].
      + rewrite !nput_same by lia. exists (cur m). rewrite set_current_id. split; [reflexivity|]. split; [lia|]. split; [reflexivity|lia].
      + rewrite !(nput_other _ i j) by lia. destruct (Ri j Hj) as (d & Ed & D1 & D2 & D3). exists d. split; [exact Ed|]. split; [exact D1|]. split; [exact D2|]. destruct (Z.ltb_spec (par (nd a j)) 0) as [G|G]; [exact D3|].
        pose proof (par_in _ _ _ T Hj G). rewrite nput_nd by lia. destruct (Z.eqb_spec i (par (nd a j))) as [E9|]; [rewrite <- E9 in D3; lia|lia]. }
  unfold std_node, get_inclusion_node. rewrite nget_in by lia. go. assert (st (nd a' i) = st (nd a i)) as Es by (rewrite Ec; reflexivity). rewrite Es. destruct (Z.eqb_spec (st (nd a i)) 0) as [E|E].
  - rewrite (raise_is n) by (auto; lia). go. rewrite Er. cbv zeta. set (r := std_raise a (nd a i)) in *. assert (layer <= cur r) as Lr by (destruct Hd; [contradiction|lia]).
    assert (lev r = lev (nd a i) /\ idx r = idx (nd a i) /\ par r = par (nd a i) /\ kids r = kids (nd a i)) as Kr by apply raise_keeps.
    destruct (Z.leb_spec (cur r) layer) as [G|G].
    + replace (layer + 1 - cur r) with 1 by lia. change (Z.to_nat 1) with 1%nat. cbn [std_value]. pose proof (Hget s) as Hb. destruct (get s) as [[[v s1]|]| |]; go; try exact I. destruct (v =? 1); go; cbv iota.
      * split; [reflexivity|]. split; [apply W; [exact Cr|exact Kr]|]. exists (set_state 1 (set_value (cur r) r)). split; [reflexivity|]. right. split; [exact E|]. right. split; [lia|]. left. split; [f_equal; f_equal; lia|reflexivity].
      * rewrite Z.mod_small by lia. split; [reflexivity|]. split; [apply W; [cbn [cur set_current]; lia|exact Kr]|]. eexists. split; [reflexivity|]. right. split; [exact E|]. right. split; [lia|]. right. split; [f_equal; lia|reflexivity].
    + replace (Z.to_nat (layer + 1 - cur r)) with 0%nat by lia. cbn [std_value]. go. cbv iota. split; [reflexivity|]. split; [apply W; [exact Cr|exact Kr]|]. exists r. split; [reflexivity|]. right. split; [exact E|]. left. auto.
  - split; [reflexivity|]. assert (nd a' i = nd a i) as Ei by (rewrite Ec, (C2 E); apply set_current_id). split.
    + pose proof (W (nd a i) ltac:(rewrite Ei; lia) ltac:(auto)) as X. rewrite nput_id in X by lia. rewrite <- Ei in X at 1. rewrite nput_id in X by lia. exact X.
    + exists (nd a i). split; [symmetry; apply nput_id; lia|]. left. auto.
Qed.

(** What a visit of the path [l] to [i] leaves. *)
Record visited (layer : Z) (l : list Z) (i : Z) (t a : tree) (b : bool) : Prop := {
  vs_same : same t a; vs_mono : mono a;
  vs_off : forall j, 0 <= j < zlen t -> ~ In j l -> nd a j = nd t j;
  vs_on : forall j, In j l -> (st (nd t j) <> 0 -> nd a j = nd t j) /\ ready (layer + 1) (nd a j);
  vs_yes : b = true -> st (nd a i) <> 0 /\ st (nd t i) = 0 /\ cur (nd t i) <= layer /\ cur (nd a i) <= layer;
  vs_no : b = false -> st (nd t i) = 0 -> st (nd a i) = 0 }.
Lemma mono_step n layer b b' a i m : topo n a -> mono a -> 0 <= i < zlen a -> stepped layer b b' (nd a i) (std_raise a (nd a i)) m ->
  (i < zlen a - 1 -> ready (layer + 1) (nd a (par (nd a i)))) -> mono (nput a i m).
Proof.
  intros T M Hi St Hp. assert (par m = par (nd a i)) as Pm. { pose proof (raise_keeps a (nd a i)) as (_ & _ & K & _). destruct St as [(_ & -> & _)|(_ & [(_ & -> & _)|(_ & [(-> & _)|(-> & _)])])]; auto. }
  assert (cur (nd a i) <= cur m) as Cm. { assert (cur (nd a i) <= cur (std_raise a (nd a i))) by (unfold std_raise; destruct (par (nd a i) <? 0); cbn [cur set_current]; lia). destruct St as [(_ & -> & _)|(_ & [(_ & -> & _)|(X & [(-> & _)|(-> & _)])])]; cbn [cur set_current set_state set_value] in *; lia. }
  assert (st m = 0 -> st (nd a i) = 0) as Sm0 by (destruct St as [(_ & -> & _)|(E & _)]; auto).
  intros j. rewrite zlen_nput by lia. intros Hj. assert (par (nd (nput a i m) j) = par (nd a j)) as -> by (rewrite nput_nd by lia; destruct (Z.eqb_spec i j) as [<-|]; auto).
  pose proof (tp_par _ _ T j Hj) as (P1 & P2 & P3). rewrite !nput_nd by lia. destruct (Z.eqb_spec i j) as [<-|D].
  - replace (i =? par (nd a i)) with false by lia. intros E0. destruct (M i Hj E0) as [M1 M2]. specialize (Hp ltac:(lia)). destruct Hp as [Hp|Hp]; [contradiction|].
    assert (cur (std_raise a (nd a i)) = cur (nd a (par (nd a i)))) as Er. { unfold std_raise. replace (par (nd a i) <? 0) with false by lia. cbn [cur set_current]. lia. }
    destruct St as [(X & _)|(_ & [(_ & -> & _)|(X & _)])]; [contradiction| |lia]. split; [|lia]. unfold std_raise. destruct (par (nd a i) <? 0); exact M1.
  - destruct (Z.eqb_spec i (par (nd a j))) as [E|E]; [|apply M; exact Hj]. subst i. intros E0. destruct (M j Hj (Sm0 E0)) as [M1 M2]. split; [exact M1|lia].
Qed.
Lemma std_path_app layer l1 l2 : forall t s, std_path get layer (l1 ++ l2) t s = let? (t, s) := std_path get layer l1 t s in std_path get layer l2 t s.
Proof. induction l1 as [|i l IH]; intros t s; cbn [app std_path]; [rewrite bindx_ret; reflexivity|]. destruct (std_node get layer i t s) as [[[a s1]|]| |]; go; auto. Qed.
Lemma path_alike n layer t l i : topo n t -> 0 <= layer < 65535 -> mono t -> Up t l i -> (forall j, In j l -> ready layer (nd t j)) -> forall (P : Z -> Prop) t' s, (forall j, P j -> In j l \/ j < i) -> rel P t t' ->
  match std_path get layer l t s, get_inclusion get layer l t' false s with
  | Ret (Some (a, s1)), Ret (Some (a', b, s2)) => s1 = s2 /\ rel (fun j => P j /\ ~ In j l) a a' /\ visited layer l i t a b
  | Ret None, Ret None | UB, UB | NoFuel, NoFuel => True
  | _, _ => False
  end.
Proof.
  intros T Hl M U. induction U as [|l i Hi U IH]; intros HR P t' s HP R.
  - cbn [std_path get_inclusion]. pose proof (tp_len _ _ T) as L.
    pose proof (node_alike n layer (zlen t - 1) t t' false s P T Hl ltac:(lia) R) as N. specialize (N ltac:(intros j Hj; destruct (HP j Hj) as [[<-|[]]|]; lia) (HR _ (or_introl eq_refl))).
    destruct (std_node get layer (zlen t - 1) t s) as [[[x s1]|]| |], (get_inclusion_node get layer (zlen t - 1) t' false s) as [[[[x' b'] s2]|]| |]; go; cbv iota; auto. destruct N as (<- & R2 & m & -> & St). cbn [ret]. split; [reflexivity|]. split.
    + destruct R2 as [A1 A2 A3]. constructor; auto. intros j Hj NP. apply A2; [exact Hj|]. intros [X Y]. apply NP. split; [exact X|]. intros [Z0|[]]. congruence.
    + assert (lev m = lev (nd t (zlen t - 1)) /\ idx m = idx (nd t (zlen t - 1)) /\ par m = par (nd t (zlen t - 1)) /\ kids m = kids (nd t (zlen t - 1))) as (K1 & K2 & K3 & K4). { pose proof (raise_keeps t (nd t (zlen t - 1))). destruct St as [(_ & -> & _)|(_ & [(_ & -> & _)|(_ & [(-> & _)|(-> & _)])])]; auto. }
      assert (std_raise t (nd t (zlen t - 1)) = nd t (zlen t - 1)) as Er by (unfold std_raise; destruct (tp_root _ _ T) as [-> _]; reflexivity). rewrite Er in St.
      constructor.
      * apply same_nput; auto using same_refl; lia.
      * apply (mono_step n layer false b'); auto; try lia. rewrite Er. exact St.
      * intros j Hj NI. rewrite nput_other; auto; try lia. intros E. apply NI. left. exact E.
      * intros j [<-|[]]. rewrite nput_same by lia. split; [intros X; destruct St as [(_ & -> & _)|(Y & _)]; [reflexivity|contradiction]|]. destruct St as [(X & -> & _)|(_ & [(X & -> & _)|(_ & [(-> & _)|(-> & _)])])]; unfold ready; cbn [st cur set_state set_value set_current]; lia.
      * intros ->. rewrite nput_same by lia. destruct St as [(_ & _ & X)|(Y & [(_ & _ & X)|(Z0 & [(-> & _)|(_ & X)])])]; try discriminate X. cbn [st set_state cur set_value]. split; [lia|]. split; [exact Y|lia].
      * intros -> X. rewrite nput_same by lia. destruct St as [(Y & _)|(_ & [(_ & -> & _)|(_ & [(_ & Y)|(-> & _)])])]; [contradiction|exact X|discriminate Y|exact X].
  - rewrite std_path_app, get_inclusion_app. pose proof (tp_par _ _ T i Hi) as (P1 & P2 & P3). pose proof (Up_range _ _ _ _ T U) as [_ Ur]. assert (~ In i l) as NI by (intros X; apply Ur in X; lia).
    specialize (IH ltac:(intros j Hj; apply HR, in_or_app; auto) P t' s). specialize (IH ltac:(intros j Hj; destruct (HP j Hj) as [X|X]; [apply in_app_or in X; destruct X as [X|[<-|[]]]; [auto|right; lia]|right; lia]) R).
    destruct (std_path get layer l t s) as [[[a s1]|]| |], (get_inclusion get layer l t' false s) as [[[[a' b] s2]|]| |]; go; cbv iota; auto; try contradiction. destruct IH as (<- & R2 & V). cbn [std_path get_inclusion].
    pose proof V as [V1 V2 V3 V4 V5 V6]. pose proof (sm_len _ _ V1) as VL. pose proof (topo_same _ _ _ T V1) as Ta. assert (nd a i = nd t i) as Ei by (apply V3; [lia|exact NI]).
    pose proof (node_alike n layer i a a' b s1 (fun j => P j /\ ~ In j l) Ta Hl ltac:(lia) R2) as N.
    specialize (N ltac:(intros j [X Y]; destruct (HP j X) as [W|W]; [apply in_app_or in W; destruct W as [W|[<-|[]]]; [contradiction|lia]|lia]) ltac:(rewrite Ei; apply HR, in_or_app; right; left; reflexivity)).
    destruct (std_node get layer i a s1) as [[[x s3]|]| |], (get_inclusion_node get layer i a' b s1) as [[[[x' b'] s4]|]| |]; go; cbv iota; auto. destruct N as (<- & R3 & m & -> & St). cbn [ret]. split; [reflexivity|]. split.
    + destruct R3 as [A1 A2 A3]. constructor; auto. intros j Hj NP. apply A2; [exact Hj|]. intros [[X Y] Z0]. apply NP. split; [exact X|]. intros W. apply in_app_or in W. destruct W as [W|[W|[]]]; [contradiction|congruence].
    + assert (lev m = lev (nd a i) /\ idx m = idx (nd a i) /\ par m = par (nd a i) /\ kids m = kids (nd a i)) as (K1 & K2 & K3 & K4). { pose proof (raise_keeps a (nd a i)). destruct St as [(_ & -> & _)|(_ & [(_ & -> & _)|(_ & [(-> & _)|(-> & _)])])]; auto. }
      assert (In (par (nd t i)) l) as Ip by (inversion U as [E|? ? ? ? E]; [left; lia|apply in_or_app; right; left; reflexivity]).
      assert (par (nd a i) = par (nd t i)) as Pa by congruence. destruct (V4 _ Ip) as [Vk Vr].
      constructor.
      * apply same_nput; auto; lia.
      * apply (mono_step n layer b b'); auto; try lia. intros _. rewrite Pa. exact Vr.
      * intros j Hj N2. rewrite nput_other; try lia; [apply V3; [exact Hj|]; intros X; apply N2, in_or_app; auto|]. intros E. apply N2, in_or_app. right. left. exact E.
      * intros j Hj. apply in_app_or in Hj. destruct Hj as [Hj|[<-|[]]].
        -- assert (i <> j) by (intros <-; contradiction). pose proof (Ur j Hj). rewrite nput_other by lia. apply V4. exact Hj.
        -- rewrite nput_same by lia. rewrite <- Ei. split; [intros X; destruct St as [(_ & -> & _)|(Y & _)]; [reflexivity|contradiction]|]. destruct St as [(X & -> & _)|(_ & [(X & -> & _)|(_ & [(-> & _)|(-> & _)])])]; unfold ready; cbn [st cur set_state set_value set_current]; lia.
      * intros ->. rewrite nput_same by lia. rewrite <- Ei. destruct St as [(Y & -> & <-)|(Y & [(Z0 & -> & <-)|(Z0 & [(-> & _)|(_ & X)])])]; [| | |discriminate X].
        -- exfalso. destruct (V5 eq_refl) as (_ & W & _). apply Y. rewrite Ei. apply (M i Hi W).
        -- exfalso. destruct (V5 eq_refl) as (W1 & W & W2 & W3). destruct (M i Hi W) as [_ W4]. unfold std_raise in Z0. rewrite Pa, Ei in Z0. replace (par (nd t i) <? 0) with false in Z0 by lia. cbn [cur set_current] in Z0. lia.
        -- cbn [st set_state]. split; [lia|]. split; [exact Y|]. assert (cur (nd a i) <= cur (std_raise a (nd a i))) by (unfold std_raise; destruct (par (nd a i) <? 0); cbn [cur set_current]; lia). split; [lia|]. cbn [cur set_state set_value]. lia.
      * intros -> X. rewrite nput_same by lia. rewrite <- Ei in X. destruct St as [(Y & _)|(_ & [(_ & -> & _)|(_ & [(_ & Y)|(-> & _)])])]; [contradiction| |discriminate Y|]; unfold std_raise; destruct (par (nd a i) <? 0); exact X.
Qed.

Lemma rel_eq (Q : Z -> Prop) t t' : rel Q t t' -> (forall j, ~ Q j) -> t' = t.
Proof. intros [Sm Ro _] N. apply (znth_ext node0); [symmetry; apply Sm|]. intros j Hj. rewrite <- (sm_len _ _ Sm) in Hj. auto. Qed.
Lemma mono_path n t l i : topo n t -> mono t -> Up t l i -> st (nd t i) <> 0 -> forall j, In j l -> st (nd t j) <> 0.
Proof.
  intros T M U. induction U as [|l i Hi U IH]; intros E j Hj; [destruct Hj as [<-|[]]; exact E|]. apply in_app_or in Hj. destruct Hj as [Hj|[<-|[]]]; [|exact E]. apply IH; auto. intros X. apply E. apply (M i Hi X).
Qed.
Definition phld (ccap : Z) (b : cb) : cb :=
  if HT <=? cmodes b then let m := Z.lor (cmodes b) HT_PHLD in with_modes b (if has ccap 49152 then Z.lor m HT_MIXED else m) else b.
Lemma first_alike n fuel layer ccap i b inc zbp s l : topo n inc -> mono inc -> Up inc l i -> (forall j, In j l -> ready layer (nd inc j)) -> 0 <= layer < 65535 -> st (nd inc i) = 0 ->
  first_inclusion get fuel layer ccap i b inc zbp s = std_first_inclusion get fuel layer ccap i b inc zbp s /\
  forall inc' zbp' is b' s', std_first_inclusion get fuel layer ccap i b inc zbp s = ret (inc', zbp', is, b', s') ->
    visited layer l i inc inc' is /\ is = negb (st (nd inc' i) =? 0) /\ included b' = is || included b.
Proof.
  intros T M U HR Hl Hs. unfold first_inclusion, std_first_inclusion. cbv zeta. fold (phld ccap b). assert (included (phld ccap b) = included b) as Ib by (unfold phld; destruct (HT <=? cmodes b); reflexivity). pose proof (Up_range _ _ _ _ T U) as [Hi Ur]. destruct (tree_path_ok n inc i T Hi) as (p & -> & Up' & Hh). go. rewrite (Up_det _ _ _ _ _ T Up' U).
  assert (match std_path get layer l inc s, (let? (inc, is, s) := if 0 <? layer then get_inclusion get 0 l inc false s else ret (inc, false, s) in get_inclusion get layer l inc is s) with
    | Ret (Some (a, s1)), Ret (Some (a', b, s2)) => s1 = s2 /\ a' = a /\ visited layer l i inc a b
    | Ret None, Ret None | UB, UB | NoFuel, NoFuel => True
    | _, _ => False
    end) as H.
  { destruct (Z.ltb_spec 0 layer) as [G|G].
    - destruct (first_pass n inc (fun j => In j l) T) with (l := l) (t' := inc) (b := false) (s := s) as (t2 & E2 & R2); auto using rel_refl.
      { intros j Hj. split; [specialize (Ur j Hj); lia|]. destruct (HR j Hj) as [X|X]; [left; exact X|right; lia]. }
      rewrite E2, bindx_ret. pose proof (path_alike n layer inc l i T Hl M U HR (fun j => In j l) t2 s ltac:(auto) R2) as A.
      destruct (std_path get layer l inc s) as [[[a s1]|]| |], (get_inclusion get layer l t2 false s) as [[[[a' b0] s2]|]| |]; auto. destruct A as (A1 & A2 & A3). split; [exact A1|]. split; [|exact A3]. apply (rel_eq _ _ _ A2). tauto.
    - rewrite bindx_ret. pose proof (path_alike n layer inc l i T Hl M U HR (fun j => False) inc s ltac:(tauto) (rel_refl _ _)) as A.
      destruct (std_path get layer l inc s) as [[[a s1]|]| |], (get_inclusion get layer l inc false s) as [[[[a' b0] s2]|]| |]; auto. destruct A as (A1 & A2 & A3). split; [exact A1|]. split; [|exact A3]. apply (rel_eq _ _ _ A2). tauto. }
  set (X := if 0 <? layer then _ else _) in *. clearbody X.
  assert (forall K : tree * bool * S -> ex (tree * tree * bool * cb * S), (let? (inc0, _, s0) := X in let? r := get_inclusion get layer l inc0 false s0 in K r) = (let? r := (let? (inc0, _, s0) := X in get_inclusion get layer l inc0 false s0) in K r)) as _ by (intros K; destruct X as [[[[? ?] ?]|]| |]; reflexivity).
  destruct X as [[[[ti bi] si]|]| |]; cbn [bindx] in H |- *.
  - destruct (std_path get layer l inc s) as [[[a s1]|]| |], (get_inclusion get layer l ti bi si) as [[[[a' is] s2]|]| |]; cbn [bindx]; try contradiction; try (split; [reflexivity|discriminate]). destruct H as (<- & -> & V).
    assert (is = negb (st (nd a i) =? 0)) as Eis. { destruct is; [destruct (vs_yes _ _ _ _ _ _ V eq_refl) as (W & _); destruct (Z.eqb_spec (st (nd a i)) 0); [contradiction|reflexivity]|rewrite (vs_no _ _ _ _ _ _ V eq_refl Hs); reflexivity]. }
    cbv beta iota. rewrite <- Eis. split; [reflexivity|]. intros inc' zbp' is' b' s' E. destruct is.
    + apply bindx_inv in E. destruct E as ([z1 s3] & _ & E). cbv beta iota in E. apply bindx_inv in E. destruct E as (nd1 & _ & E). injection E as <- <- <- <- <-. split; [exact V|]. split; [exact Eis|]. reflexivity.
    + injection E as <- <- <- <- <-. split; [exact V|]. split; [exact Eis|]. exact Ib.
  - destruct (std_path get layer l inc s) as [[[a s1]|]| |]; try contradiction. split; [reflexivity|discriminate].
  - destruct (std_path get layer l inc s) as [[[a s1]|]| |]; try contradiction. split; [reflexivity|discriminate].
  - destruct (std_path get layer l inc s) as [[[a s1]|]| |]; try contradiction. split; [reflexivity|discriminate].
Qed.

(** *** Reading a contribution leaves alone whether a block was included *)
Lemma add_included b p n b' : add_segment b p n = ret b' -> included b' = included b.
Proof.
  unfold add_segment. destruct (_ <? _); [discriminate|]. cbv zeta. destruct (_ <? _); [discriminate|]. destruct (zero_fill _ _ _ _) as [[l c]| |]; cbn [bind]; try discriminate. destruct (wr _ _ _); cbn [bind]; try discriminate. intros E. injection E as <-. reflexivity.
Qed.
Lemma ht_included fuel : forall b new next empty s b' s', ht_segments get fuel b new next empty s = ret (b', s') -> included b' = included b.
Proof.
  induction fuel as [|fuel IH]; intros b new next empty s b' s' E; cbn [ht_segments] in E; [discriminate|]. destruct (new <=? 0); [injection E as <- <-; reflexivity|]. cbv zeta in E. apply bindx_inv in E. destruct E as ([v s1] & _ & E). cbv beta iota in E. apply bindx_inv in E. destruct E as ([b1 e1] & E1 & E). cbv beta iota in E. apply bindx_inv in E. destruct E as (b2 & E2 & E).
  apply IH in E. apply add_included in E2. rewrite E, E2. clear -E1. repeat match type of E1 with (if ?c then _ else _) = _ => destruct c end; try discriminate E1; injection E1 as <- <-; reflexivity.
Qed.
Lemma plain_included fuel : forall b new next term s b' s', plain_segments get fuel b new next term s = ret (b', s') -> included b' = included b.
Proof.
  induction fuel as [|fuel IH]; intros b new next term s b' s' E; cbn [plain_segments] in E; [discriminate|]. destruct (new <=? 0); [injection E as <- <-; reflexivity|]. destruct (if negb (term =? 0) then _ else _) as [[sp nx] bits]. apply bindx_inv in E. destruct E as ([v s1] & _ & E). cbv beta iota in E. apply bindx_inv in E. destruct E as (b2 & E2 & E).
  apply IH in E. apply add_included in E2. congruence.
Qed.
Lemma set_included b layer v b' : lift (set_layer_passes b layer v) = ret b' -> included b' = included b.
Proof. unfold set_layer_passes. destruct (wr _ _ _); go; try discriminate. intros E. injection E as <-. reflexivity. Qed.
Lemma start_included b layer b' : lift (start_layer b layer) = ret b' -> included b' = included b.
Proof. unfold start_layer. destruct (wr _ _ _); go; try discriminate. intros E. injection E as <-. reflexivity. Qed.
Lemma contribution_included fuel layer b s b' s' : contribution get fuel layer b s = ret (b', s') -> included b' = included b.
Proof.
  unfold contribution. intros E. apply bindx_inv in E. destruct E as ([new s1] & _ & E). cbv beta iota in E. apply bindx_inv in E. destruct E as (b1 & E1 & E). apply set_included in E1. apply bindx_inv in E. destruct E as ([lb s2] & _ & E). cbv beta iota zeta in E. apply bindx_inv in E. destruct E as ([g s3] & _ & E). cbv beta iota in E. apply bindx_inv in E. destruct E as (b2 & E2 & E). apply add_included in E2. cbn [included with_modes with_lblock] in E2.
  destruct (_ =? HT); [apply ht_included in E|apply plain_included in E]; cbn [included with_fskip] in E; congruence.
Qed.

(** *** A packet *)
(** Before block [i] of the packet for [layer]. *)
Record tree_at (n layer i : Z) (t : tree) : Prop := {
  ta_topo : topo n t; ta_mono : mono t;
  ta_done : forall k l j, 0 <= k < i -> Up t l k -> In j l -> ready (layer + 1) (nd t j);
  ta_todo : forall k l j, i <= k < n -> Up t l k -> In j l -> ready layer (nd t j) }.
Definition flag (t : tree) (i : Z) (b : cb) : Prop := included b = negb (st (nd t i) =? 0).
Fixpoint flags (t : tree) (i : Z) (bs : list cb) : Prop := match bs with [] => True | b :: bs => flag t i b /\ flags t (i + 1) bs end.
Lemma flags_ext t t' bs : forall i, (forall k, i <= k < i + zlen bs -> st (nd t' k) = st (nd t k)) -> flags t i bs -> flags t' i bs.
Proof.
  induction bs as [|b bs IH]; intros i H F; [exact I|]. rewrite zlen_cons in H. pose proof (zlen_nonneg bs). destruct F as [F1 F2]. split; [unfold flag in *; rewrite H by lia; exact F1|]. apply IH; auto. intros k Hk. apply H. lia.
Qed.
Lemma block_alike n fuel layer ccap i b inc zbp s : 0 <= layer < 65535 -> 0 <= i < n -> tree_at n layer i inc -> flag inc i b ->
  parse_block get fuel layer ccap i b inc zbp s = std_block get fuel layer ccap i b inc zbp s /\
  forall inc' zbp' b' s', std_block get fuel layer ccap i b inc zbp s = ret (inc', zbp', b', s') -> tree_at n layer (i + 1) inc' /\ flag inc' i b' /\ forall k, 0 <= k < n -> k <> i -> nd inc' k = nd inc k.
Proof.
  intros Hl Hi TA F. pose proof TA as [T M TD TT]. pose proof (tp_len _ _ T) as L. unfold parse_block, std_block. destruct (lift (start_layer b layer)) as [[b1|]| |] eqn:E1; cbn [bindx]; try (split; [reflexivity|discriminate]). apply start_included in E1. unfold flag in F. rewrite E1. destruct (tree_path_ok n inc i T ltac:(lia)) as (p & _ & U & _).
  destruct (included b) eqn:Eb.
  - split; [reflexivity|]. intros inc' zbp' b' s' E. apply bindx_inv in E. destruct E as ([[[[i1 z1] is1] b2] s1] & E2 & E). apply bindx_inv in E2. destruct E2 as ([v s2] & _ & E2). cbv beta iota in E2. injection E2 as <- <- <- <- <-. cbv beta iota in E.
    assert (inc' = inc /\ included b' = true) as [-> Fb]. { destruct (negb (v =? 0)); apply bindx_inv in E; [destruct E as ([b3 s3] & E3 & E); cbv beta iota in E; apply contribution_included in E3|destruct E as (b3 & E3 & E); apply set_included in E3]; injection E as <- <- <- <-; split; congruence. }
    assert (st (nd inc i) <> 0) as Sn by (destruct (Z.eqb_spec (st (nd inc i)) 0); [discriminate F|assumption]).
    split; [|split; [unfold flag; rewrite Fb; exact F|reflexivity]]. constructor; auto; [|intros k l j Hk; apply TT; lia]. intros k l j Hk Ul Hj. destruct (Z.eq_dec k i) as [->|D]; [|apply (TD k l j); auto; lia]. left. apply (mono_path n inc l i); auto.
  - assert (st (nd inc i) = 0) as S0 by (destruct (Z.eqb_spec (st (nd inc i)) 0); [assumption|discriminate F]).
    destruct (first_alike n fuel layer ccap i b1 inc zbp s (rev p) T M U ltac:(intros j Hj; apply (TT i (rev p)); auto; lia) Hl S0) as [-> H]. split; [reflexivity|]. intros inc' zbp' b' s' E. apply bindx_inv in E. destruct E as ([[[[i1 z1] is1] b2] s1] & E2 & E). cbv beta iota in E. destruct (H _ _ _ _ _ E2) as (V & His & Hb2). rewrite E1, orb_false_r in Hb2.
    assert (inc' = i1 /\ included b' = is1) as [-> Fb]. { destruct is1; apply bindx_inv in E; [destruct E as ([b3 s3] & E3 & E); cbv beta iota in E; apply contribution_included in E3|destruct E as (b3 & E3 & E); apply set_included in E3]; injection E as <- <- <- <-; split; congruence. }
    destruct V as [V1 V2 V3 V4 V5 V6]. pose proof (Up_range _ _ _ _ T U) as [_ Ur].
    assert (forall v j, 0 <= j < zlen inc -> v <= layer + 1 -> ready v (nd inc j) -> ready v (nd i1 j)) as W. { intros v j Hj Hv Hr. destruct (in_dec Z.eq_dec j (rev p)) as [I1|I1]; [destruct (V4 j I1) as [_ [X|X]]; [left; exact X|right; lia]|rewrite V3 by auto; exact Hr]. }
    assert (forall k l j, 0 <= k < n -> Up i1 l k -> In j l -> 0 <= j < zlen inc /\ Up inc l k) as Wu. { intros k l j Hk Ul Hj. pose proof (Up_same _ _ _ _ (same_sym _ _ V1) Ul) as U2. pose proof (Up_range _ _ _ _ T U2) as [_ X]. specialize (X j Hj). split; [lia|exact U2]. }
    split; [|split].
    + constructor; [eapply topo_same; eauto|exact V2| |].
      * intros k l j Hk Ul Hj. destruct (Wu k l j ltac:(lia) Ul Hj) as [Hr U2]. destruct (Z.eq_dec k i) as [->|D]; [|apply W; try lia; apply (TD k l j); auto; lia]. rewrite (Up_det _ _ _ _ _ T U2 U) in Hj. apply V4. exact Hj.
      * intros k l j Hk Ul Hj. destruct (Wu k l j ltac:(lia) Ul Hj) as [Hr U2]. apply W; try lia. apply (TT k l j); auto; lia.
    + unfold flag. rewrite Fb. exact His.
    + intros k Hk D. apply V3; [lia|]. intros X. apply Ur in X. lia.
Qed.
Lemma blocks_alike n fuel layer ccap : 0 <= layer < 65535 -> forall bs i inc zbp s, 0 <= i -> i + zlen bs <= n -> tree_at n layer i inc -> flags inc i bs ->
  parse_blocks get fuel layer ccap i bs inc zbp s = std_blocks get fuel layer ccap i bs inc zbp s /\
  forall inc' zbp' bs' s', std_blocks get fuel layer ccap i bs inc zbp s = ret (inc', zbp', bs', s') -> tree_at n layer (i + zlen bs) inc' /\ flags inc' i bs' /\ zlen bs' = zlen bs /\ forall k, 0 <= k < i -> nd inc' k = nd inc k.
Proof.
  intros Hl. induction bs as [|b bs IH]; intros i inc zbp s Hi Hn TA F; cbn [parse_blocks std_blocks].
  - split; [reflexivity|]. intros inc' zbp' bs' s' E. injection E as <- <- <- <-. change (zlen []) with 0. rewrite Z.add_0_r. auto.
  - rewrite zlen_cons in Hn. pose proof (zlen_nonneg bs) as Nb. destruct F as [F1 F2]. destruct (block_alike n fuel layer ccap i b inc zbp s Hl ltac:(lia) TA F1) as [-> H]. destruct (std_block get fuel layer ccap i b inc zbp s) as [[[[[i1 z1] b1] s1]|]| |]; cbn [bindx]; try (split; [reflexivity|discriminate]). destruct (H _ _ _ _ eq_refl) as (TA1 & F3 & K1).
    assert (flags i1 (i + 1) bs) as F4 by (apply (flags_ext inc); auto; intros k Hk; rewrite K1 by lia; reflexivity).
    destruct (IH (i + 1) i1 z1 s1 ltac:(lia) ltac:(lia) TA1 F4) as [-> H2]. split; [reflexivity|]. intros inc' zbp' bs' s' E. apply bindx_inv in E. destruct E as ([[[i2 z2] bs2] s2] & E2 & E). cbv beta iota in E. injection E as <- <- <- <-. destruct (H2 _ _ _ _ E2) as (A1 & A2 & A3 & A4). rewrite !zlen_cons. replace (i + (1 + zlen bs)) with (i + 1 + zlen bs) by lia.
    split; [exact A1|]. split; [split; [unfold flag in *; rewrite A4 by lia; exact F3|exact A2]|]. split; [lia|]. intros k Hk. rewrite A4, K1 by lia. reflexivity.
Qed.
(** A band before the packet for [layer]. *)
Definition band_at (layer : Z) (d : band) : Prop := 0 <= bnx d /\ 0 <= bny d /\ zlen (bblocks d) = bnx d * bny d /\ (bnx d * bny d <> 0 -> tree_at (bnx d * bny d) layer 0 (binc d) /\ flags (binc d) 0 (bblocks d)).
Lemma next_layer n layer t : tree_at n layer n t -> tree_at n (layer + 1) 0 t.
Proof. intros [T M D _]. constructor; [exact T|exact M|intros; lia|]. intros k l j Hk U Hj. apply (D k l j); auto. Qed.
Lemma header_alike fuel layer ccap d s : 0 <= layer < 65535 -> band_at layer d -> parse_packet_header get fuel layer ccap d s = std_header get fuel layer ccap d s /\
  forall d' s', std_header get fuel layer ccap d s = ret (d', s') -> band_at (layer + 1) d'.
Proof.
  intros Hl (B1 & B2 & B3 & B4). unfold parse_packet_header, std_header. destruct (Z.eqb_spec (bnx d * bny d) 0) as [E|E].
  - split; [reflexivity|]. intros d' s' X. injection X as <- <-. repeat split; auto; contradiction.
  - destruct (B4 E) as [TA F]. destruct (blocks_alike (bnx d * bny d) fuel layer ccap Hl (bblocks d) 0 (binc d) (bzbp d) s ltac:(lia) ltac:(lia) TA F) as [-> H]. split; [reflexivity|]. intros d' s' X. apply bindx_inv in X. destruct X as ([[[i2 z2] bs2] s2] & E2 & X). cbv beta iota in X. injection X as <- <-. destruct (H _ _ _ _ E2) as (A1 & A2 & A3 & _). split; [exact B1|]. split; [exact B2|]. cbn [bnx bny bblocks binc]. split; [lia|]. intros _. split; [|exact A2]. apply next_layer. rewrite B3 in A1. exact A1.
Qed.
Lemma bands_alike fuel layer ccap : 0 <= layer < 65535 -> forall ds s, Forall (band_at layer) ds -> parse_bands get fuel layer ccap ds s = std_bands get fuel layer ccap ds s /\
  forall ds' s', std_bands get fuel layer ccap ds s = ret (ds', s') -> Forall (band_at (layer + 1)) ds'.
Proof.
  intros Hl. induction ds as [|d ds IH]; intros s F; cbn [parse_bands std_bands]; [split; [reflexivity|]; intros ds' s' X; injection X as <- <-; constructor|]. inversion F as [|? ? F1 F2]; subst. destruct (header_alike fuel layer ccap d s Hl F1) as [-> H]. destruct (std_header get fuel layer ccap d s) as [[[d1 s1]|]| |]; cbn [bindx]; try (split; [reflexivity|discriminate]).
  destruct (IH s1 F2) as [-> H2]. split; [reflexivity|]. intros ds' s' X. apply bindx_inv in X. destruct X as ([ds2 s2] & E2 & X). cbv beta iota in X. injection X as <- <-. constructor; [exact (H _ _ eq_refl)|exact (H2 _ _ E2)].
Qed.
Lemma layers_alike fuel ccap next : forall n ds s, Z.of_nat n <= 65535 -> Forall (band_at 0) ds ->
  all_layers (fun layer => parse_bands get fuel layer ccap) next n ds s = all_layers (fun layer => std_bands get fuel layer ccap) next n ds s /\
  forall ds' s', all_layers (fun layer => std_bands get fuel layer ccap) next n ds s = ret (ds', s') -> Forall (band_at (Z.of_nat n)) ds'.
Proof.
  induction n as [|n IH]; intros ds s Hn F; cbn [all_layers]; [split; [reflexivity|]; intros ds' s' X; injection X as <- <-; exact F|]. destruct (IH ds s ltac:(lia) F) as [-> H]. destruct (all_layers _ next n ds s) as [[[d1 s1]|]| |]; cbn [bindx]; try (split; [reflexivity|discriminate]). specialize (H _ _ eq_refl).
  destruct (next (Z.of_nat n) s1) as [[s2|]| |]; cbn [bindx]; try (split; [reflexivity|discriminate]). destruct (bands_alike fuel (Z.of_nat n) ccap ltac:(lia) d1 s2 H) as [-> H2]. split; [reflexivity|]. intros ds' s' X. replace (Z.of_nat (Datatypes.S n)) with (Z.of_nat n + 1) by lia. exact (H2 _ _ X).
Qed.
End Layers.
