(** Tag trees written and read in step, and the lengths of segments. *)
From Verif Require Import Base BaseLemmas ChainModel ChainProps PacketModel PacketTree.

Ltac go := cbn [bind bindx lift ret throw].

(** Bits from a list; the end of the list stops the parser. *)
Definition list_bit (l : list Z) : ex (Z * list Z) := match l with [] => throw | b :: l => ret (b, l) end.

(** ** Same shape *)
Record same (t t' : tree) : Prop := {
  sm_len : zlen t = zlen t';
  sm_nd : forall i, 0 <= i < zlen t -> lev (nd t i) = lev (nd t' i) /\ idx (nd t i) = idx (nd t' i) /\ par (nd t i) = par (nd t' i) /\ kids (nd t i) = kids (nd t' i) }.
Lemma same_refl t : same t t.
Proof. constructor; auto. Qed.
Lemma same_trans a b c : same a b -> same b c -> same a c.
Proof.
  intros [L1 N1] [L2 N2]. constructor; [congruence|]. intros i Hi. pose proof (N1 i Hi) as (A1 & A2 & A3 & A4). pose proof (N2 i ltac:(lia)) as (B1 & B2 & B3 & B4). repeat split; congruence.
Qed.
Lemma same_sym a b : same a b -> same b a.
Proof. intros [L1 N1]. constructor; [congruence|]. intros i Hi. pose proof (N1 i ltac:(lia)) as (A1 & A2 & A3 & A4). repeat split; congruence. Qed.
Lemma same_nput t t' i n : same t t' -> 0 <= i < zlen t' -> lev n = lev (nd t' i) -> idx n = idx (nd t' i) -> par n = par (nd t' i) -> kids n = kids (nd t' i) -> same t (nput t' i n).
Proof.
  intros [L N] Hi E1 E2 E3 E4. constructor; [rewrite zlen_nput by lia; exact L|]. intros j Hj. rewrite nput_nd by lia. pose proof (N j Hj) as (A1 & A2 & A3 & A4).
  destruct (Z.eqb_spec i j) as [<-|]; [|auto]. repeat split; congruence.
Qed.
Lemma topo_same n t t' : topo n t -> same t t' -> topo n t'.
Proof.
  intros [L I P R M K In0] [SL SN]. constructor; rewrite <- SL.
  - exact L.
  - intros i Hi. pose proof (SN i Hi) as (_ & E & _). rewrite <- E. auto.
  - intros i Hi. pose proof (SN i ltac:(lia)) as (E1 & _ & E & _). rewrite <- E, <- E1. auto.
  - pose proof (SN (zlen t - 1) ltac:(lia)) as (E1 & _ & E & _). rewrite <- E, <- E1. auto.
  - intros i Hi. pose proof (SN i ltac:(lia)) as (E1 & _ & E & _). rewrite <- E. pose proof (P i Hi). pose proof (SN (par (nd t i)) ltac:(lia)) as (_ & _ & _ & E4). rewrite <- E4. auto.
  - intros p c Hp Hc. pose proof (SN p Hp) as (_ & _ & _ & E4). rewrite <- E4 in Hc. pose proof (K p c Hp Hc) as [K1 K2]. pose proof (SN c ltac:(lia)) as (_ & _ & E & _). rewrite <- E. auto.
  - intros p Hp. pose proof (SN p ltac:(lia)) as (_ & _ & _ & E4). rewrite <- E4. auto.
Qed.

Lemma nd_eta n : n = Node (lev n) (idx n) (par n) (kids n) (st n) (cur n) (val n) (isset n).
Proof. destruct n; reflexivity. Qed.
Lemma nput_id t i : 0 <= i < zlen t -> nput t i (nd t i) = t.
Proof.
  intros H. apply (znth_ext node0); [apply zlen_nput; exact H|]. rewrite zlen_nput by exact H. intros j Hj. rewrite nput_nd by lia. destruct (Z.eqb_spec i j) as [->|]; reflexivity.
Qed.

(** ** Paths, root first *)
Inductive Up (t : tree) : list Z -> Z -> Prop :=
| up_root : Up t [zlen t - 1] (zlen t - 1)
| up_step l i : 0 <= i < zlen t - 1 -> Up t l (par (nd t i)) -> Up t (l ++ [i]) i.
Lemma path_up_ok n t : topo n t -> forall fuel i, 0 <= i < zlen t -> zlen t - i <= Z.of_nat fuel ->
  exists p, path_up fuel t (nd t i) = Ret p /\ Up t (rev p) i /\ hd 0 p = i.
Proof.
  intros T. induction fuel as [|fuel IH]; intros i Hi Hf; [lia|]. cbn [path_up]. destruct (Z.eq_dec i (zlen t - 1)) as [->|D].
  - destruct (tp_root _ _ T) as [-> _]. change (-1 <? 0) with true. cbv iota. rewrite (tp_idx _ _ T) by lia. eexists. split; [reflexivity|]. split; [apply up_root|reflexivity].
  - pose proof (tp_par _ _ T i ltac:(lia)) as (P1 & P2 & _). replace (par (nd t i) <? 0) with false by lia. rewrite nget_in by lia. go.
    destruct (IH (par (nd t i)) ltac:(lia) ltac:(lia)) as (p & E & U & _). rewrite E. go. rewrite (tp_idx _ _ T) by lia. eexists. split; [reflexivity|]. cbn [rev hd]. split; [apply up_step; [lia|exact U]|reflexivity].
Qed.
Lemma tree_path_ok n t i : topo n t -> 0 <= i < zlen t -> exists p, tree_path t i = Ret p /\ Up t (rev p) i /\ hd 0 p = i.
Proof. intros T Hi. unfold tree_path. rewrite nget_in by lia. go. apply (path_up_ok n); auto. unfold zlen in *. lia. Qed.
Lemma Up_range n t l i : topo n t -> Up t l i -> 0 <= i < zlen t /\ forall k, In k l -> i <= k < zlen t /\ (k = i \/ n <= k).
Proof.
  intros T U. pose proof (tp_len _ _ T) as L. induction U as [|l i Hi U IH].
  - split; [lia|]. intros k [<-|[]]. lia.
  - split; [lia|]. intros k Hk. apply in_app_or in Hk. pose proof (tp_par _ _ T i Hi) as (P1 & P2 & _). destruct IH as [_ IH]. destruct Hk as [Hk|[<-|[]]]; [|lia]. apply IH in Hk. lia.
Qed.
Lemma Up_same t t' l i : same t t' -> Up t l i -> Up t' l i.
Proof.
  intros Sm U. induction U as [|l i Hi U IH]; [rewrite (sm_len _ _ Sm); apply up_root|]. apply up_step; [rewrite <- (sm_len _ _ Sm); exact Hi|]. pose proof (sm_nd _ _ Sm i ltac:(lia)) as (_ & _ & E & _). rewrite <- E. exact IH.
Qed.
Lemma Up_det n t l l' i : topo n t -> Up t l i -> Up t l' i -> l = l'.
Proof.
  intros T U. revert l'. induction U as [|l i Hi U IH]; intros l' U'; inversion U' as [E|l2 i2 Hi2 U2 E]; subst; try lia; [reflexivity|f_equal; now apply IH].
Qed.

(** ** Building the values *)
Lemma least_ok t : forall l v, Forall (fun c => 0 <= c < zlen t) l ->
  exists m, least t v l = Ret m /\ m <= v /\ (forall c, In c l -> m <= val (nd t c)) /\ (m = v \/ exists c, In c l /\ m = val (nd t c)).
Proof.
  induction l as [|c l IH]; intros v F; cbn [least].
  - exists v. repeat split; auto; try lia. intros c [].
  - inversion F as [|c' l' Hc F']; subst. rewrite nget_in by lia. go. set (v' := if val (nd t c) <? v then val (nd t c) else v).
    assert (v' <= v /\ v' <= val (nd t c) /\ (v' = v \/ v' = val (nd t c))) as (V1 & V2 & V3) by (unfold v'; destruct (Z.ltb_spec (val (nd t c)) v); lia).
    destruct (IH v' F') as (m & E & M1 & M2 & M3). exists m. split; [exact E|]. split; [lia|]. split.
    + intros x [<-|Hx]; [lia|auto].
    + destruct M3 as [->|(x & Hx & Ex)]; [destruct V3 as [->| ->]; [auto|right; exists c; cbn; auto]|right; exists x; cbn; auto].
Qed.
Lemma build_ok (P : Z -> Prop) n t0 : topo n t0 -> (forall i, 0 <= i < zlen t0 -> isset (nd t0 i) = (i <? n)) -> (forall i, 0 <= i < n -> P (val (nd t0 i))) ->
  exists t, build t0 = Ret t /\ same t0 t /\ (forall i, 0 <= i < zlen t0 -> st (nd t i) = 0 /\ cur (nd t i) = 0 /\ P (val (nd t i))) /\
    (forall i, 0 <= i < n -> val (nd t i) = val (nd t0 i)) /\ (forall i, 0 <= i < zlen t0 - 1 -> val (nd t (par (nd t i))) <= val (nd t i)).
Proof.
  intros T Hs HP. unfold build. pose proof (tp_len _ _ T) as L.
  assert (forall k i t, Z.of_nat k = zlen t0 - i -> 0 <= i ->
    same t0 t -> (forall x, 0 <= x < i -> st (nd t x) = 0 /\ cur (nd t x) = 0 /\ P (val (nd t x))) -> (forall x, i <= x < zlen t0 -> nd t x = nd t0 x) ->
    (forall x, 0 <= x < n -> val (nd t x) = val (nd t0 x)) -> (forall p c, n <= p < i -> In c (kids (nd t0 p)) -> val (nd t p) <= val (nd t c)) ->
    exists t', build_loop k i t = Ret t' /\ same t0 t' /\ (forall x, 0 <= x < zlen t0 -> st (nd t' x) = 0 /\ cur (nd t' x) = 0 /\ P (val (nd t' x))) /\
      (forall x, 0 <= x < n -> val (nd t' x) = val (nd t0 x)) /\ (forall p c, n <= p < zlen t0 -> In c (kids (nd t0 p)) -> val (nd t' p) <= val (nd t' c))) as K.
  { induction k as [|k IH]; intros i t Ek Hi Sm D1 D2 D3 D4; cbn [build_loop].
    - assert (i = zlen t0) by lia. subst i. exists t. split; [reflexivity|]. auto.
    - pose proof (sm_len _ _ Sm) as SL. unfold build_node. rewrite nget_in by lia. go. rewrite (D2 i) by lia.
      set (n1 := set_state 0 (set_current 0 (nd t0 i))). change (isset n1) with (isset (nd t0 i)). change (kids n1) with (kids (nd t0 i)).
      pose proof (sm_nd _ _ Sm i ltac:(lia)) as (S1 & S2 & S3 & S4).
      rewrite Hs by lia. destruct (Z.ltb_spec i n) as [G|G].
      + go. apply IH; try lia.
        * apply same_nput; auto; try lia; cbn [n1 set_state set_current lev idx par kids]; auto.
        * intros x Hx. rewrite nput_nd by lia. destruct (Z.eqb_spec i x) as [<-|]; [|apply D1; lia]. split; [reflexivity|]. split; [reflexivity|]. apply HP; lia.
        * intros x Hx. rewrite nput_nd by lia. replace (i =? x) with false by lia. apply D2; lia.
        * intros x Hx. rewrite nput_nd by lia. destruct (Z.eqb_spec i x) as [<-|]; [reflexivity|]. apply D3; lia.
      + destruct (kids (nd t0 i)) as [|c0 l] eqn:Ek0; [exfalso; exact (tp_inner _ _ T i ltac:(lia) Ek0)|].
        assert (forall c, In c (c0 :: l) -> 0 <= c < i) as Kr by (intros c Hc; apply (tp_kid _ _ T i c ltac:(lia)); rewrite Ek0; exact Hc).
        rewrite nget_in by (rewrite zlen_nput by lia; pose proof (Kr c0 (or_introl eq_refl)); lia). go.
        destruct (least_ok (nput t i n1) l (val (nd (nput t i n1) c0))) as (m & E & M1 & M2 & M3).
        { apply Forall_forall. intros c Hc. rewrite zlen_nput by lia. pose proof (Kr c (or_intror Hc)). lia. }
        rewrite E. go.
        assert (forall c, In c (c0 :: l) -> nd (nput t i n1) c = nd t c) as Kn by (intros c Hc; pose proof (Kr c Hc); apply nput_other; lia).
        rewrite (Kn c0 (or_introl eq_refl)) in *.
        assert (forall c, In c (c0 :: l) -> m <= val (nd t c)) as Ml. { intros c [<-|Hc]; [exact M1|]. rewrite <- (Kn c (or_intror Hc)). auto. }
        assert (exists c, In c (c0 :: l) /\ m = val (nd t c)) as (cm & Hcm & Em).
        { destruct M3 as [->|(c & Hc & ->)]; [exists c0; cbn; auto|exists c; rewrite (Kn c (or_intror Hc)); cbn; auto]. }
        assert (nput (nput t i n1) i (set_value m n1) = nput t i (set_value m n1)) as Np.
        { assert (zlen (nput t i n1) = zlen t) as Z1 by (apply zlen_nput; lia). assert (zlen (nput (nput t i n1) i (set_value m n1)) = zlen t) as Z2 by (rewrite zlen_nput; lia).
          apply (znth_ext node0); [rewrite Z2, zlen_nput; lia|]. rewrite Z2. intros x Hx. rewrite !nput_nd by lia. destruct (i =? x); reflexivity. }
        rewrite Np. apply IH; try lia.
        * apply same_nput; auto; try lia; cbn [n1 set_value set_state set_current lev idx par kids]; auto; congruence.
        * intros x Hx. rewrite nput_nd by lia. destruct (Z.eqb_spec i x) as [<-|]; [|apply D1; lia]. split; [reflexivity|]. split; [reflexivity|]. cbn [set_value val]. rewrite Em. pose proof (Kr cm Hcm). apply D1; lia.
        * intros x Hx. rewrite nput_nd by lia. replace (i =? x) with false by lia. apply D2; lia.
        * intros x Hx. rewrite nput_nd by lia. destruct (Z.eqb_spec i x) as [<-|]; [lia|]. apply D3; lia.
        * intros p c Hp Hc. pose proof (tp_kid _ _ T p c ltac:(lia) Hc) as [Kc _]. rewrite !nput_nd by lia. replace (i =? c) with false by lia. destruct (Z.eqb_spec i p) as [<-|]; [rewrite Ek0 in Hc; cbn [set_value val]; auto|]. apply D4; auto; lia. }
  destruct (K (length t0) 0 t0) as (t & E & Sm & F & V & Mn); [unfold zlen; lia|lia|apply same_refl|intros x Hx; lia|reflexivity|reflexivity|intros p c Hp; lia|].
  exists t. split; [exact E|]. split; [exact Sm|]. split; [exact F|]. split; [exact V|]. intros i Hi. pose proof (sm_nd _ _ Sm i ltac:(lia)) as (_ & _ & Ep & _). rewrite <- Ep.
  pose proof (tp_par _ _ T i Hi) as (P1 & P2 & _). apply Mn; [lia|]. apply (tp_mem _ _ T); lia.
Qed.

(** ** Inclusion in the first layer *)
Definition decided (n : node) : Prop := st n = 1 \/ cur n = 1.
Record IInv (n : Z) (te td : tree) : Prop := {
  ii_topo : topo n te;
  ii_same : same te td;
  ii_eq : forall i, 0 <= i < zlen te -> cur (nd td i) = cur (nd te i) /\ st (nd td i) = st (nd te i);
  ii_nd : forall i, 0 <= i < zlen te -> (cur (nd te i) = 0 \/ cur (nd te i) = 1 /\ st (nd te i) = 0 /\ 0 < val (nd te i)) /\ (st (nd te i) = 0 \/ st (nd te i) = 1 /\ val (nd te i) <= 0);
  ii_min : forall i, 0 <= i < zlen te - 1 -> val (nd te (par (nd te i))) <= val (nd te i);
  ii_up : forall i, 0 <= i < zlen te - 1 -> decided (nd te i) -> decided (nd te (par (nd te i))) }.

Lemma inv_upd n te td i a b : IInv n te td -> 0 <= i < zlen te ->
  (lev a = lev (nd te i) /\ idx a = idx (nd te i) /\ par a = par (nd te i) /\ kids a = kids (nd te i) /\ val a = val (nd te i)) ->
  (lev b = lev (nd te i) /\ idx b = idx (nd te i) /\ par b = par (nd te i) /\ kids b = kids (nd te i)) ->
  cur b = cur a -> st b = st a -> decided a ->
  (cur a = 0 \/ cur a = 1 /\ st a = 0 /\ 0 < val a) -> (st a = 0 \/ st a = 1 /\ val a <= 0) ->
  (i < zlen te - 1 -> decided (nd te (par (nd te i)))) ->
  IInv n (nput te i a) (nput td i b).
Proof.
  intros [T Sm Eq N Mn U] Hi (A1 & A2 & A3 & A4 & A5) (B1 & B2 & B3 & B4) Ec Es Da Ca Sa Up0.
  pose proof (sm_len _ _ Sm) as SL. pose proof (sm_nd _ _ Sm) as SN. pose proof (tp_par _ _ T) as TP.
  assert (zlen (nput te i a) = zlen te) as L by (apply zlen_nput; lia).
  assert (forall x, 0 <= x < zlen te -> par (nd (nput te i a) x) = par (nd te x)) as Pe by (intros x Hx; rewrite nput_nd by lia; destruct (Z.eqb_spec i x) as [<-|]; auto).
  assert (forall x, 0 <= x < zlen te -> val (nd (nput te i a) x) = val (nd te x)) as Ve by (intros x Hx; rewrite nput_nd by lia; destruct (Z.eqb_spec i x) as [<-|]; auto).
  constructor; rewrite ?L.
  - apply (topo_same n te); [exact T|]. apply same_nput; auto using same_refl.
  - constructor; [rewrite !zlen_nput by lia; lia|]. rewrite L. intros x Hx. rewrite !nput_nd by lia. destruct (Z.eqb_spec i x) as [<-|]; [repeat split; congruence|auto].
  - intros x Hx. rewrite !nput_nd by lia. destruct (Z.eqb_spec i x) as [<-|]; auto.
  - intros x Hx. rewrite !nput_nd by lia. destruct (Z.eqb_spec i x) as [<-|]; auto.
  - intros x Hx. rewrite Pe by lia. pose proof (TP x Hx). rewrite !Ve by lia. auto.
  - intros x Hx. rewrite Pe by lia. pose proof (TP x Hx) as (P1 & _). rewrite !nput_nd by lia. destruct (Z.eqb_spec i x) as [<-|]; [replace (i =? par (nd te i)) with false by lia; intros _; apply Up0; lia|].
    intros D. destruct (Z.eqb_spec i (par (nd te x))) as [_|]; auto.
Qed.

Lemma put_inclusion_app thr l1 l2 : forall t w, put_inclusion thr (l1 ++ l2) t w = let* (t, w) := put_inclusion thr l1 t w in put_inclusion thr l2 t w.
Proof. induction l1 as [|i l1 IH]; intros t w; [reflexivity|]. cbn [app put_inclusion]. destruct (put_inclusion_node thr i t w) as [[t' w']| |]; [apply IH|reflexivity|reflexivity]. Qed.
Lemma get_inclusion_app {S} (get : S -> ex (Z * S)) thr l1 l2 : forall t b s, get_inclusion get thr (l1 ++ l2) t b s = let? (t, b, s) := get_inclusion get thr l1 t b s in get_inclusion get thr l2 t b s.
Proof. induction l1 as [|i l1 IH]; intros t b s; [reflexivity|]. cbn [app get_inclusion]. destruct (get_inclusion_node get thr i t b s) as [[[[t' b'] s']|]| |]; [apply IH|reflexivity|reflexivity|reflexivity]. Qed.
Lemma put_all_app w a b : put_all w (a ++ b) = put_all (put_all w a) b.
Proof. apply fold_left_app. Qed.

(** One node, whose parent is decided if it has one. *)
Lemma node_step n te td i inc : IInv n te td -> 0 <= i < zlen te -> (i < zlen te - 1 -> decided (nd te (par (nd te i))) /\ (inc = true -> st (nd te (par (nd te i))) = 1)) ->
  exists te' td' bs inc', (forall w, put_inclusion_node 0 i te w = Ret (te', put_all w bs)) /\
    (forall rest, get_inclusion_node list_bit 0 i td inc (bs ++ rest) = ret (td', inc', rest)) /\
    IInv n te' td' /\ Forall bit bs /\ decided (nd te' i) /\ (forall k, 0 <= k -> k <> i -> nd te' k = nd te k) /\
    (decided (nd te i) -> te' = te /\ td' = td /\ bs = [] /\ inc' = inc) /\
    (~ decided (nd te i) -> (inc' = true <-> val (nd te i) <= 0) /\ (inc' = true -> st (nd te' i) = 1)) /\ same te te'.
Proof.
  intros I Hi Hp. pose proof I as I0. destruct I as [T Sm Eq N Mn U]. pose proof (sm_len _ _ Sm) as SL.
  pose proof (Eq i Hi) as [Ec Es]. pose proof (N i Hi) as [N1 N2]. pose proof (sm_nd _ _ Sm i Hi) as (S1 & S2 & S3 & S4).
  unfold put_inclusion_node, get_inclusion_node. rewrite !nget_in by lia. go. rewrite Es.
  destruct (Z.eqb_spec (st (nd te i)) 0) as [Z0|Z0].
  2:{ exists te, td, [], inc. split; [reflexivity|]. split; [reflexivity|]. split; [exact I0|]. split; [constructor|]. split; [left; lia|]. split; [auto|]. split; [auto|]. split; [|apply same_refl]. intros D. exfalso. apply D. left. lia. }
  destruct N1 as [C0|(C1 & _ & V1)].
  2:{ (* known not to be included *)
    assert (raise_to_parent te (nd te i) = Ret (nd te i) /\ raise_to_parent td (nd td i) = Ret (nd td i)) as [R1 R2].
    { unfold raise_to_parent. rewrite <- S3. destruct (Z.ltb_spec (par (nd te i)) 0) as [G|G]; [auto|]. assert (i < zlen te - 1) as Hr by (destruct (Z.eq_dec i (zlen te - 1)) as [E|]; [rewrite E in G; destruct (tp_root _ _ T); lia|lia]).
      pose proof (tp_par _ _ T i ltac:(lia)) as (P1 & _). rewrite !nget_in by lia. go. pose proof (N (par (nd te i)) ltac:(lia)) as [M _]. pose proof (Eq (par (nd te i)) ltac:(lia)) as [Q _]. rewrite Q, Ec.
      replace (cur (nd te i) <? cur (nd te (par (nd te i)))) with false by lia. rewrite !andb_false_r. auto. }
    rewrite R1, R2. go. rewrite Ec. replace (cur (nd te i) <=? 0) with false by lia. rewrite !nput_id by lia.
    exists te, td, [], inc. split; [reflexivity|]. split; [reflexivity|]. split; [exact I0|]. split; [constructor|]. split; [right; lia|]. split; [auto|]. split; [auto|]. split; [|apply same_refl]. intros D. exfalso. apply D. right. lia. }
  assert (~ decided (nd te i)) as ND by (intros [D|D]; lia).
  (* undecided *)
  destruct (Z.eq_dec i (zlen te - 1)) as [Er|Er].
  - assert (par (nd te i) = -1) as P by (rewrite Er; apply T).
    unfold raise_to_parent. rewrite <- S3, P. change (-1 <? 0) with true. go. rewrite Ec, C0. change (0 <=? 0) with true. cbv iota. destruct (Z.leb_spec (val (nd te i)) 0) as [V|V].
    + eexists _, _, [1], true. split; [reflexivity|]. split; [reflexivity|]. split.
      { apply inv_upd; auto; cbn [set_state set_value lev idx par kids val cur st]; auto; try lia; try (repeat split; congruence). left. reflexivity. }
      split; [constructor; [right; reflexivity|constructor]|]. rewrite nput_same by lia. split; [left; reflexivity|]. split; [intros k Hk D; apply nput_other; lia|]. split; [contradiction|]. split; [|apply same_nput; cbn [set_state set_current set_value lev idx par kids]; auto using same_refl; congruence]. intros _. split; [tauto|reflexivity].
    + eexists _, _, [0], false. split; [reflexivity|]. split; [reflexivity|]. change ((0 + 1) mod 65536) with 1. change ((0 + 1) mod 256) with 1. split.
      { apply inv_upd; auto; cbn [set_current lev idx par kids val cur st]; auto; try lia; try (repeat split; congruence). right. reflexivity. }
      split; [constructor; [left; reflexivity|constructor]|]. rewrite nput_same by lia. split; [right; reflexivity|]. split; [intros k Hk D; apply nput_other; lia|]. split; [contradiction|]. split; [|apply same_nput; cbn [set_state set_current set_value lev idx par kids]; auto using same_refl; congruence]. intros _. split; [split; [discriminate|lia]|discriminate].
  - destruct (Hp ltac:(lia)) as [Dp Ip]. pose proof (tp_par _ _ T i ltac:(lia)) as (P1 & _ & P3). pose proof (N (par (nd te i)) ltac:(lia)) as [M1 M2]. pose proof (Eq (par (nd te i)) ltac:(lia)) as [Q1 Q2]. pose proof (Mn i ltac:(lia)) as Mi.
    unfold raise_to_parent. rewrite <- S3. replace (par (nd te i) <? 0) with false by lia. rewrite !nget_in by lia. go. rewrite Q1, Ec, <- S1. replace (0 <? lev (nd te i)) with true by lia. cbn [andb]. rewrite C0.
    destruct M1 as [M1|(M1 & M3 & M4)].
    + rewrite M1. change (0 <? 0) with false. go. rewrite Ec, C0. change (0 <=? 0) with true. cbv iota. destruct (Z.leb_spec (val (nd te i)) 0) as [V|V].
      * eexists _, _, [1], true. split; [reflexivity|]. split; [reflexivity|]. split.
        { apply inv_upd; auto; cbn [set_state set_value lev idx par kids val cur st]; auto; try lia; try (repeat split; congruence). left. reflexivity. }
        split; [constructor; [right; reflexivity|constructor]|]. rewrite nput_same by lia. split; [left; reflexivity|]. split; [intros k Hk D; apply nput_other; lia|]. split; [contradiction|]. split; [|apply same_nput; cbn [set_state set_current set_value lev idx par kids]; auto using same_refl; congruence]. intros _. split; [tauto|reflexivity].
      * eexists _, _, [0], false. split; [reflexivity|]. split; [reflexivity|]. change ((0 + 1) mod 65536) with 1. change ((0 + 1) mod 256) with 1. split.
        { apply inv_upd; auto; cbn [set_current lev idx par kids val cur st]; auto; try lia; try (repeat split; congruence). right. reflexivity. }
        split; [constructor; [left; reflexivity|constructor]|]. rewrite nput_same by lia. split; [right; reflexivity|]. split; [intros k Hk D; apply nput_other; lia|]. split; [contradiction|]. split; [|apply same_nput; cbn [set_state set_current set_value lev idx par kids]; auto using same_refl; congruence]. intros _. split; [split; [discriminate|lia]|discriminate].
    + rewrite M1. change (0 <? 1) with true. go. cbn [set_current cur]. change (1 <=? 0) with false. cbv iota.
      assert (inc = false) as -> by (destruct inc; [specialize (Ip eq_refl); lia|reflexivity]).
      eexists _, _, [], false. split; [reflexivity|]. split; [reflexivity|]. split.
      { apply inv_upd; auto; cbn [set_current lev idx par kids val cur st]; auto; try lia; try (repeat split; congruence). right. reflexivity. }
      split; [constructor|]. rewrite nput_same by lia. split; [right; reflexivity|]. split; [intros k Hk D; apply nput_other; lia|]. split; [contradiction|]. split; [|apply same_nput; cbn [set_state set_current set_value lev idx par kids]; auto using same_refl; congruence]. intros _. split; [split; [discriminate|lia]|discriminate].
Qed.

(** A whole path. *)
Lemma path_step n te td l i : IInv n te td -> Up te l i ->
  exists te' td' bs inc', (forall w, put_inclusion 0 l te w = Ret (te', put_all w bs)) /\
    (forall rest, get_inclusion list_bit 0 l td false (bs ++ rest) = ret (td', inc', rest)) /\
    IInv n te' td' /\ Forall bit bs /\ decided (nd te' i) /\ (forall k, 0 <= k -> ~ In k l -> nd te' k = nd te k) /\
    (decided (nd te i) -> te' = te /\ td' = td /\ bs = [] /\ inc' = false) /\
    (~ decided (nd te i) -> (inc' = true <-> val (nd te i) <= 0)) /\ (inc' = true -> st (nd te' i) = 1) /\ same te te'.
Proof.
  intros I U. induction U as [|l i Hi U IH].
  - pose proof (tp_len _ _ (ii_topo _ _ _ I)) as L. destruct (node_step n te td (zlen te - 1) false I ltac:(lia) ltac:(lia)) as (te' & td' & bs & inc' & H1 & H2 & H3 & H4 & H5 & H6 & H7 & H8 & H9).
    exists te', td', bs, inc'. split; [intros w; cbn [put_inclusion]; rewrite H1; reflexivity|]. split; [intros rest; cbn [get_inclusion]; rewrite H2; reflexivity|]. split; [exact H3|]. split; [exact H4|]. split; [exact H5|].
    split; [intros k Hk Nk; apply H6; [lia|]; intros ->; apply Nk; left; reflexivity|]. split; [exact H7|]. split; [apply H8|]. split; [|exact H9].
    intros E. destruct (Z.eq_dec (st (nd te (zlen te - 1))) 1) as [D|D]; [destruct H7 as (-> & _ & _ & ->); [left; exact D|]; discriminate E|].
    destruct (Z.eq_dec (cur (nd te (zlen te - 1))) 1) as [D1|D1]; [destruct H7 as (-> & _ & _ & ->); [right; exact D1|]; discriminate E|]. apply H8; [intros [X|X]; lia|exact E].
  - destruct IH as (te1 & td1 & bs1 & inc1 & H1 & H2 & H3 & H4 & H5 & H6 & H7 & H8 & H8' & H9).
    pose proof (sm_len _ _ H9) as H9'. pose proof (Up_range _ _ _ _ (ii_topo _ _ _ I) U) as [Rp Rl]. pose proof (tp_par _ _ (ii_topo _ _ _ I) i Hi) as (P1 & _).
    assert (~ In i l) as Ni by (intros X; apply Rl in X; lia).
    assert (nd te1 i = nd te i) as Ei by (apply H6; [lia|exact Ni]).
    destruct (node_step n te1 td1 i inc1 H3 ltac:(lia)) as (te' & td' & bs & inc' & G1 & G2 & G3 & G4 & G5 & G6 & G7 & G8 & G9).
    { intros _. rewrite Ei. auto. }
    exists te', td', (bs1 ++ bs), inc'. split; [intros w; rewrite put_inclusion_app, H1; go; cbn [put_inclusion]; rewrite G1; go; rewrite put_all_app; reflexivity|].
    split; [intros rest; rewrite <- app_assoc, get_inclusion_app, H2; go; cbn [get_inclusion]; rewrite G2; reflexivity|]. split; [exact G3|]. split; [apply Forall_app; auto|]. split; [exact G5|].
    split; [intros k Hk Nk; rewrite G6; [apply H6; [lia|]|lia|]; intros X; apply Nk; apply in_or_app; [left; exact X|right; left; auto]|].
    rewrite Ei in *. split; [|split; [|split; [|eapply same_trans; eassumption]]].
    + intros D. destruct (H7 (ii_up _ _ _ I i Hi D)) as (-> & -> & -> & ->). destruct (G7 D) as (-> & -> & -> & ->). auto.
    + intros D. apply (G8 D).
    + intros E. destruct (Z.eq_dec (st (nd te i)) 1) as [D|D]; [destruct (G7 (or_introl D)) as (-> & _); congruence|].
      destruct (Z.eq_dec (cur (nd te i)) 1) as [D1|D1]; [|apply G8; [intros [X|X]; lia|exact E]].
      destruct (G7 (or_intror D1)) as (_ & _ & _ & Ei'). destruct (H7 (ii_up _ _ _ I i Hi (or_intror D1))) as (_ & _ & _ & E1). congruence.
Qed.

(** ** Zero bit-planes *)
Record ZInv (n : Z) (te td : tree) : Prop := {
  zi_topo : topo n te;
  zi_same : same te td;
  zi_nd : forall i, 0 <= i < zlen te -> st (nd td i) = st (nd te i) /\ 0 <= val (nd te i) <= 255 /\
    (st (nd te i) = 0 /\ cur (nd td i) = 0 \/ st (nd te i) = 1 /\ cur (nd td i) = val (nd te i) /\ val (nd td i) = val (nd te i));
  zi_min : forall i, 0 <= i < zlen te - 1 -> val (nd te (par (nd te i))) <= val (nd te i);
  zi_up : forall i, 0 <= i < zlen te - 1 -> st (nd te i) = 1 -> st (nd te (par (nd te i))) = 1 }.
Lemma put_zeros_all k : forall w, put_zeros k w = put_all w (repeat 0 k).
Proof. induction k as [|k IH]; intros w; [reflexivity|]. apply IH. Qed.
Lemma zbp_loop_ok k : forall fuel v rest, (k < fuel)%nat -> 0 <= v -> v + Z.of_nat k <= 255 -> zbp_loop list_bit fuel v (repeat 0 k ++ 1 :: rest) = ret (v + Z.of_nat k, rest).
Proof.
  induction k as [|k IH]; intros fuel v rest Hf Hv Hs; destruct fuel as [|fuel]; try lia; cbn [zbp_loop repeat app list_bit]; go.
  - change (1 =? 0) with false. cbv iota. rewrite Z.add_0_r. reflexivity.
  - change (0 =? 0) with true. cbv iota. rewrite Z.mod_small by lia. rewrite IH by lia. f_equal. f_equal. lia.
Qed.
Lemma put_zbp_app l1 l2 : forall t w, put_zbp (l1 ++ l2) t w = let* (t, w) := put_zbp l1 t w in put_zbp l2 t w.
Proof. induction l1 as [|i l1 IH]; intros t w; [reflexivity|]. cbn [app put_zbp]. destruct (put_zbp_node i t w) as [[t' w']| |]; [apply IH|reflexivity|reflexivity]. Qed.
Lemma get_zbp_app {S} (get : S -> ex (Z * S)) fuel l1 l2 : forall t s, get_zbp get fuel (l1 ++ l2) t s = let? (t, s) := get_zbp get fuel l1 t s in get_zbp get fuel l2 t s.
Proof. induction l1 as [|i l1 IH]; intros t s; [reflexivity|]. cbn [app get_zbp]. destruct (get_zbp_node get fuel i t s) as [[[t' s']|]| |]; [apply IH|reflexivity|reflexivity|reflexivity]. Qed.

Lemma zbp_node_step n te td i fuel : ZInv n te td -> 0 <= i < zlen te -> (256 < fuel)%nat -> (i < zlen te - 1 -> st (nd te (par (nd te i))) = 1) ->
  exists te' td' bs, (forall w, put_zbp_node i te w = Ret (te', put_all w bs)) /\
    (forall rest, get_zbp_node list_bit fuel i td (bs ++ rest) = ret (td', rest)) /\
    ZInv n te' td' /\ Forall bit bs /\ st (nd te' i) = 1 /\ (forall k, 0 <= k < zlen te -> val (nd te' k) = val (nd te k)) /\ zlen te' = zlen te /\ same te te'.
Proof.
  intros I Hi Hf Hp. pose proof I as I0. destruct I as [T Sm N Mn U]. pose proof (sm_len _ _ Sm) as SL. pose proof (N i Hi) as (Es & Vi & Ni). pose proof (sm_nd _ _ Sm i Hi) as (S1 & S2 & S3 & S4).
  assert (exists thr, (if par (nd te i) <? 0 then Ret 0 else let* p := nget te (par (nd te i)) in Ret (val p)) = Ret thr /\ 0 <= thr <= val (nd te i) /\
    (if 0 <? lev (nd td i) then if par (nd td i) <? 0 then UB else let? p := lift (nget td (par (nd td i))) in ret (if cur (nd td i) <? cur p then set_current (cur p) (nd td i) else nd td i) else ret (nd td i)) =
      ret (if cur (nd td i) <? thr then set_current thr (nd td i) else nd td i)) as (thr & E1 & Ht & E2) .
  { rewrite <- S1, <- S3. destruct (Z.eq_dec i (zlen te - 1)) as [Er|Er].
    - rewrite Er in *. destruct (tp_root _ _ T) as [-> ->]. exists 0. split; [reflexivity|]. split; [lia|]. change (0 <? 0) with false. cbv iota. destruct Ni as [[_ ->]|(_ & -> & _)]; [reflexivity|]. destruct (Z.ltb_spec (val (nd te (zlen te - 1))) 0); [lia|reflexivity].
    - pose proof (tp_par _ _ T i ltac:(lia)) as (P1 & _ & P3). replace (par (nd te i) <? 0) with false by lia. replace (0 <? lev (nd te i)) with true by lia. rewrite !nget_in by lia. go.
      exists (val (nd te (par (nd te i)))). pose proof (N (par (nd te i)) ltac:(lia)) as (_ & Vp & Np). pose proof (Mn i ltac:(lia)). pose proof (Hp ltac:(lia)). split; [reflexivity|]. split; [lia|]. destruct Np as [[Np _]|(_ & -> & _)]; [lia|reflexivity]. }
  unfold put_zbp_node, get_zbp_node. rewrite !nget_in by lia. go. rewrite E1. go. rewrite Es. destruct (Z.eqb_spec (st (nd te i)) 0) as [Z0|Z0].
  2:{ exists te, td, []. split; [reflexivity|]. split; [reflexivity|]. split; [exact I0|]. split; [constructor|]. split; [lia|]. split; [auto|]. split; [auto|apply same_refl]. }
  match goal with |- context [bindx (if ?a then ?b else ?c) _] => change (if a then b else c) with ((if a then b else c) : ex node); replace ((if a then b else c) : ex node) with (ret (if cur (nd td i) <? thr then set_current thr (nd td i) else nd td i)) by (symmetry; exact E2) end. go. destruct Ni as [[_ C0]|[X _]]; [|lia].
  set (nn := if cur (nd td i) <? thr then set_current thr (nd td i) else nd td i).
  assert (cur nn = thr /\ lev nn = lev (nd td i) /\ idx nn = idx (nd td i) /\ par nn = par (nd td i) /\ kids nn = kids (nd td i)) as (Cn & A1 & A2 & A3 & A4) by (unfold nn; destruct (Z.ltb_spec (cur (nd td i)) thr); repeat split; cbn [set_current cur]; lia).
  exists (nput te i (set_state 1 (nd te i))), (nput td i (set_state 1 (set_value (val (nd te i)) (set_current (val (nd te i)) nn)))), (repeat 0 (Z.to_nat (val (nd te i) - thr)) ++ [1]).
  split; [intros w; rewrite put_all_app, put_zeros_all; reflexivity|].
  split; [intros rest; rewrite <- app_assoc; cbn [app]; rewrite zbp_loop_ok by lia; go; rewrite Cn, Z2Nat.id by lia; replace (thr + (val (nd te i) - thr)) with (val (nd te i)) by lia; reflexivity|].
  assert (zlen (nput te i (set_state 1 (nd te i))) = zlen te) as L by (apply zlen_nput; lia).
  assert (forall x, 0 <= x < zlen te -> par (nd (nput te i (set_state 1 (nd te i))) x) = par (nd te x)) as Pe by (intros x Hx; rewrite nput_nd by lia; destruct (Z.eqb_spec i x) as [<-|]; auto).
  assert (forall x, 0 <= x < zlen te -> val (nd (nput te i (set_state 1 (nd te i))) x) = val (nd te x)) as Ve by (intros x Hx; rewrite nput_nd by lia; destruct (Z.eqb_spec i x) as [<-|]; auto).
  pose proof (tp_par _ _ T) as TP. pose proof (sm_nd _ _ Sm) as SN.
  split.
  { constructor; rewrite ?L.
    - apply (topo_same n te); [exact T|]. apply same_nput; auto using same_refl.
    - constructor; [rewrite !zlen_nput by lia; lia|]. rewrite L. intros x Hx. rewrite !nput_nd by lia. destruct (Z.eqb_spec i x) as [<-|]; [cbn [set_state set_value set_current lev idx par kids]; repeat split; congruence|auto].
    - intros x Hx. rewrite !nput_nd by lia. destruct (Z.eqb_spec i x) as [<-|]; [cbn [set_state set_value set_current st cur val]; repeat split; auto; lia|auto].
    - intros x Hx. rewrite Pe by lia. pose proof (TP x Hx). rewrite !Ve by lia. auto.
    - intros x Hx. rewrite Pe by lia. pose proof (TP x Hx) as (P1 & _). rewrite !nput_nd by lia. destruct (Z.eqb_spec i x) as [<-|]; [replace (i =? par (nd te i)) with false by lia; intros _; apply Hp; lia|].
      intros D. destruct (Z.eqb_spec i (par (nd te x))) as [_|]; auto. }
  split; [apply Forall_app; split; [apply Forall_forall; intros x Hx; apply repeat_spec in Hx; left; exact Hx|constructor; [right; reflexivity|constructor]]|].
  split; [rewrite nput_same by lia; reflexivity|]. split; [exact Ve|]. split; [exact L|]. apply same_nput; auto using same_refl.
Qed.
Lemma zbp_path_step n te td l i fuel : ZInv n te td -> (256 < fuel)%nat -> Up te l i ->
  exists te' td' bs, (forall w, put_zbp l te w = Ret (te', put_all w bs)) /\
    (forall rest, get_zbp list_bit fuel l td (bs ++ rest) = ret (td', rest)) /\
    ZInv n te' td' /\ Forall bit bs /\ st (nd te' i) = 1 /\ (forall k, 0 <= k < zlen te -> val (nd te' k) = val (nd te k)) /\ zlen te' = zlen te /\ same te te'.
Proof.
  intros I Hf U. induction U as [|l i Hi U IH].
  - pose proof (tp_len _ _ (zi_topo _ _ _ I)) as L. destruct (zbp_node_step n te td (zlen te - 1) fuel I ltac:(lia) Hf ltac:(lia)) as (te' & td' & bs & H1 & H2 & H).
    exists te', td', bs. split; [intros w; cbn [put_zbp]; rewrite H1; reflexivity|]. split; [intros rest; cbn [get_zbp]; rewrite H2; reflexivity|]. exact H.
  - destruct IH as (te1 & td1 & bs1 & H1 & H2 & H3 & H4 & H5 & H6 & H7 & H8). pose proof (sm_nd _ _ H8 i ltac:(lia)) as (_ & _ & Ep & _).
    destruct (zbp_node_step n te1 td1 i fuel H3 ltac:(lia) Hf) as (te' & td' & bs & G1 & G2 & G3 & G4 & G5 & G6 & G7 & G8); [intros _; rewrite <- Ep; exact H5|].
    exists te', td', (bs1 ++ bs). split; [intros w; rewrite put_zbp_app, H1; go; cbn [put_zbp]; rewrite G1; go; rewrite put_all_app; reflexivity|].
    split; [intros rest; rewrite <- app_assoc, get_zbp_app, H2; go; cbn [get_zbp]; rewrite G2; reflexivity|]. split; [exact G3|]. split; [apply Forall_app; auto|]. split; [exact G5|].
    split; [intros k Hk; rewrite G6 by lia; auto|]. split; [lia|]. apply (same_trans te te1); assumption.
Qed.

(** ** Numbers *)
Lemma bits_of_bit n : forall v, Forall bit (bits_of n v).
Proof. induction n as [|n IH]; intros v; cbn [bits_of]; constructor; [unfold bit; lia|apply IH]. Qed.
Lemma put_Nbits_all w v n : put_Nbits w v (Z.of_nat n) = put_all w (bits_of n v).
Proof.
  unfold put_Nbits, put_all. assert (forall (l : list Z) w0, fold_left (fun w i => put_bit w (Z.land (Z.shiftr v (Z.of_nat n - 1 - i)) 1)) l w0 = fold_left put_bit (map (fun i => Z.land (Z.shiftr v (Z.of_nat n - 1 - i)) 1) l) w0) as F.
  { induction l as [|x l IH]; intros w0; [reflexivity|]. apply IH. }
  rewrite F. f_equal. clear. induction n as [|n IH]; [reflexivity|]. rewrite zseq_cons by lia. cbn [map bits_of]. f_equal.
  - rewrite land_shift by lia. f_equal. f_equal. f_equal. lia.
  - rewrite map_map. replace (Z.of_nat (S n) - 1) with (Z.of_nat n) by lia. rewrite <- IH. apply map_ext. intros i. f_equal. f_equal. lia.
Qed.
Lemma get_bits_ok k : forall v acc rest, 0 <= acc -> acc * 2 ^ Z.of_nat k + v mod 2 ^ Z.of_nat k < 2 ^ 32 ->
  get_bits list_bit k acc (bits_of k v ++ rest) = ret (acc * 2 ^ Z.of_nat k + v mod 2 ^ Z.of_nat k, rest).
Proof.
  induction k as [|k IH]; intros v acc rest Ha Hs.
  - cbn [bits_of app get_bits]. change (2 ^ Z.of_nat 0) with 1 in *. rewrite Z.mod_1_r. f_equal. f_equal. lia.
  - cbn [bits_of app get_bits list_bit]. go. rewrite Nat2Z.inj_succ, Z.pow_succ_r in * by lia. assert (0 < 2 ^ Z.of_nat k) as P by (apply Z.pow_pos_nonneg; lia). set (p := 2 ^ Z.of_nat k) in *.
    assert (v mod (2 * p) = (v / p) mod 2 * p + v mod p) as E. { rewrite (Z.mul_comm 2 p), Z.rem_mul_r by lia. ring. }
    rewrite E in *. clear E. pose proof (Z.mod_pos_bound v p P) as Vp. set (b := (v / p) mod 2) in *. assert (b = 0 \/ b = 1) as Hb by (unfold b; lia). clearbody b.
    rewrite Z.shiftl_mul_pow2 by lia. change (2 ^ 1) with 2. assert (acc * 2 + b < 2 ^ 32) as B2 by nia. rewrite (wrap32_small (acc * 2)) by (unfold two32; lia). rewrite wrap32_small by (unfold two32; lia).
    rewrite IH by nia. f_equal. f_equal. ring.
Qed.
Lemma get_N_ok k v rest : 0 <= k <= 32 -> 0 <= v < 2 ^ k -> get_N list_bit k (bits_of (Z.to_nat k) v ++ rest) = ret (v, rest).
Proof.
  intros Hk Hv. unfold get_N. assert (2 ^ k <= 2 ^ 32) by (apply Z.pow_le_mono_r; lia). rewrite get_bits_ok; rewrite ?Z2Nat.id by lia; rewrite ?Z.mod_small by lia; try lia. reflexivity.
Qed.
Lemma put_lblock_ok : forall fuel bytes bits lb, 0 <= bits <= 30 -> 0 <= bytes < 2 ^ 29 -> 31 - bits <= Z.of_nat fuel ->
  exists k, (forall w, put_lblock fuel bytes bits lb w = Ret (lb + Z.of_nat k, put_all w (repeat 1 k))) /\ bytes < 2 ^ (bits + Z.of_nat k) /\ bits + Z.of_nat k <= Z.max bits 29.
Proof.
  induction fuel as [|fuel IH]; intros bytes bits lb Hb Hy Hf; [lia|]. destruct (Z_le_gt_dec (2 ^ bits) bytes) as [G|G].
  - assert (bits < 29) as B by (destruct (Z_lt_le_dec bits 29) as [X|X]; [exact X|]; assert (2 ^ 29 <= 2 ^ bits) by (apply Z.pow_le_mono_r; lia); lia). destruct (IH bytes (bits + 1) (lb + 1)) as (k & E & E1 & E2); try lia. exists (S k). split; [|split].
    + intros w. cbn [put_lblock]. replace (31 <=? bits) with false by lia. rewrite Z.shiftl_1_l. replace (2 ^ bits <=? bytes) with true by lia. rewrite E. f_equal. f_equal. lia.
    + replace (bits + Z.of_nat (S k)) with (bits + 1 + Z.of_nat k) by lia. exact E1.
    + lia.
  - exists O. split; [|split].
    + intros w. cbn [put_lblock]. replace (31 <=? bits) with false by lia. rewrite Z.shiftl_1_l. replace (2 ^ bits <=? bytes) with false by lia. f_equal. f_equal. lia.
    + rewrite Z.add_0_r. lia.
    + lia.
Qed.
Lemma get_lblock_ok k : forall fuel lb rest, (k < fuel)%nat -> 0 <= lb -> lb + Z.of_nat k < 256 -> get_lblock list_bit fuel lb (repeat 1 k ++ 0 :: rest) = ret (lb + Z.of_nat k, rest).
Proof.
  induction k as [|k IH]; intros fuel lb rest Hf Hl Hs; destruct fuel as [|fuel]; try lia; cbn [get_lblock repeat app list_bit]; go.
  - change (0 =? 1) with false. cbv iota. rewrite Z.add_0_r. reflexivity.
  - change (1 =? 1) with true. cbv iota. rewrite Z.mod_small by lia. rewrite IH by lia. f_equal. f_equal. lia.
Qed.
