(** Parsing packet headers: no step outside an array whatever the bits, and no
    step without a bit. *)
From Verif Require Import Base BaseLemmas ChainModel PacketModel PacketTree PacketCode.
Definition bit01 (b : Z) : Prop := b = 0 \/ b = 1.

(** A code-block whose arrays are as large as the parser takes them to be. *)
Record cb_ok (style layers : Z) (b : cb) : Prop := {
  k_modes : has (cmodes b) HT_MIXED = false;
  k_style : clear_flags (cmodes b) (HT_PHLD + HT_MIXED) = style;
  k_len : zlen (plen b) = 4 \/ zlen (plen b) = 128;
  k_passes : 0 <= npasses b <= 128;
  k_count : 0 <= plcount b;
  k_start : zlen (lstart b) = layers;
  k_lay : zlen (lpasses b) = layers }.
(** Band [d] has the shape of [d0]. *)
Record band_ok (style layers : Z) (d0 d : band) : Prop := {
  n_nx : 0 <= bnx d; n_ny : 0 <= bny d; n_x : bnx d = bnx d0; n_y : bny d = bny d0;
  n_trees : bnx d * bny d <> 0 -> topo (bnx d * bny d) (binc d) /\ topo (bnx d * bny d) (bzbp d) /\ zlen (bzbp d) = zlen (binc d);
  n_inc : same (binc d0) (binc d); n_zbp : same (bzbp d0) (bzbp d);
  n_blocks : zlen (bblocks d) = bnx d * bny d;
  n_cb : Forall (cb_ok style layers) (bblocks d) }.

Section Safe.
Context {S : Type}.
Variable get : S -> ex (Z * S).
Variable Inv : S -> Prop.
Variable m : S -> nat.
(** Whether the source runs dry: then [m] is how many bits are left. *)
Variable fin : bool.
Hypothesis Hget : forall s, Inv s -> match get s with Ret None => True | Ret (Some (b, s')) => bit01 b /\ Inv s' /\ (fin = true -> (m s' < m s)%nat) | _ => False end.

Definition ok {A} (s : S) (x : ex (A * S)) (P : A -> Prop) : Prop :=
  match x with Ret None => True | Ret (Some (a, s')) => P a /\ Inv s' /\ (fin = true -> (m s' <= m s)%nat) | UB => False | NoFuel => fin = false end.
Lemma ok_bind {A B} s (x : ex (A * S)) (k : A * S -> ex (B * S)) P Q : ok s x P -> (forall a s', P a -> Inv s' -> (fin = true -> (m s' <= m s)%nat) -> ok s' (k (a, s')) Q) -> ok s (bindx x k) Q.
Proof.
  intros H K. destruct x as [[[a s']|]| |]; cbn [bindx ok] in *; auto. destruct H as (H1 & H2 & H3). specialize (K a s' H1 H2 H3). destruct (k (a, s')) as [[[b s'']|]| |]; cbn [ok] in *; auto. destruct K as (K1 & K2 & K3). split; [exact K1|]. split; [exact K2|]. intros F. specialize (K3 F). specialize (H3 F). lia.
Qed.
Lemma ok_ret {A} s (a : A) (P : A -> Prop) : P a -> Inv s -> ok s (ret (a, s)) P.
Proof. intros. cbn. auto. Qed.
Lemma ok_weak {A} s (x : ex (A * S)) (P Q : A -> Prop) : ok s x P -> (forall a, P a -> Q a) -> ok s x Q.
Proof. intros H K. destruct x as [[[a s']|]| |]; cbn [ok] in *; auto. destruct H as (H1 & H2 & H3). auto. Qed.
Lemma ok_get s : Inv s -> ok s (get s) bit01.
Proof. intros I. pose proof (Hget s I) as H. destruct (get s) as [[[b s']|]| |]; cbn [ok]; auto; try contradiction. destruct H as (H1 & H2 & H3). split; [exact H1|]. split; [exact H2|]. intros F. specialize (H3 F). lia. Qed.
(** A value found without reading *)
Lemma ok_lift {A B} s (x : out A) (k : A -> ex (B * S)) (P : A -> Prop) Q : (exists a, x = Ret a /\ P a) -> (forall a, P a -> ok s (k a) Q) -> ok s (bindx (lift x) k) Q.
Proof. intros (a & -> & H) K. cbn. apply K, H. Qed.
Lemma ok_pure {A B} s (x : ex A) (k : A -> ex (B * S)) (P : A -> Prop) Q : (match x with Ret (Some a) => P a | Ret None => True | _ => False end) -> (forall a, P a -> ok s (k a) Q) -> ok s (bindx x k) Q.
Proof. intros H K. destruct x as [[a|]| |]; cbn in *; auto; contradiction. Qed.

Lemma ok_bits n : forall v s, Inv s -> 0 <= v -> ok s (get_bits get n v s) (fun w => 0 <= w /\ forall j, 0 <= j -> v < 2 ^ j -> j + Z.of_nat n <= 32 -> w < 2 ^ (j + Z.of_nat n)).
Proof.
  induction n as [|n IH]; intros v s I V; cbn [get_bits].
  - apply ok_ret; [|exact I]. split; [exact V|]. intros j Hj Hv _. rewrite Z.add_0_r. exact Hv.
  - eapply ok_bind; [apply ok_get; exact I|]. cbv beta iota. intros b s' Hb I' _. eapply ok_weak; [apply IH; [exact I'|unfold wrap32; apply Z.mod_pos_bound; reflexivity]|]. cbv beta. intros w (Hw & Hj). split; [exact Hw|]. intros j J0 Jv J32.
    replace (j + Z.of_nat (Datatypes.S n)) with (j + 1 + Z.of_nat n) by lia. apply Hj; try lia. rewrite Z.shiftl_mul_pow2, Z.pow_1_r by lia. rewrite Z.pow_add_r, Z.pow_1_r by lia.
    assert (2 ^ (j + 1) <= 2 ^ 32) as P by (apply Z.pow_le_mono_r; lia). rewrite Z.pow_add_r, Z.pow_1_r in P by lia. change (2 ^ 32) with two32 in P. rewrite (wrap32_small (v * 2)) by lia. rewrite wrap32_small; destruct Hb; subst; lia.
Qed.
Lemma ok_N N s : Inv s -> ok s (get_N get N s) (fun w => 0 <= w /\ (0 <= N <= 32 -> w < 2 ^ N)).
Proof.
  intros I. eapply ok_weak; [apply ok_bits; [exact I|lia]|]. cbv beta. intros w (Hw & Hj). split; [exact Hw|]. intros HN. specialize (Hj 0 ltac:(lia) ltac:(reflexivity)). rewrite Z2Nat.id in Hj by lia. apply Hj. lia.
Qed.

(** ** Tag trees *)
Definition tree_ok (n : Z) (t0 t : tree) : Prop := topo n t /\ same t0 t.
Lemma tree_ok_len n t0 t : tree_ok n t0 t -> zlen t = zlen t0.
Proof. intros [_ [E _]]. lia. Qed.
Lemma tree_ok_nput n t0 t i x : tree_ok n t0 t -> 0 <= i < zlen t0 -> lev x = lev (nd t i) -> idx x = idx (nd t i) -> par x = par (nd t i) -> kids x = kids (nd t i) -> tree_ok n t0 (nput t i x).
Proof.
  intros K Hi E1 E2 E3 E4. pose proof (tree_ok_len _ _ _ K). destruct K as [T E]. split; [|apply same_nput; auto; lia]. apply (topo_same n t); [exact T|]. apply same_nput; auto using same_refl. lia.
Qed.
Lemma raise_ok n t i : topo n t -> 0 <= i < zlen t -> exists x, raise_to_parent t (nd t i) = Ret x /\ lev x = lev (nd t i) /\ idx x = idx (nd t i) /\ par x = par (nd t i) /\ kids x = kids (nd t i).
Proof.
  intros T Hi. unfold raise_to_parent. destruct (Z.ltb_spec (par (nd t i)) 0) as [G|G]; [eexists; split; [reflexivity|auto]|].
  destruct (Z.eq_dec i (zlen t - 1)) as [->|E]; [destruct (tp_root _ _ T); lia|]. pose proof (tp_par _ _ T i ltac:(lia)) as (P & _). rewrite nget_in by lia. go. destruct (_ && _); eexists; (split; [reflexivity|auto]).
Qed.
Lemma ok_inclusion_node n t0 thr i t b s : tree_ok n t0 t -> 0 <= i < zlen t0 -> Inv s -> ok s (get_inclusion_node get thr i t b s) (fun r => tree_ok n t0 (fst r)).
Proof.
  intros T Hi I. pose proof (tree_ok_len _ _ _ T) as E. pose proof (proj1 T) as T0. unfold get_inclusion_node. rewrite nget_in by lia. go. destruct (st (nd t i) =? 0); [|apply ok_ret; auto].
  destruct (raise_ok n t i T0 ltac:(lia)) as (x & -> & E1 & E2 & E3 & E4). go. destruct (cur x <=? thr).
  - eapply ok_bind; [apply ok_get; exact I|]. cbv beta iota. intros v s' _ I' _. destruct (v =? 1); apply ok_ret; auto; cbn [fst]; apply tree_ok_nput; auto.
  - apply ok_ret; auto. cbn [fst]. apply tree_ok_nput; auto.
Qed.
Lemma ok_inclusion n t0 thr p : forall t b s, tree_ok n t0 t -> (forall i, In i p -> 0 <= i < zlen t0) -> Inv s -> ok s (get_inclusion get thr p t b s) (fun r => tree_ok n t0 (fst r)).
Proof.
  induction p as [|i p IH]; intros t b s T Hp I; cbn [get_inclusion]; [apply ok_ret; auto|]. eapply ok_bind; [apply (ok_inclusion_node n t0); [exact T|apply Hp; left; reflexivity|exact I]|]. intros [t' b'] s' T' I' _. cbv beta iota. apply IH; auto. intros j Hj. apply Hp. right. exact Hj.
Qed.
Lemma ok_loop fuel : forall v s, Inv s -> (fin = true -> (m s < fuel)%nat) -> ok s (zbp_loop get fuel v s) (fun _ => True).
Proof.
  induction fuel as [|fuel IH]; intros v s I F; cbn [zbp_loop]; [cbn [ok]; destruct fin; [specialize (F eq_refl); lia|reflexivity]|].
  pose proof (Hget s I) as H. destruct (get s) as [[[b s']|]| |]; cbn [bindx ok]; auto; try contradiction. destruct H as (_ & I' & M). destruct (b =? 0); [|cbn [ok]; repeat split; auto; intros X; specialize (M X); lia].
  assert (fin = true -> (m s' < fuel)%nat) as F' by (intros X; specialize (M X); specialize (F X); lia). specialize (IH ((v + 1) mod 65536) s' I' F'). destruct (zbp_loop get fuel _ s') as [[[a s'']|]| |]; cbn [ok] in *; auto. destruct IH as (H1 & H2 & H3). repeat split; auto. intros X. specialize (M X). specialize (H3 X). lia.
Qed.
Lemma ok_zbp_node n t0 fuel i t s : tree_ok n t0 t -> 0 <= i < zlen t0 -> Inv s -> (fin = true -> (m s < fuel)%nat) -> ok s (get_zbp_node get fuel i t s) (tree_ok n t0).
Proof.
  intros T Hi I F. pose proof (tree_ok_len _ _ _ T) as E. pose proof (proj1 T) as T0. unfold get_zbp_node. rewrite nget_in by lia. go. destruct (st (nd t i) =? 0); [|apply ok_ret; auto].
  eapply (ok_pure _ _ _ (fun x => lev x = lev (nd t i) /\ idx x = idx (nd t i) /\ par x = par (nd t i) /\ kids x = kids (nd t i))).
  - destruct (Z.ltb_spec 0 (lev (nd t i))) as [G|G]; [|cbn; auto]. assert (i < zlen t - 1) as Hr by (destruct (Z.eq_dec i (zlen t - 1)) as [X|X]; [rewrite X in G; destruct (tp_root _ _ T0); lia|lia]). pose proof (tp_par _ _ T0 i ltac:(lia)) as (P & _). replace (par (nd t i) <? 0) with false by lia. rewrite nget_in by lia. go. destruct (_ <? _); cbn; auto.
  - intros x (E1 & E2 & E3 & E4). eapply ok_bind; [apply ok_loop; [exact I|exact F]|]. cbv beta iota. intros v s' _ I' _. apply ok_ret; auto. apply tree_ok_nput; auto.
Qed.
Lemma ok_zbp n t0 fuel p : forall t s, tree_ok n t0 t -> (forall i, In i p -> 0 <= i < zlen t0) -> Inv s -> (fin = true -> (m s < fuel)%nat) -> ok s (get_zbp get fuel p t s) (tree_ok n t0).
Proof.
  induction p as [|i p IH]; intros t s T Hp I F; cbn [get_zbp]; [apply ok_ret; auto|]. eapply ok_bind; [apply (ok_zbp_node n t0); [exact T|apply Hp; left; reflexivity|exact I|exact F]|]. intros t' s' T' I' M. cbv beta iota. apply IH; auto; [intros j Hj; apply Hp; right; exact Hj|]. intros X. specialize (M X). specialize (F X). lia.
Qed.

(** ** Segments *)
Lemma ok_lblock fuel : forall v s, Inv s -> (fin = true -> (m s < fuel)%nat) -> ok s (get_lblock get fuel v s) (fun _ => True).
Proof.
  induction fuel as [|fuel IH]; intros v s I F; cbn [get_lblock]; [cbn [ok]; destruct fin; [specialize (F eq_refl); lia|reflexivity]|].
  pose proof (Hget s I) as H. destruct (get s) as [[[b s']|]| |]; cbn [bindx ok]; auto; try contradiction. destruct H as (_ & I' & M). destruct (b =? 1); [|cbn [ok]; repeat split; auto; intros X; specialize (M X); lia].
  assert (fin = true -> (m s' < fuel)%nat) as F' by (intros X; specialize (M X); specialize (F X); lia). specialize (IH ((v + 1) mod 256) s' I' F'). destruct (get_lblock get fuel _ s') as [[[a s'']|]| |]; cbn [ok] in *; auto. destruct IH as (H1 & H2 & H3). repeat split; auto. intros X. specialize (M X). specialize (H3 X). lia.
Qed.
Lemma ok_passes s : Inv s -> ok s (get_passes get s) (fun n => 1 <= n <= 164).
Proof.
  intros I. unfold get_passes. eapply ok_bind; [apply ok_get; exact I|]. cbv beta iota zeta. intros b1 s1 H1 I1 _. assert (0 <= b1 <= 1) as R1 by (destruct H1; lia). destruct (Z.leb_spec 2 (1 + b1)) as [G1|G1]; [|apply ok_ret; auto; lia].
  eapply ok_bind; [apply ok_get; exact I1|]. cbv beta iota zeta. intros b2 s2 H2 I2 _. assert (0 <= b2 <= 1) as R2 by (destruct H2; lia). destruct (Z.leb_spec 3 (1 + b1 + b2)) as [G2|G2]; [|apply ok_ret; auto; lia].
  eapply ok_bind; [apply ok_N; exact I2|]. cbv beta iota zeta. intros b3 s3 [H3 H3'] I3 _. change (2 ^ 2) with 4 in H3'. specialize (H3' ltac:(lia)). rewrite Z.mod_small by lia. destruct (Z.leb_spec 6 (1 + b1 + b2 + b3)) as [G3|G3]; [|apply ok_ret; auto; lia].
  eapply ok_bind; [apply ok_N; exact I3|]. cbv beta iota zeta. intros b4 s4 [H4 H4'] I4 _. change (2 ^ 5) with 32 in H4'. specialize (H4' ltac:(lia)). rewrite (Z.mod_small b4) by lia. destruct (Z.leb_spec 37 (1 + b1 + b2 + b3 + b4)) as [G4|G4]; [|apply ok_ret; auto; lia].
  eapply ok_bind; [apply ok_N; exact I4|]. cbv beta iota zeta. intros b5 s5 [H5 H5'] I5 _. change (2 ^ 7) with 128 in H5'. specialize (H5' ltac:(lia)). rewrite (Z.mod_small b5) by lia. apply ok_ret; auto; lia.
Qed.
Lemma ok_grow fuel : forall bound n v s, Inv s -> ok s (grow_read get fuel bound n v s) (fun _ => True).
Proof. induction fuel as [|fuel IH]; intros bound n v s I; cbn [grow_read]; [apply ok_ret; auto|]. destruct (_ <=? _); [|apply ok_ret; auto]. eapply ok_bind; [apply ok_get; exact I|]. cbv beta iota. intros b s' _ I' _. apply IH. exact I'. Qed.

Record seg_ok (v new : Z) (g : seg) : Prop := {
  sg_passes : 1 <= g_passes g <= new;
  sg_next : g_passes g < new -> g_next g = 1 \/ g_next g = 2;
  sg_modes : g_modes g = v \/ g_modes g = clear_flags v HT_PHLD }.
Lemma clear_mixed v f : has v HT_MIXED = false -> has (clear_flags v f) HT_MIXED = false.
Proof. unfold has, clear_flags. intros H. rewrite <- Z.land_assoc, (Z.land_comm (65535 - f)), Z.land_assoc. destruct (Z.eqb_spec (Z.land v HT_MIXED) 0) as [->|]; [rewrite Z.land_0_l; reflexivity|discriminate H]. Qed.
Lemma ok_phld b new s : has (cmodes b) HT_MIXED = false -> 1 <= new -> Inv s -> ok s (phld_segment get b new s) (seg_ok (cmodes b) new).
Proof.
  intros Hm Hn I. unfold phld_segment. cbv zeta. pose proof (Z.mod_pos_bound (npasses b + new - 1) 3 eq_refl) as Hr. set (href := (npasses b + new - 1) mod 3) in *. rewrite Hm.
  destruct (Z.ltb_spec (new - href) 1) as [G|G].
  - destruct (grow 9 (lblock b) 2 new) as [bits bound]. eapply ok_bind; [apply ok_N; exact I|]. cbv beta iota. intros v s' _ I' _. destruct (v =? 0); [|exact Logic.I]. apply ok_ret; auto. constructor; cbn [g_passes g_next g_modes]; auto; lia.
  - destruct (grow 9 (lblock b) 2 (new - href)) as [bits bound]. eapply ok_bind; [apply ok_N; exact I|]. cbv beta iota. intros v s' _ I' _. destruct (v =? 0).
    + eapply ok_bind; [apply ok_grow; exact I'|]. cbv beta iota. intros v' s'' _ I'' _. destruct (v' =? 0); [|exact Logic.I]. apply ok_ret; auto. constructor; cbn [g_passes g_next g_modes]; auto; lia.
    + cbn [negb]. destruct (v <? 2); [exact Logic.I|]. apply ok_ret; auto. constructor; cbn [g_passes g_next g_modes]; auto; lia.
Qed.
Lemma ok_ht b new s : has (cmodes b) HT_MIXED = false -> 1 <= new -> Inv s -> ok s (ht_segment get b new s) (seg_ok (cmodes b) new).
Proof.
  intros Hm Hn I. unfold ht_segment. cbv zeta. pose proof (Z.mod_pos_bound (npasses b) 3 eq_refl) as Hr. destruct (Z.eqb_spec (npasses b mod 3) 0) as [G|G].
  - eapply ok_bind; [apply ok_N; exact I|]. cbv beta iota. intros v s' _ I' _. apply ok_ret; auto. constructor; cbn [g_passes g_next g_modes]; auto; lia.
  - eapply ok_bind; [apply ok_N; exact I|]. cbv beta iota. intros v s' _ I' _. apply ok_ret; auto. constructor; cbn [g_passes g_next g_modes]; auto; destruct (Z.ltb_spec 1 new); lia.
Qed.
Lemma ok_bypass b new s : has (cmodes b) HT_MIXED = false -> 1 <= new -> Inv s -> ok s (bypass_segment get b new s) (seg_ok (cmodes b) new).
Proof.
  intros Hm Hn I. unfold bypass_segment. cbv zeta. pose proof (Z.mod_pos_bound (npasses b - 10) 3 eq_refl) as Hr. destruct (Z.ltb_spec (npasses b) 10) as [G|G]; [|destruct (Z.ltb_spec ((npasses b - 10) mod 3) 2) as [G1|G1]].
  all: eapply ok_bind; [apply ok_N; exact I|]; cbv beta iota; intros v s' _ I' _; apply ok_ret; auto; constructor; cbn [g_passes g_next g_modes]; auto.
  - destruct (Z.ltb_spec new (10 - npasses b)); lia.
  - destruct (Z.ltb_spec 1 new); lia.
  - lia.
Qed.
Lemma ok_segment b new s : has (cmodes b) HT_MIXED = false -> 1 <= new -> Inv s -> ok s (first_segment get b new s) (seg_ok (cmodes b) new).
Proof.
  intros Hm Hn I. unfold first_segment. cbv zeta. destruct (has (cmodes b) HT_PHLD); [now apply ok_phld|]. destruct (has (cmodes b) HT); [now apply ok_ht|]. destruct (negb _).
  - eapply ok_bind; [apply ok_N; exact I|]. cbv beta iota. intros v s' _ I' _. apply ok_ret; auto. constructor; cbn [g_passes g_next g_modes]; auto; lia.
  - destruct (has (cmodes b) RESTART); [|now apply ok_bypass]. eapply ok_bind; [apply ok_N; exact I|]. cbv beta iota. intros v s' _ I' _. apply ok_ret; auto. constructor; cbn [g_passes g_next g_modes]; auto; lia.
Qed.
Lemma wr_ok l i v : 0 <= i < zlen l -> exists l', wr l i v = Ret l' /\ zlen l' = zlen l.
Proof. intros H. unfold wr. replace ((0 <=? i) && (i <? zlen l)) with true by lia. eexists. split; [reflexivity|]. rewrite !zlen_app, zlen_ztake, zlen_zskip by lia. change (zlen [v]) with 1. lia. Qed.
Lemma zero_fill_ok n : forall fuel l c, n <= zlen l -> 0 <= c -> Z.max 0 (n - c) < Z.of_nat fuel -> exists l' c', zero_fill fuel n l c = Ret (l', c') /\ zlen l' = zlen l /\ 0 <= c'.
Proof.
  induction fuel as [|fuel IH]; intros l c Hn Hc Hf; cbn [zero_fill].
  - lia.
  - destruct (Z.ltb_spec c n) as [G|G]; [|eauto]. destruct (wr_ok l c 0) as (l1 & E & L1); [lia|]. rewrite E. go. destruct (IH l1 (c + 1)) as (l' & c' & E' & L' & C'); try lia. exists l', c'. split; [exact E'|]. lia.
Qed.
Lemma add_ok style layers b passes bytes : cb_ok style layers b -> 1 <= passes -> match add_segment b passes bytes with Ret (Some b') => cb_ok style layers b' | Ret None => True | _ => False end.
Proof.
  intros [K1 K0 K2 K3 K4 K5 K6] Hp. unfold add_segment. destruct (Z.ltb_spec 128 passes) as [G|G]; [exact Logic.I|]. cbv zeta. rewrite (Z.mod_small passes) by lia. rewrite Z.mod_small by lia. destruct (Z.ltb_spec 128 (npasses b + passes)) as [G1|G1]; [exact Logic.I|].
  set (next := npasses b + passes) in *. set (l := ensure_pass_capacity (plen b) next).
  assert (next <= zlen l /\ (zlen l = 4 \/ zlen l = 128)) as [Hl Hl'].
  { subst l. unfold ensure_pass_capacity. destruct (Z.leb_spec next 4) as [A|A]; cbn [orb]; [lia|]. destruct (Z.eqb_spec (zlen (plen b)) 4) as [B|B]; cbn [negb]; [|lia]. rewrite zlen_app, zlen_repeat, B. change (4 + Z.of_nat 124) with 128. lia. }
  destruct (zero_fill_ok next 256 l (plcount b)) as (l1 & c1 & -> & L1 & C1); [lia|lia|lia|]. go. destruct (wr_ok l1 (next - 1) bytes) as (l2 & -> & L2); [lia|]. go. constructor; cbn [cmodes npasses plen plcount lstart lpasses]; auto; lia.
Qed.
Lemma ok_hts style layers fuel : forall b new next empty s, cb_ok style layers b -> (0 < new -> next = 1 \/ next = 2) -> Z.max 0 new < Z.of_nat fuel -> Inv s -> ok s (ht_segments get fuel b new next empty s) (cb_ok style layers).
Proof.
  induction fuel as [|fuel IH]; intros b new next empty s K Hn Hf I; cbn [ht_segments].
  - lia.
  - destruct (Z.leb_spec new 0) as [G|G]; [apply ok_ret; auto|]. cbv zeta. specialize (Hn G). set (sp := if 1 <? new then next else 1). assert (1 <= sp <= 2 /\ sp <= new) as Hsp by (subst sp; destruct (Z.ltb_spec 1 new); lia).
    rewrite (Z.mod_small sp) by lia. rewrite (Z.mod_small (3 - next)) by lia. eapply ok_bind; [apply ok_N; exact I|]. cbv beta iota. intros v s' _ I' _.
    eapply (ok_pure _ _ _ (fun r => cb_ok style layers (fst r))).
    + assert (forall f, cb_ok style layers (with_fskip b f)) as Kf by (intros f; destruct K; constructor; assumption).
      destruct (3 - next =? 2); [destruct (v =? 0); [apply Kf|]; destruct (v <? 2); [exact Logic.I|apply Kf]|]. destruct empty; [destruct (v =? 0); [apply Kf|exact Logic.I]|exact K].
    + intros [b1 e1] K1. cbn [fst] in K1. eapply (ok_pure _ _ _ (cb_ok style layers)); [apply add_ok; [exact K1|lia]|]. intros b2 K2. apply IH; auto; lia.
Qed.
Lemma ok_plain style layers fuel : forall b new next term s, cb_ok style layers b -> (0 < new -> next = 1 \/ next = 2) -> Z.max 0 new < Z.of_nat fuel -> Inv s -> ok s (plain_segments get fuel b new next term s) (cb_ok style layers).
Proof.
  induction fuel as [|fuel IH]; intros b new next term s K Hn Hf I; cbn [plain_segments]; [lia|].
  destruct (Z.leb_spec new 0) as [G|G]; [apply ok_ret; auto|]. cbv zeta. specialize (Hn G).
  assert (exists sp nx bits, (if negb (term =? 0) then (if 1 <? new then next else 1, (3 - next) mod 256, (lblock b + (if 1 <? new then next else 1) - 1) mod 256) else (1, next, lblock b)) = (sp, nx, bits) /\ 1 <= sp <= 2 /\ sp <= new /\ (nx = 1 \/ nx = 2)) as (sp & nx & bits & -> & H1 & H2 & H3).
  { destruct (negb (term =? 0)); do 3 eexists; (split; [reflexivity|]); [rewrite (Z.mod_small (3 - next)) by lia; destruct (Z.ltb_spec 1 new); lia|lia]. }
  rewrite (Z.mod_small sp) by lia. eapply ok_bind; [apply ok_N; exact I|]. cbv beta iota. intros v s' _ I' _. eapply (ok_pure _ _ _ (cb_ok style layers)); [apply add_ok; [exact K|lia]|]. intros b2 K2. apply IH; auto; lia.
Qed.
Lemma layer_ok style layers b layer v : cb_ok style layers b -> 0 <= layer < layers -> exists b', set_layer_passes b layer v = Ret b' /\ (cb_ok style layers b' /\ included b' = included b).
Proof. intros [K1 K0 K2 K3 K4 K5 K6] H. unfold set_layer_passes. destruct (wr_ok (lpasses b) layer v) as (l & -> & L); [lia|]. go. eexists. split; [reflexivity|]. split; [constructor; cbn [cmodes npasses plen plcount lstart lpasses]; auto; lia|reflexivity]. Qed.
Lemma start_ok style layers b layer : cb_ok style layers b -> 0 <= layer < layers -> exists b', start_layer b layer = Ret b' /\ cb_ok style layers b'.
Proof. intros [K1 K0 K2 K3 K4 K5 K6] H. unfold start_layer. destruct (wr_ok (lstart b) layer (fold_left (fun s v : Z => (s + v) mod 256) (lpasses b) 0)) as (l & -> & L); [lia|]. go. eexists. split; [reflexivity|]. constructor; cbn [cmodes npasses plen plcount lstart lpasses]; auto; lia. Qed.
Lemma ok_contribution style layers fuel layer b s : cb_ok style layers b -> 0 <= layer < layers -> Inv s -> (fin = true -> (m s < fuel)%nat) -> ok s (contribution get fuel layer b s) (cb_ok style layers).
Proof.
  intros K Hl I F. unfold contribution. eapply ok_bind; [apply ok_passes; exact I|]. cbv beta iota. intros new s1 Hn I1 M1.
  eapply (ok_lift _ _ _ (cb_ok style layers)); [destruct (layer_ok style layers b layer (new mod 256) K Hl) as (b' & E & K' & _); eauto|]. intros b1 K1.
  eapply ok_bind; [apply ok_lblock; [exact I1|]; intros X; specialize (M1 X); specialize (F X); lia|]. cbv beta iota zeta. intros lb s2 _ I2 _.
  assert (cb_ok style layers (with_lblock b1 lb)) as K2 by (destruct K1; constructor; assumption).
  eapply ok_bind; [apply ok_segment; [apply K2|lia|exact I2]|]. cbv beta iota. intros g s3 [G1 G2 G3] I3 _.
  eapply (ok_pure _ _ _ (cb_ok style layers)); [apply add_ok; [|lia]|].
  { destruct K2 as [N1 N2 N3 N4 N5 N6 N7]. constructor; try assumption; cbn [with_modes cmodes]; destruct G3 as [-> | ->]; try assumption; [now apply clear_mixed|]. rewrite <- N2. unfold clear_flags. rewrite <- Z.land_assoc. reflexivity. }
  intros b3 K3. rewrite (Z.mod_small (g_passes g)) by lia.
  destruct (_ =? HT).
  - apply ok_hts; auto; [destruct K3; constructor; assumption|intros X; apply G2; lia|lia].
  - apply ok_plain; auto; [intros X; apply G2; lia|lia].
Qed.
Lemma path_in n t i : topo n t -> 0 <= i < zlen t -> exists p, tree_path t i = Ret p /\ ((forall k, In k (rev p) -> 0 <= k < zlen t) /\ hd 0 p = i).
Proof.
  intros T Hi. destruct (tree_path_ok n t i T Hi) as (p & E & U & H). exists p. split; [exact E|]. split; [|exact H]. intros k Hk. destruct (Up_range n t _ _ T U) as [_ R]. apply R in Hk. lia.
Qed.
Lemma ok_first style layers n t0 t1 fuel layer ccap i b inc zbp s : has ccap 49152 = false -> cb_ok style layers b -> zlen t1 = zlen t0 -> tree_ok n t0 inc -> tree_ok n t1 zbp -> 0 <= i < zlen t0 -> Inv s -> (fin = true -> (m s < fuel)%nat) ->
  ok s (first_inclusion get fuel layer ccap i b inc zbp s) (fun r => let '(inc', zbp', _, b') := r in tree_ok n t0 inc' /\ tree_ok n t1 zbp' /\ cb_ok style layers b').
Proof.
  intros Hc K LL T1 T2 Hi I F. unfold first_inclusion. rewrite Hc. cbv zeta. set (b1 := if HT <=? cmodes b then _ else b).
  assert (cb_ok style layers b1) as K1.
  { subst b1. destruct (HT <=? cmodes b); [|exact K]. destruct K as [K1 K0 K2 K3 K4 K5 K6]. constructor; try assumption; cbn [with_modes cmodes]; [unfold has in *; rewrite Z.land_lor_distr_l; change (Z.land HT_PHLD HT_MIXED) with 0; rewrite Z.lor_0_r; exact K1|]. unfold clear_flags in *. rewrite Z.land_lor_distr_l. change (Z.land HT_PHLD (65535 - (HT_PHLD + HT_MIXED))) with 0. rewrite Z.lor_0_r. exact K0. }
  pose proof (tree_ok_len _ _ _ T1) as L1. destruct T1 as [T1 E1]. eapply (ok_lift _ _ _ (fun p => (forall k, In k (rev p) -> 0 <= k < zlen inc) /\ hd 0 p = i)); [apply (path_in n); [exact T1|lia]|]. intros p [Hp Hh]. rewrite <- (sm_len _ _ E1) in Hp.
  eapply (ok_bind _ _ _ (fun r => tree_ok n t0 (fst r))).
  { destruct (0 <? layer); [apply ok_inclusion; auto; split; assumption|]. apply ok_ret; [split; assumption|exact I]. }
  intros [inc1 is1] s1 T3 I1 M1. cbv beta iota. cbn [fst] in T3. eapply ok_bind; [apply (ok_inclusion n t0); [exact T3|exact Hp|exact I1]|]. intros [inc2 is2] s2 T4 I2 M2. cbv beta iota. cbn [fst] in T4.
  destruct is2; [|apply ok_ret; auto].
  eapply ok_bind; [apply (ok_zbp n t1); [exact T2|rewrite LL; exact Hp|exact I2|]; intros X; specialize (M1 X); specialize (M2 X); specialize (F X); lia|]. cbv beta iota. intros zbp1 s3 T5 I3 M3. pose proof (tree_ok_len _ _ _ T5).
  eapply (ok_lift _ _ _ (fun _ => True)); [rewrite nget_in by lia; eauto|]. intros x _. apply ok_ret; auto. split; [exact T4|]. split; [exact T5|]. destruct K1; constructor; assumption.
Qed.
Lemma ok_block style layers n t0 t1 fuel layer ccap i b inc zbp s : has ccap 49152 = false -> cb_ok style layers b -> 0 <= layer < layers -> zlen t1 = zlen t0 -> tree_ok n t0 inc -> tree_ok n t1 zbp -> 0 <= i < zlen t0 -> Inv s -> (fin = true -> (m s < fuel)%nat) ->
  ok s (parse_block get fuel layer ccap i b inc zbp s) (fun r => let '(inc', zbp', b') := r in tree_ok n t0 inc' /\ tree_ok n t1 zbp' /\ cb_ok style layers b').
Proof.
  intros Hc K Hl LL T1 T2 Hi I F. unfold parse_block. eapply (ok_lift _ _ _ (cb_ok style layers)); [apply start_ok; assumption|]. intros b1 K1.
  eapply (ok_bind _ _ _ (fun r => let '(inc', zbp', _, b') := r in tree_ok n t0 inc' /\ tree_ok n t1 zbp' /\ cb_ok style layers b')).
  { destruct (included b1); [|apply ok_first; auto]. eapply ok_bind; [apply ok_get; exact I|]. cbv beta iota. intros v s' _ I' _. apply ok_ret; auto. }
  intros [[[inc1 zbp1] is1] b2] s1 (A1 & A2 & A3) I1 M1. cbv beta iota. destruct is1.
  - eapply ok_bind; [apply (ok_contribution style layers); [exact A3|exact Hl|exact I1|]; intros X; specialize (M1 X); specialize (F X); lia|]. cbv beta iota. intros b3 s2 K3 I2 _. apply ok_ret; auto.
  - eapply (ok_lift _ _ _ (fun b' => cb_ok style layers b' /\ included b' = included b2)); [apply layer_ok; assumption|]. intros b3 [K3 _]. apply ok_ret; auto.
Qed.
Lemma ok_blocks style layers n t0 t1 fuel layer ccap : has ccap 49152 = false -> 0 <= layer < layers -> forall bs i inc zbp s, Forall (cb_ok style layers) bs -> zlen t1 = zlen t0 -> tree_ok n t0 inc -> tree_ok n t1 zbp -> 0 <= i -> i + zlen bs <= zlen t0 -> Inv s -> (fin = true -> (m s < fuel)%nat) ->
  ok s (parse_blocks get fuel layer ccap i bs inc zbp s) (fun r => let '(inc', zbp', bs') := r in tree_ok n t0 inc' /\ tree_ok n t1 zbp' /\ Forall (cb_ok style layers) bs' /\ zlen bs' = zlen bs).
Proof.
  intros Hc Hl. induction bs as [|b bs IH]; intros i inc zbp s K LL T1 T2 Hi HL I F; cbn [parse_blocks]; [apply ok_ret; auto|].
  inversion K as [|? ? Kb Ks]; subst. rewrite zlen_cons in HL. pose proof (zlen_nonneg bs). eapply ok_bind; [apply (ok_block style layers n t0 t1); auto; lia|]. intros [[inc1 zbp1] b1] s1 (A1 & A2 & A3) I1 M1. cbv beta iota.
  eapply ok_bind; [apply IH; auto; [lia|lia|]; intros X; specialize (M1 X); specialize (F X); lia|]. intros [[inc2 zbp2] bs2] s2 (B1 & B2 & B3 & B4) I2 _. cbv beta iota. apply ok_ret; auto. split; [exact B1|]. split; [exact B2|]. split; [constructor; assumption|]. rewrite !zlen_cons. lia.
Qed.
Lemma ok_header style layers fuel layer ccap d0 d s : has ccap 49152 = false -> 0 <= layer < layers -> band_ok style layers d0 d -> Inv s -> (fin = true -> (m s < fuel)%nat) -> ok s (parse_packet_header get fuel layer ccap d s) (band_ok style layers d0).
Proof.
  intros Hc Hl K I F. pose proof K as [K1 K2 Kx Ky K3 Ki Kz K4 K5]. unfold parse_packet_header. destruct (Z.eqb_spec (bnx d * bny d) 0) as [E|E]; [apply ok_ret; auto|]. destruct (K3 E) as (T1 & T2 & T3). pose proof (tp_len _ _ T1).
  pose proof (sm_len _ _ Ki). pose proof (sm_len _ _ Kz).
  assert (ok s (parse_blocks get fuel layer ccap 0 (bblocks d) (binc d) (bzbp d) s) (fun r => let '(inc', zbp', bs') := r in tree_ok (bnx d * bny d) (binc d0) inc' /\ tree_ok (bnx d * bny d) (bzbp d0) zbp' /\ Forall (cb_ok style layers) bs' /\ zlen bs' = zlen (bblocks d))) as B by (apply ok_blocks; auto; try lia; split; assumption).
  eapply ok_bind; [exact B|]. intros [[inc1 zbp1] bs1] s1 ((A1 & A1') & (A2 & A2') & A3 & A4) I1 M1. cbv beta iota. apply ok_ret; auto. pose proof (sm_len _ _ A1'). pose proof (sm_len _ _ A2'). constructor; cbn [bnx bny binc bzbp bblocks]; auto; try lia. intros _. split; [exact A1|]. split; [exact A2|lia].
Qed.
Lemma ok_bands style layers fuel layer ccap : has ccap 49152 = false -> 0 <= layer < layers -> forall d0s ds s, Forall2 (band_ok style layers) d0s ds -> Inv s -> (fin = true -> (m s < fuel)%nat) -> ok s (parse_bands get fuel layer ccap ds s) (Forall2 (band_ok style layers) d0s).
Proof.
  intros Hc Hl d0s ds s K. revert s. induction K as [|d0 d d0s ds K1 K2 IH]; intros s I F; cbn [parse_bands]; [apply ok_ret; auto|]. eapply ok_bind; [apply (ok_header style layers fuel layer ccap d0); auto|]. cbv beta iota. intros d1 s1 D1 I1 M1.
  eapply ok_bind; [apply IH; auto; intros X; specialize (M1 X); specialize (F X); lia|]. cbv beta iota. intros ds1 s2 D2 I2 M2. apply ok_ret; auto.
Qed.
End Safe.

Lemma fresh_band_ok nx ny style layers : 0 <= nx -> 0 <= ny -> nx * ny <= 2 ^ 26 -> 1 <= layers -> 0 <= style < 128 ->
  exists d, fresh_band nx ny style layers = Ret d /\ band_ok style layers d d.
Proof.
  intros Hx Hy Hm Hl Hs. unfold fresh_band. destruct (Z.eqb_spec (nx * ny) 0) as [E|E]; [eexists; split; [reflexivity|]; constructor; cbn [bnx bny binc bzbp bblocks]; auto using same_refl; first [lia|rewrite E; reflexivity]|].
  destruct (tagtree_ok nx ny) as (t & Et & T & _); [nia|nia|exact Hm|]. rewrite Et. go. eexists. split; [reflexivity|]. constructor; cbn [bnx bny binc bzbp bblocks]; auto using same_refl.
  - rewrite zlen_repeat. lia.
  - apply Forall_forall. intros b Hb. apply repeat_spec in Hb. subst b.
    assert (forallb (fun v => negb (has v HT_MIXED) && (clear_flags v (HT_PHLD + HT_MIXED) =? v)) (zseq 128) = true) as Q by (vm_compute; reflexivity). rewrite forallb_forall in Q. specialize (Q style). rewrite zseq_In in Q. specialize (Q ltac:(lia)). apply andb_prop in Q. destruct Q as [Q1 Q2].
    constructor; cbn [fresh_cb cmodes npasses plen plcount lstart lpasses]; auto; try lia; try (rewrite zlen_repeat; lia). destruct (has style HT_MIXED); [discriminate Q1|reflexivity].
Qed.
