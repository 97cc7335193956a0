(** Parsing does not depend on how large a code-block's length array already is. *)
From Verif Require Import Base BaseLemmas ChainModel PacketModel PacketTree PacketCode PacketSafe.

Definition roomier (l l' : list Z) : Prop := l' = l \/ zlen l = 4 /\ l' = l ++ repeat 0 124.
(** Alike but for the room behind the lengths. *)
Record twin (b b' : cb) : Prop := {
  tw_modes : cmodes b' = cmodes b; tw_passes : npasses b' = npasses b; tw_zbp : nzbp b' = nzbp b; tw_skip : fskip b' = fskip b;
  tw_lblock : lblock b' = lblock b; tw_plen : roomier (plen b) (plen b'); tw_count : plcount b' = plcount b;
  tw_start : lstart b' = lstart b; tw_lay : lpasses b' = lpasses b; tw_inc : included b' = included b }.
Record twins (d d' : band) : Prop := {
  tb_x : bnx d' = bnx d; tb_y : bny d' = bny d; tb_inc : binc d' = binc d; tb_zbp : bzbp d' = bzbp d; tb_cb : Forall2 twin (bblocks d) (bblocks d') }.
(** Two runs end alike. *)
Definition orel {A B} (R : A -> B -> Prop) (x : ex A) (y : ex B) : Prop :=
  match x, y with Ret (Some a), Ret (Some b) => R a b | Ret None, Ret None => True | UB, UB => True | NoFuel, NoFuel => True | _, _ => False end.
Lemma orel_bind {A B C D} (R : A -> B -> Prop) (Q : C -> D -> Prop) x y k k' : orel R x y -> (forall a b, R a b -> orel Q (k a) (k' b)) -> orel Q (bindx x k) (bindx y k').
Proof. intros H K. destruct x as [[a|]| |], y as [[b|]| |]; cbn in *; auto; contradiction. Qed.
Lemma orel_refl {A} (x : ex A) : orel eq x x.
Proof. destruct x as [[a|]| |]; cbn; auto. Qed.

Lemma wr_room l l' i v : roomier l l' -> 0 <= i < zlen l -> exists r r', wr l i v = Ret r /\ wr l' i v = Ret r' /\ roomier r r' /\ zlen r = zlen l.
Proof.
  intros R Hi. destruct (wr_ok l i v Hi) as (r & E & L). exists r. destruct R as [-> |[L4 ->]]; [exists r; repeat split; auto; left; reflexivity|].
  exists (r ++ repeat 0 124). split; [exact E|]. split; [|split; [|exact L]].
  - unfold wr in *. replace ((0 <=? i) && (i <? zlen l)) with true in E by lia. apply Ret_inj in E. subst r. rewrite zlen_app. pose proof (zlen_nonneg (repeat 0 124)). replace ((0 <=? i) && (i <? zlen l + zlen (repeat 0 124))) with true by lia. rewrite ztake_app_le, zskip_app_le by lia. rewrite <- !app_assoc. reflexivity.
  - right. split; [lia|reflexivity].
Qed.
Lemma fill_room n : forall fuel l l' c, roomier l l' -> n <= zlen l -> 0 <= c -> match zero_fill fuel n l c, zero_fill fuel n l' c with Ret (r, k), Ret (r', k') => roomier r r' /\ k' = k /\ zlen r = zlen l | NoFuel, NoFuel => True | _, _ => False end.
Proof.
  induction fuel as [|fuel IH]; intros l l' c R Hn Hc; cbn [zero_fill]; [exact I|]. destruct (Z.ltb_spec c n) as [G|G]; [|auto].
  destruct (wr_room l l' c 0 R ltac:(lia)) as (r & r' & -> & -> & R' & L). go. specialize (IH r r' (c + 1) R' ltac:(lia) ltac:(lia)). destruct (zero_fill fuel n r (c + 1)) as [[a k]| |], (zero_fill fuel n r' (c + 1)) as [[a' k']| |]; auto. rewrite L in IH. exact IH.
Qed.
Lemma add_twin style layers b b' passes bytes : cb_ok style layers b -> twin b b' -> 1 <= passes -> orel twin (add_segment b passes bytes) (add_segment b' passes bytes).
Proof.
  intros [K1 K0 K2 K3 K4 K5 K6] [T1 T2 T3 T4 T5 T6 T7 T8 T9 T10] Hp. unfold add_segment. destruct (Z.ltb_spec 128 passes) as [G|G]; [exact I|]. cbv zeta. rewrite T2, T7. rewrite (Z.mod_small passes) by lia. rewrite Z.mod_small by lia. destruct (Z.ltb_spec 128 (npasses b + passes)) as [G1|G1]; [exact I|].
  set (next := npasses b + passes) in *.
  assert (roomier (ensure_pass_capacity (plen b) next) (ensure_pass_capacity (plen b') next) /\ next <= zlen (ensure_pass_capacity (plen b) next)) as [R L].
  { unfold ensure_pass_capacity. destruct (Z.leb_spec next 4) as [A|A]; cbn [orb]; [split; [exact T6|lia]|]. destruct T6 as [-> |[L4 ->]]; [split; [left; reflexivity|]|].
    - destruct (Z.eqb_spec (zlen (plen b)) 4); cbn [negb]; [rewrite zlen_app, zlen_repeat|]; lia.
    - rewrite zlen_app, L4, zlen_repeat. change (4 + Z.of_nat 124 =? 4) with false. change (4 =? 4) with true. cbn [negb]. split; [left; reflexivity|]. rewrite zlen_app, zlen_repeat. lia. }
  pose proof (fill_room next 256 _ _ (plcount b) R L ltac:(lia)) as F. destruct (zero_fill 256 next (ensure_pass_capacity (plen b) next) (plcount b)) as [[r k]| |], (zero_fill 256 next (ensure_pass_capacity (plen b') next) (plcount b)) as [[r' k']| |]; go; auto; try contradiction. destruct F as (F1 & -> & F3).
  destruct (wr_room r r' (next - 1) bytes F1 ltac:(lia)) as (q & q' & -> & -> & Q & _). go. constructor; cbn [cmodes npasses nzbp fskip lblock plen plcount lstart lpasses included]; auto.
Qed.

Section Twin.
Context {S : Type}.
Variable get : S -> ex (Z * S).
Variable Inv : S -> Prop.
Hypothesis Hget : forall s, Inv s -> match get s with Ret None => True | Ret (Some (b, s')) => bit01 b /\ Inv s' /\ (false = true -> (0 < 0)%nat) | _ => False end.
Notation ok := (ok Inv (fun _ => O) false).
Lemma got_ok s : Inv s -> ok s (get s) bit01.
Proof. exact (ok_get get Inv (fun _ => O) false Hget s). Qed.

Lemma orel_same {A B C} (Q : B -> C -> Prop) s (x : ex (A * S)) (P : A -> Prop) (k : A * S -> ex B) (k' : A * S -> ex C) : ok s x P -> (forall a s', P a -> Inv s' -> orel Q (k (a, s')) (k' (a, s'))) -> orel Q (bindx x k) (bindx x k').
Proof. intros H K. destruct x as [[[a s']|]| |]; cbn in *; auto. destruct H as (H1 & H2 & _). auto. Qed.
Definition pairR {A B} (R : A -> B -> Prop) (x : A * S) (y : B * S) : Prop := R (fst x) (fst y) /\ snd x = snd y.
Definition both style layers (b b' : cb) : Prop := twin b b' /\ cb_ok style layers b.
Lemma add_both style layers b b' passes bytes : both style layers b b' -> 1 <= passes -> orel (both style layers) (add_segment b passes bytes) (add_segment b' passes bytes).
Proof.
  intros [T K] Hp. pose proof (add_twin _ _ _ _ passes bytes K T Hp) as H. pose proof (add_ok _ _ b passes bytes K Hp) as H1. destruct (add_segment b passes bytes) as [[x|]| |], (add_segment b' passes bytes) as [[y|]| |]; cbn in *; auto. split; assumption.
Qed.
Lemma fskip_both style layers b b' f : both style layers b b' -> both style layers (with_fskip b f) (with_fskip b' f).
Proof. intros [[] []]. split; constructor; cbn [with_fskip cmodes npasses nzbp fskip lblock plen plcount lstart lpasses included]; assumption || reflexivity. Qed.
Lemma hts_twin style layers fuel : forall b b' new next empty s, both style layers b b' -> (0 < new -> next = 1 \/ next = 2) -> Inv s ->
  orel (pairR (both style layers)) (ht_segments get fuel b new next empty s) (ht_segments get fuel b' new next empty s).
Proof.
  induction fuel as [|fuel IH]; intros b b' new next empty s K Hn Is; cbn [ht_segments]; [exact I|]. destruct (Z.leb_spec new 0) as [G|G]; [split; [exact K|reflexivity]|]. cbv zeta. specialize (Hn G).
  pose proof K as [T _]. rewrite (tw_lblock _ _ T). set (sp := if 1 <? new then next else 1). assert (1 <= sp <= 2 /\ sp <= new) as Hsp by (subst sp; destruct (Z.ltb_spec 1 new); lia).
  rewrite (Z.mod_small sp) by lia. rewrite (Z.mod_small (3 - next)) by lia.
  eapply orel_same; [apply ok_N; [exact Hget|exact Is]|]. cbv beta iota. intros v s' _ I'.
  eapply (orel_bind (fun r r' => both style layers (fst r) (fst r') /\ snd r = snd r')).
  - rewrite (tw_skip _ _ T). destruct (3 - next =? 2); [destruct (v =? 0); [split; [now apply fskip_both|reflexivity]|]; destruct (v <? 2); [exact I|split; [now apply fskip_both|reflexivity]]|]. destruct empty; [destruct (v =? 0); [split; [now apply fskip_both|reflexivity]|exact I]|]. split; [exact K|reflexivity].
  - intros [b1 e1] [b1' e1'] [K1 E1]. cbn [fst snd] in *. subst e1'. eapply orel_bind; [apply add_both; [exact K1|lia]|]. intros b2 b2' K2. apply IH; auto; lia.
Qed.
Lemma plain_twin style layers fuel : forall b b' new next term s, both style layers b b' -> (0 < new -> next = 1 \/ next = 2) -> Inv s ->
  orel (pairR (both style layers)) (plain_segments get fuel b new next term s) (plain_segments get fuel b' new next term s).
Proof.
  induction fuel as [|fuel IH]; intros b b' new next term s K Hn Is; cbn [plain_segments]; [exact I|]. destruct (Z.leb_spec new 0) as [G|G]; [split; [exact K|reflexivity]|]. cbv zeta. specialize (Hn G).
  pose proof K as [T _]. rewrite (tw_lblock _ _ T).
  assert (exists sp nx bits, (if negb (term =? 0) then (if 1 <? new then next else 1, (3 - next) mod 256, (lblock b + (if 1 <? new then next else 1) - 1) mod 256) else (1, next, lblock b)) = (sp, nx, bits) /\ 1 <= sp <= 2 /\ sp <= new /\ (nx = 1 \/ nx = 2)) as (sp & nx & bits & -> & H1 & H2 & H3).
  { destruct (negb (term =? 0)); do 3 eexists; (split; [reflexivity|]); [rewrite (Z.mod_small (3 - next)) by lia; destruct (Z.ltb_spec 1 new); lia|lia]. }
  eapply orel_same; [apply ok_N; [exact Hget|exact Is]|]. cbv beta iota. intros v s' _ I'. eapply orel_bind; [apply add_both; [exact K|lia]|]. intros b2 b2' K2. apply IH; auto; lia.
Qed.
Lemma segment_twin b b' new s : twin b b' -> first_segment get b' new s = first_segment get b new s.
Proof. intros [T1 T2 T3 T4 T5 T6 T7 T8 T9 T10]. unfold first_segment, phld_segment, ht_segment, bypass_segment. rewrite T1, T2, T5. reflexivity. Qed.
Lemma set_both style layers b b' layer v : both style layers b b' -> 0 <= layer < layers -> exists c c', set_layer_passes b layer v = Ret c /\ set_layer_passes b' layer v = Ret c' /\ both style layers c c'.
Proof.
  intros [T K] Hl. destruct (layer_ok style layers b layer v K Hl) as (c & E & Kc & _). exists c. unfold set_layer_passes in *. destruct T as [T1 T2 T3 T4 T5 T6 T7 T8 T9 T10]. rewrite T9. destruct (wr (lpasses b) layer v) as [l| |]; try discriminate E. cbn [bind] in *. apply Ret_inj in E. subst c. eexists. split; [reflexivity|]. split; [reflexivity|]. split; [|exact Kc]. constructor; cbn [cmodes npasses nzbp fskip lblock plen plcount lstart lpasses included]; auto.
Qed.
Lemma contribution_twin style layers fuel layer b b' s : both style layers b b' -> 0 <= layer < layers -> Inv s -> orel (pairR (both style layers)) (contribution get fuel layer b s) (contribution get fuel layer b' s).
Proof.
  intros K Hl Is. unfold contribution. eapply orel_same; [apply ok_passes; [exact Hget|exact Is]|]. cbv beta iota. intros new s1 Hn I1.
  destruct (set_both style layers b b' layer (new mod 256) K Hl) as (c & c' & -> & -> & [T1 K1]). go. rewrite (tw_lblock _ _ T1).
  eapply orel_same; [apply ok_lblock; [exact Hget|exact I1|discriminate]|]. cbv beta iota zeta. intros lb s2 _ I2.
  assert (both style layers (with_lblock c lb) (with_lblock c' lb)) as [T2 K2] by (destruct T1, K1; split; constructor; cbn [with_lblock cmodes npasses nzbp fskip lblock plen plcount lstart lpasses included]; assumption || reflexivity).
  rewrite (segment_twin _ _ new s2 T2). eapply orel_same; [apply ok_segment; [exact Hget|apply K2|lia|exact I2]|]. cbv beta iota. intros g s3 [G1 G2 G3] I3. rewrite (Z.mod_small (g_passes g)) by lia.
  eapply orel_bind.
  - apply (add_both style layers); [|lia]. destruct T2, K2 as [N1 N2 N3 N4 N5 N6 N7]. split; constructor; cbn [with_modes cmodes npasses nzbp fskip lblock plen plcount lstart lpasses included]; try assumption; try reflexivity; destruct G3 as [-> | ->]; try assumption; [now apply clear_mixed|]. rewrite <- N2. unfold clear_flags. rewrite <- Z.land_assoc. reflexivity.
  - intros b3 b3' K3. pose proof K3 as [T3 _]. rewrite (tw_modes _ _ T3). destruct (_ =? HT).
    + apply hts_twin; auto; [now apply fskip_both|]. intros X. apply G2. lia.
    + apply plain_twin; auto. intros X. apply G2. lia.
Qed.
Lemma first_twin style layers n t0 t1 fuel layer ccap i b b' inc zbp s : has ccap 49152 = false -> both style layers b b' -> zlen t1 = zlen t0 -> tree_ok n t0 inc -> tree_ok n t1 zbp -> 0 <= i < zlen t0 -> Inv s ->
  orel (pairR (fun r r' => let '(inc1, zbp1, is1, b1) := r in let '(inc2, zbp2, is2, b2) := r' in inc1 = inc2 /\ zbp1 = zbp2 /\ is1 = is2 /\ both style layers b1 b2))
    (first_inclusion get fuel layer ccap i b inc zbp s) (first_inclusion get fuel layer ccap i b' inc zbp s).
Proof.
  intros Hc [T K] LL T1 T2 Hi Is. unfold first_inclusion. rewrite Hc. cbv zeta. rewrite (tw_modes _ _ T). set (b1 := if HT <=? cmodes b then _ else b). set (b1' := if HT <=? cmodes b then _ else b').
  assert (both style layers b1 b1') as [U1 V1].
  { subst b1 b1'. destruct (HT <=? cmodes b); [|split; assumption]. destruct T, K as [K1 K0 K2 K3 K4 K5 K6]. split; constructor; cbn [with_modes cmodes npasses nzbp fskip lblock plen plcount lstart lpasses included]; try assumption; try reflexivity; [unfold has in *; rewrite Z.land_lor_distr_l; change (Z.land HT_PHLD HT_MIXED) with 0; rewrite Z.lor_0_r; exact K1|]. unfold clear_flags in *. rewrite Z.land_lor_distr_l. change (Z.land HT_PHLD (65535 - (HT_PHLD + HT_MIXED))) with 0. rewrite Z.lor_0_r. exact K0. }
  pose proof (tree_ok_len _ _ _ T1) as L1. destruct (path_in n inc i (proj1 T1) ltac:(lia)) as (p & -> & Hp & Hh). rewrite L1 in Hp. go.
  eapply (orel_same _ s _ (fun r => tree_ok n t0 (fst r))); [destruct (0 <? layer); [apply ok_inclusion; auto|apply ok_ret; auto]|].
  intros [inc1 is1] s1 T3 I1. cbv beta iota. cbn [fst] in T3. eapply (orel_same _ s1 _ (fun r => tree_ok n t0 (fst r))); [apply ok_inclusion; auto|]. intros [inc2 is2] s2 T4 I2. cbv beta iota. cbn [fst] in T4.
  destruct is2; [|split; [|reflexivity]; cbn [fst]; repeat split; auto; apply U1 || apply V1].
  eapply (orel_same _ s2 _ (tree_ok n t1)); [apply ok_zbp; auto; [rewrite LL; exact Hp|discriminate]|]. cbv beta iota. intros zbp1 s3 T5 I3. pose proof (tree_ok_len _ _ _ T5).
  rewrite nget_in by lia. go. split; [|reflexivity]. cbn [fst]. split; [reflexivity|]. split; [reflexivity|]. split; [reflexivity|]. destruct U1, V1. split; constructor; cbn [with_zbp cmodes npasses nzbp fskip lblock plen plcount lstart lpasses included]; assumption || reflexivity.
Qed.
Lemma orel_ok {A B C D} (R : A -> B -> Prop) (Q : C -> D -> Prop) s (x : ex (A * S)) (y : ex (B * S)) (P : A -> Prop) k k' : orel (pairR R) x y -> ok s x P -> (forall a b s', R a b -> P a -> Inv s' -> orel Q (k (a, s')) (k' (b, s'))) -> orel Q (bindx x k) (bindx y k').
Proof. intros H O K. destruct x as [[[a s']|]| |], y as [[[b s'']|]| |]; cbn in *; auto; try contradiction. destruct H as [H1 H2]. cbn in H1, H2. subst s''. destruct O as (O1 & O2 & _). auto. Qed.
Lemma block_twin style layers n t0 t1 fuel layer ccap i b b' inc zbp s : has ccap 49152 = false -> both style layers b b' -> 0 <= layer < layers -> zlen t1 = zlen t0 -> tree_ok n t0 inc -> tree_ok n t1 zbp -> 0 <= i < zlen t0 -> Inv s ->
  orel (pairR (fun r r' => fst r = fst r' /\ both style layers (snd r) (snd r'))) (parse_block get fuel layer ccap i b inc zbp s) (parse_block get fuel layer ccap i b' inc zbp s).
Proof.
  intros Hc [T K] Hl LL T1 T2 Hi Is. unfold parse_block.
  assert (exists c c', start_layer b layer = Ret c /\ start_layer b' layer = Ret c' /\ both style layers c c') as (c & c' & -> & -> & [U V]).
  { destruct (start_ok style layers b layer K Hl) as (c & E & Kc). exists c. unfold start_layer in *. destruct T as [Q1 Q2 Q3 Q4 Q5 Q6 Q7 Q8 Q9 Q10]. rewrite Q8, Q9. destruct (wr (lstart b) layer _) as [l| |]; try discriminate E. cbn [bind] in *. apply Ret_inj in E. subst c. eexists. split; [reflexivity|]. split; [reflexivity|]. split; [|exact Kc]. constructor; cbn [cmodes npasses nzbp fskip lblock plen plcount lstart lpasses included]; auto. }
  go. rewrite (tw_inc _ _ U).
  eapply (orel_ok (fun r r' => let '(inc1, zbp1, is1, b1) := r in let '(inc2, zbp2, is2, b2) := r' in inc1 = inc2 /\ zbp1 = zbp2 /\ is1 = is2 /\ both style layers b1 b2) _ s _ _ (fun _ => True)).
  { destruct (included c); [|eapply first_twin; eauto; split; assumption]. eapply orel_same; [exact (got_ok s Is)|]. cbv beta iota. intros v s' _ I'. split; [|reflexivity]. cbn [fst]. repeat split; auto; apply U || apply V. }
  { destruct (included c); [eapply (ok_bind get Inv (fun _ => O) false Hget); [exact (got_ok s Is)|]; cbv beta iota; intros v s' _ I' _; apply ok_ret; auto|eapply ok_weak; [eapply (ok_first get Inv (fun _ => O) false Hget); eauto; discriminate|intros; exact I]]. }
  intros [[[inc1 zbp1] is1] b1] [[[inc2 zbp2] is2] b2] s1 (<- & <- & <- & [U1 V1]) _ I1. cbv beta iota. destruct is1.
  - eapply (orel_ok _ _ s1 _ _ (fun _ => True)); [apply (contribution_twin style layers); [split; assumption|exact Hl|exact I1]| |].
    + eapply ok_weak; [apply (ok_contribution get Inv (fun _ => O) false Hget style layers); [exact V1|exact Hl|exact I1|discriminate]|intros; exact I].
    + intros x y s2 K2 _ I2. split; [|reflexivity]. cbn [fst snd]. split; [reflexivity|exact K2].
  - destruct (set_both style layers b1 b2 layer 0 (conj U1 V1) Hl) as (x & y & -> & -> & K2). go. split; [|reflexivity]. cbn [fst snd]. split; [reflexivity|exact K2].
Qed.
Lemma blocks_twin style layers n t0 t1 fuel layer ccap : has ccap 49152 = false -> 0 <= layer < layers -> forall bs bs' i inc zbp s, Forall2 (both style layers) bs bs' -> zlen t1 = zlen t0 -> tree_ok n t0 inc -> tree_ok n t1 zbp -> 0 <= i -> i + zlen bs <= zlen t0 -> Inv s ->
  orel (pairR (fun r r' => fst r = fst r' /\ Forall2 (both style layers) (snd r) (snd r'))) (parse_blocks get fuel layer ccap i bs inc zbp s) (parse_blocks get fuel layer ccap i bs' inc zbp s).
Proof.
  intros Hc Hl bs bs' i inc zbp s K. revert i inc zbp s. induction K as [|b b' bs bs' K1 K2 IH]; intros i inc zbp s LL T1 T2 Hi HL Is; cbn [parse_blocks]; [split; [|reflexivity]; cbn [fst snd]; auto|].
  rewrite zlen_cons in HL. pose proof (zlen_nonneg bs).
  eapply orel_ok; [eapply (block_twin style layers n t0 t1); auto; lia|apply (ok_block get Inv (fun _ => O) false Hget style layers n t0 t1); auto; [apply K1|lia|discriminate]|].
  intros [[inc1 zbp1] b1] [[inc2 zbp2] b2] s1 [E1 K3] (A1 & A2 & A3) I1. cbv beta iota. cbn [fst snd] in E1, K3. apply pair_inj in E1. destruct E1 as [<- <-].
  eapply (orel_ok _ _ s1 _ _ (fun _ => True)); [apply IH; auto; lia| |].
  - eapply ok_weak; [apply (ok_blocks get Inv (fun _ => O) false Hget style layers n t0 t1); auto; [clear -K2; induction K2 as [|? ? ? ? [_ X]]; constructor; auto|lia|lia|discriminate]|intros; exact I].
  - intros [[inc3 zbp3] bs3] [[inc4 zbp4] bs4] s2 [E2 K4] _ I2. cbv beta iota. cbn [fst snd] in E2, K4. apply pair_inj in E2. destruct E2 as [<- <-]. split; [|reflexivity]. cbn [fst snd]. split; [reflexivity|]. constructor; assumption.
Qed.
Definition bboth style layers (d0 d d' : band) : Prop := twins d d' /\ band_ok style layers d0 d.
Lemma header_twin style layers fuel layer ccap d0 d d' s : has ccap 49152 = false -> 0 <= layer < layers -> bboth style layers d0 d d' -> Inv s -> orel (pairR twins) (parse_packet_header get fuel layer ccap d s) (parse_packet_header get fuel layer ccap d' s).
Proof.
  intros Hc Hl [T K] Is. pose proof K as [K1 K2 Kx Ky K3 Ki Kz K4 K5]. pose proof T as [Q1 Q2 Q3 Q4 Q5]. unfold parse_packet_header. rewrite Q1, Q2, Q3, Q4. destruct (Z.eqb_spec (bnx d * bny d) 0) as [E|E]; [split; [exact T|reflexivity]|]. destruct (K3 E) as (T1 & T2 & T3). pose proof (tp_len _ _ T1).
  pose proof (sm_len _ _ Ki). pose proof (sm_len _ _ Kz).
  eapply (orel_bind (pairR (fun r r' => fst r = fst r' /\ Forall2 (both style layers) (snd r) (snd r')))).
  - apply (blocks_twin style layers (bnx d * bny d) (binc d0) (bzbp d0)); auto; try lia; try (split; assumption). clear -Q5 K5. induction Q5; inversion K5; subst; constructor; auto. split; assumption.
  - intros [[[inc1 zbp1] bs1] s1] [[[inc2 zbp2] bs2] s2] [[E1 E2] E3]. cbn [fst snd] in *. apply pair_inj in E1. destruct E1 as [<- <-]. subst s2. split; [|reflexivity]. cbn [fst]. constructor; auto. cbn [bblocks]. clear -E2. induction E2 as [|? ? ? ? [X _]]; constructor; auto.
Qed.
Lemma bands_twin style layers fuel layer ccap : has ccap 49152 = false -> 0 <= layer < layers -> forall d0s ds ds' s, Forall2 (band_ok style layers) d0s ds -> Forall2 twins ds ds' -> Inv s ->
  orel (pairR (Forall2 twins)) (parse_bands get fuel layer ccap ds s) (parse_bands get fuel layer ccap ds' s).
Proof.
  intros Hc Hl d0s ds ds' s K. revert ds' s. induction K as [|d0 d d0s ds K1 K2 IH]; intros ds' s F Is; inversion F as [|? d' ? ds2 F1 F2]; subst; cbn [parse_bands]; [split; [constructor|reflexivity]|].
  eapply orel_ok; [apply (header_twin style layers fuel layer ccap d0); auto; split; assumption|apply (ok_header get Inv (fun _ => O) false Hget style layers fuel layer ccap d0); auto; discriminate|].
  intros d1 d1' s1 W1 D1 I1. cbv beta iota. eapply (orel_ok _ _ s1 _ _ (fun _ => True)); [apply IH; auto| |].
  - eapply ok_weak; [apply (ok_bands get Inv (fun _ => O) false Hget style layers fuel layer ccap Hc Hl d0s); auto; discriminate|intros; exact I].
  - intros x y s2 W2 _ _. split; [|reflexivity]. cbn [fst]. constructor; assumption.
Qed.
End Twin.
