(** The traversal of OrderModel.v visits the sequence of OrderSpec.v. *)
From Coq Require Import Sorted Permutation Znumtheory.
From Verif Require Import Base BaseLemmas PrecinctModel PrecinctSpec PrecinctProofs
  OrderModel OrderSpec OrderProofs.

(** * The tile *)

Definition res_of (h : header) (tx ty : Z) (c : comp) (r : Z) : res :=
  {| s_npw := cells (x_span h c tx r) (ppx c r);
     s_nph := cells (y_span h c ty r) (ppy c r);
     s_x0 := fst (x_span h c tx r); s_y0 := fst (y_span h c ty r) |}.
Definition tcomp_of (h : header) (tx ty : Z) (c : comp) : tcomp :=
  {| tc_par := c; tc_res := map (res_of h tx ty c) (zseq (c_NL c + 1)) |}.
Definition tile_of (h : header) (layers tx ty : Z) : tile :=
  {| t_x0 := fst (tile_x h tx); t_y0 := fst (tile_y h ty);
     t_x1 := snd (tile_x h tx); t_y1 := snd (tile_y h ty);
     t_layers := layers; t_comps := map (tcomp_of h tx ty) (h_comps h) |}.

Lemma resolution_exact h c tx ty r : legal h -> In c (h_comps h) ->
  0 <= tx < tiles_x h -> 0 <= ty < tiles_y h -> 0 <= r <= c_NL c ->
  let x := comp_span (fst (c_sub c)) (tile_x h tx) in
  let y := comp_span (snd (c_sub c)) (tile_y h ty) in
  resolution c (fst x) (fst y) (snd x) (snd y) r = ret (res_of h tx ty c r).
Proof.
  intros Hleg Hc Htx Hty Hr x y.
  pose proof (x_comp_ok h Hleg c tx Hc Htx) as Hx.
  pose proof (y_comp_ok h Hleg c ty Hc Hty) as Hy.
  pose proof (comp_is_legal h Hleg c Hc) as Hcl.
  assert (HN : 0 <= c_NL c <= 31) by apply Hcl.
  destruct (nth_pp c r Hcl Hr) as (Hnth & Hpx & Hpy).
  unfold resolution. rewrite shl1_exact by lia. rewrite ret_bindx.
  unfold precinct_size. rewrite Hnth, ret_bindx.
  fold (tile_x h tx) in Hx. fold (tile_y h ty) in Hy. fold x in Hx. fold y in Hy.
  rewrite axis_exact by (try lia; destruct x; exact Hx). rewrite ret_bindx.
  rewrite axis_exact by (try lia; destruct y; exact Hy). rewrite ret_bindx.
  unfold res_of.
  assert (Hxs : res_span (c_NL c - r) (fst x, snd x) = x_span h c tx r)
    by (unfold x_span; fold (tile_x h tx); fold x; destruct x; reflexivity).
  assert (Hys : res_span (c_NL c - r) (fst y, snd y) = y_span h c ty r)
    by (unfold y_span; fold (tile_y h ty); fold y; destruct y; reflexivity).
  rewrite Hxs, Hys. reflexivity.
Qed.

Lemma make_tile_exact h layers tx ty : legal h ->
  0 <= tx < tiles_x h -> 0 <= ty < tiles_y h ->
  make_tile h layers (ty * tiles_x h + tx) = ret (tile_of h layers tx ty).
Proof.
  intros Hleg Htx Hty. unfold make_tile.
  rewrite (tiles_along_exact _ _ _ _ (lg_x h Hleg)), ret_bindx. fold (tiles_x h).
  rewrite (proj2 (Z.eqb_neq (tiles_x h) 0)) by lia.
  replace ((ty * tiles_x h + tx) mod tiles_x h) with tx
    by (rewrite Z.add_comm, Z.mod_add, Z.mod_small; lia).
  replace ((ty * tiles_x h + tx) / tiles_x h) with ty
    by (rewrite Z.add_comm, Z.div_add, Z.div_small; lia).
  rewrite (tile_lo_exact _ _ _ _ tx (lg_x h Hleg) Htx).
  rewrite (tile_lo_exact _ _ _ _ ty (lg_y h Hleg) Hty).
  rewrite (tile_hi_exact _ _ _ _ tx (lg_x h Hleg) Htx).
  rewrite (tile_hi_exact _ _ _ _ ty (lg_y h Hleg) Hty).
  fold (tile_x h tx) (tile_y h ty).
  rewrite (mapM_ok _ (tcomp_of h tx ty)); [reflexivity|].
  intros c Hc.
  pose proof (tile_span_ok _ _ _ _ tx (lg_x h Hleg) Htx) as Hx.
  pose proof (tile_span_ok _ _ _ _ ty (lg_y h Hleg) Hty) as Hy.
  pose proof (comp_is_legal h Hleg c Hc) as (Hsx & Hsy & HN & Hl & Hf).
  cbv zeta in Hx, Hy. fold (tile_x h tx) in Hx. fold (tile_y h ty) in Hy.
  unfold component. change (2 ^ 31) with 2147483648 in *.
  rewrite !cdiv_exact by (rewrite ?two32_val; lia). rewrite !ret_bindx.
  rewrite (mapM_ok _ (res_of h tx ty c)); [reflexivity|].
  intros r Hr. apply zseq_In in Hr.
  pose proof (resolution_exact h c tx ty r Hleg Hc Htx Hty ltac:(lia)) as E.
  cbv zeta in E. unfold comp_span in E. cbn [fst snd] in E. exact E.
Qed.

(** * Loops *)

Lemma each_app {A S} (f : A -> S -> ex S) l1 : forall l2 s,
  each (l1 ++ l2) f s = bindx (each l1 f s) (each l2 f).
Proof.
  induction l1 as [|a l1 IH]; intros l2 s; cbn [app each]; [reflexivity|].
  destruct (f a s) as [[s'|]| |]; cbn [bindx]; try reflexivity. apply IH.
Qed.

Lemma each_ext {A S} (f g : A -> S -> ex S) l : forall s,
  (forall a, In a l -> forall s, f a s = g a s) -> each l f s = each l g s.
Proof.
  induction l as [|a l IH]; intros s H; cbn [each]; [reflexivity|].
  rewrite (H a (or_introl eq_refl)).
  destruct (g a s) as [[s'|]| |]; cbn [bindx]; try reflexivity.
  apply IH. intros; apply H; right; assumption.
Qed.

Lemma each_flat_map {A B S} (g : A -> list B) (f : B -> S -> ex S) l : forall s,
  each (flat_map g l) f s = each l (fun a => each (g a) f) s.
Proof.
  induction l as [|a l IH]; intros s; cbn [flat_map each]; [reflexivity|].
  rewrite each_app. destruct (each (g a) f s) as [[s'|]| |]; cbn [bindx]; try reflexivity.
  apply IH.
Qed.

Lemma each_one {A S} (f : A -> S -> ex S) a s : each [a] f s = f a s.
Proof. cbn [each]. destruct (f a s) as [[s'|]| |]; reflexivity. Qed.

Lemma flat_map_ext_in {A B} (f g : A -> list B) l :
  (forall a, In a l -> f a = g a) -> flat_map f l = flat_map g l.
Proof.
  induction l as [|a l IH]; intros H; cbn [flat_map]; [reflexivity|].
  rewrite (H a (or_introl eq_refl)), IH; [reflexivity|].
  intros; apply H; right; assumption.
Qed.

Lemma flat_map_nil {A B} (f : A -> list B) l :
  (forall a, In a l -> f a = []) -> flat_map f l = [].
Proof.
  induction l as [|a l IH]; intros H; cbn [flat_map]; [reflexivity|].
  rewrite (H a (or_introl eq_refl)), IH; [reflexivity|].
  intros; apply H; right; assumption.
Qed.

Lemma flat_map_flat_map {A B C} (g : A -> list B) (f : B -> list C) l :
  flat_map f (flat_map g l) = flat_map (fun a => flat_map f (g a)) l.
Proof.
  induction l as [|a l IH]; cbn [flat_map]; [reflexivity|].
  rewrite flat_map_app, IH. reflexivity.
Qed.

Lemma flat_map_filter {A B} (f : A -> list B) p l :
  (forall a, In a l -> p a = false -> f a = []) ->
  flat_map f (filter p l) = flat_map f l.
Proof.
  induction l as [|a l IH]; intros H; cbn [filter flat_map]; [reflexivity|].
  assert (IH' : flat_map f (filter p l) = flat_map f l)
    by (apply IH; intros; apply H; [right|]; assumption).
  destruct (p a) eqn:E; cbn [flat_map]; rewrite IH'; [reflexivity|].
  rewrite (H a (or_introl eq_refl) E). reflexivity.
Qed.

Lemma filter_flat_map {A B} (f : A -> list B) p l :
  filter p (flat_map f l) = flat_map (fun a => filter p (f a)) l.
Proof.
  induction l as [|a l IH]; cbn [flat_map]; [reflexivity|].
  rewrite filter_app, IH. reflexivity.
Qed.

Lemma map_flat_map {A B C} (f : A -> list B) (g : B -> C) l :
  map g (flat_map f l) = flat_map (fun a => map g (f a)) l.
Proof.
  induction l as [|a l IH]; cbn [flat_map]; [reflexivity|].
  rewrite map_app, IH. reflexivity.
Qed.

Lemma flat_map_map {A B C} (f : A -> B) (g : B -> list C) l :
  flat_map g (map f l) = flat_map (fun a => g (f a)) l.
Proof.
  induction l as [|a l IH]; cbn [map flat_map]; [reflexivity|]. rewrite IH. reflexivity.
Qed.

(** A loop of which only one turn does anything. *)
Lemma flat_map_single {B} (f : Z -> list B) l k : NoDup l ->
  (forall a, In a l -> a <> k -> f a = []) ->
  flat_map f l = if in_dec Z.eq_dec k l then f k else [].
Proof.
  induction 1 as [|a l Ha Hn IH]; intros H; cbn [flat_map]; [reflexivity|].
  rewrite IH by (intros; apply H; [right|]; assumption).
  destruct (Z.eq_dec a k) as [->|Hak].
  - destruct (in_dec Z.eq_dec k l); [contradiction|].
    destruct (in_dec Z.eq_dec k (k :: l)) as [|Hn']; [apply app_nil_r|].
    destruct Hn'. left; reflexivity.
  - rewrite (H a (or_introl eq_refl) Hak). cbn [app].
    destruct (in_dec Z.eq_dec k l) as [i|i], (in_dec Z.eq_dec k (a :: l)) as [j|j];
      try reflexivity.
    + destruct j. right; assumption.
    + destruct j; [congruence|contradiction].
Qed.

Lemma zrange_app a b c : a <= b <= c -> zrange a b ++ zrange b c = zrange a c.
Proof.
  intros H. remember (Z.to_nat (b - a)) as n eqn:En. revert a En H.
  induction n as [|n IH]; intros a En H.
  - replace a with b by lia. rewrite (zrange_nil b b) by lia. reflexivity.
  - rewrite (zrange_cons a b), (zrange_cons a c) by lia. cbn [app]. f_equal.
    apply IH; lia.
Qed.

(** Counting row by row. *)
Lemma product_enum w n : 0 <= w -> 0 <= n ->
  flat_map (fun j => map (fun i => i + j * w) (zseq w)) (zseq n) = zseq (w * n).
Proof.
  intros Hw Hn.
  assert (G : forall m j, 0 <= j ->
    flat_map (fun j => map (fun i => i + j * w) (zseq w)) (zrange j (j + Z.of_nat m))
    = zrange (j * w) ((j + Z.of_nat m) * w)).
  { induction m as [|m IH]; intros j Hj.
    - rewrite Z.add_0_r, !zrange_nil by lia. reflexivity.
    - rewrite zrange_cons by lia. cbn [flat_map].
      replace (j + Z.of_nat (S m)) with (j + 1 + Z.of_nat m) by lia.
      rewrite IH by lia.
      replace (map (fun i => i + j * w) (zseq w)) with (zrange (j * w) ((j + 1) * w)).
      + apply zrange_app. nia.
      + unfold zrange. replace ((j + 1) * w - j * w) with w by ring.
        apply map_ext. intros; ring. }
  specialize (G (Z.to_nat n) 0 ltac:(lia)).
  rewrite Z2Nat.id, Z.add_0_l, Z.mul_0_l, !zrange_zseq in G by lia.
  rewrite (Z.mul_comm w n). exact G.
Qed.

Lemma existsb_In d q : existsb (packet_eqb q) d = true <-> In q d.
Proof.
  rewrite existsb_exists. unfold packet_eqb. split.
  - intros (a & Ha & E). destruct q as [a1 a2 a3 a4], a as [b1 b2 b3 b4].
    cbn [pk_l pk_r pk_c pk_p] in E.
    rewrite !andb_true_iff, !Z.eqb_eq in E. destruct E as (((-> & ->) & ->) & ->).
    assumption.
  - intros H. exists q. split; [assumption|]. rewrite !Z.eqb_refl. reflexivity.
Qed.

Lemma packet_eqb_sym a b : packet_eqb a b = packet_eqb b a.
Proof.
  unfold packet_eqb.
  rewrite (Z.eqb_sym (pk_l a)), (Z.eqb_sym (pk_r a)), (Z.eqb_sym (pk_c a)),
    (Z.eqb_sym (pk_p a)). reflexivity.
Qed.

Lemma NoDup_snoc {A} (l : list A) x : NoDup l -> ~ In x l -> NoDup (l ++ [x]).
Proof.
  intros Hl Hx. apply (Permutation_NoDup (Permutation_cons_append l x)).
  constructor; assumption.
Qed.

Lemma wrap_mod_pow2 z k : 0 <= k <= 32 -> wrap32 z mod 2 ^ k = z mod 2 ^ k.
Proof.
  intros Hk. unfold wrap32, two32. symmetry. apply Zmod_div_mod.
  - apply Z.pow_pos_nonneg; lia.
  - lia.
  - exists (2 ^ (32 - k)). rewrite <- Z.pow_add_r by lia. f_equal. lia.
Qed.

Lemma cond_exact v t0 sub pp d tr0 : 1 <= sub -> 0 <= pp -> 0 <= d ->
  sub * 2 ^ (pp + d) < 2 ^ 32 ->
  cond v t0 sub pp d tr0 = ret (begins v t0 sub pp d tr0).
Proof.
  intros Hs Hp Hd Hf.
  assert (H2 : 2 ^ (pp + d) < 2 ^ 32).
  { pose proof (Z.pow_pos_nonneg 2 (pp + d) ltac:(lia) ltac:(lia)). nia. }
  assert (Hpd : pp + d < 32) by (apply (Z.pow_lt_mono_r_iff 2); lia).
  unfold cond, begins. rewrite shl1_exact, ret_bindx by lia.
  pose proof (Z.pow_pos_nonneg 2 (pp + d) ltac:(lia) ltac:(lia)) as Hpos.
  rewrite wrap32_small by (unfold two32; nia).
  rewrite (proj2 (Z.eqb_neq (sub * 2 ^ (pp + d)) 0)) by nia.
  destruct (v mod (sub * 2 ^ (pp + d)) =? 0); [reflexivity|]. cbn [orb].
  destruct (v =? t0); [|reflexivity]. cbn [andb].
  rewrite shl1_exact, ret_bindx by lia.
  rewrite wrap_mod_pow2 by lia. reflexivity.
Qed.

(** * The traversal *)

Section Run.
  Variables (h : header) (layers tx ty : Z).
  Hypothesis Hleg : legal h.
  Hypothesis Hfit : fits h.
  Hypothesis Hlay : 1 <= layers <= 65535.
  Hypothesis Htx : 0 <= tx < tiles_x h.
  Hypothesis Hty : 0 <= ty < tiles_y h.
  Hypothesis Hcnt : n_packets h layers tx ty < 2 ^ 32.

  Let t := tile_of h layers tx ty.
  Let N c r := n_precincts h c tx ty r.
  Let is_pk := is_packet h layers tx ty.

  Lemma N_nonneg c r : In c (h_comps h) -> 0 <= r <= c_NL c -> 0 <= N c r.
  Proof. intros Hc Hr. apply n_precincts_nonneg; [apply (comp_is_legal h Hleg); assumption|assumption]. Qed.

  Lemma sumf_ge {A} (f : A -> Z) l a : (forall b, In b l -> 0 <= f b) -> In a l ->
    f a <= sumf f l.
  Proof.
    induction l as [|b l IH]; intros H Ha; [destruct Ha|].
    change (sumf f (b :: l)) with (f b + sumf f l).
    assert (0 <= sumf f l) by (apply sumf_nonneg; intros; apply H; right; assumption).
    pose proof (H b (or_introl eq_refl)).
    destruct Ha as [->|Ha]; [lia|].
    assert (f a <= sumf f l) by (apply IH; [intros; apply H; right|]; assumption). lia.
  Qed.

  Definition per_comp (c : comp) : Z := sumf (N c) (zseq (c_NL c + 1)).

  Lemma per_comp_nonneg c : In c (h_comps h) -> 0 <= per_comp c.
  Proof.
    intros Hc. apply sumf_nonneg. intros r Hr. apply zseq_In in Hr.
    apply N_nonneg; [assumption|lia].
  Qed.

  Lemma total_small : 0 <= sumf per_comp (h_comps h) /\
    sumf per_comp (h_comps h) * layers < two32.
  Proof.
    split; [apply sumf_nonneg; apply per_comp_nonneg|]. exact Hcnt.
  Qed.

  Lemma N_small c r : In c (h_comps h) -> 0 <= r <= c_NL c -> N c r < two32.
  Proof.
    intros Hc Hr. pose proof total_small as [H1 H2].
    assert (N c r <= per_comp c).
    { apply (sumf_ge (N c)); [|apply zseq_In; lia].
      intros b Hb. apply zseq_In in Hb. apply N_nonneg; [assumption|lia]. }
    assert (per_comp c <= sumf per_comp (h_comps h))
      by (apply sumf_ge; [apply per_comp_nonneg|assumption]).
    nia.
  Qed.

  Lemma count_exact c r : In c (h_comps h) -> 0 <= r <= c_NL c ->
    count (res_of h tx ty c r) = N c r.
  Proof.
    intros Hc Hr. unfold count, res_of. cbn [s_npw s_nph].
    apply wrap32_small. split; [apply N_nonneg|apply N_small]; assumption.
  Qed.

  Lemma comps_In c : nth_error (h_comps h) c <> None -> In (nth c (h_comps h) {| c_sub := (0,0); c_NL := 0; c_pp := [] |}) (h_comps h).
  Proof. intros H. apply nth_In. apply nth_error_Some. assumption. Qed.

  Lemma num_comps_exact : num_comps t = zlen (h_comps h).
  Proof. unfold num_comps, t, tile_of, zlen. cbn [t_comps]. rewrite map_length. reflexivity. Qed.

  Lemma comp_at_exact c k : 0 <= c -> nth_error (h_comps h) (Z.to_nat c) = Some k ->
    comp_at t c = ret (tcomp_of h tx ty k).
  Proof.
    intros Hc Hk. unfold comp_at, t, tile_of. cbn [t_comps].
    rewrite (map_nth_error _ _ _ Hk). reflexivity.
  Qed.

  Lemma res_at_exact k r : 0 <= r <= c_NL k ->
    res_at (tcomp_of h tx ty k) r = ret (res_of h tx ty k r).
  Proof.
    intros Hr. unfold res_at, tcomp_of. cbn [tc_res].
    rewrite (map_nth_error _ _ _ (zseq_nth_error (c_NL k + 1) r ltac:(lia))). reflexivity.
  Qed.

  Lemma fold_wrap (f : res -> Z) l : forall n, 0 <= n ->
    (forall s, In s l -> 0 <= f s) -> n + sumf f l < two32 ->
    fold_left (fun n s => wrap32 (n + f s)) l n = n + sumf f l.
  Proof.
    induction l as [|a l IH]; intros n Hn Hf Hs.
    - cbn [fold_left]. unfold sumf. cbn. lia.
    - change (sumf f (a :: l)) with (f a + sumf f l) in *. cbn [fold_left].
      pose proof (Hf a (or_introl eq_refl)).
      assert (0 <= sumf f l) by (apply sumf_nonneg; intros; apply Hf; right; assumption).
      rewrite wrap32_small by lia. rewrite IH; try lia.
      intros; apply Hf; right; assumption.
  Qed.

  Lemma sumf_map {A B} (f : B -> Z) (g : A -> B) l : sumf f (map g l) = sumf (fun a => f (g a)) l.
  Proof.
    induction l as [|a l IH]; [reflexivity|]. cbn [map].
    change (f (g a) + sumf f (map g l) = f (g a) + sumf (fun a => f (g a)) l). lia.
  Qed.

  Lemma sumf_ext {A} (f g : A -> Z) l : (forall a, In a l -> f a = g a) -> sumf f l = sumf g l.
  Proof.
    induction l as [|a l IH]; intros H; [reflexivity|].
    change (f a + sumf f l = g a + sumf g l). rewrite (H a (or_introl eq_refl)), IH; [reflexivity|].
    intros; apply H; right; assumption.
  Qed.

  Lemma comp_fold c n : In c (h_comps h) -> 0 <= n -> n + per_comp c < two32 ->
    fold_left (fun n s => wrap32 (n + count s)) (tc_res (tcomp_of h tx ty c)) n
    = n + per_comp c.
  Proof.
    intros Hc Hn Hs. unfold tcomp_of. cbn [tc_res].
    assert (E : sumf count (map (res_of h tx ty c) (zseq (c_NL c + 1))) = per_comp c).
    { rewrite sumf_map. apply sumf_ext. intros r Hr. apply zseq_In in Hr.
      apply count_exact; [assumption|lia]. }
    rewrite fold_wrap; try (rewrite E; lia).
    - lia.
    - intros s Hs'. apply in_map_iff in Hs'. destruct Hs' as (r & <- & Hr).
      apply zseq_In in Hr. rewrite count_exact by (try assumption; lia).
      apply N_nonneg; [assumption|lia].
  Qed.

  Lemma num_packets_exact : num_packets t = n_packets h layers tx ty.
  Proof.
    unfold num_packets, t, tile_of. cbn [t_comps t_layers].
    pose proof total_small as [H1 H2].
    assert (G : forall l n, (forall c, In c l -> In c (h_comps h)) -> 0 <= n ->
      n + sumf per_comp l < two32 ->
      fold_left (fun n tc => fold_left (fun n s => wrap32 (n + count s)) (tc_res tc) n)
        (map (tcomp_of h tx ty) l) n = n + sumf per_comp l).
    { induction l as [|c l IH]; intros n Hin Hn Hs.
      - cbn. lia.
      - change (sumf per_comp (c :: l)) with (per_comp c + sumf per_comp l) in *.
        cbn [map fold_left].
        assert (0 <= sumf per_comp l)
          by (apply sumf_nonneg; intros; apply per_comp_nonneg, Hin; right; assumption).
        pose proof (per_comp_nonneg c (Hin c (or_introl eq_refl))).
        rewrite comp_fold; [|apply Hin; left; reflexivity|assumption|lia].
        rewrite IH; try lia. intros; apply Hin; right; assumption. }
    assert (H3 : sumf per_comp (h_comps h) * 1 <= sumf per_comp (h_comps h) * layers)
      by (apply Z.mul_le_mono_nonneg_l; lia).
    rewrite G; [|tauto|lia|lia].
    rewrite Z.add_0_l. apply wrap32_small.
    split; [apply Z.mul_nonneg_nonneg; [exact H1|lia]|exact H2].
  Qed.

  Lemma fold_max_ge {A} (f : A -> Z) l : forall n,
    n <= fold_left (fun n a => Z.max (f a) n) l n /\
    (forall a, In a l -> f a <= fold_left (fun n a => Z.max (f a) n) l n).
  Proof.
    induction l as [|a l IH]; intros n; cbn [fold_left]; [split; [lia|intros ? []]|].
    destruct (IH (Z.max (f a) n)) as [H1 H2]. split; [lia|].
    intros b [<-|Hb]; [lia|auto].
  Qed.

  Lemma max_NL_ge c : In c (h_comps h) -> c_NL c <= max_NL t.
  Proof.
    intros Hc. unfold max_NL, t, tile_of. cbn [t_comps].
    destruct (fold_max_ge (fun tc => c_NL (tc_par tc)) (map (tcomp_of h tx ty) (h_comps h)) 0)
      as [_ H].
    apply (H (tcomp_of h tx ty c)). apply in_map. assumption.
  Qed.

  Lemma max_NL_le : 0 <= max_NL t <= 31.
  Proof.
    unfold max_NL, t, tile_of. cbn [t_comps].
    assert (G : forall l n, (forall c, In c l -> In c (h_comps h)) -> 0 <= n <= 31 ->
      0 <= fold_left (fun n tc => Z.max (c_NL (tc_par tc)) n) (map (tcomp_of h tx ty) l) n <= 31).
    { induction l as [|c l IH]; intros n Hin Hn; cbn [map fold_left]; [lia|].
      apply IH; [intros; apply Hin; right; assumption|].
      destruct (comp_is_legal h Hleg c (Hin c (or_introl eq_refl))) as (_ & _ & HN & _).
      cbn [tc_par tcomp_of]. lia. }
    apply G; [tauto|lia].
  Qed.

  Lemma max_precincts_ge c r : In c (h_comps h) -> 0 <= r <= c_NL c ->
    N c r <= max_precincts t.
  Proof.
    intros Hc Hr. unfold max_precincts, t, tile_of. cbn [t_comps].
    assert (G : forall l n,
      n <= fold_left (fun n tc => fold_left (fun n s => Z.max (count s) n) (tc_res tc) n)
             (map (tcomp_of h tx ty) l) n /\
      (In c l -> N c r <=
        fold_left (fun n tc => fold_left (fun n s => Z.max (count s) n) (tc_res tc) n)
             (map (tcomp_of h tx ty) l) n)).
    { induction l as [|a l IH]; intros n; cbn [map fold_left]; [split; [lia|intros []]|].
      destruct (fold_max_ge count (tc_res (tcomp_of h tx ty a)) n) as [M1 M2].
      destruct (IH (fold_left (fun n s => Z.max (count s) n) (tc_res (tcomp_of h tx ty a)) n))
        as [I1 I2].
      split; [lia|]. intros [->|Hin]; [|auto].
      assert (count (res_of h tx ty c r) <=
              fold_left (fun n s => Z.max (count s) n) (tc_res (tcomp_of h tx ty c)) n).
      { apply M2. unfold tcomp_of. cbn [tc_res]. apply in_map. apply zseq_In. lia. }
      rewrite count_exact in H by assumption. lia. }
    apply G. assumption.
  Qed.

  (** All packets of the tile, to count them. *)
  Definition enum : list packet :=
    flat_map (fun l => flat_map (fun ic =>
      flat_map (fun r => map (fun p =>
        {| pk_l := l; pk_r := r; pk_c := fst ic; pk_p := p |}) (zseq (N (snd ic) r)))
        (zseq (c_NL (snd ic) + 1)))
      (combine (zseq (zlen (h_comps h))) (h_comps h))) (zseq layers).

  Lemma combine_nth (l : list comp) : forall s n k,
    nth_error l n = Some k ->
    In (Z.of_nat (s + n), k) (combine (map Z.of_nat (seq s (length l))) l).
  Proof.
    induction l as [|a l IH]; intros s n k H; destruct n as [|n]; cbn [nth_error] in H;
      try discriminate; cbn [length seq map combine].
    - injection H as ->. rewrite Nat.add_0_r. left. reflexivity.
    - right. replace (s + S n)%nat with (S s + n)%nat by lia. apply IH. assumption.
  Qed.

  Lemma enum_complete q : is_pk q -> In q enum.
  Proof.
    intros (Hl & c & Hc & Hn & Hr & Hp). unfold enum.
    apply in_flat_map. exists (pk_l q). split; [apply zseq_In; assumption|].
    apply in_flat_map. exists (pk_c q, c). split.
    - pose proof (combine_nth _ 0 _ _ Hn) as HI. rewrite Nat.add_0_l, Z2Nat.id in HI by assumption.
      unfold zseq, zlen. rewrite Nat2Z.id. exact HI.
    - cbn [fst snd]. apply in_flat_map. exists (pk_r q). split; [apply zseq_In; lia|].
      apply in_map_iff. exists (pk_p q). split; [destruct q; reflexivity|].
      apply zseq_In. assumption.
  Qed.

  Lemma NoDup_flat_map {A B} (f : A -> list B) l : NoDup l ->
    (forall a, In a l -> NoDup (f a)) ->
    (forall a b x, In a l -> In b l -> In x (f a) -> In x (f b) -> a = b) ->
    NoDup (flat_map f l).
  Proof.
    induction l as [|a l IH]; intros Hn Hf Hd; cbn [flat_map]; [constructor|].
    inversion Hn; subst.
    assert (I1 : NoDup (f a)) by (apply Hf; left; reflexivity).
    assert (I2 : NoDup (flat_map f l)).
    { apply IH; [assumption| |]; intros; [apply Hf; right; assumption|].
      eapply Hd; try (right; eassumption); eassumption. }
    assert (I3 : forall x, In x (f a) -> ~ In x (flat_map f l)).
    { intros x Hx Hy. apply in_flat_map in Hy. destruct Hy as (b & Hb & Hy).
      assert (a = b) by (eapply Hd; [left; reflexivity|right; exact Hb|exact Hx|exact Hy]).
      subst b. contradiction. }
    revert I1 I3. generalize (f a). induction l0 as [|x r IHr]; intros I1 I3; [assumption|].
    inversion I1; subst. cbn [app]. constructor.
    - rewrite in_app_iff. intros [?|?]; [contradiction|]. apply (I3 x); [left; reflexivity|assumption].
    - apply IHr; [assumption|]. intros; apply I3; right; assumption.
  Qed.

  Lemma combine_nth_inv (l : list comp) : forall s i k,
    In (i, k) (combine (map Z.of_nat (seq s (length l))) l) ->
    exists n, i = Z.of_nat (s + n) /\ nth_error l n = Some k.
  Proof.
    induction l as [|a l IH]; intros s i k Hi; cbn [length seq map combine In] in Hi; [destruct Hi|].
    destruct Hi as [Hi|Hi].
    - apply pair_inj in Hi. destruct Hi as [<- <-]. exists 0%nat.
      split; [rewrite Nat.add_0_r; reflexivity|reflexivity].
    - destruct (IH (S s) i k Hi) as (n & -> & En). exists (S n).
      split; [f_equal; lia|exact En].
  Qed.

  Lemma zseq_NoDup n : NoDup (zseq n).
  Proof. apply sorted_NoDup, zseq_sorted. Qed.

  Lemma combine_NoDup {A} (l : list Z) : forall l' : list A, NoDup l -> NoDup (combine l l').
  Proof.
    induction l as [|a l IH]; intros l' Hn; cbn [combine]; [constructor|].
    destruct l' as [|b l']; [constructor|]. inversion Hn; subst. constructor.
    - intros Hi. apply in_combine_l in Hi. contradiction.
    - apply IH. assumption.
  Qed.

  Lemma enum_sound q : In q enum -> is_pk q.
  Proof.
    intros Hq. unfold enum in Hq. apply in_flat_map in Hq. destruct Hq as (l & Hl & Hq).
    apply in_flat_map in Hq. destruct Hq as ((i, k) & Hi & Hq). cbn [fst snd] in Hq.
    apply in_flat_map in Hq. destruct Hq as (r & Hr & Hq).
    apply in_map_iff in Hq. destruct Hq as (p & <- & Hp).
    apply zseq_In in Hl, Hr, Hp. unfold zseq, zlen in Hi. rewrite Nat2Z.id in Hi.
    destruct (combine_nth_inv _ _ _ _ Hi) as (n & -> & En).
    split; cbn [pk_l pk_r pk_c pk_p]; [assumption|]. exists k.
    split; [lia|]. rewrite Nat.add_0_l, Nat2Z.id. split; [assumption|]. split; [lia|assumption].
  Qed.

  Lemma enum_NoDup : NoDup enum.
  Proof.
    unfold enum. apply NoDup_flat_map; [apply zseq_NoDup| |].
    - intros l _. apply NoDup_flat_map.
      + apply combine_NoDup. apply zseq_NoDup.
      + intros (i, k) _. cbn [fst snd]. apply NoDup_flat_map; [apply zseq_NoDup| |].
        * intros r _. apply FinFun.Injective_map_NoDup; [|apply zseq_NoDup].
          intros a b E. apply (f_equal pk_p) in E. exact E.
        * intros a b x _ _ Ha Hb. apply in_map_iff in Ha, Hb.
          destruct Ha as (p & <- & _), Hb as (p' & E & _).
          apply (f_equal pk_r) in E. cbn in E. congruence.
      + intros (i, k) (i', k') x Hi Hi' Ha Hb. cbn [fst snd] in Ha, Hb.
        apply in_flat_map in Ha, Hb. destruct Ha as (r & _ & Ha), Hb as (r' & _ & Hb).
        apply in_map_iff in Ha, Hb. destruct Ha as (p & <- & _), Hb as (p' & E & _).
        apply (f_equal pk_c) in E. cbn in E. subst i'.
        unfold zseq, zlen in Hi, Hi'. rewrite Nat2Z.id in Hi, Hi'.
        destruct (combine_nth_inv _ _ _ _ Hi) as (n & E1 & En).
        destruct (combine_nth_inv _ _ _ _ Hi') as (n' & E2 & En').
        assert (n = n') by lia. subst n'. congruence.
    - intros a b x _ _ Ha Hb.
      apply in_flat_map in Ha, Hb. destruct Ha as (k & _ & Ha), Hb as (k' & _ & Hb).
      apply in_flat_map in Ha, Hb. destruct Ha as (r & _ & Ha), Hb as (r' & _ & Hb).
      apply in_map_iff in Ha, Hb. destruct Ha as (p & <- & _), Hb as (p' & E & _).
      apply (f_equal pk_l) in E. cbn in E. congruence.
  Qed.

  Lemma flat_map_zlen {A B} (f : A -> list B) l : zlen (flat_map f l) = sumf (fun a => zlen (f a)) l.
  Proof.
    induction l as [|a l IH]; [reflexivity|]. cbn [flat_map]. rewrite zlen_app, IH. reflexivity.
  Qed.

  Lemma combine_snd {A} (f : A -> Z) : forall (l : list A) s,
    sumf (fun ic : Z * A => f (snd ic)) (combine (map Z.of_nat (seq s (length l))) l) = sumf f l.
  Proof.
    induction l as [|a l IH]; intros s; [reflexivity|].
    cbn [length seq map combine].
    change (f a + sumf (fun ic : Z * A => f (snd ic)) (combine (map Z.of_nat (seq (S s) (length l))) l)
            = f a + sumf f l). rewrite IH. reflexivity.
  Qed.

  Lemma sumf_const {A} (v : Z) (l : list A) : sumf (fun _ => v) l = v * zlen l.
  Proof.
    induction l as [|a l IH]; [unfold zlen; cbn; lia|].
    change (sumf (fun _ => v) (a :: l)) with (v + sumf (fun _ : A => v) l).
    rewrite IH. unfold zlen. cbn [length]. lia.
  Qed.

  Lemma enum_len : zlen enum = n_packets h layers tx ty.
  Proof.
    unfold enum. rewrite flat_map_zlen.
    rewrite (sumf_ext _ (fun _ => sumf per_comp (h_comps h))).
    - rewrite sumf_const, zseq_len by lia. reflexivity.
    - intros l _. rewrite flat_map_zlen.
      rewrite (sumf_ext _ (fun ic : Z * comp => per_comp (snd ic))).
      + unfold zseq, zlen. rewrite Nat2Z.id. apply combine_snd.
      + intros (i, c) Hin. cbn [fst snd]. apply in_combine_r in Hin.
        rewrite flat_map_zlen. apply sumf_ext. intros r Hr. apply zseq_In in Hr.
        unfold zlen. rewrite map_length. apply zseq_len. apply N_nonneg; [assumption|lia].
  Qed.

  (** * One visit *)

  Definition good (s : st) : Prop :=
    (forall q, seen s q = existsb (packet_eqb q) (done s)) /\
    cached s = map crp (done s) /\ NoDup (done s) /\ Forall is_pk (done s).

  Definition put (s : st) (q : packet) : st :=
    if seen s q then s else
    {| done := done s ++ [q]; cached := cached s ++ [crp q];
       seen := fun a => packet_eqb q a || seen s a; cx := cx s; cy := cy s |}.

  Lemma put_good s q : good s -> is_pk q -> good (put s q).
  Proof.
    intros (G1 & G2 & G3 & G4) Hq. unfold put. destruct (seen s q) eqn:E.
    - repeat split; assumption.
    - rewrite G1 in E. repeat split; cbn [seen done cached].
      + intros a. rewrite existsb_app, G1. cbn [existsb]. rewrite orb_false_r, orb_comm.
        f_equal. apply packet_eqb_sym.
      + rewrite map_app, G2. reflexivity.
      + apply NoDup_snoc; [assumption|]. intros Ha. apply existsb_In in Ha. congruence.
      + apply Forall_app. split; [assumption|]. constructor; [assumption|constructor].
  Qed.

  Lemma put_done s q : good s -> done (put s q) = add_new (done s) q.
  Proof.
    intros (G1 & _). unfold put, add_new. rewrite <- G1. destruct (seen s q); reflexivity.
  Qed.

  Lemma put_cx s q : cx (put s q) = cx s /\ cy (put s q) = cy s.
  Proof. unfold put. destruct (seen s q); split; reflexivity. Qed.

  Lemma visit_exact s q : good s -> is_pk q -> visit t q s = ret (put s q).
  Proof.
    intros HG Hq. pose proof HG as (G1 & G2 & G3 & G4).
    pose proof Hq as (Hl & c & Hc & Hn & Hr & Hp).
    pose proof (nth_error_In _ _ Hn) as Hin.
    unfold visit, put.
    assert (H1 : pk_l q <? t_layers t = true) by (apply Z.ltb_lt; unfold t; cbn; lia).
    assert (H2 : pk_r q <? max_NL t + 1 = true)
      by (apply Z.ltb_lt; pose proof (max_NL_ge c Hin); lia).
    assert (H3 : pk_c q <? num_comps t = true).
    { apply Z.ltb_lt. rewrite num_comps_exact. unfold zlen.
      assert (Z.to_nat (pk_c q) < length (h_comps h))%nat
        by (apply nth_error_Some; congruence). lia. }
    assert (H4 : pk_p q <? max_precincts t = true).
    { apply Z.ltb_lt. pose proof (max_precincts_ge c (pk_r q) Hin Hr). unfold N in *. lia. }
    rewrite H1, H2, H3, H4. cbn [andb].
    destruct (seen s q) eqn:E; [reflexivity|].
    rewrite num_packets_exact.
    replace (zlen (done s) <? n_packets h layers tx ty) with true; [reflexivity|].
    symmetry. apply Z.ltb_lt. rewrite <- enum_len.
    assert (L : (length (q :: done s) <= length enum)%nat).
    { apply NoDup_incl_length.
      - constructor; [|assumption]. rewrite G1 in E. intros Ha. apply existsb_In in Ha. congruence.
      - intros a [<-|Ha]; apply enum_complete; [assumption|].
        rewrite Forall_forall in G4. auto. }
    unfold zlen. cbn [length] in L. lia.
  Qed.

  Definition puts (s : st) (l : list packet) : st := fold_left put l s.

  Lemma puts_good l : forall s, good s -> Forall is_pk l -> good (puts s l).
  Proof.
    induction l as [|q l IH]; intros s HG Hl; [assumption|].
    inversion Hl; subst. apply IH; [|assumption]. apply put_good; assumption.
  Qed.

  Lemma puts_done l : forall s, good s -> Forall is_pk l ->
    done (puts s l) = fold_left add_new l (done s).
  Proof.
    induction l as [|q l IH]; intros s HG Hl; [reflexivity|].
    inversion Hl; subst. cbn [puts fold_left].
    change (done (puts (put s q) l) = fold_left add_new l (add_new (done s) q)).
    rewrite IH; [|apply put_good; assumption|assumption].
    rewrite put_done by assumption. reflexivity.
  Qed.

  Lemma puts_cx l : forall s, cx (puts s l) = cx s /\ cy (puts s l) = cy s.
  Proof.
    induction l as [|q l IH]; intros s; [split; reflexivity|].
    destruct (IH (put s q)) as [I1 I2]. destruct (put_cx s q) as [P1 P2].
    cbn [puts fold_left]. unfold puts in *. rewrite I1, I2. split; assumption.
  Qed.

  Lemma puts_app s l1 l2 : puts s (l1 ++ l2) = puts (puts s l1) l2.
  Proof. unfold puts. apply fold_left_app. Qed.

  (** [F] visits the packets [l] in order. *)
  Definition realizes (F : st -> ex st) (l : list packet) : Prop :=
    forall s, good s -> Forall is_pk l -> F s = ret (puts s l).

  Lemma realizes_each {A} (F : A -> st -> ex st) (g : A -> list packet) L :
    (forall a, In a L -> realizes (F a) (g a)) -> realizes (each L F) (flat_map g L).
  Proof.
    induction L as [|a L IH]; intros H s HG Hl; cbn [each flat_map]; [reflexivity|].
    cbn [flat_map] in Hl. apply Forall_app in Hl. destruct Hl as [Ha HL].
    rewrite (H a (or_introl eq_refl) s HG Ha), ret_bindx, puts_app.
    apply IH; [intros; apply H; right; assumption| |assumption].
    apply puts_good; assumption.
  Qed.

  Lemma access_ok k r p : In k (h_comps h) -> 0 <= r <= c_NL k -> 0 <= p < N k r ->
    access_precinct (res_of h tx ty k r) p = ret tt.
  Proof.
    intros Hk Hr Hp. unfold access_precinct. rewrite count_exact by assumption.
    rewrite (proj2 (Z.ltb_ge (N k r) p)), (proj2 (Z.ltb_lt p (N k r))) by lia. reflexivity.
  Qed.

  Lemma all_precincts_realizes l r c k : 0 <= c -> 0 <= r ->
    nth_error (h_comps h) (Z.to_nat c) = Some k ->
    realizes (all_precincts t l r c) (packets_of h tx ty l r c).
  Proof.
    intros Hc Hr Hk s HG Hl. unfold packets_of in *. rewrite Hk in *.
    pose proof (nth_error_In _ _ Hk) as Hin.
    unfold all_precincts. rewrite (comp_at_exact c k Hc Hk), ret_bindx. cbn [tc_par tcomp_of].
    destruct (Z.leb_spec r (c_NL k)) as [Hle|]; [|reflexivity].
    change ({| tc_par := k; tc_res := map (res_of h tx ty k) (zseq (c_NL k + 1)) |})
      with (tcomp_of h tx ty k).
    rewrite res_at_exact, ret_bindx by lia. rewrite count_exact by (try assumption; lia).
    fold (N k r) in *.
    destruct (Z.eqb_spec (N k r) 0) as [E|E]; [rewrite E; reflexivity|].
    assert (G : forall L s, good s -> (forall p, In p L -> 0 <= p < N k r) ->
      Forall is_pk (map (fun p => {| pk_l := l; pk_r := r; pk_c := c; pk_p := p |}) L) ->
      each L (fun p s => let? _ := access_precinct (res_of h tx ty k r) p in
                visit t {| pk_l := l; pk_r := r; pk_c := c; pk_p := p |} s) s =
      ret (puts s (map (fun p => {| pk_l := l; pk_r := r; pk_c := c; pk_p := p |}) L))).
    { induction L as [|p L IH]; intros s1 HG1 HL HF; cbn [each map]; [reflexivity|].
      inversion HF; subst.
      rewrite access_ok, ret_bindx by (try assumption; try lia; apply HL; left; reflexivity).
      rewrite visit_exact, ret_bindx by assumption.
      apply IH; [apply put_good; assumption| |assumption].
      intros; apply HL; right; assumption. }
    apply G; [assumption| |assumption]. intros p Hp. apply zseq_In in Hp. assumption.
  Qed.

  (** * The position orders *)

  Record place := { a_y : Z; a_x : Z; a_c : Z; a_r : Z }.

  Variable LYE : Z.
  Hypothesis HLYE : 0 <= LYE <= layers.

  Definition step (a : place) (s : st) : ex st :=
    let? tc := comp_at t (a_c a) in probe t LYE (a_y a) (a_x a) (a_c a) (a_r a) tc s.
  Definition here (a : place) : list packet :=
    packets_at h tx ty LYE (a_y a) (a_x a) (a_c a) (a_r a).

  Definition valid (a : place) : Prop :=
    0 <= a_c a /\ (exists k, nth_error (h_comps h) (Z.to_nat (a_c a)) = Some k /\
                     0 <= a_r a <= c_NL k) /\
    fst (tile_x h tx) <= a_x a < snd (tile_x h tx) /\
    fst (tile_y h ty) <= a_y a < snd (tile_y h ty).

  Definition hx (k : comp) (r x : Z) : bool :=
    hit (fst (tile_x h tx)) (snd (tile_x h tx)) (fst (c_sub k)) (ppx k r) (c_NL k - r) x.
  Definition hy (k : comp) (r y : Z) : bool :=
    hit (fst (tile_y h ty)) (snd (tile_y h ty)) (snd (c_sub k)) (ppy k r) (c_NL k - r) y.
  Definition ix (k : comp) (r x : Z) : Z :=
    cell (fst (tile_x h tx)) (snd (tile_x h tx)) (fst (c_sub k)) (ppx k r) (c_NL k - r) x.
  Definition iy (k : comp) (r y : Z) : Z :=
    cell (fst (tile_y h ty)) (snd (tile_y h ty)) (snd (c_sub k)) (ppy k r) (c_NL k - r) y.
  Definition W (k : comp) (r : Z) : Z := cells (x_span h k tx r) (ppx k r).
  Definition H (k : comp) (r : Z) : Z := cells (y_span h k ty r) (ppy k r).

  Definition hit2 (k : comp) (r : Z) (a : place) : bool := hx k r (a_x a) && hy k r (a_y a).
  Definition idx (k : comp) (r : Z) (a : place) : Z :=
    ix k r (a_x a) + iy k r (a_y a) * W k r.

  Lemma N_WH k r : N k r = W k r * H k r.
  Proof. reflexivity. Qed.

  Lemma here_eq a k : nth_error (h_comps h) (Z.to_nat (a_c a)) = Some k ->
    a_r a <= c_NL k ->
    here a = if hit2 k (a_r a) a && (0 <? N k (a_r a))
             then map (fun l => {| pk_l := l; pk_r := a_r a; pk_c := a_c a;
                                   pk_p := idx k (a_r a) a |}) (zseq LYE)
             else [].
  Proof.
    intros Hk Hr. unfold here, packets_at. rewrite Hk.
    rewrite (proj2 (Z.leb_le (a_r a) (c_NL k))) by assumption. reflexivity.
  Qed.

  Lemma tile_x_ok : 0 <= fst (tile_x h tx) < snd (tile_x h tx) /\ snd (tile_x h tx) <= 2 ^ 31.
  Proof. pose proof (tile_span_ok _ _ _ _ tx (lg_x h Hleg) Htx) as E. cbv zeta in E. unfold tile_x. lia. Qed.
  Lemma tile_y_ok : 0 <= fst (tile_y h ty) < snd (tile_y h ty) /\ snd (tile_y h ty) <= 2 ^ 31.
  Proof. pose proof (tile_span_ok _ _ _ _ ty (lg_y h Hleg) Hty) as E. cbv zeta in E. unfold tile_y. lia. Qed.

  Lemma comp_facts k r : In k (h_comps h) -> 0 <= r <= c_NL k ->
    1 <= fst (c_sub k) /\ 1 <= snd (c_sub k) /\ 0 <= ppx k r <= 15 /\ 0 <= ppy k r <= 15 /\
    precinct_size k r = ret (ppx k r, ppy k r).
  Proof.
    intros Hk Hr. pose proof (comp_is_legal h Hleg k Hk) as Hcl.
    destruct (nth_pp k r Hcl Hr) as (Hn & Hx & Hy). destruct Hcl as (H1 & H2 & _).
    unfold precinct_size. rewrite Hn. repeat split; try lia; reflexivity.
  Qed.

  Lemma W_pos k r : In k (h_comps h) -> 0 <= r <= c_NL k -> 0 < N k r ->
    0 < W k r /\ 0 < H k r.
  Proof.
    intros Hk Hr HN. destruct (comp_facts k r Hk Hr) as (_ & _ & Hx & Hy & _).
    rewrite N_WH in HN.
    pose proof (cells_nonneg (x_span h k tx r) (ppx k r) ltac:(lia)).
    pose proof (cells_nonneg (y_span h k ty r) (ppy k r) ltac:(lia)).
    unfold W, H in *. nia.
  Qed.

  Lemma idx_range k r a : In k (h_comps h) -> 0 <= r <= c_NL k -> 0 < N k r ->
    fst (tile_x h tx) <= a_x a < snd (tile_x h tx) ->
    fst (tile_y h ty) <= a_y a < snd (tile_y h ty) ->
    hit2 k r a = true ->
    0 <= ix k r (a_x a) < W k r /\ 0 <= iy k r (a_y a) < H k r /\ 0 <= idx k r a < N k r.
  Proof.
    intros Hk Hr HN Hax Hay Hh. destruct (comp_facts k r Hk Hr) as (S1 & S2 & Hx & Hy & _).
    destruct (W_pos k r Hk Hr HN) as [HW HH].
    unfold hit2 in Hh. apply andb_true_iff in Hh. destruct Hh as [Hhx Hhy].
    pose proof tile_x_ok as Tx. pose proof tile_y_ok as Ty.
    assert (Ix : 0 <= ix k r (a_x a) < W k r)
      by (apply hit_range; try assumption; lia).
    assert (Iy : 0 <= iy k r (a_y a) < H k r)
      by (apply hit_range; try assumption; lia).
    split; [assumption|]. split; [assumption|].
    rewrite N_WH. unfold idx. nia.
  Qed.

  Lemma here_packets a : valid a -> Forall is_pk (here a).
  Proof.
    intros (Hc & (k & Hk & Hr) & Hax & Hay). rewrite (here_eq a k Hk) by lia.
    pose proof (nth_error_In _ _ Hk) as Hin.
    destruct (hit2 k (a_r a) a) eqn:Hh; [|constructor]. cbn [andb].
    destruct (Z.ltb_spec 0 (N k (a_r a))) as [HN|]; [|constructor].
    destruct (idx_range k (a_r a) a Hin Hr HN Hax Hay Hh) as (_ & _ & Hi).
    apply Forall_forall. intros q Hq. apply in_map_iff in Hq.
    destruct Hq as (l & <- & Hl). apply zseq_In in Hl.
    split; cbn [pk_l pk_r pk_c pk_p]; [lia|]. exists k. auto.
  Qed.

  Definition sel (c r : Z) (l : list place) : list place :=
    filter (fun a => (a_c a =? c) && (a_r a =? r)) l.

  (** The counters of a resolution stand at the number of the next precinct
      among the places that remain. *)
  Definition inv (s : st) (rest : list place) : Prop :=
    forall c r k, 0 <= c -> nth_error (h_comps h) (Z.to_nat c) = Some k ->
      0 <= r <= c_NL k -> 0 < N k r -> sel c r rest <> [] ->
      map (idx k r) (filter (hit2 k r) (sel c r rest))
        = zrange (cx s c r + cy s c r * W k r) (N k r) /\
      0 <= cx s c r < W k r /\ 0 <= cy s c r.

  Lemma sel_cons_same a rest : sel (a_c a) (a_r a) (a :: rest) = a :: sel (a_c a) (a_r a) rest.
  Proof. unfold sel. cbn [filter]. rewrite !Z.eqb_refl. reflexivity. Qed.

  Lemma sel_cons_diff a rest c r : ~ (a_c a = c /\ a_r a = r) -> sel c r (a :: rest) = sel c r rest.
  Proof.
    intros Hd. unfold sel. cbn [filter].
    destruct (Z.eqb_spec (a_c a) c), (Z.eqb_spec (a_r a) r); cbn [andb]; try reflexivity.
    destruct Hd; auto.
  Qed.

  Lemma upd_same f c r v : upd f c r v c r = v.
  Proof. unfold upd. rewrite !Z.eqb_refl. reflexivity. Qed.
  Lemma upd_diff f c r v c' r' : ~ (c = c' /\ r = r') -> upd f c r v c' r' = f c' r'.
  Proof.
    intros Hd. unfold upd. destruct (Z.eqb_spec c' c), (Z.eqb_spec r' r); cbn [andb]; try reflexivity.
    destruct Hd; auto.
  Qed.

  Lemma inv_skip s a rest : inv s (a :: rest) ->
    (forall k, nth_error (h_comps h) (Z.to_nat (a_c a)) = Some k ->
       0 < N k (a_r a) -> hit2 k (a_r a) a = false) ->
    inv s rest.
  Proof.
    intros HI Hno c r k Hc Hk Hr HN Hne.
    destruct (Z.eq_dec (a_c a) c) as [Ec|Ec], (Z.eq_dec (a_r a) r) as [Er|Er];
      try (rewrite <- (sel_cons_diff a) in Hne |- * by tauto; apply HI; assumption).
    subst. destruct (HI (a_c a) (a_r a) k Hc Hk Hr HN) as (E & B).
    { rewrite sel_cons_same. discriminate. }
    split; [|assumption]. rewrite <- E, sel_cons_same. cbn [filter].
    rewrite (Hno k Hk HN). reflexivity.
  Qed.

  Lemma visits_exact c r p s : good s ->
    Forall is_pk (map (fun l => {| pk_l := l; pk_r := r; pk_c := c; pk_p := p |}) (zseq LYE)) ->
    each (zseq LYE) (fun l s => visit t {| pk_l := l; pk_r := r; pk_c := c; pk_p := p |} s) s
    = ret (puts s (map (fun l => {| pk_l := l; pk_r := r; pk_c := c; pk_p := p |}) (zseq LYE))).
  Proof.
    generalize (zseq LYE). intros L. revert s.
    induction L as [|l L IH]; intros s HG HF; cbn [each map]; [reflexivity|].
    inversion HF; subst. rewrite visit_exact, ret_bindx by assumption.
    apply IH; [apply put_good; assumption|assumption].
  Qed.

  Lemma step_exact a rest s : good s -> valid a -> inv s (a :: rest) ->
    exists s', step a s = ret s' /\ good s' /\
      done s' = fold_left add_new (here a) (done s) /\ inv s' rest.
  Proof.
    intros HG Hv HI. pose proof (here_packets a Hv) as HF.
    destruct Hv as (Hc & (k & Hk & Hr) & Hax & Hay).
    pose proof (nth_error_In _ _ Hk) as Hin.
    rewrite (here_eq a k Hk) in * by lia.
    destruct (comp_facts k (a_r a) Hin Hr) as (S1 & S2 & Hpx & Hpy & Hps).
    destruct (Hfit k (a_r a) Hin Hr) as [F1 F2].
    unfold step. rewrite (comp_at_exact (a_c a) k Hc Hk), ret_bindx.
    unfold probe. cbn [tc_par tcomp_of].
    change ({| tc_par := k; tc_res := map (res_of h tx ty k) (zseq (c_NL k + 1)) |})
      with (tcomp_of h tx ty k).
    rewrite Hps, ret_bindx. rewrite res_at_exact, ret_bindx by lia.
    rewrite count_exact by assumption.
    pose proof (N_nonneg k (a_r a) Hin Hr) as HN0.
    destruct (Z.eqb_spec (N k (a_r a)) 0) as [E|E].
    { exists s. split; [reflexivity|]. split; [assumption|]. split.
      - rewrite E. rewrite andb_false_r. reflexivity.
      - apply (inv_skip s a); [assumption|]. intros k' Hk' HN'.
        assert (k' = k) by congruence. subst k'. lia. }
    assert (HN : 0 < N k (a_r a)) by lia.
    cbn [s_x0 s_y0 s_npw res_of t_x0 t_y0 tile_of t].
    rewrite cond_exact by (try assumption; lia). rewrite ret_bindx.
    rewrite cond_exact by (try assumption; lia). rewrite ret_bindx.
    change (begins (a_x a) (fst (tile_x h tx)) (fst (c_sub k)) (ppx k (a_r a))
              (c_NL k - a_r a) (fst (x_span h k tx (a_r a)))) with (hx k (a_r a) (a_x a)).
    change (begins (a_y a) (fst (tile_y h ty)) (snd (c_sub k)) (ppy k (a_r a))
              (c_NL k - a_r a) (fst (y_span h k ty (a_r a)))) with (hy k (a_r a) (a_y a)).
    fold (hit2 k (a_r a) a).
    rewrite (proj2 (Z.ltb_lt 0 (N k (a_r a)))) in * by assumption.
    rewrite andb_true_r in *.
    destruct (hit2 k (a_r a) a) eqn:Hh.
    2:{ exists s. split; [reflexivity|]. split; [assumption|]. split; [reflexivity|].
        apply (inv_skip s a); [assumption|]. intros k' Hk' _.
        assert (k' = k) by congruence. subst k'. assumption. }
    destruct (HI (a_c a) (a_r a) k Hc Hk Hr HN) as (E1 & B1 & B2).
    { rewrite sel_cons_same. discriminate. }
    rewrite sel_cons_same in E1. cbn [filter] in E1. rewrite Hh in E1. cbn [map] in E1.
    destruct (idx_range k (a_r a) a Hin Hr HN Hax Hay Hh) as (R1 & R2 & R3).
    pose proof (N_small k (a_r a) Hin Hr) as HNs.
    assert (Hlt : cx s (a_c a) (a_r a) + cy s (a_c a) (a_r a) * W k (a_r a) < N k (a_r a)).
    { destruct (Z_lt_ge_dec (cx s (a_c a) (a_r a) + cy s (a_c a) (a_r a) * W k (a_r a))
                  (N k (a_r a))); [assumption|].
      rewrite zrange_nil in E1 by lia. discriminate. }
    rewrite zrange_cons in E1 by assumption. injection E1 as Ei E1.
    fold (W k (a_r a)).
    assert (HW : 0 < W k (a_r a)) by lia.
    assert (HWb : W k (a_r a) < two32).
    { destruct (W_pos k (a_r a) Hin Hr HN) as [_ HH]. rewrite N_WH in HNs. nia. }
    rewrite (wrap32_small (cy s (a_c a) (a_r a) * W k (a_r a))) by nia.
    rewrite (wrap32_small (cx s (a_c a) (a_r a) + _)) by nia.
    rewrite <- Ei. rewrite access_ok, ret_bindx by assumption.
    set (L := map (fun l => {| pk_l := l; pk_r := a_r a; pk_c := a_c a;
                               pk_p := idx k (a_r a) a |}) (zseq LYE)) in *.
    rewrite visits_exact by assumption. rewrite ret_bindx. fold L.
    destruct (puts_cx L s) as [PX PY]. rewrite PX, PY.
    pose proof (puts_good L s HG HF) as HG'.
    pose proof (puts_done L s HG HF) as HD.
    assert (Hcy : 0 <= cy s (a_c a) (a_r a) < two32 - 1) by nia.
    rewrite (wrap32_small (cx s (a_c a) (a_r a) + 1)) by lia.
    rewrite (wrap32_small (cy s (a_c a) (a_r a) + 1)) by lia.
    assert (Hinv : forall s', (forall c r, ~ (a_c a = c /\ a_r a = r) ->
          cx s' c r = cx s c r /\ cy s' c r = cy s c r) ->
        cx s' (a_c a) (a_r a) + cy s' (a_c a) (a_r a) * W k (a_r a) =
          cx s (a_c a) (a_r a) + cy s (a_c a) (a_r a) * W k (a_r a) + 1 ->
        0 <= cx s' (a_c a) (a_r a) < W k (a_r a) -> 0 <= cy s' (a_c a) (a_r a) ->
        inv s' rest).
    { intros s' Hother Hsum Hbx Hby c r k' Hc' Hk' Hr' HN' Hne.
      destruct (Z.eq_dec (a_c a) c) as [Ec|Ec], (Z.eq_dec (a_r a) r) as [Er|Er];
        try (destruct (Hother c r) as [-> ->]; [tauto|];
             rewrite <- (sel_cons_diff a) in Hne |- * by tauto; apply HI; assumption).
      subst c r. assert (k' = k) by congruence. subst k'.
      rewrite Hsum. auto. }
    destruct (Z.eqb_spec (cx s (a_c a) (a_r a) + 1) (W k (a_r a))) as [Ew|Ew].
    - eexists. split; [reflexivity|]. split; [exact HG'|]. split; [exact HD|].
      apply Hinv; cbn [cx cy].
      + intros c r Hd. rewrite !upd_diff by assumption. split; reflexivity.
      + rewrite !upd_same. lia.
      + rewrite upd_same. lia.
      + rewrite upd_same. lia.
    - eexists. split; [reflexivity|]. split; [exact HG'|]. split; [exact HD|].
      apply Hinv; cbn [cx cy].
      + intros c r Hd. rewrite !upd_diff by assumption. split; reflexivity.
      + rewrite upd_same. lia.
      + rewrite upd_same. lia.
      + lia.
  Qed.

  Lemma steps_exact rest : forall s, good s -> Forall valid rest -> inv s rest ->
    exists s', each rest step s = ret s' /\ good s' /\
      done s' = fold_left add_new (flat_map here rest) (done s).
  Proof.
    induction rest as [|a rest IH]; intros s HG HV HI; cbn [each flat_map].
    - exists s. auto.
    - inversion HV; subst.
      destruct (step_exact a rest s HG) as (s1 & E1 & G1 & D1 & I1); try assumption.
      rewrite E1, ret_bindx. destruct (IH s1 G1) as (s2 & E2 & G2 & D2); try assumption.
      exists s2. split; [assumption|]. split; [assumption|].
      rewrite D2, D1, fold_left_app. reflexivity.
  Qed.

  (** * The nested loops as flat lists of places *)

  Variables RS RE CS CE : Z.
  Hypothesis HRS : 0 <= RS.
  Hypothesis HCS : 0 <= CS.
  Hypothesis HCE : CE <= zlen (h_comps h).

  Definition place_of (y x c r : Z) : place := {| a_y := y; a_x := x; a_c := c; a_r := r |}.
  Definition guard (y x c r : Z) : list place :=
    match nth_error (h_comps h) (Z.to_nat c) with
    | Some k => if r <=? c_NL k then [place_of y x c r] else []
    | None => []
    end.

  Definition flat_rpcl (Y X : list Z) : list place :=
    flat_map (fun r => flat_map (fun y => flat_map (fun x => flat_map (fun c =>
      guard y x c r) (zrange CS CE)) X) Y) (zrange RS RE).
  Definition flat_pcrl (Y X : list Z) : list place :=
    flat_map (fun y => flat_map (fun x => flat_map (fun c => flat_map (fun r =>
      guard y x c r) (zrange RS RE)) (zrange CS CE)) X) Y.
  Definition flat_cprl (Y X : list Z) : list place :=
    flat_map (fun c => flat_map (fun y => flat_map (fun x => flat_map (fun r =>
      guard y x c r) (zrange RS RE)) X) Y) (zrange CS CE).
  Definition flat_prcl (Y X : list Z) : list place :=
    flat_map (fun y => flat_map (fun x => flat_map (fun r => flat_map (fun c =>
      guard y x c r) (zrange CS CE)) (zrange RS RE)) X) Y.

  Definition grid (Y X : list Z) (c r : Z) : list place :=
    flat_map (fun y => map (fun x => place_of y x c r) X) Y.

  Lemma sel_guard y x c' r' c r k : 0 <= c -> 0 <= c' ->
    nth_error (h_comps h) (Z.to_nat c) = Some k -> r <= c_NL k ->
    sel c r (guard y x c' r') = if (c' =? c) && (r' =? r) then [place_of y x c r] else [].
  Proof.
    intros Hc Hc' Hk Hr. unfold guard.
    destruct (Z.eqb_spec c' c) as [->|Ec].
    - rewrite Hk. destruct (Z.eqb_spec r' r) as [->|Er]; cbn [andb].
      + rewrite (proj2 (Z.leb_le r (c_NL k))) by assumption.
        unfold sel, place_of. cbn [filter a_c a_r]. rewrite !Z.eqb_refl. reflexivity.
      + destruct (r' <=? c_NL k); [|reflexivity].
        unfold sel, place_of. cbn [filter a_c a_r].
        rewrite (proj2 (Z.eqb_neq r' r)) by assumption. rewrite andb_false_r. reflexivity.
    - cbn [andb]. destruct (nth_error (h_comps h) (Z.to_nat c')); [|reflexivity].
      destruct (r' <=? c_NL c0); [|reflexivity].
      unfold sel, place_of. cbn [filter a_c a_r].
      rewrite (proj2 (Z.eqb_neq c' c)) by assumption. reflexivity.
  Qed.

  Lemma flat_map_one {A B} (f : A -> B) l : flat_map (fun a => [f a]) l = map f l.
  Proof. induction l as [|a l IH]; cbn [flat_map map app]; [reflexivity|]. rewrite IH. reflexivity. Qed.

  Lemma flat_map_empty {A B} (l : list A) : flat_map (fun _ => @nil B) l = [].
  Proof. induction l as [|a l IH]; cbn [flat_map]; [reflexivity|]. exact IH. Qed.

  Lemma cs_nonneg c' : In c' (zrange CS CE) -> 0 <= c'.
  Proof. intros Hi. apply zrange_In in Hi. lia. Qed.

  Section Sel.
    Variables (Y X : list Z) (c r : Z) (k : comp).
    Hypothesis Hc : 0 <= c.
    Hypothesis Hk : nth_error (h_comps h) (Z.to_nat c) = Some k.
    Hypothesis Hr : r <= c_NL k.

    Let wanted : list place :=
      if in_dec Z.eq_dec r (zrange RS RE) then
        if in_dec Z.eq_dec c (zrange CS CE) then grid Y X c r else []
      else [].

    Lemma over_c y x r' :
      flat_map (fun c' => sel c r (guard y x c' r')) (zrange CS CE) =
      if in_dec Z.eq_dec c (zrange CS CE) then
        (if r' =? r then [place_of y x c r] else []) else [].
    Proof.
      rewrite (flat_map_single _ _ c).
      - destruct (in_dec Z.eq_dec c (zrange CS CE)); [|reflexivity].
        rewrite (sel_guard _ _ _ _ _ _ k) by assumption. rewrite Z.eqb_refl. reflexivity.
      - apply sorted_NoDup, zrange_sorted.
      - intros c' Hi Hd. rewrite (sel_guard _ _ _ _ _ _ k) by (try assumption; apply cs_nonneg; assumption).
        rewrite (proj2 (Z.eqb_neq c' c)) by assumption. reflexivity.
    Qed.

    Lemma over_r y x c' : 0 <= c' ->
      flat_map (fun r' => sel c r (guard y x c' r')) (zrange RS RE) =
      if in_dec Z.eq_dec r (zrange RS RE) then
        (if c' =? c then [place_of y x c r] else []) else [].
    Proof.
      intros Hc'. rewrite (flat_map_single _ _ r).
      - destruct (in_dec Z.eq_dec r (zrange RS RE)); [|reflexivity].
        rewrite (sel_guard _ _ _ _ _ _ k) by assumption.
        rewrite Z.eqb_refl, andb_true_r. reflexivity.
      - apply sorted_NoDup, zrange_sorted.
      - intros r' Hi Hd. rewrite (sel_guard _ _ _ _ _ _ k) by assumption.
        rewrite (proj2 (Z.eqb_neq r' r)), andb_false_r by assumption. reflexivity.
    Qed.

    Lemma grid_of (b : bool) :
      flat_map (fun y => flat_map (fun x => if b then [place_of y x c r] else []) X) Y =
      if b then grid Y X c r else [].
    Proof.
      destruct b.
      - unfold grid. apply flat_map_ext. intros y. apply flat_map_one.
      - rewrite (flat_map_ext _ (fun _ => [])); [apply flat_map_empty|].
        intros y. apply flat_map_empty.
    Qed.

    Lemma sel_rpcl : sel c r (flat_rpcl Y X) = wanted.
    Proof.
      unfold sel, flat_rpcl, wanted. rewrite filter_flat_map.
      rewrite (flat_map_ext _ (fun r' => flat_map (fun y => flat_map (fun x =>
        if in_dec Z.eq_dec c (zrange CS CE) then
          (if r' =? r then [place_of y x c r] else []) else []) X) Y)).
      - rewrite (flat_map_single _ _ r).
        + destruct (in_dec Z.eq_dec r (zrange RS RE)); [|reflexivity].
          rewrite Z.eqb_refl.
          destruct (in_dec Z.eq_dec c (zrange CS CE)); [apply (grid_of true)|apply (grid_of false)].
        + apply sorted_NoDup, zrange_sorted.
        + intros r' _ Hd. rewrite (proj2 (Z.eqb_neq r' r)) by assumption.
          apply flat_map_nil. intros y _. apply flat_map_nil. intros x _.
          destruct (in_dec Z.eq_dec c (zrange CS CE)); reflexivity.
      - intros r'. rewrite filter_flat_map. apply flat_map_ext. intros y.
        rewrite filter_flat_map. apply flat_map_ext. intros x.
        rewrite filter_flat_map. apply over_c.
    Qed.

    Lemma sel_cprl : sel c r (flat_cprl Y X) = wanted.
    Proof.
      unfold sel, flat_cprl, wanted. rewrite filter_flat_map.
      rewrite (flat_map_ext_in _ (fun c' => flat_map (fun y => flat_map (fun x =>
        if in_dec Z.eq_dec r (zrange RS RE) then
          (if c' =? c then [place_of y x c r] else []) else []) X) Y)).
      - rewrite (flat_map_single _ _ c).
        + rewrite Z.eqb_refl.
          destruct (in_dec Z.eq_dec r (zrange RS RE)).
          * destruct (in_dec Z.eq_dec c (zrange CS CE)); [|reflexivity].
            apply (grid_of true).
          * destruct (in_dec Z.eq_dec c (zrange CS CE)); [|reflexivity].
            apply (grid_of false).
        + apply sorted_NoDup, zrange_sorted.
        + intros c' _ Hd. rewrite (proj2 (Z.eqb_neq c' c)) by assumption.
          apply flat_map_nil. intros y _. apply flat_map_nil. intros x _.
          destruct (in_dec Z.eq_dec r (zrange RS RE)); reflexivity.
      - intros c' Hi. rewrite filter_flat_map. apply flat_map_ext. intros y.
        rewrite filter_flat_map. apply flat_map_ext. intros x.
        rewrite filter_flat_map. apply over_r. apply cs_nonneg. assumption.
    Qed.

    Lemma wanted_inner (f : Z -> Z -> list place) :
      (forall y x, f y x = if in_dec Z.eq_dec r (zrange RS RE) then
         if in_dec Z.eq_dec c (zrange CS CE) then [place_of y x c r] else [] else []) ->
      flat_map (fun y => flat_map (fun x => f y x) X) Y = wanted.
    Proof.
      intros E. unfold wanted.
      rewrite (flat_map_ext _ (fun y => flat_map (fun x =>
        if in_dec Z.eq_dec r (zrange RS RE) then
         if in_dec Z.eq_dec c (zrange CS CE) then [place_of y x c r] else [] else []) X)).
      - destruct (in_dec Z.eq_dec r (zrange RS RE)).
        + destruct (in_dec Z.eq_dec c (zrange CS CE)); [apply (grid_of true)|apply (grid_of false)].
        + apply (grid_of false).
      - intros y. apply flat_map_ext. intros x. apply E.
    Qed.

    Lemma sel_pcrl : sel c r (flat_pcrl Y X) = wanted.
    Proof.
      unfold sel, flat_pcrl. rewrite filter_flat_map.
      rewrite <- (wanted_inner (fun y x => flat_map (fun c' => flat_map (fun r' =>
        sel c r (guard y x c' r')) (zrange RS RE)) (zrange CS CE))).
      - apply flat_map_ext. intros y. rewrite filter_flat_map. apply flat_map_ext. intros x.
        rewrite filter_flat_map. apply flat_map_ext. intros c'. apply filter_flat_map.
      - intros y x.
        rewrite (flat_map_ext_in _ (fun c' => if in_dec Z.eq_dec r (zrange RS RE) then
          (if c' =? c then [place_of y x c r] else []) else []))
          by (intros c' Hi; apply over_r; apply cs_nonneg; assumption).
        destruct (in_dec Z.eq_dec r (zrange RS RE)); [|apply flat_map_empty].
        rewrite (flat_map_single _ _ c).
        + rewrite Z.eqb_refl. reflexivity.
        + apply sorted_NoDup, zrange_sorted.
        + intros c' _ Hd. rewrite (proj2 (Z.eqb_neq c' c)) by assumption. reflexivity.
    Qed.

    Lemma sel_prcl : sel c r (flat_prcl Y X) = wanted.
    Proof.
      unfold sel, flat_prcl. rewrite filter_flat_map.
      rewrite <- (wanted_inner (fun y x => flat_map (fun r' => flat_map (fun c' =>
        sel c r (guard y x c' r')) (zrange CS CE)) (zrange RS RE))).
      - apply flat_map_ext. intros y. rewrite filter_flat_map. apply flat_map_ext. intros x.
        rewrite filter_flat_map. apply flat_map_ext. intros c'. apply filter_flat_map.
      - intros y x.
        rewrite (flat_map_ext _ (fun r' => if in_dec Z.eq_dec c (zrange CS CE) then
          (if r' =? r then [place_of y x c r] else []) else []))
          by (intros r'; apply over_c).
        rewrite (flat_map_single _ _ r).
        + rewrite Z.eqb_refl. reflexivity.
        + apply sorted_NoDup, zrange_sorted.
        + intros r' _ Hd. rewrite (proj2 (Z.eqb_neq r' r)) by assumption.
          destruct (in_dec Z.eq_dec c (zrange CS CE)); reflexivity.
    Qed.
  End Sel.

  (** * The places that matter *)

  Definition ex_x : list Z := filter (fun v => (v =? fst (tile_x h tx)) ||
      (v mod 2 ^ min_pp fst t =? 0)) (zrange (fst (tile_x h tx)) (snd (tile_x h tx))).
  Definition ex_y : list Z := filter (fun v => (v =? fst (tile_y h ty)) ||
      (v mod 2 ^ min_pp snd t =? 0)) (zrange (fst (tile_y h ty)) (snd (tile_y h ty))).

  Lemma fold_min (f : Z * Z -> Z) l : forall n,
    fold_left (fun n p => if f p <? n then f p else n) l n <= n /\
    (forall p, In p l -> fold_left (fun n p => if f p <? n then f p else n) l n <= f p) /\
    (0 <= n -> (forall p, In p l -> 0 <= f p) ->
     0 <= fold_left (fun n p => if f p <? n then f p else n) l n).
  Proof.
    induction l as [|a l IH]; intros n; cbn [fold_left].
    - split; [lia|]. split; [intros ? []|]. auto.
    - destruct (IH (if f a <? n then f a else n)) as (I1 & I2 & I3).
      assert (M : (if f a <? n then f a else n) <= n /\ (if f a <? n then f a else n) <= f a).
      { destruct (Z.ltb_spec (f a) n); lia. }
      split; [lia|]. split.
      + intros p [<-|Hp]; [lia|auto].
      + intros Hn Hp. apply I3.
        * pose proof (Hp a (or_introl eq_refl)). destruct (f a <? n); assumption.
        * intros; apply Hp; right; assumption.
  Qed.

  Lemma min_pp_ok (f : Z * Z -> Z) :
    (forall c p, In c (h_comps h) -> In p (c_pp c) -> 0 <= f p) ->
    0 <= min_pp f t <= 16 /\
    (forall c p, In c (h_comps h) -> In p (c_pp c) -> min_pp f t <= f p).
  Proof.
    intros Hf. unfold min_pp, t, tile_of. cbn [t_comps].
    assert (G : forall l n, (forall c, In c l -> In c (h_comps h)) -> 0 <= n ->
      let v := fold_left (fun n tc => fold_left (fun n p => if f p <? n then f p else n)
                 (c_pp (tc_par tc)) n) (map (tcomp_of h tx ty) l) n in
      0 <= v <= n /\ (forall c p, In c l -> In p (c_pp c) -> v <= f p)).
    { induction l as [|c l IH]; intros n Hin Hn; cbn [map fold_left].
      - cbv zeta. split; [lia|]. intros ? ? [].
      - cbn [tc_par tcomp_of].
        destruct (fold_min f (c_pp c) n) as (F1 & F2 & F3).
        destruct (IH (fold_left (fun n p => if f p <? n then f p else n) (c_pp c) n))
          as (I1 & I2).
        + intros; apply Hin; right; assumption.
        + apply F3; [assumption|]. intros p Hp. apply (Hf c); [|assumption].
          apply Hin; left; reflexivity.
        + cbv zeta. split; [lia|]. intros c' p [<-|Hc'] Hp.
          * pose proof (F2 p Hp). lia.
          * apply (I2 c'); assumption. }
    destruct (G (h_comps h) 16) as [G1 G2]; [tauto|lia|]. split; [lia|exact G2].
  Qed.

  Lemma pp_In k r : In k (h_comps h) -> 0 <= r <= c_NL k -> In (ppx k r, ppy k r) (c_pp k).
  Proof.
    intros Hk Hr. destruct (nth_pp k r (comp_is_legal h Hleg k Hk) Hr) as (E & _).
    exact (nth_error_In _ _ E).
  Qed.

  Lemma pps_nonneg c p : In c (h_comps h) -> In p (c_pp c) -> 0 <= fst p /\ 0 <= snd p.
  Proof.
    intros Hc Hp. destruct (comp_is_legal h Hleg c Hc) as (_ & _ & _ & _ & Hf).
    rewrite Forall_forall in Hf. specialize (Hf p Hp). lia.
  Qed.

  Lemma begins_multiple v t0 sub pp n tr0 m : 1 <= sub -> 0 <= n -> 0 <= m <= pp ->
    begins v t0 sub pp n tr0 = true -> (v =? t0) || (v mod 2 ^ m =? 0) = true.
  Proof.
    intros Hs Hn Hm Hb. unfold begins in Hb. apply orb_true_iff in Hb.
    apply orb_true_iff. rewrite !Z.eqb_eq in *.
    destruct Hb as [Hb|Hb].
    - right. apply Z.mod_divide; [pose proof (Z.pow_pos_nonneg 2 m); lia|].
      apply Z.mod_divide in Hb.
      + apply Z.divide_trans with (2 := Hb).
        exists (sub * 2 ^ (pp + n - m)).
        rewrite <- Z.mul_assoc, <- Z.pow_add_r by lia. f_equal. f_equal. lia.
      + pose proof (Z.pow_pos_nonneg 2 (pp + n) ltac:(lia) ltac:(lia)). nia.
    - left. apply andb_true_iff in Hb. destruct Hb as [Hb _]. apply Z.eqb_eq in Hb. assumption.
  Qed.

  Lemma examin_x : examined (min_pp fst t) (t_x0 t) (t_x1 t) = ret ex_x.
  Proof.
    destruct (min_pp_ok fst) as [M _]; [intros c p Hc Hp; apply (pps_nonneg c p Hc Hp)|].
    pose proof tile_x_ok as [T1 T2]. apply examined_ok; assumption.
  Qed.
  Lemma examin_y : examined (min_pp snd t) (t_y0 t) (t_y1 t) = ret ex_y.
  Proof.
    destruct (min_pp_ok snd) as [M _]; [intros c p Hc Hp; apply (pps_nonneg c p Hc Hp)|].
    pose proof tile_y_ok as [T1 T2]. apply examined_ok; assumption.
  Qed.

  Lemma ex_x_ok : StronglySorted Z.lt ex_x /\
    (forall v, In v ex_x -> fst (tile_x h tx) <= v < snd (tile_x h tx)) /\
    (forall k r v, In k (h_comps h) -> 0 <= r <= c_NL k ->
       fst (tile_x h tx) <= v < snd (tile_x h tx) -> hx k r v = true -> In v ex_x).
  Proof.
    split; [apply sorted_filter, zrange_sorted|]. split.
    - intros v Hv. apply filter_In in Hv. apply zrange_In. tauto.
    - intros k r v Hk Hr Hv Hh. apply filter_In. split; [apply zrange_In; assumption|].
      destruct (min_pp_ok fst) as [M1 M2]; [intros c p Hc Hp; apply (pps_nonneg c p Hc Hp)|].
      pose proof (M2 k _ Hk (pp_In k r Hk Hr)) as M3. cbn [fst] in M3.
      destruct (comp_facts k r Hk Hr) as (S1 & _).
      apply (begins_multiple v _ (fst (c_sub k)) (ppx k r) (c_NL k - r)
               (fst (x_span h k tx r))); try lia. exact Hh.
  Qed.

  Lemma ex_y_ok : StronglySorted Z.lt ex_y /\
    (forall v, In v ex_y -> fst (tile_y h ty) <= v < snd (tile_y h ty)) /\
    (forall k r v, In k (h_comps h) -> 0 <= r <= c_NL k ->
       fst (tile_y h ty) <= v < snd (tile_y h ty) -> hy k r v = true -> In v ex_y).
  Proof.
    split; [apply sorted_filter, zrange_sorted|]. split.
    - intros v Hv. apply filter_In in Hv. apply zrange_In. tauto.
    - intros k r v Hk Hr Hv Hh. apply filter_In. split; [apply zrange_In; assumption|].
      destruct (min_pp_ok snd) as [M1 M2]; [intros c p Hc Hp; apply (pps_nonneg c p Hc Hp)|].
      pose proof (M2 k _ Hk (pp_In k r Hk Hr)) as M3. cbn [snd] in M3.
      destruct (comp_facts k r Hk Hr) as (_ & S1 & _).
      apply (begins_multiple v _ (snd (c_sub k)) (ppy k r) (c_NL k - r)
               (fst (y_span h k ty r))); try lia. exact Hh.
  Qed.

  Lemma filter_map {A B} (f : A -> B) p l : filter p (map f l) = map f (filter (fun a => p (f a)) l).
  Proof.
    induction l as [|a l IH]; cbn [map filter]; [reflexivity|].
    rewrite IH. destruct (p (f a)); reflexivity.
  Qed.

  Lemma grid_enum c r k : In k (h_comps h) -> 0 <= r <= c_NL k -> 0 < N k r ->
    map (idx k r) (filter (hit2 k r) (grid ex_y ex_x c r)) = zseq (N k r).
  Proof.
    intros Hk Hr HN. destruct (comp_facts k r Hk Hr) as (S1 & S2 & Px & Py & _).
    destruct (W_pos k r Hk Hr HN) as [HW HH].
    pose proof tile_x_ok as [Tx _]. pose proof tile_y_ok as [Ty _].
    destruct ex_x_ok as (X1 & X2 & X3). destruct ex_y_ok as (Y1 & Y2 & Y3).
    assert (EX : map (ix k r) (filter (hx k r) ex_x) = zseq (W k r)).
    { apply axis_enum; try assumption; try lia.
      intros v Hv Hh. apply (X3 k r); assumption. }
    assert (EY : map (iy k r) (filter (hy k r) ex_y) = zseq (H k r)).
    { apply axis_enum; try assumption; try lia.
      intros v Hv Hh. apply (Y3 k r); assumption. }
    rewrite N_WH, <- product_enum by lia. rewrite <- EY, flat_map_map.
    unfold grid. rewrite filter_flat_map, map_flat_map.
    rewrite <- (flat_map_filter _ (hy k r)).
    - apply flat_map_ext_in. intros y Hy. apply filter_In in Hy. destruct Hy as [_ Hy].
      rewrite filter_map, map_map. rewrite <- EX, map_map.
      rewrite (filter_ext _ (hx k r)); [reflexivity|].
      intros x. unfold hit2, place_of. cbn [a_x a_y]. rewrite Hy. apply andb_true_r.
    - intros y _ Hy. rewrite filter_map.
      rewrite (filter_ext _ (fun _ => false)).
      + rewrite (proj2 (Forall_forall _ _)) || idtac.
        assert (Z0 : forall l : list Z, filter (fun _ => false) l = [])
          by (induction l as [|? ? IHl]; [reflexivity|exact IHl]).
        rewrite Z0. reflexivity.
      + intros x. unfold hit2, place_of. cbn [a_x a_y]. rewrite Hy. apply andb_false_r.
  Qed.

  Lemma wanted_inv flat s : cx s = (fun _ _ => 0) -> cy s = (fun _ _ => 0) ->
    (forall c r k, 0 <= c -> nth_error (h_comps h) (Z.to_nat c) = Some k -> r <= c_NL k ->
      sel c r flat = if in_dec Z.eq_dec r (zrange RS RE) then
        if in_dec Z.eq_dec c (zrange CS CE) then grid ex_y ex_x c r else [] else []) ->
    inv s flat.
  Proof.
    intros Ex Ey Hsel c r k Hc Hk Hr HN Hne.
    rewrite (Hsel c r k Hc Hk ltac:(lia)) in *.
    destruct (in_dec Z.eq_dec r (zrange RS RE)); [|congruence].
    destruct (in_dec Z.eq_dec c (zrange CS CE)); [|congruence].
    rewrite Ex, Ey. pose proof (nth_error_In _ _ Hk) as Hin.
    destruct (W_pos k r Hin Hr HN) as [HW _].
    split; [|lia]. rewrite grid_enum by assumption.
    rewrite Z.mul_0_l, Z.add_0_l. symmetry. apply zrange_zseq.
  Qed.

  Lemma guard_valid y x c r a : In y ex_y -> In x ex_x -> In c (zrange CS CE) ->
    In r (zrange RS RE) -> In a (guard y x c r) -> valid a.
  Proof.
    intros Hy Hx Hc Hr Ha. unfold guard in Ha.
    apply zrange_In in Hc, Hr.
    destruct (nth_error (h_comps h) (Z.to_nat c)) as [k|] eqn:Hk; [|destruct Ha].
    destruct (Z.leb_spec r (c_NL k)); [|destruct Ha].
    destruct Ha as [<-|[]]. unfold valid, place_of. cbn [a_y a_x a_c a_r].
    destruct ex_x_ok as (_ & X2 & _). destruct ex_y_ok as (_ & Y2 & _).
    split; [lia|]. split; [exists k; split; [assumption|lia]|].
    split; [apply X2|apply Y2]; assumption.
  Qed.

  Ltac unnest H :=
    lazymatch type of H with
    | In _ (flat_map _ _) => apply in_flat_map in H; let v := fresh "v" in
        let I := fresh "I" in destruct H as (v & I & H); unnest H
    | _ => idtac
    end.

  Lemma valid_rpcl : Forall valid (flat_rpcl ex_y ex_x).
  Proof.
    apply Forall_forall. intros a Ha. unfold flat_rpcl in Ha. unnest Ha.
    eapply guard_valid; eassumption.
  Qed.
  Lemma valid_pcrl : Forall valid (flat_pcrl ex_y ex_x).
  Proof.
    apply Forall_forall. intros a Ha. unfold flat_pcrl in Ha. unnest Ha.
    eapply guard_valid; eassumption.
  Qed.
  Lemma valid_cprl : Forall valid (flat_cprl ex_y ex_x).
  Proof.
    apply Forall_forall. intros a Ha. unfold flat_cprl in Ha. unnest Ha.
    eapply guard_valid; eassumption.
  Qed.
  Lemma valid_prcl : Forall valid (flat_prcl ex_y ex_x).
  Proof.
    apply Forall_forall. intros a Ha. unfold flat_prcl in Ha. unnest Ha.
    eapply guard_valid; eassumption.
  Qed.

  (** * What the flat lists say *)

  Lemma here_guard y x c r :
    flat_map here (guard y x c r) = packets_at h tx ty LYE y x c r.
  Proof.
    unfold guard, packets_at.
    destruct (nth_error (h_comps h) (Z.to_nat c)) as [k|] eqn:Hk; [|reflexivity].
    destruct (r <=? c_NL k) eqn:Hr; [|reflexivity].
    cbn [flat_map]. rewrite app_nil_r. unfold here, packets_at, place_of.
    cbn [a_y a_x a_c a_r]. rewrite Hk, Hr. reflexivity.
  Qed.

  Lemma not_examined_x y x c r : 0 <= c -> 0 <= r ->
    In x (zrange (fst (tile_x h tx)) (snd (tile_x h tx))) ->
    (x =? fst (tile_x h tx)) || (x mod 2 ^ min_pp fst t =? 0) = false ->
    packets_at h tx ty LYE y x c r = [].
  Proof.
    intros Hc Hr Hx Hn. unfold packets_at.
    destruct (nth_error (h_comps h) (Z.to_nat c)) as [k|] eqn:Hk; [|reflexivity].
    pose proof (nth_error_In _ _ Hk) as Hin.
    destruct (Z.leb_spec r (c_NL k)) as [Hle|]; [|reflexivity]. cbn [andb].
    destruct (begins x (fst (tile_x h tx)) (fst (c_sub k)) (ppx k r) (c_NL k - r)
               (fst (x_span h k tx r))) eqn:Hb; [|reflexivity].
    exfalso.
    destruct (min_pp_ok fst) as [M1 M2]; [intros c' p Hc' Hp; apply (pps_nonneg c' p Hc' Hp)|].
    pose proof (M2 k _ Hin (pp_In k r Hin ltac:(lia))) as M3. cbn [fst] in M3.
    destruct (comp_facts k r Hin ltac:(lia)) as (S1 & _).
    rewrite (begins_multiple x _ (fst (c_sub k)) (ppx k r) (c_NL k - r) _ (min_pp fst t)
               ltac:(lia) ltac:(lia) ltac:(lia) Hb) in Hn. discriminate.
  Qed.

  Lemma not_examined_y y x c r : 0 <= c -> 0 <= r ->
    In y (zrange (fst (tile_y h ty)) (snd (tile_y h ty))) ->
    (y =? fst (tile_y h ty)) || (y mod 2 ^ min_pp snd t =? 0) = false ->
    packets_at h tx ty LYE y x c r = [].
  Proof.
    intros Hc Hr Hy Hn. unfold packets_at.
    destruct (nth_error (h_comps h) (Z.to_nat c)) as [k|] eqn:Hk; [|reflexivity].
    pose proof (nth_error_In _ _ Hk) as Hin.
    destruct (Z.leb_spec r (c_NL k)) as [Hle|]; [|reflexivity]. cbn [andb].
    destruct (begins y (fst (tile_y h ty)) (snd (c_sub k)) (ppy k r) (c_NL k - r)
               (fst (y_span h k ty r))) eqn:Hb;
      [|rewrite andb_false_r; reflexivity].
    exfalso.
    destruct (min_pp_ok snd) as [M1 M2]; [intros c' p Hc' Hp; apply (pps_nonneg c' p Hc' Hp)|].
    pose proof (M2 k _ Hin (pp_In k r Hin ltac:(lia))) as M3. cbn [snd] in M3.
    destruct (comp_facts k r Hin ltac:(lia)) as (_ & S1 & _).
    rewrite (begins_multiple y _ (snd (c_sub k)) (ppy k r) (c_NL k - r) _ (min_pp snd t)
               ltac:(lia) ltac:(lia) ltac:(lia) Hb) in Hn. discriminate.
  Qed.

  Let all_y := zrange (fst (tile_y h ty)) (snd (tile_y h ty)).
  Let all_x := zrange (fst (tile_x h tx)) (snd (tile_x h tx)).
  Let at_ y x c r := packets_at h tx ty LYE y x c r.

  Lemma rs_nonneg r : In r (zrange RS RE) -> 0 <= r.
  Proof. intros Hi. apply zrange_In in Hi. lia. Qed.

  Lemma over_xy (F : Z -> Z -> list packet) :
    (forall y x, In y all_y -> (y =? fst (tile_y h ty)) || (y mod 2 ^ min_pp snd t =? 0) = false ->
       F y x = []) ->
    (forall y x, In x all_x -> (x =? fst (tile_x h tx)) || (x mod 2 ^ min_pp fst t =? 0) = false ->
       F y x = []) ->
    flat_map (fun y => flat_map (fun x => F y x) ex_x) ex_y =
    flat_map (fun y => flat_map (fun x => F y x) all_x) all_y.
  Proof.
    intros HY HX. unfold ex_y. fold all_y. rewrite flat_map_filter.
    - apply flat_map_ext. intros y. unfold ex_x. fold all_x. apply flat_map_filter.
      intros x Hx Hn. apply HX; assumption.
    - intros y Hy Hn. apply flat_map_nil. intros x _. apply HY; assumption.
  Qed.

  Lemma says_rpcl : flat_map here (flat_rpcl ex_y ex_x) =
    flat_map (fun r => flat_map (fun y => flat_map (fun x => flat_map (fun c =>
      at_ y x c r) (zrange CS CE)) all_x) all_y) (zrange RS RE).
  Proof.
    unfold flat_rpcl. rewrite flat_map_flat_map. apply flat_map_ext_in. intros r Hr.
    rewrite <- over_xy.
    - rewrite flat_map_flat_map. apply flat_map_ext. intros y.
      rewrite flat_map_flat_map. apply flat_map_ext. intros x.
      rewrite flat_map_flat_map. apply flat_map_ext. intros c. apply here_guard.
    - intros y x Hy Hn. apply flat_map_nil. intros c Hc.
      apply not_examined_y; try assumption; [apply cs_nonneg|apply rs_nonneg]; assumption.
    - intros y x Hx Hn. apply flat_map_nil. intros c Hc.
      apply not_examined_x; try assumption; [apply cs_nonneg|apply rs_nonneg]; assumption.
  Qed.

  Lemma says_cprl : flat_map here (flat_cprl ex_y ex_x) =
    flat_map (fun c => flat_map (fun y => flat_map (fun x => flat_map (fun r =>
      at_ y x c r) (zrange RS RE)) all_x) all_y) (zrange CS CE).
  Proof.
    unfold flat_cprl. rewrite flat_map_flat_map. apply flat_map_ext_in. intros c Hc.
    rewrite <- over_xy.
    - rewrite flat_map_flat_map. apply flat_map_ext. intros y.
      rewrite flat_map_flat_map. apply flat_map_ext. intros x.
      rewrite flat_map_flat_map. apply flat_map_ext. intros r. apply here_guard.
    - intros y x Hy Hn. apply flat_map_nil. intros r Hr.
      apply not_examined_y; try assumption; [apply cs_nonneg|apply rs_nonneg]; assumption.
    - intros y x Hx Hn. apply flat_map_nil. intros r Hr.
      apply not_examined_x; try assumption; [apply cs_nonneg|apply rs_nonneg]; assumption.
  Qed.

  Lemma says_pcrl : flat_map here (flat_pcrl ex_y ex_x) =
    flat_map (fun y => flat_map (fun x => flat_map (fun c => flat_map (fun r =>
      at_ y x c r) (zrange RS RE)) (zrange CS CE)) all_x) all_y.
  Proof.
    unfold flat_pcrl. rewrite flat_map_flat_map.
    rewrite <- over_xy.
    - apply flat_map_ext. intros y. rewrite flat_map_flat_map. apply flat_map_ext. intros x.
      rewrite flat_map_flat_map. apply flat_map_ext. intros c.
      rewrite flat_map_flat_map. apply flat_map_ext. intros r. apply here_guard.
    - intros y x Hy Hn. apply flat_map_nil. intros c Hc. apply flat_map_nil. intros r Hr.
      apply not_examined_y; try assumption; [apply cs_nonneg|apply rs_nonneg]; assumption.
    - intros y x Hx Hn. apply flat_map_nil. intros c Hc. apply flat_map_nil. intros r Hr.
      apply not_examined_x; try assumption; [apply cs_nonneg|apply rs_nonneg]; assumption.
  Qed.

  Lemma says_prcl : flat_map here (flat_prcl ex_y ex_x) =
    flat_map (fun y => flat_map (fun x => flat_map (fun r => flat_map (fun c =>
      at_ y x c r) (zrange CS CE)) (zrange RS RE)) all_x) all_y.
  Proof.
    unfold flat_prcl. rewrite flat_map_flat_map.
    rewrite <- over_xy.
    - apply flat_map_ext. intros y. rewrite flat_map_flat_map. apply flat_map_ext. intros x.
      rewrite flat_map_flat_map. apply flat_map_ext. intros r.
      rewrite flat_map_flat_map. apply flat_map_ext. intros c. apply here_guard.
    - intros y x Hy Hn. apply flat_map_nil. intros r Hr. apply flat_map_nil. intros c Hc.
      apply not_examined_y; try assumption; [apply cs_nonneg|apply rs_nonneg]; assumption.
    - intros y x Hx Hn. apply flat_map_nil. intros r Hr. apply flat_map_nil. intros c Hc.
      apply not_examined_x; try assumption; [apply cs_nonneg|apply rs_nonneg]; assumption.
  Qed.

  (** * The model's loops over the flat lists *)

  Lemma cs_comp c : In c (zrange CS CE) ->
    exists k, nth_error (h_comps h) (Z.to_nat c) = Some k /\ 0 <= c.
  Proof.
    intros Hi. apply zrange_In in Hi. unfold zlen in HCE.
    destruct (nth_error (h_comps h) (Z.to_nat c)) as [k|] eqn:E; [exists k; split; [reflexivity|lia]|].
    apply nth_error_None in E. lia.
  Qed.

  Lemma loop_guard y x c r s : In c (zrange CS CE) ->
    (let? tc := comp_at t c in
     if r <=? c_NL (tc_par tc) then probe t LYE y x c r tc s else ret s)
    = each (guard y x c r) step s.
  Proof.
    intros Hi. destruct (cs_comp c Hi) as (k & Hk & Hc).
    unfold guard. rewrite Hk.
    pose proof (comp_at_exact c k Hc Hk) as Ec. rewrite Ec, ret_bindx.
    cbn [tc_par tcomp_of].
    destruct (r <=? c_NL k); [|reflexivity].
    rewrite each_one. unfold step, place_of. cbn [a_y a_x a_c a_r].
    rewrite Ec, ret_bindx. reflexivity.
  Qed.

  Lemma guard_row y x c k : nth_error (h_comps h) (Z.to_nat c) = Some k ->
    flat_map (fun r => guard y x c r) (zrange RS RE) =
    map (place_of y x c) (zrange RS (Z.min (c_NL k + 1) RE)).
  Proof.
    intros Hk. rewrite <- flat_map_one.
    replace (zrange RS (Z.min (c_NL k + 1) RE))
      with (filter (fun r => r <=? c_NL k) (zrange RS RE)).
    - rewrite <- (flat_map_filter _ (fun r => r <=? c_NL k)).
      + apply flat_map_ext_in. intros r Hr. apply filter_In in Hr.
        unfold guard. rewrite Hk. destruct Hr as [_ ->]. reflexivity.
      + intros r _ Hr. unfold guard. rewrite Hk, Hr. reflexivity.
    - apply sorted_eq; [apply sorted_filter, zrange_sorted|apply zrange_sorted|].
      intros r. rewrite filter_In, !zrange_In, Z.leb_le. lia.
  Qed.

  Lemma each_map {A B S} (f : A -> B) (g : B -> S -> ex S) l : forall s,
    each (map f l) g s = each l (fun a => g (f a)) s.
  Proof.
    induction l as [|a l IH]; intros s; cbn [map each]; [reflexivity|].
    destruct (g (f a) s) as [[s'|]| |]; cbn [bindx]; try reflexivity. apply IH.
  Qed.

  Lemma loop_row y x c k s : 0 <= c -> nth_error (h_comps h) (Z.to_nat c) = Some k ->
    each (zrange RS (Z.min (c_NL k + 1) RE)) (fun r =>
      probe t LYE y x c r (tcomp_of h tx ty k)) s
    = each (flat_map (fun r => guard y x c r) (zrange RS RE)) step s.
  Proof.
    intros Hc Hk. rewrite (guard_row y x c k Hk), each_map.
    apply each_ext. intros r _ s'. unfold step, place_of. cbn [a_y a_x a_c a_r].
    pose proof (comp_at_exact c k Hc Hk) as Ec. rewrite Ec, ret_bindx. reflexivity.
  Qed.

  Definition finishes (F : st -> ex st) (l : list packet) : Prop :=
    forall s, good s -> cx s = (fun _ _ => 0) -> cy s = (fun _ _ => 0) ->
      exists s', F s = ret s' /\ good s' /\ done s' = fold_left add_new l (done s).

  Lemma finish_rpcl : finishes (fun s =>
      each (zrange RS RE) (fun r => each ex_y (fun y => each ex_x (fun x =>
          each (zrange CS CE) (fun c s =>
            let? tc := comp_at t c in
            if r <=? c_NL (tc_par tc) then probe t LYE y x c r tc s else ret s)))) s)
    (flat_map (fun r => flat_map (fun y => flat_map (fun x => flat_map (fun c =>
      at_ y x c r) (zrange CS CE)) all_x) all_y) (zrange RS RE)).
  Proof.
    intros s HG Ex Ey. rewrite <- says_rpcl.
    destruct (steps_exact (flat_rpcl ex_y ex_x) s HG valid_rpcl) as (s' & E & G & D).
    { apply wanted_inv; try assumption. intros c r k Hc Hk Hr. apply (sel_rpcl _ _ _ _ k); assumption. }
    exists s'. split; [|split; assumption]. rewrite <- E. unfold flat_rpcl.
    rewrite each_flat_map. apply each_ext. intros r _ s1.
    rewrite each_flat_map. apply each_ext. intros y _ s2.
    rewrite each_flat_map. apply each_ext. intros x _ s3.
    rewrite each_flat_map. apply each_ext. intros c Hc s4. apply loop_guard. assumption.
  Qed.

  Lemma finish_prcl : finishes (fun s =>
      each ex_y (fun y => each ex_x (fun x => each (zrange RS RE) (fun r =>
          each (zrange CS CE) (fun c s =>
            let? tc := comp_at t c in
            if r <=? c_NL (tc_par tc) then probe t LYE y x c r tc s else ret s)))) s)
    (flat_map (fun y => flat_map (fun x => flat_map (fun r => flat_map (fun c =>
      at_ y x c r) (zrange CS CE)) (zrange RS RE)) all_x) all_y).
  Proof.
    intros s HG Ex Ey. rewrite <- says_prcl.
    destruct (steps_exact (flat_prcl ex_y ex_x) s HG valid_prcl) as (s' & E & G & D).
    { apply wanted_inv; try assumption. intros c r k Hc Hk Hr. apply (sel_prcl _ _ _ _ k); assumption. }
    exists s'. split; [|split; assumption]. rewrite <- E. unfold flat_prcl.
    rewrite each_flat_map. apply each_ext. intros y _ s1.
    rewrite each_flat_map. apply each_ext. intros x _ s2.
    rewrite each_flat_map. apply each_ext. intros r _ s3.
    rewrite each_flat_map. apply each_ext. intros c Hc s4. apply loop_guard. assumption.
  Qed.

  Lemma finish_pcrl : finishes (fun s =>
      each ex_y (fun y => each ex_x (fun x => each (zrange CS CE) (fun c s =>
          let? tc := comp_at t c in
          each (zrange RS (Z.min (c_NL (tc_par tc) + 1) RE)) (fun r =>
            probe t LYE y x c r tc) s))) s)
    (flat_map (fun y => flat_map (fun x => flat_map (fun c => flat_map (fun r =>
      at_ y x c r) (zrange RS RE)) (zrange CS CE)) all_x) all_y).
  Proof.
    intros s HG Ex Ey. rewrite <- says_pcrl.
    destruct (steps_exact (flat_pcrl ex_y ex_x) s HG valid_pcrl) as (s' & E & G & D).
    { apply wanted_inv; try assumption. intros c r k Hc Hk Hr. apply (sel_pcrl _ _ _ _ k); assumption. }
    exists s'. split; [|split; assumption]. rewrite <- E. unfold flat_pcrl.
    rewrite each_flat_map. apply each_ext. intros y _ s1.
    rewrite each_flat_map. apply each_ext. intros x _ s2.
    rewrite each_flat_map. apply each_ext. intros c Hc s3.
    destruct (cs_comp c Hc) as (k & Hk & Hc0).
    pose proof (comp_at_exact c k Hc0 Hk) as Ec. rewrite Ec, ret_bindx.
    change (tc_par (tcomp_of h tx ty k)) with k. apply loop_row; assumption.
  Qed.

  Lemma finish_cprl : finishes (fun s =>
      each (zrange CS CE) (fun c s =>
        let? tc := comp_at t c in
        each ex_y (fun y => each ex_x (fun x =>
          each (zrange RS (Z.min (c_NL (tc_par tc) + 1) RE)) (fun r =>
            probe t LYE y x c r tc))) s) s)
    (flat_map (fun c => flat_map (fun y => flat_map (fun x => flat_map (fun r =>
      at_ y x c r) (zrange RS RE)) all_x) all_y) (zrange CS CE)).
  Proof.
    intros s HG Ex Ey. rewrite <- says_cprl.
    destruct (steps_exact (flat_cprl ex_y ex_x) s HG valid_cprl) as (s' & E & G & D).
    { apply wanted_inv; try assumption. intros c r k Hc Hk Hr. apply (sel_cprl _ _ _ _ k); assumption. }
    exists s'. split; [|split; assumption]. rewrite <- E. unfold flat_cprl.
    rewrite each_flat_map. apply each_ext. intros c Hc s3.
    destruct (cs_comp c Hc) as (k & Hk & Hc0).
    pose proof (comp_at_exact c k Hc0 Hk) as Ec. rewrite Ec, ret_bindx.
    change (tc_par (tcomp_of h tx ty k)) with k.
    rewrite each_flat_map. apply each_ext. intros y _ s1.
    rewrite each_flat_map. apply each_ext. intros x _ s2.
    apply loop_row; assumption.
  Qed.

  (** The layer orders. *)
  Lemma packets_of_ok l r c : 0 <= l < LYE -> 0 <= r -> In c (zrange CS CE) ->
    Forall is_pk (packets_of h tx ty l r c).
  Proof.
    intros Hl Hr Hi. destruct (cs_comp c Hi) as (k & Hk & Hc).
    unfold packets_of. rewrite Hk. destruct (Z.leb_spec r (c_NL k)); [|constructor].
    apply Forall_forall. intros q Hq. apply in_map_iff in Hq. destruct Hq as (p & <- & Hp).
    apply zseq_In in Hp. split; cbn [pk_l pk_r pk_c pk_p]; [lia|].
    exists k. split; [assumption|]. split; [assumption|]. split; [lia|assumption].
  Qed.

  Lemma finish_realized F l : realizes F l -> Forall is_pk l -> finishes F l.
  Proof.
    intros HR HF s HG _ _. exists (puts s l). split; [apply HR; assumption|].
    split; [apply puts_good; assumption|apply puts_done; assumption].
  Qed.

  Lemma finish_lrcp : finishes (fun s =>
      each (zseq LYE) (fun l => each (zrange RS RE) (fun r =>
        each (zrange CS CE) (fun c => all_precincts t l r c))) s)
    (flat_map (fun l => flat_map (fun r => flat_map (fun c =>
      packets_of h tx ty l r c) (zrange CS CE)) (zrange RS RE)) (zseq LYE)).
  Proof.
    apply finish_realized.
    - apply realizes_each. intros l Hl. apply realizes_each. intros r Hr.
      apply realizes_each. intros c Hc. destruct (cs_comp c Hc) as (k & Hk & Hc0).
      apply (all_precincts_realizes l r c k); try assumption. apply rs_nonneg. assumption.
    - apply Forall_forall. intros q Hq. unnest Hq.
      pose proof (packets_of_ok v v0 v1) as HF. rewrite Forall_forall in HF.
      apply HF; try assumption; [apply zseq_In; assumption|apply rs_nonneg; assumption].
  Qed.

  Lemma finish_rlcp : finishes (fun s =>
      each (zrange RS RE) (fun r => each (zseq LYE) (fun l =>
        each (zrange CS CE) (fun c => all_precincts t l r c))) s)
    (flat_map (fun r => flat_map (fun l => flat_map (fun c =>
      packets_of h tx ty l r c) (zrange CS CE)) (zseq LYE)) (zrange RS RE)).
  Proof.
    apply finish_realized.
    - apply realizes_each. intros r Hr. apply realizes_each. intros l Hl.
      apply realizes_each. intros c Hc. destruct (cs_comp c Hc) as (k & Hk & Hc0).
      apply (all_precincts_realizes l r c k); try assumption. apply rs_nonneg. assumption.
    - apply Forall_forall. intros q Hq. unnest Hq.
      pose proof (packets_of_ok v0 v v1) as HF. rewrite Forall_forall in HF.
      apply HF; try assumption; [apply zseq_In; assumption|apply rs_nonneg; assumption].
  Qed.

  (** * Every packet asked for is there *)

  Definition asked (q : packet) : Prop :=
    is_pk q /\ pk_l q < LYE /\ In (pk_r q) (zrange RS RE) /\ In (pk_c q) (zrange CS CE).

  Lemma flat_complete flat :
    (forall c r k, 0 <= c -> nth_error (h_comps h) (Z.to_nat c) = Some k -> r <= c_NL k ->
      sel c r flat = if in_dec Z.eq_dec r (zrange RS RE) then
        if in_dec Z.eq_dec c (zrange CS CE) then grid ex_y ex_x c r else [] else []) ->
    forall q, asked q -> In q (flat_map here flat).
  Proof.
    intros Hsel q ((Hl & k & Hc & Hk & Hr & Hp) & HL & Hir & Hic).
    pose proof (nth_error_In _ _ Hk) as Hin.
    assert (HN : 0 < N k (pk_r q)) by (unfold N; lia).
    pose proof (grid_enum (pk_c q) (pk_r q) k Hin Hr HN) as E.
    assert (Hi : In (pk_p q) (zseq (N k (pk_r q)))) by (apply zseq_In; exact Hp).
    rewrite <- E in Hi. apply in_map_iff in Hi. destruct Hi as (a & Ea & Ha).
    apply filter_In in Ha. destruct Ha as [Ha Hh].
    pose proof (Hsel (pk_c q) (pk_r q) k Hc Hk ltac:(lia)) as Es.
    destruct (in_dec Z.eq_dec (pk_r q) (zrange RS RE)); [|contradiction].
    destruct (in_dec Z.eq_dec (pk_c q) (zrange CS CE)); [|contradiction].
    rewrite <- Es in Ha. apply filter_In in Ha. destruct Ha as [Ha Hb].
    apply andb_true_iff in Hb. rewrite !Z.eqb_eq in Hb. destruct Hb as [Hac Har].
    apply in_flat_map. exists a. split; [assumption|].
    rewrite (here_eq a k); [|rewrite Hac; assumption|lia].
    rewrite Har, Hac, Hh, (proj2 (Z.ltb_lt 0 (N k (pk_r q)))) by assumption. cbn [andb].
    apply in_map_iff. exists (pk_l q). split; [|apply zseq_In; lia].
    rewrite Ea. destruct q; reflexivity.
  Qed.

  Lemma packets_of_complete q : asked q -> In q (packets_of h tx ty (pk_l q) (pk_r q) (pk_c q)).
  Proof.
    intros ((Hl & k & Hc & Hk & Hr & Hp) & _). unfold packets_of. rewrite Hk.
    rewrite (proj2 (Z.leb_le (pk_r q) (c_NL k))) by lia.
    apply in_map_iff. exists (pk_p q). split; [destruct q; reflexivity|].
    apply zseq_In. assumption.
  Qed.

  Lemma has_rpcl q : asked q -> In q (flat_map (fun r => flat_map (fun y => flat_map (fun x => flat_map (fun c =>
      at_ y x c r) (zrange CS CE)) all_x) all_y) (zrange RS RE)).
  Proof.
    intros Hq. rewrite <- says_rpcl. apply flat_complete; [|assumption].
    intros c r k Hc Hk Hr. apply (sel_rpcl _ _ _ _ k); assumption.
  Qed.

  Lemma has_prcl q : asked q -> In q (flat_map (fun y => flat_map (fun x => flat_map (fun r => flat_map (fun c =>
      at_ y x c r) (zrange CS CE)) (zrange RS RE)) all_x) all_y).
  Proof.
    intros Hq. rewrite <- says_prcl. apply flat_complete; [|assumption].
    intros c r k Hc Hk Hr. apply (sel_prcl _ _ _ _ k); assumption.
  Qed.

  Lemma has_pcrl q : asked q -> In q (flat_map (fun y => flat_map (fun x => flat_map (fun c => flat_map (fun r =>
      at_ y x c r) (zrange RS RE)) (zrange CS CE)) all_x) all_y).
  Proof.
    intros Hq. rewrite <- says_pcrl. apply flat_complete; [|assumption].
    intros c r k Hc Hk Hr. apply (sel_pcrl _ _ _ _ k); assumption.
  Qed.

  Lemma has_cprl q : asked q -> In q (flat_map (fun c => flat_map (fun y => flat_map (fun x => flat_map (fun r =>
      at_ y x c r) (zrange RS RE)) all_x) all_y) (zrange CS CE)).
  Proof.
    intros Hq. rewrite <- says_cprl. apply flat_complete; [|assumption].
    intros c r k Hc Hk Hr. apply (sel_cprl _ _ _ _ k); assumption.
  Qed.

  Lemma has_lrcp q : asked q ->
    In q (flat_map (fun l => flat_map (fun r => flat_map (fun c =>
      packets_of h tx ty l r c) (zrange CS CE)) (zrange RS RE)) (zseq LYE)).
  Proof.
    intros Hq. pose proof (packets_of_complete q Hq) as HP. destruct Hq as ((Hl & _) & HL & Hr & Hc).
    apply in_flat_map. exists (pk_l q). split; [apply zseq_In; lia|].
    apply in_flat_map. exists (pk_r q). split; [assumption|].
    apply in_flat_map. exists (pk_c q). split; assumption.
  Qed.

  Lemma has_rlcp q : asked q ->
    In q (flat_map (fun r => flat_map (fun l => flat_map (fun c =>
      packets_of h tx ty l r c) (zrange CS CE)) (zseq LYE)) (zrange RS RE)).
  Proof.
    intros Hq. pose proof (packets_of_complete q Hq) as HP. destruct Hq as ((Hl & _) & HL & Hr & Hc).
    apply in_flat_map. exists (pk_r q). split; [assumption|].
    apply in_flat_map. exists (pk_l q). split; [apply zseq_In; lia|].
    apply in_flat_map. exists (pk_c q). split; assumption.
  Qed.
End Run.

  Lemma add_new_In l : forall d q, In q (fold_left add_new l d) <-> In q d \/ In q l.
  Proof.
    induction l as [|a l IH]; intros d q; cbn [fold_left In]; [tauto|].
    rewrite IH. unfold add_new. destruct (existsb (packet_eqb a) d) eqn:E.
    - apply existsb_In in E. split; [tauto|]. intros [|[<-|]]; tauto.
    - rewrite in_app_iff. cbn [In]. tauto.
  Qed.

Section Entry.
  Variables (h : header) (layers tx ty : Z).
  Hypothesis Hleg : legal h.
  Hypothesis Hfit : fits h.
  Hypothesis Hlay : 1 <= layers <= 65535.
  Hypothesis Htx : 0 <= tx < tiles_x h.
  Hypothesis Hty : 0 <= ty < tiles_y h.
  Hypothesis Hcnt : n_packets h layers tx ty < 2 ^ 32.

  Let t := tile_of h layers tx ty.
  Let good := good h layers tx ty.

  Definition entry_fits (e : entry) : Prop :=
    0 <= e_RS e /\ 0 <= e_CS e /\ 0 <= e_LYE e /\ 0 <= e_P e <= 5.

  Lemma run_entry_exact e s : entry_fits e -> good s ->
    exists s', run_entry t e s = ret s' /\ good s' /\
      done s' = fold_left add_new (sequence h layers tx ty e) (done s).
  Proof.
    intros (HRS & HCS & HLYE & HP) HG.
    set (s0 := {| done := done s; cached := cached s; seen := seen s;
                  cx := fun _ _ => 0; cy := fun _ _ => 0 |}).
    assert (G0 : good s0) by exact HG.
    assert (HL : 0 <= Z.min (e_LYE e) layers <= layers) by lia.
    assert (HC : Z.min (e_CE e) (zlen (h_comps h)) <= zlen (h_comps h)) by lia.
    unfold run_entry, sequence.
    rewrite (num_comps_exact h layers tx ty : num_comps t = _).
    change (t_layers t) with layers.
    fold s0. cbv zeta.
    assert (Ex : examined (min_pp fst t) (t_x0 t) (t_x1 t) = ret (ex_x h layers tx ty))
      by (eapply examin_x; eauto).
    rewrite Ex.
    assert (Ey : examined (min_pp snd t) (t_y0 t) (t_y1 t) = ret (ex_y h layers tx ty))
      by (eapply examin_y; eauto).
    rewrite Ey.
    rewrite !ret_bindx.
    change (done s) with (done s0).
    destruct (Z.eqb_spec (e_P e) 0); [apply finish_lrcp; auto|].
    destruct (Z.eqb_spec (e_P e) 1); [apply finish_rlcp; auto|].
    rewrite (proj2 (Z.leb_le (e_P e) 5)) by lia.
    destruct (Z.eqb_spec (e_P e) 2); [apply finish_rpcl; auto|].
    destruct (Z.eqb_spec (e_P e) 3); [apply finish_pcrl; auto|].
    destruct (Z.eqb_spec (e_P e) 4); [apply finish_cprl; auto|].
    apply finish_prcl; auto.
  Qed.

  Lemma sequence_complete e q : entry_fits e -> is_packet h layers tx ty q ->
    e_RS e <= pk_r q < e_RE e -> e_CS e <= pk_c q < e_CE e -> pk_l q < e_LYE e ->
    In q (sequence h layers tx ty e).
  Proof.
    intros (HRS & HCS & HLYE & HP) Hq Hr Hc Hl.
    assert (HL : 0 <= Z.min (e_LYE e) layers <= layers) by lia.
    assert (HA : asked h layers tx ty (Z.min (e_LYE e) layers) (e_RS e) (e_RE e)
                   (e_CS e) (Z.min (e_CE e) (zlen (h_comps h))) q).
    { split; [assumption|]. destruct Hq as (Hl' & k & Hc0 & Hk & _).
      assert (pk_c q < zlen (h_comps h)).
      { assert (nth_error (h_comps h) (Z.to_nat (pk_c q)) <> None) as Hn by congruence.
        apply nth_error_Some in Hn. unfold zlen. lia. }
      rewrite !zrange_In. lia. }
    unfold sequence. cbv zeta.
    destruct (Z.eqb_spec (e_P e) 0); [eapply has_lrcp; eauto|].
    destruct (Z.eqb_spec (e_P e) 1); [eapply has_rlcp; eauto|].
    destruct (Z.eqb_spec (e_P e) 2); [eapply has_rpcl; eauto|].
    destruct (Z.eqb_spec (e_P e) 3); [eapply has_pcrl; eauto|].
    destruct (Z.eqb_spec (e_P e) 4); [eapply has_cprl; eauto|].
    eapply has_prcl; eauto.
  Qed.

  (** * The closing entry *)

  Lemma rs_eq (F : Z -> list packet) : (forall r, max_NL t < r -> F r = []) ->
    flat_map F (zrange 0 (max_NL t + 1)) = flat_map F (zrange 0 33).
  Proof.
    intros HF. pose proof (max_NL_le h layers tx ty Hleg) as HM. fold t in HM.
    replace (zrange 0 (max_NL t + 1)) with (filter (fun r => r <=? max_NL t) (zrange 0 33)).
    - apply flat_map_filter. intros r _ Hr. apply HF. apply Z.leb_gt in Hr. assumption.
    - apply sorted_eq; [apply sorted_filter, zrange_sorted|apply zrange_sorted|].
      intros r. rewrite filter_In, !zrange_In, Z.leb_le. lia.
  Qed.

  Lemma above_at LYE y x c r : max_NL t < r -> packets_at h tx ty LYE y x c r = [].
  Proof.
    intros Hr. unfold packets_at. destruct (nth_error (h_comps h) (Z.to_nat c)) as [k|] eqn:Hk; [|reflexivity].
    pose proof (max_NL_ge h layers tx ty k (nth_error_In _ _ Hk)) as HM. fold t in HM.
    rewrite (proj2 (Z.leb_gt r (c_NL k))) by lia. reflexivity.
  Qed.
  Lemma above_of l c r : max_NL t < r -> packets_of h tx ty l r c = [].
  Proof.
    intros Hr. unfold packets_of. destruct (nth_error (h_comps h) (Z.to_nat c)) as [k|] eqn:Hk; [|reflexivity].
    pose proof (max_NL_ge h layers tx ty k (nth_error_In _ _ Hk)) as HM. fold t in HM.
    rewrite (proj2 (Z.leb_gt r (c_NL k))) by lia. reflexivity.
  Qed.

  Ltac nil := repeat (apply flat_map_nil; intros ? _); first [apply above_at|apply above_of]; assumption.

  Lemma default_everything po :
    sequence h layers tx ty (default_entry t po) = sequence h layers tx ty (everything h layers po).
  Proof.
    pose proof (max_NL_le h layers tx ty Hleg) as HM. fold t in HM.
    unfold sequence, default_entry, everything. cbn [e_RS e_CS e_LYE e_RE e_CE e_P].
    rewrite (num_comps_exact h layers tx ty : num_comps t = _), Z.mod_small by lia.
    change (t_layers t) with layers.
    destruct (po =? 0).
    { apply flat_map_ext. intros l. apply rs_eq. intros r Hr. nil. }
    destruct (po =? 1); [apply rs_eq; intros r Hr; nil|].
    destruct (po =? 2); [apply rs_eq; intros r Hr; nil|].
    destruct (po =? 3).
    { apply flat_map_ext. intros y. apply flat_map_ext. intros x. apply flat_map_ext. intros c.
      apply rs_eq; intros r Hr; nil. }
    destruct (po =? 4).
    { apply flat_map_ext. intros c. apply flat_map_ext. intros y. apply flat_map_ext. intros x.
      apply rs_eq; intros r Hr; nil. }
    apply flat_map_ext. intros y. apply flat_map_ext. intros x.
    apply rs_eq; intros r Hr; nil.
  Qed.

  Lemma entries_exact l : forall s, good s -> Forall entry_fits l ->
    exists s', each l (run_entry t) s = ret s' /\ good s' /\
      done s' = fold_left add_new (flat_map (sequence h layers tx ty) l) (done s).
  Proof.
    induction l as [|e l IH]; intros s HG HF; cbn [each flat_map].
    - exists s. split; [reflexivity|]. split; [assumption|reflexivity].
    - inversion HF; subst. destruct (run_entry_exact e s) as (s1 & E1 & G1 & D1); try assumption.
      rewrite E1, ret_bindx. destruct (IH s1 G1) as (s2 & E2 & G2 & D2); [assumption|].
      exists s2. split; [assumption|]. split; [assumption|].
      rewrite D2, D1, fold_left_app. reflexivity.
  Qed.

  Lemma traverse_exact po poc : Forall entry_fits poc -> 0 <= po <= 5 ->
    exists s, traverse t po poc = ret s /\ good s /\
      done s = first_times (flat_map (sequence h layers tx ty) (poc ++ [everything h layers po])).
  Proof.
    intros HF HP. unfold traverse.
    destruct (entries_exact (poc ++ [default_entry t po])
      {| done := []; cached := []; seen := fun _ => false;
         cx := fun _ _ => 0; cy := fun _ _ => 0 |}) as (s & E & G & D).
    - repeat split; cbn [done cached]; constructor.
    - apply Forall_app. split; [assumption|]. constructor; [|constructor].
      unfold entry_fits, default_entry. cbn [e_RS e_CS e_LYE e_P]. change (t_layers t) with layers. lia.
    - exists s. split; [assumption|]. split; [assumption|].
      rewrite D. unfold first_times. cbn [done]. f_equal.
      rewrite !flat_map_app. f_equal. cbn [flat_map]. rewrite default_everything. reflexivity.
  Qed.
End Entry.
