(** The transform theorems in the form they are published in DwtProps. *)
From Verif Require Import Base BaseLemmas DwtModel DwtSpec LiftProofs DwtProofs StreamModel StreamProofs PyramidModel PyramidProofs.

Lemma odd_first_odd q : odd_first q = Z.odd q.
Proof. unfold odd_first. rewrite Zmod_odd. now destruct (Z.odd q). Qed.

Lemma fwd_row_is_53 u0 row : 0 <= u0 -> 2 <= zlen row ->
  fwd_row u0 (u0 + zlen row) row = Ret (map (analysed53 (extended 0 u0 row)) (range u0 (u0 + zlen row))).
Proof.
  intros H0 H. rewrite fwd_row_spec by assumption. f_equal. apply map_range_ext. intros q _.
  cbn [lifted]. unfold odd_first, step53, analysed53, low53. rewrite Zmod_odd.
  destruct (Z.odd q) eqn:E; cbn [Z.eqb negb].
  - unfold fwd_hp, high53. now rewrite Z.shiftr_div_pow2 by lia.
  - assert (E1 : (q - 1) mod 2 =? 0 = false) by (rewrite Zmod_odd, Z.odd_sub, E; reflexivity).
    assert (E2 : (q + 1) mod 2 =? 0 = false) by (rewrite Zmod_odd, Z.odd_add, E; reflexivity).
    rewrite E1, E2. unfold fwd_lp, fwd_hp, high53. now rewrite !Z.shiftr_div_pow2 by lia.
Qed.

Lemma fwd_ver_spec a img : 0 <= a -> 2 <= zlen img ->
  fwd_ver a (a + zlen img) img = Ret (map (lifted odd_first fwd_vstep (extended [] a img) 1) (range a (a + zlen img))).
Proof.
  intros H0 H. unfold fwd_ver. destruct (Z.eqb_spec a (a + zlen img - 1)); [lia |].
  rewrite (extend_window []) by (rewrite ?fdwt_left_eq, ?fdwt_right_eq; lia). cbn [bind].
  destruct (fdwt_1d_window (map3 fwd_hp) (map3 fwd_lp) (extended [] a img) a (a + zlen img) H0 ltac:(lia)) as [g' [-> E]].
  cbn [bind]. f_equal.
  replace (fdwt_left a) with (a - (a - fdwt_left a)) at 1 by lia.
  rewrite map_range_slice by (rewrite ?fdwt_left_eq, ?fdwt_right_eq; lia).
  now apply map_range_ext.
Qed.
Lemma inv_ver_spec a img : 0 <= a -> 2 <= zlen img ->
  inv_ver a (a + zlen img) img = Ret (map (lifted even_first inv_vstep (extended [] a img) 1) (range a (a + zlen img))).
Proof.
  intros H0 H. unfold inv_ver. destruct (Z.eqb_spec a (a + zlen img - 1)); [lia |]. cbn [andb].
  rewrite (extend_window []) by (rewrite ?idwt_left_eq, ?idwt_right_eq; lia). cbn [bind].
  destruct (idwt_1d_window (map3 inv_lp) (map3 inv_hp) (extended [] a img) a (a + zlen img) H0 ltac:(lia)) as [g' [-> E]].
  cbn [bind]. f_equal.
  replace (idwt_left a) with (a - (a - idwt_left a)) at 1 by lia.
  rewrite map_range_slice by (rewrite ?idwt_left_eq, ?idwt_right_eq; lia).
  now apply map_range_ext.
Qed.

Lemma fdwt_geom_pse m a b : m = 1 \/ m = 2 ->
  (if odd_first a then 2 * m - 1 else 2 * m) <= top_pse (fdwt_geom m a b) /\
  (if odd_first (b - 1) then 2 * m - 1 else 2 * m) <= bot_pse (fdwt_geom m a b).
Proof.
  unfold odd_first, fdwt_geom. cbn [top_pse bot_pse].
  intros [-> | ->]; cbn [Z.eqb Pos.eqb]; split;
    destruct (Z.eqb_spec (a mod 2) 0), (Z.eqb_spec ((b - 1) mod 2) 0), (Z.eqb_spec (b mod 2) 0); cbn [negb]; lia.
Qed.
Lemma idwt_geom_pse m a b : m = 1 \/ m = 2 ->
  (if even_first a then 2 * m - 1 else 2 * m) <= top_pse (idwt_geom m a b) /\
  (if even_first (b - 1) then 2 * m - 1 else 2 * m) <= bot_pse (idwt_geom m a b).
Proof.
  unfold even_first, idwt_geom. cbn [top_pse bot_pse].
  intros [-> | ->]; cbn [Z.eqb Pos.eqb]; split;
    destruct (Z.eqb_spec (a mod 2) 0), (Z.eqb_spec ((b - 1) mod 2) 0), (Z.eqb_spec (b mod 2) 0); cbn [negb]; lia.
Qed.

Lemma stream_forward {T R} (d : T) m a (l : list T) step (hor : T -> out R) single (y : Z -> R) :
  m = 1 \/ m = 2 -> 0 <= a -> 2 <= zlen l ->
  (forall r, a <= r < a + zlen l -> hor (lifted Z.odd step (extended d a l) (Z.to_nat m) r) = Ret (y r)) ->
  fdwt_run (fdwt_geom m a (a + zlen l)) step hor single l
  = Ret (map (fun r => (Z.odd r, r, y r)) (range a (a + zlen l))).
Proof.
  intros Hm Ha Hl Hy. destruct (fdwt_geom_pse m a (a + zlen l) Hm) as [P1 P2].
  assert (LO : forall k r, lifted odd_first step (extended d a l) k r = lifted Z.odd step (extended d a l) k r).
  { induction k as [| k IH]; intros r; [reflexivity |]. cbn [lifted]. rewrite odd_first_odd, !IH. reflexivity. }
  transitivity (fdwt_run (fdwt_geom m a (a + zlen l)) step hor single (map (extended d a l) (range a (a + zlen l)))).
  { f_equal. rewrite (list_as_range d l a) at 1. apply map_range_ext. intros q Hq. symmetry. apply extended_inside; lia. }
  rewrite (fdwt_run_spec (fdwt_geom m a (a + zlen l)) odd_first step (extended d a l)) with (yy := y);
    cbn [fdwt_geom v0 v1 mxdl depth]; try lia.
  - f_equal. apply map_range_ext. intros q _. change (ev y q) with (odd_first q, q, y q). now rewrite odd_first_odd.
  - apply odd_first_alt.
  - intros j. now apply extended_mirror.
  - reflexivity.
  - intros r Hr. rewrite LO. now apply Hy.
Qed.
Lemma stream_forward_one {T R} m a (x : T) step (hor : T -> out R) single :
  fdwt_run (fdwt_geom m a (a + 1)) step hor single [x]
  = let* y := hor (single x) in Ret [(Z.odd a, a, y)].
Proof.
  unfold fdwt_run. cbn [push_all]. unfold push_row. cbn [fdwt_geom v0 v1 init_st nin depth].
  destruct (Z.leb_spec (a + 1) a); [lia |]. rewrite Z.eqb_refl. cbn [bind].
  unfold flush. cbn [fdwt_geom v0 v1 nin nout set_row origin rows dls depth init_st]. rewrite !Z.eqb_refl. cbn [andb].
  unfold get_row, rptr. cbn [fdwt_geom v0 v1 depth rows].
  destruct (Z.leb_spec a a); [| lia]. destruct (Z.ltb_spec a (a + 1)); [| lia]. cbn [andb].
  unfold upd. rewrite addr_eqb_refl. cbn [bind]. rewrite <- odd_first_odd.
  destruct (hor (single x)); reflexivity.
Qed.

Lemma stream_forward_53 u0 u1 a img ver outs : 0 <= a -> 1 <= zlen img ->
  fwd_ver a (a + zlen img) img = Ret ver -> mapM (analyse u0 u1) ver = Ret outs ->
  level_fwd u0 u1 a (a + zlen img) img
  = Ret (map (fun r => (Z.odd r, r, znth ([], []) outs (r - a))) (range a (a + zlen img))).
Proof.
  intros Ha Hl Hv Ho.
  assert (zlen img = 1 \/ 2 <= zlen img) as [L1 | L2] by lia.
  { destruct img as [| x [| y img]]; [unfold zlen in Hl; cbn in Hl; lia | | rewrite !zlen_cons in L1; pose proof (zlen_nonneg img); lia].
    change (zlen [x]) with 1 in *. unfold level_fwd. rewrite stream_forward_one. unfold fwd_ver in Hv.
    replace (a + 1 - 1) with a in Hv by lia. rewrite Z.eqb_refl in Hv. apply Ret_inj in Hv.
    assert (Ev : ver = [fwd_single a x]) by (subst ver; unfold fwd_single; destruct (a mod 2 =? 0); reflexivity).
    rewrite Ev in Ho. cbn [mapM] in Ho. destruct (analyse u0 u1 (fwd_single a x)) as [y | |]; try discriminate Ho.
    cbn [bind] in *. apply Ret_inj in Ho. subst outs. rewrite range_cons, range_nil by lia. cbn [map].
    replace (a - a) with 0 by lia. reflexivity. }
  clear Hl. rename L2 into Hl. rewrite fwd_ver_spec in Hv by assumption. apply Ret_inj in Hv. subst ver.
  unfold level_fwd. apply (stream_forward []); auto. intros r Hr.
  assert (LO : lifted Z.odd fwd_vstep (extended [] a img) (Z.to_nat 1) r = lifted odd_first fwd_vstep (extended [] a img) 1 r).
  { change (Z.to_nat 1) with 1%nat. cbn [lifted]. now rewrite odd_first_odd. }
  rewrite LO. clear LO Hl. set (V := lifted odd_first fwd_vstep (extended [] a img) 1) in *.
  remember (a + zlen img) as b eqn:Eb. clearbody V. clear Eb img.
  remember (Z.to_nat (b - a)) as n eqn:En. revert a outs Ha Ho Hr En.
  induction n as [| n IH]; intros a outs Ha Ho Hr En; [lia |].
  rewrite range_cons in Ho by lia. cbn [map mapM] in Ho.
  destruct (analyse u0 u1 (V a)) as [y | |] eqn:Ey; try discriminate Ho. cbn [bind] in Ho.
  destruct (mapM (analyse u0 u1) (map V (range (a + 1) b))) as [ys | |] eqn:Eys; try discriminate Ho.
  cbn [bind] in Ho. apply Ret_inj in Ho. subst outs.
  destruct (Z.eq_dec r a) as [-> | N].
  - replace (a - a) with 0 by lia. exact Ey.
  - rewrite znth_cons by lia. rewrite (IH (a + 1) ys ltac:(lia) Eys ltac:(lia) ltac:(lia)). do 2 f_equal. lia.
Qed.

Lemma stream_inverse {T} (d : T) m a (l : list T) step single src n :
  m = 1 \/ m = 2 -> 0 <= a -> 2 <= zlen l ->
  (forall r, a <= r < a + zlen l -> src r = Ret (znth d l (r - a))) ->
  idwt_pulls (idwt_geom m a (a + zlen l)) step single src (Z.to_nat (zlen l) + n)
  = Ret (map (fun r => Some (lifted Z.even step (extended d a l) (Z.to_nat m) r)) (range a (a + zlen l)) ++ repeat None n).
Proof.
  intros Hm Ha Hl Hs. destruct (idwt_geom_pse m a (a + zlen l) Hm) as [P1 P2].
  assert (EO : forall q, even_first q = Z.even q) by (intros q; unfold even_first; rewrite Zmod_even; now destruct (Z.even q)).
  assert (LO : forall k r, lifted even_first step (extended d a l) k r = lifted Z.even step (extended d a l) k r).
  { induction k as [| k IH]; intros r; [reflexivity |]. cbn [lifted]. rewrite EO, !IH. reflexivity. }
  rewrite (idwt_pulls_spec (idwt_geom m a (a + zlen l)) even_first step (extended d a l));
    cbn [idwt_geom v0 v1 mxdl depth]; try lia.
  - f_equal. rewrite (map_range_app _ a (a + zlen l)) by lia. f_equal.
    + apply map_range_ext. intros q Hq. destruct (Z.ltb_spec q (a + zlen l)); [| lia]. now rewrite LO.
    + rewrite (map_range_ext _ (fun _ => None)).
      2: { intros q Hq. destruct (Z.ltb_spec q (a + zlen l)); [lia | reflexivity]. }
      replace (a + Z.of_nat (Z.to_nat (zlen l) + n)) with (a + zlen l + Z.of_nat n) by lia.
      unfold range. rewrite map_map. replace (a + zlen l + Z.of_nat n - (a + zlen l)) with (Z.of_nat n) by lia.
      unfold zseq. rewrite map_map, Nat2Z.id. generalize 0%nat. induction n as [| n IH]; intros k; [reflexivity |].
      cbn [seq map repeat]. now rewrite IH.
  - apply even_first_alt.
  - intros j. now apply extended_mirror.
  - reflexivity.
  - intros r Hr. rewrite extended_inside by lia. now apply Hs.
Qed.
Lemma stream_inverse_one {T} m a (x : T) step single src n :
  src a = Ret x -> idwt_pulls (idwt_geom m a (a + 1)) step single src (1 + n) = Ret (Some (single x) :: repeat None n).
Proof.
  intros Hs. unfold idwt_pulls. cbn [Nat.add pulls]. unfold pull_row at 1.
  cbn [idwt_geom v0 v1 init_st nout nin origin rows dls].
  destruct (Z.leb_spec (a + 1) a); [lia |]. rewrite Z.eqb_refl. rewrite Hs. cbn [bind].
  set (s := mk_st _ _ _ _ _).
  assert (E : forall n, pulls (idwt_geom m a (a + 1)) step single src n s = Ret (repeat None n, s)).
  { induction n0 as [| k IH]; [reflexivity |]. cbn [pulls]. unfold pull_row.
    change (nout s) with (a + 1). change (v1 (idwt_geom m a (a + 1))) with (a + 1).
    destruct (Z.leb_spec (a + 1) (a + 1)); [| lia]. cbn [bind]. rewrite IH. reflexivity. }
  rewrite E. reflexivity.
Qed.

(** With zero flags, for 5/3 rows: equals the batch transform. *)
Lemma stream_inverse_53 w a img src n : 0 <= a -> 2 <= zlen img -> rect w img ->
  (forall r, a <= r < a + zlen img -> src r = Ret (tagged (znth [] img (r - a)))) ->
  exists out l, inv_ver a (a + zlen img) img = Ret out /\ zlen out = zlen img
    /\ idwt_pulls (idwt_geom 1 a (a + zlen img)) (skipping inv_vstep) (inv_single a) src (Z.to_nat (zlen img) + n) = Ret l
    /\ map (option_map fst) l = map Some out ++ repeat None n.
Proof.
  intros Ha Hl Hr Hs. rewrite inv_ver_spec by assumption. eexists. eexists. split; [reflexivity |].
  split; [rewrite map_range_len; lia |].
  assert (Lt : zlen (map tagged img) = zlen img) by apply zlen_map.
  split.
  - rewrite <- Lt. apply (stream_inverse (tagged [])); rewrite ?Lt; auto. intros r Hr'.
    rewrite Hs by assumption. f_equal. symmetry. apply (znth_map []). lia.
  - rewrite map_app, !map_map, Lt. f_equal.
    + apply map_range_ext. intros q Hq. cbn [option_map]. f_equal.
      change (Z.to_nat 1) with 1%nat.
      assert (EX : forall j, extended (tagged []) a (map tagged img) j = (extended [] a img j, all_zero (extended [] a img j))).
      { intros j. unfold extended. rewrite Lt. apply (znth_map [] (tagged []) tagged).
        pose proof (mirror_range a (a + zlen img) j ltac:(lia)). lia. }
      transitivity (fst (lifted even_first (skipping inv_vstep) (fun r => (extended [] a img r, all_zero (extended [] a img r))) 1 q)).
      { f_equal. rewrite (lifted_ext even_first (skipping inv_vstep) _ (extended (tagged []) a (map tagged img))) by (intros; now rewrite EX).
        cbn [lifted]. unfold even_first. rewrite Zmod_even. now destruct (Z.even q). }
      apply (skipping_lifted (fun row => zlen row = w) all_zero even_first inv_vstep (extended [] a img)).
      * intros q' k t p m A B C. unfold inv_vstep. destruct (q' mod 2 =? 0); now apply map3_len.
      * intros q' k t p m A B C Zp Zn. unfold inv_vstep.
        destruct (q' mod 2 =? 0); apply (map3_zero _) with (w := w); auto; intros v; unfold inv_lp, inv_hp.
        -- change (Z.shiftr (0 + 0 + 2) 2) with 0. lia.
        -- change (Z.shiftr (0 + 0) 1) with 0. lia.
      * intros r. unfold extended. unfold rect in Hr. rewrite Forall_forall in Hr. apply Hr. apply znth_In.
        pose proof (mirror_range a (a + zlen img) r ltac:(lia)). lia.
    + induction n as [| n IH]; [reflexivity |]. cbn [repeat map option_map]. now rewrite IH.
Qed.

Lemma reduced_0 u : reduced u 0 = u.
Proof. unfold reduced. change (2 ^ Z.of_nat 0) with 1. rewrite Z.div_1_r. lia. Qed.
Lemma reduced_S u k : reduced u (S k) = reduced (ceil2 u) k.
Proof.
  unfold reduced, ceil2. rewrite Nat2Z.inj_succ, Z.pow_succ_r by lia. set (p := 2 ^ Z.of_nat k).
  assert (0 < p) by (apply Z.pow_pos_nonneg; lia).
  rewrite <- Z.div_div by lia. f_equal.
  replace (u + 2 * p - 1) with (u + 1 + (p - 1) * 2) by lia. rewrite Z.div_add by lia. lia.
Qed.
Lemma wide_enough_reduced n : forall u0 u1, (forall k, (k < n)%nat -> reduced u0 k < reduced u1 k) -> wide_enough n u0 u1.
Proof.
  induction n as [| n IH]; intros u0 u1 H; cbn [wide_enough]; [exact I |]. split.
  - rewrite <- (reduced_0 u0), <- (reduced_0 u1). apply H. lia.
  - apply IH. intros k Hk. rewrite <- !reduced_S. apply H. lia.
Qed.

Theorem image_round_trip n u0 w a img : 0 <= u0 -> 0 <= w -> 0 <= a ->
  Forall (fun row => zlen row = w) img ->
  (forall k, (k < n)%nat -> reduced u0 k < reduced (u0 + w) k) ->
  exists p, encode n u0 (u0 + w) a (a + zlen img) img = Ret p
         /\ decode p u0 (u0 + w) a (a + zlen img) = Ret (map Some img).
Proof.
  intros H0 Hw Ha Hr Hn. destruct (pyramid_round_trip n u0 w a img H0 Hw Ha Hr (wide_enough_reduced _ _ _ Hn)) as [p [E [D _]]].
  eauto.
Qed.
