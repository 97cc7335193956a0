(** The multi-level transform is inverted by the multi-level inverse. *)
From Verif Require Import Base BaseLemmas DwtModel DwtSpec LiftProofs DwtProofs StreamModel StreamProofs PyramidModel.

(** Skipping steps between rows flagged zero changes nothing. *)
Section Skip.
  Context {T : Type} (P : T -> Prop) (isz : T -> bool) (first : Z -> bool) (step : Z -> nat -> T -> T -> T -> T) (x : Z -> T).
  Hypothesis Pstep : forall q k t a b, P t -> P a -> P b -> P (step q k t a b).
  Hypothesis zero_id : forall q k t a b, P t -> P a -> P b -> isz a = true -> isz b = true -> step q k t a b = t.
  Hypothesis Px : forall r, P (x r).

  Lemma skipping_lifted k : forall r,
    let y := lifted first (skipping step) (fun r => (x r, isz (x r))) k r in
    fst y = lifted first step x k r /\ (snd y = true -> isz (fst y) = true).
  Proof.
    induction k as [| k IH]; intros r; cbv zeta; [now split |].
    set (xz := fun r => (x r, isz (x r))) in *.
    assert (S : forall q (t p n : T * bool) t0 p0 n0,
              fst t = t0 -> fst p = p0 -> fst n = n0 -> P t0 -> P p0 -> P n0 ->
              (snd t = true -> isz t0 = true) -> (snd p = true -> isz p0 = true) -> (snd n = true -> isz n0 = true) ->
              fst (skipping step q k t p n) = step q k t0 p0 n0
              /\ (snd (skipping step q k t p n) = true -> isz (step q k t0 p0 n0) = true)).
    { intros q [t bt] [p bp] [n bn] t0 p0 n0 E1 E2 E3 P1 P2 P3 Z1 Z2 Z3. cbn [fst snd] in *. subst t0 p0 n0.
      unfold skipping. cbn [fst snd]. destruct (bp && bn) eqn:C.
      - apply andb_true_iff in C as [C1 C2]. cbn [fst snd].
        rewrite (zero_id q k t p n) by auto. now split.
      - cbn [fst snd]. split; [reflexivity | discriminate]. }
    assert (PL : forall j q, P (lifted first step x j q)) by (intros; now apply lifted_P).
    assert (F : forall q,
              let yq := skipping step q k (lifted first (skipping step) xz k q)
                          (lifted first (skipping step) xz k (q - 1)) (lifted first (skipping step) xz k (q + 1)) in
              let y := step q k (lifted first step x k q) (lifted first step x k (q - 1)) (lifted first step x k (q + 1)) in
              fst yq = y /\ (snd yq = true -> isz y = true)).
    { intros q. cbv zeta.
      destruct (IH q) as [A1 A2]. destruct (IH (q - 1)) as [B1 B2]. destruct (IH (q + 1)) as [C1 C2].
      apply S; auto; intros Hs; [rewrite <- A1 | rewrite <- B1 | rewrite <- C1]; auto. }
    cbn [lifted]. destruct (first r).
    - destruct (F r) as [F1 F2]. split; [assumption |]. rewrite F1. assumption.
    - destruct (F (r - 1)) as [L1 L2]. destruct (F (r + 1)) as [R1 R2]. destruct (IH r) as [A1 A2].
      cbv zeta in L1, L2, R1, R2.
      edestruct S as [S1 S2]; [exact A1 | exact L1 | exact R1 | | | | | | |].
      7: { split; [exact S1 |]. rewrite S1. exact S2. }
      all: auto.
      + intros Hs. rewrite <- A1. auto.
  Qed.
End Skip.

Lemma map3_len f : forall a b c w, zlen a = w -> zlen b = w -> zlen c = w -> zlen (map3 f a b c) = w.
Proof.
  induction a as [| x a IH]; intros b c w Ha Hb Hc.
  - exact Ha.
  - destruct b as [| y b]; [rewrite zlen_cons in Ha; pose proof (zlen_nonneg a); change (zlen (@nil Z)) with 0 in *; lia |].
    destruct c as [| z c]; [rewrite zlen_cons in Ha; pose proof (zlen_nonneg a); change (zlen (@nil Z)) with 0 in *; lia |].
    cbn [map3]. rewrite !zlen_cons in *. rewrite (IH b c (w - 1)); lia.
Qed.
Lemma map3_inv f g (H : forall t a b, g (f t a b) a b = t) : forall t a b w,
  zlen t = w -> zlen a = w -> zlen b = w -> map3 g (map3 f t a b) a b = t.
Proof.
  induction t as [| x t IH]; intros a b w Ht Ha Hb; [reflexivity |].
  destruct a as [| y a]; [rewrite zlen_cons in Ht; pose proof (zlen_nonneg t); change (zlen (@nil Z)) with 0 in *; lia |].
  destruct b as [| z b]; [rewrite zlen_cons in Ht; pose proof (zlen_nonneg t); change (zlen (@nil Z)) with 0 in *; lia |].
  cbn [map3]. rewrite H. f_equal. rewrite !zlen_cons in *. apply (IH a b (w - 1)); lia.
Qed.
Lemma map3_sym f (H : forall t a b, f t a b = f t b a) : forall t a b, map3 f t a b = map3 f t b a.
Proof.
  induction t as [| x t IH]; intros [| y a] [| z b]; try reflexivity. cbn [map3]. now rewrite H, IH.
Qed.
Lemma map3_zero f (H : forall t, f t 0 0 = t) : forall t a b w,
  zlen t = w -> zlen a = w -> zlen b = w -> all_zero a = true -> all_zero b = true -> map3 f t a b = t.
Proof.
  induction t as [| x t IH]; intros a b w Ht Ha Hb Za Zb; [reflexivity |].
  destruct a as [| y a]; [rewrite zlen_cons in Ht; pose proof (zlen_nonneg t); change (zlen (@nil Z)) with 0 in *; lia |].
  destruct b as [| z b]; [rewrite zlen_cons in Ht; pose proof (zlen_nonneg t); change (zlen (@nil Z)) with 0 in *; lia |].
  unfold all_zero in Za, Zb. cbn [forallb] in Za, Zb. apply andb_true_iff in Za as [Y Za], Zb as [Z' Zb].
  apply Z.eqb_eq in Y, Z'. subst y z. cbn [map3]. rewrite H. f_equal. rewrite !zlen_cons in *. apply (IH a b (w - 1)); auto; lia.
Qed.

Lemma all_zero_eq l : all_zero l = true -> l = zeros (zlen l).
Proof.
  induction l as [| x l IH]; [reflexivity |]. unfold all_zero. cbn [forallb]. intros H.
  apply andb_true_iff in H as [Hx Hl]. apply Z.eqb_eq in Hx. subst x.
  unfold zeros. rewrite zlen_cons. pose proof (zlen_nonneg l).
  replace (Z.to_nat (1 + zlen l)) with (S (Z.to_nat (zlen l))) by lia. cbn [repeat]. f_equal. exact (IH Hl).
Qed.
Lemma zeros_zero w : all_zero (zeros w) = true.
Proof. unfold zeros, all_zero. induction (Z.to_nat w); [reflexivity | exact IHn]. Qed.
Lemma zeros_len w : 0 <= w -> zlen (zeros w) = w.
Proof. intros H. unfold zeros. rewrite zlen_repeat. lia. Qed.

(** The horizontal synthesis of two zero planes is the zero row. *)
Lemma interleave_zero a : forall b, all_zero a = true -> all_zero b = true -> all_zero (interleave a b) = true.
Proof.
  unfold all_zero. induction a as [| x a IH]; intros [| y b] Ha Hb; cbn [interleave forallb] in *; auto.
  apply andb_true_iff in Ha as [? ?], Hb as [? ?]. rewrite H, H1. cbn [andb]. now apply IH.
Qed.
Lemma znth_zeros w i : znth 0 (zeros w) i = 0.
Proof. unfold znth, zeros. apply nth_repeat. Qed.

Lemma synth_zero u0 w a b : 0 <= u0 -> 1 <= w -> zlen a = width_lp u0 (u0 + w) -> zlen b = width_hp u0 (u0 + w) ->
  all_zero a = true -> all_zero b = true -> inv_row_planar u0 (u0 + w) a b = Ret (zeros w).
Proof.
  intros H0 Hw La Lb Za Zb. unfold width_lp, width_hp, ceil2 in *.
  unfold inv_row_planar. replace (u0 + w - u0) with w by lia.
  destruct (Z.leb_spec w 0); [lia |]. destruct (Z.eqb_spec w 1) as [-> | N].
  - destruct (Z.eqb_spec (u0 mod 2) 0).
    + rewrite (all_zero_eq a Za), La. replace ((u0 + 1 + 1) / 2 - (u0 + 1) / 2) with 1 by lia. reflexivity.
    + rewrite (all_zero_eq b Zb), Lb. replace ((u0 + 1) / 2 - u0 / 2) with 1 by lia. reflexivity.
  - set (row := if u0 mod 2 =? 0 then interleave a b else interleave b a).
    assert (Hz : all_zero row = true) by (unfold row; destruct (u0 mod 2 =? 0); now apply interleave_zero).
    assert (Hl : zlen row = w) by (unfold row; destruct (u0 mod 2 =? 0); rewrite interleave_len; lia).
    replace (u0 + w) with (u0 + zlen row) by lia. rewrite inv_row_spec by lia. rewrite Hl. f_equal.
    assert (E : forall r, lifted even_first (step53 inv_hp inv_lp) (extended 0 u0 row) 1 r = 0).
    { intros r. apply (lifted_P (fun v => v = 0)).
      - intros q k t x y -> -> ->. unfold step53. now destruct (q mod 2 =? 0).
      - intros q. unfold extended. rewrite (all_zero_eq row Hz). apply znth_zeros. }
    apply (znth_ext 0).
    + rewrite map_range_len, zeros_len; lia.
    + intros i Hi. rewrite map_range_len in Hi by lia. rewrite map_range_nth by lia. now rewrite E, znth_zeros.
Qed.

(** Geometry of the two machines for 5/3. *)
Lemma fwd_first q : odd_first q = negb (q mod 2 =? 0).
Proof. reflexivity. Qed.
Lemma fdwt_geom_top a b : (if odd_first a then 2 * 1 - 1 else 2 * 1) <= top_pse (fdwt_geom 1 a b).
Proof. unfold odd_first, fdwt_geom. cbn [top_pse]. change (1 =? 2) with false. cbn iota. destruct (a mod 2 =? 0); cbn [negb]; lia. Qed.
Lemma fdwt_geom_bot a b : (if odd_first (b - 1) then 2 * 1 - 1 else 2 * 1) <= bot_pse (fdwt_geom 1 a b).
Proof.
  unfold odd_first, fdwt_geom. cbn [bot_pse]. change (1 =? 2) with false. cbn iota.
  destruct (Z.eqb_spec ((b - 1) mod 2) 0), (Z.eqb_spec (b mod 2) 0); cbn [negb]; lia.
Qed.
Lemma idwt_geom_top a b : (if even_first a then 2 * 1 - 1 else 2 * 1) <= top_pse (idwt_geom 1 a b).
Proof. unfold even_first, idwt_geom. cbn [top_pse]. change (1 =? 2) with false. cbn iota. destruct (a mod 2 =? 0); lia. Qed.
Lemma idwt_geom_bot a b : (if even_first (b - 1) then 2 * 1 - 1 else 2 * 1) <= bot_pse (idwt_geom 1 a b).
Proof.
  unfold even_first, idwt_geom. cbn [bot_pse]. change (1 =? 2) with false. cbn iota.
  destruct (Z.eqb_spec ((b - 1) mod 2) 0), (Z.eqb_spec (b mod 2) 0); lia.
Qed.

(** The forward machine with nothing to do. *)
Lemma phase_idle {T} G step count : forall r lv nd (s : st T),
  (forall q, get_dl G s q = -1) -> 0 <= lv -> phase G step count r lv nd s = Ret s.
Proof.
  induction count as [| c IH]; intros r lv nd s D H; cbn [phase]; [reflexivity |].
  rewrite !D. replace (-1 =? lv) with false by lia. cbn [andb bind]. now apply IH.
Qed.
Lemma flush_fill_idle {T} a G (s : st T) l : v0 G = a -> v1 G = a ->
  (forall q, get_dl G s q = -1) -> flush_fill G l s = Ret s.
Proof.
  intros Ha Hb D. induction l as [| i l IH]; [reflexivity |]. cbn [flush_fill].
  rewrite Ha, Hb. unfold pse_o. replace (2 * (a - a - 1)) with (-2) by lia.
  change (-2 =? 0) with false. cbn [bind]. cbv iota.
  destruct (dls s (Bot i) <? 0); cbn [bind]; [| exact IH].
  rewrite D. change (0 <=? -1) with false. rewrite andb_false_r. cbn [bind]. exact IH.
Qed.
Lemma fdwt_run_empty {T R} a (step : Z -> nat -> T -> T -> T -> T) (hor : T -> out R) single :
  fdwt_run (fdwt_geom 1 a a) step hor single [] = Ret [].
Proof.
  unfold fdwt_run. cbn [push_all bind].
  assert (D : forall q, get_dl (fdwt_geom 1 a a) (init_st (T := T) (fdwt_geom 1 a a)) q = -1).
  { intros q. unfold get_dl. destruct ((v0 _ <=? q) && (q <? v1 _)); [now destruct ((q <? _) || (_ <=? q)) |].
    destruct ((v0 _ - top_pse _ <=? q) && (q <? v0 _)); [reflexivity |].
    now destruct ((v1 _ <=? q) && (q <? v1 _ + bot_pse _)). }
  unfold flush. replace (v1 (fdwt_geom 1 a a) =? v0 (fdwt_geom 1 a a) + 1) with false by (cbn; lia).
  cbn [andb]. rewrite (flush_fill_idle a) by (reflexivity || exact D). cbn [bind].
  unfold cascade_f. replace (mxdl (fdwt_geom 1 a a) =? 1) with true by reflexivity.
  cbn [phases]. rewrite phase_idle by (exact D || lia). cbn [bind]. rewrite phase_idle by (exact D || lia). cbn [bind].
  unfold emit_ready_f. cbn [fdwt_geom v1 init_st nout v0]. replace (a - a) with 0 by lia.
  change (Z.to_nat 0 + 1)%nat with 1%nat. cbn [emit_ready nout v1]. rewrite Z.ltb_irrefl. reflexivity.
Qed.

(** One level forward. *)
Definition rect (w : Z) (img : list (list Z)) : Prop := Forall (fun row => zlen row = w) img.

Lemma vertical_fwd_P w a img r : rect w img -> 2 <= zlen img ->
  zlen (lifted odd_first fwd_vstep (extended [] a img) 1 r) = w.
Proof.
  intros Hr H. apply (lifted_P (fun row => zlen row = w)).
  - intros q k t x y A B C. unfold fwd_vstep. destruct (q mod 2 =? 0); now apply map3_len.
  - intros q. unfold extended. unfold rect in Hr. rewrite Forall_forall in Hr. apply Hr. apply znth_In.
    pose proof (mirror_range a (a + zlen img) q ltac:(lia)). lia.
Qed.

Lemma analyse_total u0 w row : 0 <= u0 -> 1 <= w -> zlen row = w ->
  exists l h, analyse u0 (u0 + w) row = Ret (l, h) /\ zlen l = width_lp u0 (u0 + w) /\ zlen h = width_hp u0 (u0 + w)
           /\ inv_row_planar u0 (u0 + w) l h = Ret row.
Proof.
  intros H0 Hw <-. destruct (planar_round_trip u0 row H0 Hw) as [y [l [h [E1 [E2 [E3 [E4 [E5 [E6 E7]]]]]]]]].
  exists l, h. unfold analyse. rewrite E1. cbn [bind]. rewrite E3. cbn [bind]. rewrite E4. cbn [bind]. auto.
Qed.

Lemma choose_planes u0 w (V : Z -> list Z) : 0 <= u0 -> 1 <= w -> (forall r, zlen (V r) = w) ->
  exists f : Z -> list Z * list Z, forall r, analyse u0 (u0 + w) (V r) = Ret (f r)
    /\ zlen (fst (f r)) = width_lp u0 (u0 + w) /\ zlen (snd (f r)) = width_hp u0 (u0 + w)
    /\ inv_row_planar u0 (u0 + w) (fst (f r)) (snd (f r)) = Ret (V r).
Proof.
  intros H0 Hw HV.
  exists (fun r => match analyse u0 (u0 + w) (V r) with Ret p => p | _ => ([], []) end).
  intros r. destruct (analyse_total u0 w (V r) H0 Hw (HV r)) as [l [h [E [E1 [E2 E3]]]]].
  rewrite E. auto.
Qed.

(** What a level's vertical part turns the image into, and how its inverse
    machine turns it back. *)
Definition tagged (t : list Z) : list Z * bool := (t, all_zero t).

Lemma pulls_ext {T} G (step step' : Z -> nat -> T -> T -> T -> T) single src n :
  step = step' -> idwt_pulls G step single src n = idwt_pulls G step' single src n.
Proof. now intros ->. Qed.

Lemma level_vertical u0 w a img : 0 <= u0 -> 1 <= w -> 0 <= a -> rect w img ->
  exists (V : Z -> list Z) (f : Z -> list Z * list Z),
    (forall r, analyse u0 (u0 + w) (V r) = Ret (f r)
       /\ zlen (fst (f r)) = width_lp u0 (u0 + w) /\ zlen (snd (f r)) = width_hp u0 (u0 + w)
       /\ inv_row_planar u0 (u0 + w) (fst (f r)) (snd (f r)) = Ret (V r))
    /\ (forall r, zlen (V r) = w)
    /\ level_fwd u0 (u0 + w) a (a + zlen img) img
       = Ret (map (fun r => (negb (r mod 2 =? 0), r, f r)) (range a (a + zlen img)))
    /\ forall src, (forall r, a <= r < a + zlen img -> src r = Ret (tagged (V r))) ->
         exists l, idwt_pulls (idwt_geom 1 a (a + zlen img)) (skipping inv_vstep) (inv_single a) src (Z.to_nat (zlen img))
                   = Ret l /\ map (option_map fst) l = map Some img.
Proof.
  intros H0 Hw Ha Hr. pose proof (zlen_nonneg img) as Hn.
  destruct (Z_le_gt_dec 2 (zlen img)) as [H2 | H2].
  - (* two rows or more *)
    set (V := lifted odd_first fwd_vstep (extended [] a img) 1).
    assert (HV : forall r, zlen (V r) = w) by (intros r; now apply vertical_fwd_P).
    destruct (choose_planes u0 w V H0 Hw HV) as [f Hf].
    exists V, f. split; [exact Hf |]. split; [exact HV |]. split.
    + unfold level_fwd. rewrite (list_as_range [] img a) at 2.
      rewrite (map_range_ext _ (extended [] a img)) by (intros q Hq; symmetry; apply extended_inside; lia).
      rewrite (fdwt_run_spec (fdwt_geom 1 a (a + zlen img)) odd_first fwd_vstep (extended [] a img)) with (yy := f);
        cbn [fdwt_geom v0 v1 mxdl depth]; try lia.
      * reflexivity.
      * apply odd_first_alt.
      * apply fdwt_geom_top.
      * apply (fdwt_geom_bot a (a + zlen img)).
      * intros j. now apply extended_mirror.
      * reflexivity.
      * intros r _. apply Hf.
    + intros src Hsrc.
      set (y := map V (range a (a + zlen img))).
      assert (Ly : zlen y = zlen img) by (unfold y; rewrite map_range_len; lia).
      rewrite (idwt_pulls_spec (idwt_geom 1 a (a + zlen img)) even_first (skipping inv_vstep)
                 (fun r => tagged (extended [] a y r))); cbn [idwt_geom v0 v1 mxdl depth]; try lia.
      * eexists. split; [reflexivity |]. rewrite map_map.
        replace (a + Z.of_nat (Z.to_nat (zlen img))) with (a + zlen img) by lia.
        rewrite <- (round_trip (fun row => zlen row = w) [] (map3 fwd_hp) (map3 fwd_lp) (map3 inv_hp) (map3 inv_lp) a img) at 2.
        -- rewrite map_map. apply map_range_ext. intros q Hq. destruct (Z.ltb_spec q (a + zlen img)); [| lia].
           cbn [option_map]. f_equal. change (Z.to_nat 1) with 1%nat.
           destruct (skipping_lifted (fun row => zlen row = w) all_zero even_first inv_vstep (extended [] a y)) with (k := 1%nat) (r := q) as [S1 _].
           ++ intros q' k t p n A B C. unfold inv_vstep. destruct (q' mod 2 =? 0); now apply map3_len.
           ++ intros q' k t p n A B C Zp Zn. unfold inv_vstep.
              destruct (q' mod 2 =? 0); apply (map3_zero _) with (w := w); auto; intros v; unfold inv_lp, inv_hp.
              ** change (Z.shiftr (0 + 0 + 2) 2) with 0. lia.
              ** change (Z.shiftr (0 + 0) 1) with 0. lia.
           ++ intros r. unfold extended.
              assert (Hy : Forall (fun row => zlen row = w) y).
              { unfold y. apply Forall_map. apply Forall_forall. intros z _. apply HV. }
              rewrite Forall_forall in Hy. apply Hy. apply znth_In.
              pose proof (mirror_range a (a + zlen y) r ltac:(lia)). lia.
           ++ unfold tagged. cbv zeta in S1. rewrite S1. reflexivity.
        -- intros t p n. apply map3_sym. apply fwd_hp_sym.
        -- intros t p n. apply map3_sym. apply fwd_lp_sym.
        -- intros t p n A B C. now apply map3_len.
        -- intros t p n A B C. now apply map3_len.
        -- intros t p n A B C. apply map3_inv with (w := w); auto. apply inv_hp_undoes.
        -- intros t p n A B C. apply map3_inv with (w := w); auto. apply inv_lp_undoes.
        -- exact Hr.
        -- exact H2.
      * apply even_first_alt.
      * apply idwt_geom_top.
      * apply (idwt_geom_bot a (a + zlen img)).
      * intros j. unfold tagged. rewrite <- Ly. rewrite extended_mirror by lia. reflexivity.
      * reflexivity.
      * intros r Hr'. rewrite Hsrc by exact Hr'. unfold tagged. rewrite extended_inside by lia.
        unfold y. rewrite map_range_nth by lia. replace (a + (r - a)) with r by lia. reflexivity.
  - destruct (Z.eq_dec (zlen img) 1) as [H1 | H1].
    + (* one row *)
      destruct img as [| x [| x' img]]; [discriminate H1 | | rewrite !zlen_cons in H1; pose proof (zlen_nonneg img); lia].
      rewrite H1. inversion_clear Hr as [| ? ? Hx _].
      set (V := fun _ : Z => fwd_single a x).
      assert (HV : forall r, zlen (V r) = w).
      { intros r. unfold V, fwd_single. destruct (a mod 2 =? 0); [assumption | now rewrite zlen_map]. }
      destruct (choose_planes u0 w V H0 Hw HV) as [f Hf].
      exists V, f. split; [exact Hf |]. split; [exact HV |]. split.
      * unfold level_fwd, fdwt_run. cbn [push_all]. unfold push_row. cbn [fdwt_geom v0 v1 init_st nin depth].
        destruct (Z.leb_spec (a + 1) a); [lia |]. rewrite Z.eqb_refl. cbn [bind].
        unfold flush. cbn [fdwt_geom v0 v1 nin nout set_row origin rows dls depth init_st]. rewrite !Z.eqb_refl. cbn [andb].
        unfold get_row, rptr. cbn [fdwt_geom v0 v1 depth rows].
        destruct (Z.leb_spec a a); [| lia]. destruct (Z.ltb_spec a (a + 1)); [| lia]. cbn [andb].
        unfold upd. rewrite addr_eqb_refl. cbn [bind].
        destruct (Hf a) as [E _]. unfold V in E. rewrite E. cbn [bind app].
        rewrite range_cons, range_nil by lia. reflexivity.
      * intros src Hsrc. unfold idwt_pulls. change (Z.to_nat 1) with 1%nat. cbn [pulls]. unfold pull_row.
        cbn [idwt_geom v0 v1 init_st nout nin origin rows dls].
        destruct (Z.leb_spec (a + 1) a); [lia |]. rewrite Z.eqb_refl.
        rewrite Hsrc by lia. cbn [bind]. eexists. split; [reflexivity |]. cbn [map option_map]. do 2 f_equal.
        unfold inv_single, V, tagged, fwd_single. destruct (a mod 2 =? 0); [reflexivity |]. cbn [fst].
        rewrite map_map. rewrite <- (map_id x) at 2. apply map_ext. intros v.
        rewrite Z.shiftr_div_pow2 by lia. change (2 ^ 1) with 2. lia.
    + (* no row *)
      assert (img = []) as -> by (apply zlen_0; lia). change (zlen (@nil (list Z))) with 0 in *. rewrite Z.add_0_r.
      set (V := fun _ : Z => zeros w).
      assert (HV : forall r, zlen (V r) = w) by (intros r; apply zeros_len; lia).
      destruct (choose_planes u0 w V H0 Hw HV) as [f Hf].
      exists V, f. split; [exact Hf |]. split; [exact HV |]. split.
      * unfold level_fwd. rewrite fdwt_run_empty, range_nil by lia. reflexivity.
      * intros src _. exists []. split; reflexivity.
Qed.

(** Even and odd rows of a range. *)
Lemma filter_even a b : filter (fun r => r mod 2 =? 0) (range a b) = map (fun k => 2 * k) (range (ceil2 a) (ceil2 b)).
Proof.
  unfold ceil2. destruct (Z_le_gt_dec b a) as [H | H]; [rewrite !range_nil by lia; reflexivity |].
  remember (Z.to_nat (b - a)) as n eqn:En. revert a H En. induction n as [| n IH]; intros a H En; [lia |].
  rewrite (range_cons a b) by lia. cbn [filter].
  destruct (Z.eq_dec (a + 1) b) as [E | E].
  - subst b. rewrite (range_nil (a + 1) (a + 1)) by lia. cbn [filter].
    destruct (Z.eqb_spec (a mod 2) 0).
    + rewrite range_cons, range_nil by lia. cbn [map]. f_equal. lia.
    + rewrite range_nil by lia. reflexivity.
  - rewrite IH by lia. destruct (Z.eqb_spec (a mod 2) 0).
    + rewrite (range_cons ((a + 1) / 2)) by lia. cbn [map]. f_equal; [lia |]. do 2 f_equal. lia.
    + do 2 f_equal. lia.
Qed.
Lemma filter_map {A B} (f : B -> bool) (g : A -> B) l : filter f (map g l) = map g (filter (fun a => f (g a)) l).
Proof. induction l as [| a l IH]; [reflexivity |]. cbn [map filter]. destruct (f (g a)); cbn [map]; now rewrite IH. Qed.

Lemma get_band_map (K : list Z) (key : Z -> Z) (v : Z -> list Z) r :
  In r K -> (forall q, In q K -> key q = key r -> q = r) ->
  get_band (map (fun q => (key q, v q)) K) (key r) = Ret (v r).
Proof.
  intros Hin Hinj. unfold get_band. rewrite <- map_rev.
  destruct (find (fun e : Z * list Z => fst e =? key r) (map (fun q => (key q, v q)) (rev K))) as [e |] eqn:E.
  - apply find_some in E as [Hi He]. apply in_map_iff in Hi as [q [<- Hq]]. cbn [fst snd] in *.
    apply Z.eqb_eq in He. apply in_rev in Hq. now rewrite (Hinj q Hq He).
  - exfalso. pose proof (find_none _ _ E (key r, v r)) as N. cbn [fst] in N. rewrite Z.eqb_refl in N.
    enough (true = false) by discriminate. apply N. apply in_map_iff. exists r. split; [reflexivity |]. now apply -> in_rev.
Qed.

Lemma pse_row_idx_in i n : 0 <= i < n -> pse_row_idx i n = i.
Proof.
  intros H. unfold pse_row_idx. destruct (Z.leb_spec n 1); [lia |].
  assert (E : Z.rem i (2 * (n - 1)) = i).
  { apply Z.rem_small. lia. }
  rewrite E. rewrite (Z.rem_mod_nonneg (i + 2 * (n - 1))) by lia.
  replace (i + 2 * (n - 1)) with (i + 1 * (2 * (n - 1))) by lia. rewrite Z_mod_plus_full, Z.mod_small by lia.
  destruct (Z.ltb_spec i n); [reflexivity | lia].
Qed.

(** All levels.  Every level must be at least one column wide. *)
Fixpoint wide_enough (n : nat) (u0 u1 : Z) : Prop :=
  match n with O => True | S n' => u0 < u1 /\ wide_enough n' (ceil2 u0) (ceil2 u1) end.

Lemma band_indexed (rows : list (list Z)) :
  mapM (fun i => let* x := get_band (combine (zseq (zlen rows)) rows) i in Ret (Some x)) (zseq (zlen rows))
  = Ret (map Some rows).
Proof.
  assert (E : combine (zseq (zlen rows)) rows = map (fun i => (i, znth [] rows i)) (zseq (zlen rows))).
  { rewrite (list_as_range [] rows 0) at 2. rewrite Z.add_0_l. unfold range.
    replace (zlen rows - 0) with (zlen rows) by lia. rewrite map_map.
    induction (zseq (zlen rows)) as [| i l IH]; [reflexivity |]. cbn [map combine]. rewrite IH. do 3 f_equal. lia. }
  rewrite E. rewrite (mapM_Ret _ (fun i => Some (znth [] rows i))).
  - f_equal. rewrite (list_as_range [] rows 0) at 2. rewrite Z.add_0_l. unfold range.
    replace (zlen rows - 0) with (zlen rows) by lia. rewrite !map_map. apply map_ext. intros i. do 2 f_equal. lia.
  - intros i Hi. rewrite (get_band_map _ (fun i => i) (fun i => znth [] rows i)) by auto. reflexivity.
Qed.

Lemma pyramid_round_trip n : forall u0 w a img,
  0 <= u0 -> 0 <= w -> 0 <= a -> rect w img -> wide_enough n u0 (u0 + w) ->
  exists p, encode n u0 (u0 + w) a (a + zlen img) img = Ret p
         /\ decode p u0 (u0 + w) a (a + zlen img) = Ret (map Some img)
         /\ (n <> O -> exists hl lh hh low, p = Finer hl lh hh low).
Proof.
  induction n as [| n IH]; intros u0 w a img H0 Hw Ha Hr Hwide.
  - eexists. split; [reflexivity |]. split; [| congruence]. cbn [decode].
    replace (a + zlen img - a) with (zlen img) by lia. apply band_indexed.
  - cbn [wide_enough] in Hwide. destruct Hwide as [Hw1 Hwide].
    pose proof (zlen_nonneg img) as Hn.
    destruct (level_vertical u0 w a img H0 ltac:(lia) Ha Hr) as [V [f [Hf [HV [Efwd Hinv]]]]].
    set (b := a + zlen img) in *.
    cbn [encode]. rewrite Efwd. cbn [bind].
    set (ev := fun r => (negb (r mod 2 =? 0), r, f r)).
    assert (Elp : filter (fun e => negb (is_hp e)) (map ev (range a b)) = map ev (filter (fun r => r mod 2 =? 0) (range a b))).
    { rewrite filter_map. f_equal. apply filter_ext. intros r. unfold is_hp, ev. cbn [fst]. apply negb_involutive. }
    assert (Ehp : filter is_hp (map ev (range a b)) = map ev (filter (fun r => negb (r mod 2 =? 0)) (range a b))).
    { rewrite filter_map. f_equal. }
    rewrite Elp, Ehp. unfold to_band. rewrite !map_map. unfold ev. cbn [fst snd].
    set (evens := filter (fun r => r mod 2 =? 0) (range a b)).
    set (odds := filter (fun r => negb (r mod 2 =? 0)) (range a b)).
    set (hl := map (fun x => (x / 2 - ceil2 a, snd (f x))) evens).
    set (lh := map (fun x => (x / 2 - a / 2, fst (f x))) odds).
    set (hh := map (fun x => (x / 2 - a / 2, snd (f x))) odds).
    assert (Hev : forall r, In r evens <-> a <= r < b /\ r mod 2 = 0).
    { intros r. unfold evens. rewrite filter_In, range_In, Z.eqb_eq. reflexivity. }
    assert (Hod : forall r, In r odds <-> a <= r < b /\ r mod 2 <> 0).
    { intros r. unfold odds. rewrite filter_In, range_In, negb_true_iff, Z.eqb_neq. reflexivity. }
    (* whatever delivers the right low-pass rows makes the level invertible *)
    assert (Hlevel : forall low,
              (forall r, a <= r < b -> r mod 2 = 0 -> low (r / 2 - ceil2 a) = Ret (fst (f r))) ->
              level_inv u0 (u0 + w) a b low hl lh hh = Ret (map Some img)).
    { intros low Hlow. unfold level_inv.
      destruct (Hinv (level_src u0 (u0 + w) a low hl lh hh)) as [l [El Em]].
      - intros r Hrr. unfold level_src.
        assert (E : (let* l := if r mod 2 =? 0 then low (r / 2 - ceil2 a) else get_band lh (r / 2 - a / 2) in
                     let* h := if r mod 2 =? 0 then get_band hl (r / 2 - ceil2 a) else get_band hh (r / 2 - a / 2) in
                     let* row := if (0 <? u0 + w - u0) && (all_zero l && all_zero h) then Ret (zeros (u0 + w - u0))
                                 else inv_row_planar u0 (u0 + w) l h in
                     Ret (row, all_zero row)) = Ret (tagged (V r))).
        { assert (Es : (let* row := if (0 <? u0 + w - u0) && (all_zero (fst (f r)) && all_zero (snd (f r)))
                                    then Ret (zeros (u0 + w - u0))
                                    else inv_row_planar u0 (u0 + w) (fst (f r)) (snd (f r)) in
                        Ret (row, all_zero row)) = Ret (tagged (V r))).
          { destruct (Hf r) as [_ [L1 [L2 Ei]]].
            destruct ((0 <? u0 + w - u0) && (all_zero (fst (f r)) && all_zero (snd (f r)))) eqn:C.
            - apply andb_true_iff in C as [_ C]. apply andb_true_iff in C as [C1 C2].
              rewrite synth_zero in Ei by (assumption || lia). apply Ret_inj in Ei.
              replace (u0 + w - u0) with w by lia. rewrite Ei. reflexivity.
            - rewrite Ei. reflexivity. }
          destruct (Z.eqb_spec (r mod 2) 0) as [Er | Er].
          - rewrite Hlow by assumption. cbn [bind]. unfold hl.
            rewrite (get_band_map evens (fun x => x / 2 - ceil2 a) (fun x => snd (f x))).
            + exact Es.
            + now apply Hev.
            + intros q Hq. apply Hev in Hq. lia.
          - unfold lh, hh.
            rewrite (get_band_map odds (fun x => x / 2 - a / 2) (fun x => fst (f x)));
              [| now apply Hod | intros q Hq; apply Hod in Hq; lia]. cbn [bind].
            rewrite (get_band_map odds (fun x => x / 2 - a / 2) (fun x => snd (f x)));
              [| now apply Hod | intros q Hq; apply Hod in Hq; lia]. exact Es. }
        cbv zeta. destruct (r mod 2 =? 0); exact E.
      - replace (b - a) with (zlen img) by (unfold b; lia). rewrite El. cbn [bind]. now rewrite Em. }
    destruct n as [| n].
    + eexists. split; [reflexivity |]. split; [| intros _; do 4 eexists; reflexivity].
      cbn [decode]. apply Hlevel. intros r Hrr Er.
      rewrite pse_row_idx_in by (unfold ceil2; lia).
      rewrite (get_band_map evens (fun x => x / 2 - ceil2 a) (fun x => fst (f x))); [reflexivity | now apply Hev |].
      intros q Hq. apply Hev in Hq. lia.
    + set (lows := map (fun x => fst (f x)) evens).
      assert (Elows : lows = map (fun k => fst (f (2 * k))) (range (ceil2 a) (ceil2 b))).
      { unfold lows, evens. rewrite filter_even, map_map. reflexivity. }
      assert (Ln : zlen lows = ceil2 b - ceil2 a).
      { rewrite Elows. apply map_range_len. unfold ceil2, b. lia. }
      destruct (IH (ceil2 u0) (ceil2 (u0 + w) - ceil2 u0) (ceil2 a) lows) as [p [Ep [Dp Sp]]].
      * unfold ceil2. lia.
      * unfold ceil2. lia.
      * unfold ceil2. lia.
      * unfold rect. apply Forall_forall. intros row Hin. unfold lows in Hin. apply in_map_iff in Hin as [q [<- _]].
        apply (Hf q).
      * replace (ceil2 u0 + (ceil2 (u0 + w) - ceil2 u0)) with (ceil2 (u0 + w)) by lia. exact Hwide.
      * rewrite Ln in Ep, Dp.
        replace (ceil2 u0 + (ceil2 (u0 + w) - ceil2 u0)) with (ceil2 (u0 + w)) in Ep, Dp by lia.
        replace (ceil2 a + (ceil2 b - ceil2 a)) with (ceil2 b) in Ep, Dp by lia.
        rewrite Ep. cbn [bind]. eexists. split; [reflexivity |].
        split; [| intros _; do 4 eexists; reflexivity].
        destruct (Sp ltac:(discriminate)) as [h1 [h2 [h3 [h4 ->]]]].
        cbn [decode] in Dp |- *. rewrite Dp. cbn [bind]. apply Hlevel. intros r Hrr Er.
        rewrite (rdT_in None) by (rewrite zlen_map, Ln; unfold ceil2; lia).
        cbn [bind]. rewrite (znth_map []) by (rewrite Ln; unfold ceil2; lia).
        rewrite Elows, map_range_nth by (unfold ceil2; lia). do 3 f_equal. unfold ceil2. lia.
Qed.
