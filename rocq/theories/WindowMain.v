(** The window of a component through all levels. *)
From Verif Require Import Base BaseLemmas DwtModel DwtSpec LiftProofs DwtProofs DwtMain StreamModel PyramidModel WindowModel WindowSpec WindowProofs.

Section Main.
  Context {T : Type} (A : arith T).
  Variable (wt : Z) (use_i32 : bool).
  Hypothesis S : sane A.

  (** Column-wise result of a level whose source rows are [f]. *)
  Definition vval (v0 v1 : Z) (f : Z -> T) (r : Z) : T :=
    if v1 - v0 =? 1 then (if (wt =? 1) && negb (Z.even v0) then hv A (f v0) else f v0)
    else lifted Z.even (ver A) (fun j => f (mirror v0 v1 j)) (rounds wt) r.
  Lemma vval_local v0 v1 f g r : v0 <= r < v1 ->
    (forall s, v0 <= s < v1 -> Z.abs (s - r) <= 4 -> f s = g s) -> vval v0 v1 f r = vval v0 v1 g r.
  Proof.
    intros Hr H. unfold vval. destruct (Z.eqb_spec (v1 - v0) 1); [rewrite H by lia; reflexivity |].
    unfold ver. apply lifted_local. intros q Hq. pose proof (rounds_le wt).
    pose proof (mirror_range v0 v1 q ltac:(lia)). pose proof (mirror_near v0 v1 q r ltac:(lia) Hr). apply H; lia.
  Qed.

  Lemma level_value u0 u1 v0 v1 cw rw low hl lh hh old : 0 <= u0 -> 0 <= v0 <= v1 ->
    let (col_lo, col_hi) := narrow cw u0 u1 in
    let (row_lo, row_hi) := narrow rw v0 v1 in
    exists l, level A wt use_i32 u0 u1 v0 v1 cw rw low hl lh hh old = Ret l /\ zlen l = v1 - v0 /\
      forall r c, v0 <= r < v1 -> u0 <= c < u1 -> col_lo <= c < col_hi ->
      exists x, znth None l (r - v0) = Some x /\
        x (c - u0) = vval v0 v1 (fun s => fst (level_row A wt use_i32 u0 u1 v0 col_lo col_hi row_lo low hl lh hh old s) (c - u0)) r.
  Proof.
    intros Hu Hv. unfold level. destruct (narrow cw u0 u1) as [col_lo col_hi]. destruct (narrow rw v0 v1) as [row_lo row_hi].
    set (src := level_row A wt use_i32 u0 u1 v0 col_lo col_hi row_lo low hl lh hh old).
    destruct (Z.eq_dec v0 v1) as [E | E].
    { subst v1. exists []. rewrite Z.sub_diag. cbn. split; [reflexivity |]. split; [reflexivity |]. intros; lia. }
    destruct (Z.eq_dec (v1 - v0) 1) as [E1 | E1].
    { replace v1 with (v0 + 1) by lia. replace (v0 + 1 - v0) with 1 by lia.
      change (Z.to_nat 1) with (1 + 0)%nat. rewrite (stream_inverse_one _ _ (src v0)) by reflexivity.
      cbn [bind repeat map option_map]. eexists. split; [reflexivity |]. split; [reflexivity |].
      intros r c Hr Hc Hin. assert (r = v0) by lia. subst r. rewrite Z.sub_diag. eexists. split; [reflexivity |].
      unfold vval. replace (v0 + 1 - v0) with 1 by lia. cbn [Z.eqb Pos.eqb]. unfold lone. rewrite odd_mod.
      destruct ((wt =? 1) && negb (Z.even v0)); [| reflexivity]. cbn [fst].
      destruct (Z.leb_spec 0 (c - u0)), (Z.ltb_spec (c - u0) (u1 - u0)); try lia. reflexivity. }
    set (l := map src (range v0 v1)).
    assert (Ll : zlen l = v1 - v0) by (unfold l; rewrite map_range_len; lia).
    set (d := src v0).
    assert (Hnth : forall r, v0 <= r < v1 -> znth d l (r - v0) = src r).
    { intros r Hr. unfold l. rewrite map_range_nth by lia. f_equal. lia. }
    set (m := if wt =? 0 then 2 else 1).
    assert (Hm : m = 1 \/ m = 2) by (unfold m; destruct (wt =? 0); auto).
    assert (Em : Z.to_nat m = rounds wt) by (unfold m, rounds; destruct (wt =? 0); reflexivity).
    pose proof (stream_inverse d m v0 l (skipping (row_step A u0 col_lo col_hi)) (lone A wt u0 u1 v0) (fun r => Ret (src r)) 0
      Hm ltac:(lia) ltac:(lia)) as P.
    rewrite Ll in P. replace (v0 + (v1 - v0)) with v1 in P by lia.
    specialize (P ltac:(intros r Hr; now rewrite Hnth)). rewrite Nat.add_0_r in P.
    unfold row in *. rewrite P. cbn [bind repeat]. rewrite app_nil_r, map_map. cbn [option_map].
    eexists. split; [reflexivity |]. split; [rewrite map_range_len; lia |].
    intros r c Hr Hc Hin. rewrite map_range_nth by lia. eexists. split; [reflexivity |].
    replace (v0 + (r - v0)) with r by lia. rewrite Em.
    unfold vval. destruct (Z.eqb_spec (v1 - v0) 1); [lia |].
    assert (Ex : forall j, extended d v0 l j = src (mirror v0 v1 j)).
    { intros j. unfold extended. rewrite Ll. replace (v0 + (v1 - v0)) with v1 by lia. apply Hnth.
      apply mirror_range. lia. }
    destruct (vert A u0 col_lo col_hi (extended d v0 l) (c - u0) S ltac:(lia)) with (m := rounds wt) (r := r) as [V _].
    { intros j. rewrite Ex. apply level_row_flag; [exact S | lia]. }
    etransitivity; [exact V |]. unfold ver. apply lifted_local. intros q Hq. now rewrite Ex.
  Qed.

  (** Rows of a level that the row range keeps right. *)
  Definition below (rw : span) (r : Z) : Prop :=
    match rw with None => True | Some (a, b) => a + 4 <= r end.

  Lemma narrow_in w lo hi c : lo <= c < hi -> inside w c -> fst (narrow w lo hi) <= c < snd (narrow w lo hi).
  Proof.
    destruct w as [[a b] |]; cbn [narrow inside fst snd]; [| tauto]. intros H1 H2.
    destruct (Z.ltb_spec a lo), (Z.ltb_spec hi b); cases; lia.
  Qed.
  Lemma narrow_low w lo hi s : lo <= s -> (match w with None => True | Some (a, b) => a <= s end) ->
    fst (narrow w lo hi) <= s.
  Proof.
    destruct w as [[a b] |]; cbn [narrow fst]; [| lia]. intros H1 H2.
    destruct (Z.ltb_spec a lo), (Z.ltb_spec hi b); cases; lia.
  Qed.

  Lemma level_agree u0 u1 v0 v1 cw rw low low' hl lh hh old old' :
    0 <= u0 <= u1 -> 0 <= v0 <= v1 -> u1 - u0 <= 2 ^ 31 - 16 ->
    (forall r c, ceil2 v0 <= r < ceil2 v1 -> ceil2 u0 <= c < ceil2 u1 ->
       inside (coarser cw) c -> below (coarser rw) r -> low (r - ceil2 v0) (c - ceil2 u0) = low' (r - ceil2 v0) (c - ceil2 u0)) ->
    exists l l', level A wt use_i32 u0 u1 v0 v1 None None low hl lh hh old = Ret l
      /\ level A wt use_i32 u0 u1 v0 v1 cw rw low' hl lh hh old' = Ret l'
      /\ agree_on (fun c r => inside cw c /\ below rw r) u0 u1 v0 v1 l l'.
  Proof.
    intros Hu Hv Hm Hlow.
    pose proof (level_value u0 u1 v0 v1 None None low hl lh hh old ltac:(lia) Hv) as L.
    pose proof (level_value u0 u1 v0 v1 cw rw low' hl lh hh old' ltac:(lia) Hv) as L'.
    pose proof (narrow_in cw u0 u1) as Nc. pose proof (narrow_low rw v0 v1) as Nr.
    cbn [narrow] in L. destruct (narrow cw u0 u1) as [col_lo col_hi]. destruct (narrow rw v0 v1) as [row_lo row_hi].
    cbn [fst snd] in Nc, Nr. destruct L as (l & E & Ll & L). destruct L' as (l' & E' & Ll' & L').
    exists l, l'. split; [exact E |]. split; [exact E' |]. split; [exact Ll |]. split; [exact Ll' |].
    intros r c Hr Hc [Hin Hb]. specialize (Nc c Hc Hin).
    destruct (L r c Hr Hc Hc) as (x & Ex & Vx). destruct (L' r c Hr Hc Nc) as (x' & Ex' & Vx').
    exists x, x'. split; [exact Ex |]. split; [exact Ex' |]. rewrite Vx, Vx'.
    apply vval_local; [exact Hr |]. intros s Hs Hsr.
    assert (Hrl : row_lo <= s).
    { apply Nr; [lia |]. destruct rw as [[a b] |]; [| exact Logic.I]. cbn [below] in Hb. lia. }
    rewrite !level_row_value by (auto; lia).
    apply value_local; try lia.
    - intros k Hk Hkc. unfold lp_of. destruct (Z.even s) eqn:Es; [| reflexivity]. apply even_true in Es.
      assert (K : ceil2 u0 + k - ceil2 u0 = k) by lia. rewrite <- K.
      apply Hlow.
      + unfold ceil2. clear - Es Hs. Z.div_mod_to_equations. lia.
      + revert Hk. unfold width_lp. lia.
      + destruct cw as [[a b] |]; [| exact Logic.I]. cbn [inside coarser] in Hin |- *.
        rewrite !Z.shiftr_div_pow2 by lia. change (2 ^ 1) with 2.
        clear - Hin Hkc. Z.div_mod_to_equations. lia.
      + destruct rw as [[a b] |]; [| exact Logic.I]. cbn [below coarser] in Hb |- *.
        rewrite !Z.shiftr_div_pow2 by lia. change (2 ^ 1) with 2.
        clear - Hb Hsr Es. Z.div_mod_to_equations. lia.
    - reflexivity.
  Qed.

  Theorem window_agree : forall p u0 u1 v0 v1 cw rw old old',
    0 <= u0 <= u1 -> 0 <= v0 <= v1 -> u1 - u0 <= 2 ^ 31 - 16 ->
    exists l l', window_rows A wt use_i32 p u0 u1 v0 v1 None None old = Ret l
      /\ window_rows A wt use_i32 p u0 u1 v0 v1 cw rw old' = Ret l'
      /\ agree_on (fun c r => inside cw c /\ below rw r) u0 u1 v0 v1 l l'.
  Proof.
    induction p as [ll | hl lh hh low IH]; intros u0 u1 v0 v1 cw rw old old' Hu Hv Hm.
    - cbn [window_rows]. do 2 eexists. split; [reflexivity |]. split; [reflexivity |].
      split; [rewrite zlen_map, zseq_len; lia |]. split; [rewrite zlen_map, zseq_len; lia |].
      intros r c Hr Hc _. rewrite (znth_map 0 None) by (rewrite zseq_len; lia).
      do 2 eexists. split; [reflexivity |]. split; reflexivity.
    - cbn [window_rows]. destruct low as [ll | hl2 lh2 hh2 low2].
      + cbn [bind]. apply level_agree; auto.
      + assert (Hm' : ceil2 u1 - ceil2 u0 <= 2 ^ 31 - 16).
        { clear - Hm Hu. change (2 ^ 31) with 2147483648 in *. unfold ceil2. Z.div_mod_to_equations. lia. }
        assert (Hu' : 0 <= ceil2 u0 <= ceil2 u1) by (clear - Hu; unfold ceil2; Z.div_mod_to_equations; lia).
        assert (Hv' : 0 <= ceil2 v0 <= ceil2 v1) by (clear - Hv; unfold ceil2; Z.div_mod_to_equations; lia).
        destruct (IH (ceil2 u0) (ceil2 u1) (ceil2 v0) (ceil2 v1) (coarser cw) (coarser rw) old old' Hu' Hv' Hm')
          as (l & l' & E & E' & L1 & L2 & Ag).
        change (coarser None) with (@None (Z * Z)). rewrite E, E'. cbn [bind].
        apply level_agree; auto. intros r c Hr Hc Hi Hb.
        destruct (Ag r c Hr Hc (conj Hi Hb)) as (x & x' & X1 & X2 & X3). unfold row in *. now rewrite X1, X2.
  Qed.
End Main.
