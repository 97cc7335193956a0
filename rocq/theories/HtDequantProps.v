(** * C80: what high-throughput blocks with several passes leave in the band *)
From Verif Require Import Base BaseLemmas OutModel OutProofs PassModel PassSpec PassProofs DequantModel DequantProofs RefineModel RefineSpec RefineProofs RefineSim RefineProps HtDequantModel.

(** ** What the standard says *)
(** The decoded part of a coefficient: sign, magnitude, and the bit-plane of
    the last decoded bit. *)
Record coef := Coef { c_neg : bool; c_mag : Z; c_plane : Z }.
Definition decoded (w h : Z) (causal : bool) (D : list Z) (p passes : Z) (c : cleaned p) (y x : Z) : option coef :=
  let s := sig_prop w h causal (sig c) D in
  if sig c y x then
    if (3 <=? passes) && (1 <=? p) then Some (Coef (neg c y x) (2 * mag c y x + Z.b2z (mag_ref w h (sig c) D y x)) p)
    else Some (Coef (neg c y x) (mag c y x) (p + 1))
  else if (2 <=? passes) && (1 <=? p) && new s y x then Some (Coef (minus s y x) 1 p) else None.
(** E.1.1.2 with r = 1/2, for the reversible transform: the magnitude itself
    if all M_b bit-planes are decoded, the middle of the interval otherwise.
    The last of the M_b bit-planes is [31 - Mb]. *)
Definition value (Mb : Z) (o : option coef) : Z :=
  match o with
  | None => 0
  | Some k => (if c_neg k then Z.opp else Z.abs) (if c_plane k =? 31 - Mb then c_mag k else (2 * c_mag k + 1) * 2 ^ (c_plane k - (31 - Mb) - 1))
  end.
(** Annex H: what lies below the last of the M_b bit-planes is background,
    scaled up by the shift. *)
Definition half_steps (o : option coef) : Z := match o with None => 0 | Some k => (2 * c_mag k + 1) * 2 ^ (c_plane k - 1) end.
Definition unscaled (Mb s : Z) (o : option coef) : Z :=
  (if (match o with Some k => c_neg k | None => false end) then Z.opp else Z.abs)
    ((if half_steps o <? 2 ^ (31 - Mb) then half_steps o * 2 ^ s else half_steps o) / 2 ^ (31 - Mb)).

Definition rectangle (w h off stride : Z) (band band' : Z -> Z) (q : Z -> Z -> Z) : Prop :=
  (forall y x, 0 <= y < h -> 0 <= x < w -> band' (off + (y * stride + x)) = q y x) /\
  (forall j, (forall y x, 0 <= y < h -> 0 <= x < w -> j <> off + (y * stride + x)) -> band' j = band j).

(** ** Proofs *)
Lemma mask_eq Mb : 0 <= Mb <= 30 -> mask Mb = Ret (2 ^ (31 - Mb) - 1).
Proof.
  intros H. unfold mask. replace ((Mb + 1 <? 0) || (31 <? Mb + 1)) with false by lia. f_equal. symmetry. apply Z.div_unique with (r := 2 ^ (Mb + 1) - 1); [left; pose proof (Z.pow_pos_nonneg 2 (Mb + 1)); lia|].
  assert (2 ^ (Mb + 1) * 2 ^ (31 - Mb) = 4294967296) by (rewrite <- Z.pow_add_r by lia; replace (Mb + 1 + (31 - Mb)) with 32 by lia; reflexivity). lia.
Qed.
Lemma below Mb v : 0 <= Mb <= 30 -> 0 <= v < 2 ^ 31 -> (Z.land v (4294967295 - (2 ^ (31 - Mb) - 1)) =? 0) = (v <? 2 ^ (31 - Mb)).
Proof.
  intros HM Hv. replace (4294967295 - (2 ^ (31 - Mb) - 1)) with (2 ^ 32 - 2 ^ (31 - Mb)) by (change (2 ^ 32) with 4294967296; lia).
  rewrite land_high; [|lia|change (2 ^ 32) with (2 * 2 ^ 31); lia]. pose proof (Z.pow_pos_nonneg 2 (31 - Mb) ltac:(lia) ltac:(lia)) as P.
  destruct (Z.ltb_spec v (2 ^ (31 - Mb))) as [L|L]; [rewrite Z.div_small by lia; reflexivity|]. assert (1 <= v / 2 ^ (31 - Mb)) by (apply Z.div_le_lower_bound; lia). apply Z.eqb_neq. nia.
Qed.
Lemma pattern_pat n m : pattern n m = pat n m.
Proof. unfold pattern, pat. destruct n; cbn [Z.b2z]; lia. Qed.
Lemma ht_sample Mb s n v : 0 < Mb <= 30 -> 0 <= s -> 0 <= v < 2 ^ 31 -> (v < 2 ^ (31 - Mb) -> v < 2 ^ (31 - s) /\ s <= 31) ->
  ht_rev_sample Mb s (2 ^ (31 - Mb) - 1) (pat n v) = Ret ((if n then Z.opp else Z.abs) ((if v <? 2 ^ (31 - Mb) then v * 2 ^ s else v) / 2 ^ (31 - Mb))).
Proof.
  intros HM Hs Hv Hr. destruct (pat_parts n v Hv) as [E1 E2]. pose proof (Z.pow_pos_nonneg 2 (31 - Mb) ltac:(lia) ltac:(lia)) as P. unfold ht_rev_sample, unshift. rewrite E1, E2, below by lia.
  set (u := if v <? 2 ^ (31 - Mb) then v * 2 ^ s else v).
  assert (U : 0 <= u < 2 ^ 31).
  { unfold u. destruct (Z.ltb_spec v (2 ^ (31 - Mb))) as [L|L]; [|exact Hv]. destruct (Hr L) as [A B]. assert (E : 2 ^ 31 = 2 ^ (31 - s) * 2 ^ s) by (rewrite <- Z.pow_add_r by lia; f_equal; lia). pose proof (Z.pow_pos_nonneg 2 s ltac:(lia) ltac:(lia)). split; [nia|]. rewrite E. apply Z.mul_lt_mono_pos_r; lia. }
  assert (X : (if negb (s =? 0) && (v <? 2 ^ (31 - Mb)) then shl32 v s else Ret v) = Ret u).
  { unfold u in *. destruct (Z.eqb_spec s 0) as [->|N]; cbn [negb andb].
    - destruct (v <? 2 ^ (31 - Mb)); [change (2 ^ 0) with 1; rewrite Z.mul_1_r|]; reflexivity.
    - destruct (Z.ltb_spec v (2 ^ (31 - Mb))) as [L|L]; [|reflexivity]. destruct (Hr L) as [A B]. unfold shl32, int32. replace ((s <? 0) || (31 <? s)) with false by lia.
      replace ((- 2 ^ 31 <=? v * 2 ^ s) && (v * 2 ^ s <? 2 ^ 31)) with true by (change (2 ^ 31) with 2147483648 in *; lia). reflexivity. }
  rewrite X. cbn [bind]. unfold shr32, pLSB. replace ((31 - Mb <? 0) || (31 <? 31 - Mb)) with false by lia. cbn [bind]. f_equal.
  assert (Q : 0 <= u / 2 ^ (31 - Mb) < 2 ^ 31) by (split; [apply Z.div_pos; lia|apply Z.div_lt_upper_bound; nia]).
  destruct n; [|rewrite Z.abs_eq; lia]. change 2147483647 with (Z.ones 31). rewrite Z.land_ones by lia. rewrite Z.mod_small by lia. reflexivity.
Qed.
Lemma value_unscaled Mb o : 0 < Mb <= 30 -> (forall k, o = Some k -> 0 <= c_mag k /\ 31 - Mb <= c_plane k) -> unscaled Mb 0 o = value Mb o.
Proof.
  intros HM Hk. unfold unscaled. change (2 ^ 0) with 1. rewrite Z.mul_1_r. pose proof (Z.pow_pos_nonneg 2 (31 - Mb) ltac:(lia) ltac:(lia)) as P.
  replace (if half_steps o <? 2 ^ (31 - Mb) then half_steps o else half_steps o) with (half_steps o) by (destruct (half_steps o <? 2 ^ (31 - Mb)); reflexivity).
  destruct o as [k|]; [|cbn [half_steps value]; rewrite Z.div_0_l by lia; reflexivity]. destruct (Hk k eq_refl) as [H1 H2]. unfold value, half_steps. f_equal.
  destruct (Z.eqb_spec (c_plane k) (31 - Mb)) as [E|E].
  - rewrite E. symmetry. apply Z.div_unique with (r := 2 ^ (31 - Mb - 1)); [left; split; [apply Z.pow_nonneg; lia|apply Z.pow_lt_mono_r; lia]|]. replace (2 ^ (31 - Mb)) with (2 * 2 ^ (31 - Mb - 1)) by (rewrite <- Z.pow_succ_r by lia; f_equal; lia). lia.
  - replace (c_plane k - 1) with ((c_plane k - (31 - Mb) - 1) + (31 - Mb)) by lia. rewrite Z.pow_add_r, Z.mul_assoc by lia. apply Z.div_mul. lia.
Qed.

Lemma b2z_range b : 0 <= Z.b2z b <= 1.
Proof. destruct b; cbn [Z.b2z]; lia. Qed.

Lemma some_inj {A} (a b : A) : Some a = Some b -> b = a.
Proof. congruence. Qed.

Section Band.
  Variables (w h : Z) (causal : bool) (D : list Z) (S_blk passes Mb s size off stride : Z) (i32 : bool).
  Notation p := (29 - S_blk).
  Variable c : cleaned p.
  Variables st sm : Z -> Z.
  Hypothesis Hw : 1 <= w <= stride.
  Hypothesis Hh : 1 <= h.
  Hypothesis Hp : 0 <= S_blk < 30.
  Hypothesis Hpass : 1 <= passes.
  Hypothesis HM : 0 < Mb <= 30.
  Hypothesis Hs : 0 <= s.
  Hypothesis Hoff : 0 <= off.
  Hypothesis Hsize : off + h * stride <= size.
  Hypothesis Hi : i32 = true \/ Mb <= 24.
  Hypothesis Hf : mag_fits w h c.
  Hypothesis Hb : block_holds w h c st sm.
  Notation dec := (decoded w h causal D p passes c).

  Lemma after : exists st' sm', ht_refine w h causal D p passes st sm = Ret (st', sm') /\
    forall y x, 0 <= y < h -> 0 <= x < w -> sm' (sm_at w y x) = (match dec y x with Some k => pat (c_neg k) (half_steps (dec y x)) | None => 0 end).
  Proof using Hw Hh Hp Hpass Hf Hb. clear - Hw Hh Hp Hpass Hf Hb.
    destruct (Z.eq_dec p 0) as [E0|N0].
    - exists st, sm. split; [rewrite E0; apply C79_no_plane_below|]. intros y x Hy Hx. rewrite (proj2 Hb) by assumption. unfold decoded. replace (1 <=? p) with false by lia. rewrite !andb_false_r. cbn [andb]. destruct (sig c y x); [|reflexivity].
      cbn [c_neg half_steps c_mag c_plane]. rewrite <- pattern_pat. do 3 f_equal. lia.
    - destruct (Z.eq_dec passes 1) as [E1|N1].
      + exists st, sm. split; [rewrite E1; reflexivity|]. intros y x Hy Hx. rewrite (proj2 Hb) by assumption. unfold decoded. replace (3 <=? passes) with false by lia. replace (2 <=? passes) with false by lia. cbn [andb]. destruct (sig c y x); [|reflexivity].
        cbn [c_neg half_steps c_mag c_plane]. rewrite <- pattern_pat. do 3 f_equal. lia.
      + destruct (C79_refinement_passes w h causal D p passes c st sm) as (st' & sm' & E & R); [lia|lia|lia|lia|exact Hf|exact Hb|]. exists st', sm'. split; [exact E|]. intros y x Hy Hx. rewrite R by assumption. unfold refined, decoded.
        replace (1 <=? p) with true by lia. replace (2 <=? passes) with true by lia. rewrite !andb_true_r. cbn [andb].
        replace (3 <=? passes) with (negb (passes <? 3)) by lia. destruct (sig c y x); [destruct (passes <? 3)|destruct (new _ y x)]; cbn [negb c_neg half_steps c_mag c_plane]; try reflexivity; rewrite <- pattern_pat; try reflexivity. do 3 f_equal. lia.
  Qed.
  Lemma dec_range y x k : 0 <= y < h -> 0 <= x < w -> dec y x = Some k -> 0 <= c_mag k /\ 0 <= half_steps (Some k) < 2 ^ 31.
  Proof using Hp Hf. clear - Hp Hf.
    intros Hy Hx. unfold decoded. destruct (sig c y x) eqn:Es.
    - pose proof (Hf y x Hy Hx Es) as M. pose proof (fits p _ ltac:(lia) M) as F. pose proof (Z.pow_pos_nonneg 2 p ltac:(lia) ltac:(lia)).
      destruct ((3 <=? passes) && (1 <=? p)) eqn:Eb; intros E; apply some_inj in E; subst k; cbn [half_steps c_mag c_plane].
      + apply andb_true_iff in Eb as [_ Eb]. assert (P1 : 2 ^ p = 2 * 2 ^ (p - 1)) by (rewrite <- Z.pow_succ_r by lia; f_equal; lia). pose proof (Z.pow_pos_nonneg 2 (p - 1) ltac:(lia) ltac:(lia)).
        generalize (mag_ref w h (sig c) D y x). intros b. pose proof (b2z_range b) as B. split; [lia|]. split; [nia|].
        assert (E31 : 2 ^ 31 = 2 * (2 ^ (30 - p) * 2 ^ p)) by (rewrite <- Z.pow_add_r by lia; replace (30 - p + p) with 30 by lia; reflexivity). rewrite E31, P1. nia.
      + replace (p + 1 - 1) with p by lia. split; [lia|]. split; [nia|exact F].
    - destruct ((2 <=? passes) && (1 <=? p) && new _ y x) eqn:Eb; [|discriminate]. intros E. apply some_inj in E. subst k. cbn [half_steps c_mag c_plane]. apply andb_true_iff in Eb as [Eb _]. apply andb_true_iff in Eb as [_ Eb].
      pose proof (Z.pow_pos_nonneg 2 (p - 1) ltac:(lia) ltac:(lia)). pose proof (Z.pow_le_mono_r 2 (p - 1) 28 ltac:(lia) ltac:(lia)) as X. change (2 ^ 28) with 268435456 in X. change (2 ^ 31) with 2147483648. lia.
  Qed.

  (** Every coefficient scaled as Annex H says, if the background does not
      reach into the region. *)
  Lemma fill_band band : (s = 0 \/ s <= 31 /\ forall y x, 0 <= y < h -> 0 <= x < w -> half_steps (dec y x) < 2 ^ (31 - Mb) -> half_steps (dec y x) < 2 ^ (31 - s)) ->
    exists band', ht_finish Mb s w h size off stride i32 causal D S_blk passes st sm band = Ret band' /\ rectangle w h off stride band band' (fun y x => unscaled Mb s (dec y x)).
  Proof using All.
    intros Hroi. unfold ht_finish. replace (30 - (S_blk + 1)) with p by lia. destruct after as (st' & sm' & E & R). rewrite E. cbn [bind]. unfold ht_dequantize. rewrite mask_eq by lia. cbn [bind].
    apply (all_fill w h size off stride ltac:(lia) ltac:(lia) Hoff); [intros y x Hy Hx; nia|]. intros y x band0 Hy Hx. unfold ht_dq_sample.
    pose proof (sadr_in w h y x) as A. unfold sadr in A. rewrite A by (split; assumption). cbn [bind]. change (y * sstr w + x) with (sm_at w y x). rewrite R by assumption.
    assert (Q : exists q, ht_rev_sample Mb s (2 ^ (31 - Mb) - 1) (match dec y x with Some k => pat (c_neg k) (half_steps (dec y x)) | None => 0 end) = Ret q /\ q = unscaled Mb s (dec y x) /\ (Mb <= 24 -> Z.abs q <= 2 ^ 24)).
    { set (n := match dec y x with Some k => c_neg k | None => false end). set (v := half_steps (dec y x)).
      assert (V : 0 <= v < 2 ^ 31) by (unfold v; destruct (dec y x) as [k|] eqn:Ek; [exact (proj2 (dec_range y x k Hy Hx Ek))|cbn; lia]).
      replace (match dec y x with Some k => pat (c_neg k) v | None => 0 end) with (pat n v) by (unfold n, v; destruct (dec y x); reflexivity).
      assert (G : v < 2 ^ (31 - Mb) -> v < 2 ^ (31 - s) /\ s <= 31).
      { intros L. destruct Hroi as [-> |[S31 G]]; [split; [exact (proj2 V)|lia]|]. split; [apply G; assumption|exact S31]. }
      rewrite (ht_sample Mb s n v HM Hs V G). eexists. split; [reflexivity|]. split; [reflexivity|]. intros H24. pose proof (Z.pow_pos_nonneg 2 (31 - Mb) ltac:(lia) ltac:(lia)) as P.
      set (u := if v <? 2 ^ (31 - Mb) then v * 2 ^ s else v).
      assert (U : 0 <= u < 2 ^ 31).
      { unfold u. destruct (Z.ltb_spec v (2 ^ (31 - Mb))) as [L|L]; [|exact V]. destruct (G L) as [A1 B1]. assert (E31 : 2 ^ 31 = 2 ^ (31 - s) * 2 ^ s) by (rewrite <- Z.pow_add_r by lia; f_equal; lia). pose proof (Z.pow_pos_nonneg 2 s ltac:(lia) ltac:(lia)). split; [nia|]. rewrite E31. apply Z.mul_lt_mono_pos_r; lia. }
      assert (Q : 0 <= u / 2 ^ (31 - Mb) <= 2 ^ 24).
      { split; [apply Z.div_pos; lia|]. apply Z.lt_le_incl. apply Z.div_lt_upper_bound; [lia|]. assert (2 ^ 31 <= 2 ^ (31 - Mb) * 2 ^ 24) by (rewrite <- Z.pow_add_r by lia; apply Z.pow_le_mono_r; lia). lia. }
      change (2 ^ 24) with 16777216 in *. destruct n; lia. }
    destruct Q as (q & -> & -> & Q24). cbn [bind]. destruct Hi as [-> |H24]; [reflexivity|]. destruct i32; [reflexivity|]. rewrite to_float_small by (apply Q24; exact H24). reflexivity.
  Qed.
End Band.

(** A reversible block: for every sample of the block the value E.1.1.2 gives
    the decoded part of its coefficient, and nothing else in the band
    changes. *)
Theorem C80_reversible : forall w h causal D S_blk passes Mb size off stride (i32 : bool) (c : cleaned (29 - S_blk)) st sm band,
  1 <= w <= stride -> 1 <= h -> 0 <= S_blk < 30 -> 1 <= passes -> 0 < Mb <= 30 -> 0 <= off -> off + h * stride <= size -> i32 = true \/ Mb <= 24 ->
  mag_fits w h c -> block_holds w h c st sm ->
  (* no bit-plane below the last one of M_b is decoded *)
  (if passes <? 2 then S_blk < Mb else S_blk + 1 < Mb) ->
  exists band', ht_finish Mb 0 w h size off stride i32 causal D S_blk passes st sm band = Ret band' /\
    rectangle w h off stride band band' (fun y x => value Mb (decoded w h causal D (29 - S_blk) passes c y x)).
Proof.
  intros w h causal D S_blk passes Mb size off stride i32 c st sm band Hw Hh Hp Hpass HM Hoff Hsize Hi Hf Hb Hl.
  destruct (fill_band w h causal D S_blk passes Mb 0 size off stride i32 c st sm Hw Hh Hp Hpass HM ltac:(lia) Hoff Hsize Hi Hf Hb band (or_introl eq_refl)) as (band' & E & R1 & R2).
  exists band'. split; [exact E|]. split; [|exact R2]. intros y x Hy Hx. rewrite R1 by assumption. apply value_unscaled; [exact HM|]. intros k Hk. split; [exact (proj1 (dec_range w h causal D S_blk passes c Hp Hf y x k Hy Hx Hk))|].
  unfold decoded in Hk. destruct (sig c y x).
  - destruct (Z.ltb_spec passes 2); [replace (3 <=? passes) with false in Hk by lia; cbn [andb] in Hk; apply some_inj in Hk; subst k; cbn [c_plane]; lia|]. destruct ((3 <=? passes) && (1 <=? 29 - S_blk)); apply some_inj in Hk; subst k; cbn [c_plane]; lia.
  - destruct (Z.ltb_spec passes 2); [replace (2 <=? passes) with false in Hk by lia; discriminate Hk|]. destruct ((2 <=? passes) && (1 <=? 29 - S_blk) && new _ y x); [|discriminate Hk]. apply some_inj in Hk. subst k. cbn [c_plane]. lia.
Qed.
Print Assumptions C80_reversible.

(** With a region of interest: what is in the region is kept, the background
    is scaled back, as long as the background is as small as the shift wants
    it. *)
Theorem C80_region_of_interest : forall w h causal D S_blk passes Mb s size off stride (i32 : bool) (c : cleaned (29 - S_blk)) st sm band,
  1 <= w <= stride -> 1 <= h -> 0 <= S_blk < 30 -> 1 <= passes -> 0 < Mb <= 30 -> 0 <= s <= 31 -> 0 <= off -> off + h * stride <= size -> i32 = true \/ Mb <= 24 ->
  mag_fits w h c -> block_holds w h c st sm ->
  (forall y x, 0 <= y < h -> 0 <= x < w -> let v := half_steps (decoded w h causal D (29 - S_blk) passes c y x) in v < 2 ^ (31 - Mb) -> v < 2 ^ (31 - s)) ->
  exists band', ht_finish Mb s w h size off stride i32 causal D S_blk passes st sm band = Ret band' /\
    rectangle w h off stride band band' (fun y x => unscaled Mb s (decoded w h causal D (29 - S_blk) passes c y x)).
Proof.
  intros w h causal D S_blk passes Mb s size off stride i32 c st sm band Hw Hh Hp Hpass HM Hs Hoff Hsize Hi Hf Hb Hg.
  apply fill_band; try assumption; try lia. right. split; [lia|]. exact Hg.
Qed.
Print Assumptions C80_region_of_interest.

(** The block of C79 with 20 bit-planes, of which 17 or 18 are decoded, into a
    band with rows of 8. *)
Definition C80_c : cleaned (29 - 15) := Cleaned (fun y x => (y =? 2) && (x =? 2)) (fun _ _ => 5) (fun _ _ => true).
Definition C80_st (i : Z) : Z := if i =? st_at 5 2 2 then 1 else 0.
Definition C80_sm (i : Z) : Z := if i =? sm_at 5 2 2 then 2 ^ 31 + 11 * 2 ^ 14 else 0.
Lemma C80_holds : block_holds 5 5 C80_c C80_st C80_sm /\ mag_fits 5 5 C80_c.
Proof.
  split; [split|].
  - intros y x Hy Hx. unfold C80_st. change (st_at 5 y x) with (adr 5 y x). change (st_at 5 2 2) with (adr 5 2 2). rewrite adr_eqb by lia. cbn [C80_c sig]. unfold RefineSpec.inside.
    destruct (Z.eqb_spec y 2) as [->|N]; cbn [andb]; [|rewrite andb_false_r; reflexivity]. destruct (Z.eqb_spec x 2) as [->|N]; [reflexivity|rewrite andb_false_r; reflexivity].
  - intros y x Hy Hx. unfold C80_sm. change (sm_at 5 y x) with (sadr 5 y x). change (sm_at 5 2 2) with (sadr 5 2 2). rewrite sadr_eqb by lia. reflexivity.
  - intros y x _ _ _. cbn. lia.
Qed.
Definition C80_band (Mb s passes : Z) : list (list Z) :=
  match ht_finish Mb s 5 5 60 3 8 true true ex_D 15 passes C80_st C80_sm (fun _ => 77) with
  | Ret band' => map (fun y => map (fun x => band' (y * 8 + x)) (zseq 9)) (zseq 5)
  | _ => [] end.
Example C80_case :
  C80_band 20 0 3 = map (fun y => map (fun x => if (3 <=? x) && (x <? 8) then value 20 (decoded 5 5 true ex_D 14 3 C80_c y (x - 3)) else 77) (zseq 9)) (zseq 5) /\
  nth 5 (nth 2 (C80_band 20 0 3) []) 0 = - 92 /\ nth 5 (nth 2 (C80_band 17 0 3) []) 0 = - 11 /\ nth 5 (nth 2 (C80_band 20 0 1) []) 0 = - 88 /\
  existsb (fun v => v =? 12) (nth 2 (C80_band 20 0 3) []) || existsb (fun v => v =? 12) (nth 1 (C80_band 20 0 3) []) || existsb (fun v => v =? 12) (nth 3 (C80_band 20 0 3) []) = true.
Proof. vm_compute. repeat split; reflexivity. Qed.

(** 31 magnitude bits: the mask is a shift by 32. *)
Theorem C80_31_bits_refuted : forall s w h size off stride i32 causal D S_blk passes st sm band, 1 <= w -> 1 <= h ->
  ht_finish 31 s w h size off stride i32 causal D S_blk passes st sm band = UB.
Proof.
  intros. unfold ht_finish. destruct (C79_refinement_is_safe w h causal D (30 - (S_blk + 1)) passes st sm) as (st' & sm' & ->); [assumption|assumption|]. reflexivity.
Qed.
Print Assumptions C80_31_bits_refuted.
(** Background that reaches into the region is shifted out of int32_t. *)
Theorem C80_region_gap_refuted : C80_band 6 20 3 = [] /\ ht_finish 6 20 5 5 60 3 8 true true ex_D 15 3 C80_st C80_sm (fun _ => 77) = UB.
Proof. split; vm_compute; reflexivity. Qed.
Print Assumptions C80_region_gap_refuted.
