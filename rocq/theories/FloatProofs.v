(** The model's int -> binary32 conversion rounds to nearest, ties to even. *)
From Verif Require Import Base ColorModel.

(** Integers with a binary32 encoding (24-bit significand, no fraction). *)
Definition is_float (r : Z) : Prop := exists m e, r = m * 2 ^ e /\ Z.abs m < 2 ^ 24 /\ 0 <= e.

Lemma is_float_opp r : is_float r -> is_float (- r).
Proof. intros (m & e & -> & Hm & He). exists (- m), e. split; [lia|]. split; [lia|exact He]. Qed.

Lemma f32_opp v : f32_of_i32 (- v) = - f32_of_i32 v.
Proof.
  unfold f32_of_i32. rewrite Z.abs_opp. destruct (Z.abs v <=? 2 ^ 24); [reflexivity|].
  cbv zeta. rewrite Z.sgn_opp. apply Z.mul_opp_l.
Qed.

Lemma f32_small v : Z.abs v <= 2 ^ 24 -> f32_of_i32 v = v.
Proof. intros H. unfold f32_of_i32. apply Z.leb_le in H. now rewrite H. Qed.

Lemma small_is_float v : Z.abs v <= 2 ^ 24 -> is_float v.
Proof.
  intros H. destruct (Z.eqb_spec (Z.abs v) (2 ^ 24)) as [E|E].
  - exists (Z.sgn v * 2 ^ 23), 1. split; [|split; [|lia]].
    + rewrite <- Z.mul_assoc. change (2 ^ 23 * 2 ^ 1) with (2 ^ 24). rewrite <- E.
      symmetry. rewrite Z.mul_comm. apply Z.abs_sgn.
    + destruct v; cbn; lia.
  - exists v, 0. split; [lia|]. lia.
Qed.

(** No float strictly between neighbouring multiples of 2^e above 2^(e+23). *)
Lemma float_gap r q e : 0 <= e -> 2 ^ 23 <= q -> is_float r ->
  r <= q * 2 ^ e \/ (q + 1) * 2 ^ e <= r.
Proof.
  intros He Hq (m & f & -> & Hm & Hf).
  pose proof (Z.pow_pos_nonneg 2 e ltac:(lia) He) as He2.
  pose proof (Z.pow_pos_nonneg 2 f ltac:(lia) Hf) as Hf2.
  destruct (Z.leb_spec e f) as [H|H].
  - replace (2 ^ f) with (2 ^ (f - e) * 2 ^ e) by (rewrite <- Z.pow_add_r by lia; f_equal; lia).
    rewrite Z.mul_assoc. destruct (Z.leb_spec (m * 2 ^ (f - e)) q) as [G|G]; [left|right]; nia.
  - left. assert (2 * 2 ^ f <= 2 ^ e).
    { rewrite <- Z.pow_succ_r by lia. apply Z.pow_le_mono_r; lia. }
    change (2 ^ 24) with 16777216 in *. change (2 ^ 23) with 8388608 in *. nia.
Qed.

Lemma f32_pos v : 2 ^ 24 < v -> exists q e c,
  0 <= e /\ 2 ^ 23 <= q < 2 ^ 24 /\ q * 2 ^ e <= v < (q + 1) * 2 ^ e /\
  (c = q \/ c = q + 1) /\ f32_of_i32 v = c * 2 ^ e /\
  (c = q -> 2 * (v - q * 2 ^ e) <= 2 ^ e) /\ (c = q + 1 -> 2 ^ e <= 2 * (v - q * 2 ^ e)) /\
  (2 * (v - q * 2 ^ e) = 2 ^ e -> Z.even c = true).
Proof.
  intros Hv. unfold f32_of_i32. rewrite Z.abs_eq by lia.
  rewrite (proj2 (Z.leb_gt _ _) Hv). cbv zeta. rewrite Z.sgn_pos by lia. rewrite Z.mul_1_l.
  assert (HL : 24 <= Z.log2 v).
  { change 24 with (Z.log2 (2 ^ 24)). apply Z.log2_le_mono. lia. }
  pose proof (Z.log2_spec v ltac:(lia)) as [H1 H2].
  set (e := Z.log2 v - 23) in *. assert (He : 1 <= e) by (unfold e; lia).
  replace (Z.log2 v) with (23 + e) in H1 by (unfold e; lia).
  replace (Z.succ (Z.log2 v)) with (24 + e) in H2 by (unfold e; lia).
  rewrite Z.pow_add_r in H1, H2 by lia.
  assert (Eh : 2 ^ e = 2 * 2 ^ (e - 1)) by (rewrite <- Z.pow_succ_r by lia; f_equal; lia).
  pose proof (Z.pow_pos_nonneg 2 (e - 1) ltac:(lia) ltac:(lia)) as Hp.
  clearbody e. pose proof (Z.div_mod v (2 ^ e) ltac:(lia)) as Hdm.
  pose proof (Z.mod_pos_bound v (2 ^ e) ltac:(lia)) as Hmb.
  assert (Hq : 2 ^ 23 <= v / 2 ^ e < 2 ^ 24).
  { split; [apply Z.div_le_lower_bound; lia|apply Z.div_lt_upper_bound; lia]. }
  set (q := v / 2 ^ e) in *. set (r := v mod 2 ^ e) in *. set (h := 2 ^ (e - 1)) in *.
  rewrite Eh in *. clearbody q r h.
  exists q, e, (if r <? h then q else if h <? r then q + 1 else if Z.even q then q else q + 1).
  rewrite Eh.
  split; [lia|]. split; [lia|]. split; [lia|].
  destruct (Z.ltb_spec r h); [|destruct (Z.ltb_spec h r); [|destruct (Z.even q) eqn:Ev]];
    (split; [auto|]); (split; [reflexivity|]); (split; [lia|]); (split; [lia|]); intros Ht; try lia; [exact Ev|].
  rewrite Z.add_1_r, Z.even_succ, <- Z.negb_even, Ev. reflexivity.
Qed.

Lemma f32_is_float v : is_float (f32_of_i32 v).
Proof.
  assert (P : forall u, 2 ^ 24 < u -> is_float (f32_of_i32 u)).
  { intros u Hu. destruct (f32_pos u Hu) as (q & e & c & He & Hq & _ & Hc & -> & _).
    destruct (Z.eqb_spec c (2 ^ 24)) as [->|N].
    - exists (2 ^ 23), (e + 1). split; [|lia]. rewrite Z.pow_add_r by lia. lia.
    - exists c, e. split; [reflexivity|]. lia. }
  destruct (Z.leb_spec (Z.abs v) (2 ^ 24)) as [H|H].
  - rewrite f32_small by exact H. apply small_is_float. exact H.
  - destruct (Z.leb_spec 0 v).
    + apply P. lia.
    + rewrite <- (Z.opp_involutive v), f32_opp. apply is_float_opp, P. lia.
Qed.

Lemma f32_nearest v r : is_float r -> Z.abs (f32_of_i32 v - v) <= Z.abs (r - v).
Proof.
  assert (P : forall u r, 2 ^ 24 < u -> is_float r -> Z.abs (f32_of_i32 u - u) <= Z.abs (r - u)).
  { clear. intros u r Hu Hr. destruct (f32_pos u Hu) as (q & e & c & He & Hq & Hb & Hc & -> & H1 & H2 & _).
    pose proof (float_gap r q e He ltac:(lia) Hr). destruct Hc as [-> | ->]; lia. }
  intros Hr. destruct (Z.leb_spec (Z.abs v) (2 ^ 24)) as [H|H].
  - rewrite f32_small by exact H. rewrite Z.sub_diag. apply Z.abs_nonneg.
  - destruct (Z.leb_spec 0 v).
    + apply P; [lia|exact Hr].
    + pose proof (P (- v) (- r) ltac:(lia) (is_float_opp r Hr)) as G.
      rewrite f32_opp in G. lia.
Qed.

Lemma f32_tie v r : is_float r -> r <> f32_of_i32 v ->
  Z.abs (f32_of_i32 v - v) = Z.abs (r - v) ->
  exists m e, f32_of_i32 v = m * 2 ^ e /\ 2 ^ 23 <= Z.abs m <= 2 ^ 24 /\ Z.even m = true /\ 0 <= e.
Proof.
  assert (P : forall u r, 2 ^ 24 < u -> is_float r -> r <> f32_of_i32 u ->
            Z.abs (f32_of_i32 u - u) = Z.abs (r - u) ->
            exists m e, f32_of_i32 u = m * 2 ^ e /\ 2 ^ 23 <= Z.abs m <= 2 ^ 24 /\ Z.even m = true /\ 0 <= e).
  { clear. intros u r Hu Hr. destruct (f32_pos u Hu) as (q & e & c & He & Hq & Hb & Hc & -> & H1 & H2 & H3).
    intros Hne Heq. pose proof (float_gap r q e He ltac:(lia) Hr).
    exists c, e. split; [reflexivity|]. split; [lia|]. split; [|exact He].
    apply H3. destruct Hc as [-> | ->]; lia. }
  intros Hr Hne Heq. destruct (Z.leb_spec (Z.abs v) (2 ^ 24)) as [H|H].
  - rewrite f32_small in Hne, Heq by exact H. lia.
  - destruct (Z.leb_spec 0 v).
    + apply (P v r); [lia|exact Hr|exact Hne|exact Heq].
    + destruct (P (- v) (- r)) as (m & e & E & H1 & H2 & H3);
        [lia|apply is_float_opp; exact Hr|rewrite f32_opp; lia|rewrite f32_opp; lia|].
      rewrite f32_opp in E. exists (- m), e. split; [lia|]. split; [lia|].
      split; [rewrite Z.even_opp; exact H2|exact H3].
Qed.
