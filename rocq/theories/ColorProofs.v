From Verif Require Import Base BaseLemmas ColorModel.

Lemma i32_ok v : - 2 ^ 31 <= v < 2 ^ 31 -> i32 v = Ret v.
Proof. intros. unfold i32. replace ((- 2 ^ 31 <=? v) && (v <? 2 ^ 31)) with true by lia. reflexivity. Qed.
Lemma i32_inv v r : i32 v = Ret r -> r = v /\ - 2 ^ 31 <= v < 2 ^ 31.
Proof. unfold i32. destruct (_ && _) eqn:E; [|discriminate]. intros [= <-]. lia. Qed.

Definition small (n v : Z) : Prop := - 2 ^ n <= v < 2 ^ n.

Lemma shiftr2 v : Z.shiftr v 2 = v / 4. Proof. rewrite Z.shiftr_div_pow2 by lia. reflexivity. Qed.

Lemma fwd_rct_ok R G B : small 28 R -> small 28 G -> small 28 B ->
  fwd_rct R G B = Ret ((R + 2 * G + B) / 4, B - G, R - G).
Proof.
  unfold small, fwd_rct. intros. rewrite (i32_ok (2 * G)) by lia. cbn [bind].
  rewrite (i32_ok (R + 2 * G)) by lia. cbn [bind].
  rewrite (i32_ok (R + 2 * G + B)) by lia. cbn [bind].
  rewrite (i32_ok (B - G)) by lia. cbn [bind]. rewrite (i32_ok (R - G)) by lia. cbn [bind].
  rewrite shiftr2. reflexivity.
Qed.

Lemma rct_key R G B : (R + 2 * G + B) / 4 - (B - G + (R - G)) / 4 = G.
Proof. lia. Qed.

Lemma inv_fwd_px R G B : small 28 R -> small 28 G -> small 28 B ->
  inv_rct ((R + 2 * G + B) / 4) (B - G) (R - G) = Ret (R, G, B).
Proof.
  unfold small, inv_rct. intros. rewrite (i32_ok (B - G + (R - G))) by lia. cbn [bind].
  rewrite shiftr2. rewrite rct_key.
  rewrite (i32_ok G) by lia. cbn [bind].
  rewrite (i32_ok (R - G + G)) by lia. cbn [bind]. rewrite (i32_ok (B - G + G)) by lia. cbn [bind].
  f_equal. f_equal; [f_equal|]; lia.
Qed.

(** Rows and planes: composing per-pixel identities. *)
Lemma row3_compose (f g : Z -> Z -> Z -> out (Z * Z * Z)) (P : Z -> Prop) : 
  (forall x y z, P x -> P y -> P z -> exists u v w, f x y z = Ret (u, v, w) /\ g u v w = Ret (x, y, z)) ->
  forall w (a b c : list Z), (w <= length a)%nat -> (w <= length b)%nat -> (w <= length c)%nat ->
  Forall P (firstn w a) -> Forall P (firstn w b) -> Forall P (firstn w c) ->
  exists a' b' c', row3 f w a b c = Ret (a', b', c') /\ row3 g w a' b' c' = Ret (a, b, c).
Proof.
  intros HP. induction w as [|w IH]; intros a b c Ha Hb Hc Pa Pb Pc; [do 3 eexists; split; reflexivity|].
  destruct a as [|x a], b as [|y b], c as [|z c]; cbn [length] in *; try lia.
  cbn [firstn] in *. inversion Pa; inversion Pb; inversion Pc; subst.
  destruct (HP x y z) as (u & v & t & E1 & E2); auto.
  destruct (IH a b c) as (a' & b' & c' & E3 & E4); auto; try lia.
  exists (u :: a'), (v :: b'), (t :: c'). cbn [row3]. rewrite E1. cbn [bind]. rewrite E3. cbn [bind].
  split; [reflexivity|]. rewrite E2. cbn [bind]. rewrite E4. reflexivity.
Qed.

Lemma plane3_compose (f g : Z -> Z -> Z -> out (Z * Z * Z)) (P : Z -> Prop) w : 
  (forall x y z, P x -> P y -> P z -> exists u v t, f x y z = Ret (u, v, t) /\ g u v t = Ret (x, y, z)) ->
  forall p0 p1 p2, length p0 = length p1 -> length p1 = length p2 ->
  (forall r, In r (p0 ++ p1 ++ p2) -> (w <= length r)%nat /\ Forall P (firstn w r)) ->
  exists q0 q1 q2, plane3 f w p0 p1 p2 = Ret (q0, q1, q2) /\ plane3 g w q0 q1 q2 = Ret (p0, p1, p2).
Proof.
  intros HP. induction p0 as [|a p0 IH]; intros p1 p2 L1 L2 H; destruct p1 as [|b p1], p2 as [|c p2]; try discriminate.
  - do 3 eexists; split; reflexivity.
  - destruct (H a) as [A1 A2]; [cbn; auto|].
    destruct (H b) as [B1 B2]; [cbn; right; apply in_or_app; right; cbn; auto|].
    destruct (H c) as [C1 C2]; [cbn; right; apply in_or_app; right; right; apply in_or_app; right; cbn; auto|].
    destruct (row3_compose f g P HP w a b c A1 B1 C1 A2 B2 C2) as (a' & b' & c' & E1 & E2).
    destruct (IH p1 p2) as (q0 & q1 & q2 & E3 & E4); cbn in *; try lia.
    { intros r Hr. apply H. rewrite !in_app_iff in *. cbn. rewrite in_app_iff. cbn. intuition. }
    exists (a' :: q0), (b' :: q1), (c' :: q2). cbn [plane3]. rewrite E1. cbn [bind]. rewrite E3. cbn [bind].
    split; [reflexivity|]. rewrite E2. cbn [bind]. rewrite E4. reflexivity.
Qed.

(** The value range between the two transforms. *)
Definition sample_ok (bd : Z) (sgn : bool) (v : Z) : Prop :=
  if sgn then - 2 ^ (bd - 1) <= v < 2 ^ (bd - 1) else 0 <= v < 2 ^ bd.

Lemma f32_exact v : Z.abs v <= 2 ^ 24 -> f32_of_i32 v = v.
Proof. intros. unfold f32_of_i32. replace (Z.abs v <=? 2 ^ 24) with true by lia. reflexivity. Qed.

Lemma rct_lossless w p0 p1 p2 :
  length p0 = length p1 -> length p1 = length p2 ->
  (forall r, In r (p0 ++ p1 ++ p2) -> (w <= length r)%nat /\ Forall (small 28) (firstn w r)) ->
  exists q0 q1 q2, cvt_rgb_to_ycbcr_rev w p0 p1 p2 = Ret (q0, q1, q2) /\
                   cvt_ycbcr_to_rgb_rev w q0 q1 q2 = Ret (p0, p1, p2).
Proof.
  apply plane3_compose. intros x y z Hx Hy Hz. do 3 eexists.
  split; [apply fwd_rct_ok; auto|apply inv_fwd_px; auto].
Qed.

Lemma pow2_mono a b : 0 <= a <= b -> 2 ^ a <= 2 ^ b.
Proof. intros. apply Z.pow_le_mono_r; lia. Qed.

Lemma rev_params_ok bd sgn : 1 <= bd <= 30 ->
  rev_params bd sgn = Ret (mkFP 0 0 (if sgn then 0 else 2 ^ (bd - 1))
     (if sgn then 2 ^ (bd - 1) - 1 else 2 ^ bd - 1) (if sgn then - 2 ^ (bd - 1) else 0)).
Proof.
  intros H. unfold rev_params. rewrite !Z.shiftl_mul_pow2, !Z.mul_1_l by lia.
  pose proof (pow2_mono (bd - 1) 30). pose proof (pow2_mono bd 30). pose proof (pow2_mono 0 (bd - 1)).
  assert (2 ^ bd = 2 * 2 ^ (bd - 1)) by (rewrite <- Z.pow_succ_r by lia; f_equal; lia).
  rewrite (i32_ok (2 ^ (bd - 1))) by lia. cbn [bind]. destruct sgn.
  - rewrite i32_ok by lia. reflexivity.
  - rewrite (i32_ok (2 ^ bd)) by lia. cbn [bind]. rewrite i32_ok by lia. reflexivity.
Qed.

Lemma clamp_spec p v : - 2 ^ 31 <= v + f_dc p < 2 ^ 31 ->
  clamp p v = Ret (Z.max (f_min p) (Z.min (f_max p) (v + f_dc p))).
Proof.
  intros H. unfold clamp. rewrite i32_ok by auto. cbn [bind].
  destruct (Z.ltb_spec (f_max p) (v + f_dc p)); match goal with |- context [?x <? f_min p] => destruct (Z.ltb_spec x (f_min p)) end; f_equal; lia.
Qed.

(** Two-step reference: inverse transform, then level shift and clamp of
    each component. *)
Lemma fused_two_step fr fg fb y cb cr r g b :
  - 2 ^ 31 <= y < 2 ^ 31 -> - 2 ^ 31 <= cb < 2 ^ 31 -> - 2 ^ 31 <= cr < 2 ^ 31 ->
  f_ds fr = 0 -> f_ds fg = 0 -> f_ds fb = 0 ->
  inv_rct y cb cr = Ret (r, g, b) ->
  fused_rct fr fg fb y cb cr =
    let* R := finalize_sample fr r in let* G := finalize_sample fg g in
    let* B := finalize_sample fb b in Ret (R, G, B).
Proof.
  intros Hy Hcb Hcr Dr Dg Db H. unfold inv_rct, fused_rct, finalize_sample, i32_of_f32 in *.
  rewrite Dr, Dg, Db. cbn [Z.ltb Z.compare bind].
  rewrite (i32_ok y), (i32_ok cb), (i32_ok cr) by auto. cbn [bind].
  destruct (i32 (cb + cr)) as [s| |]; cbn [bind] in *; try discriminate.
  destruct (i32 (y - Z.shiftr s 2)) as [G| |]; cbn [bind] in *; try discriminate.
  destruct (i32 (cr + G)) as [R| |]; cbn [bind] in *; try discriminate.
  destruct (i32 (cb + G)) as [B| |]; cbn [bind] in *; try discriminate.
  injection H as <- <- <-. reflexivity.
Qed.

Lemma clamp_range p v r : f_min p <= f_max p -> clamp p v = Ret r -> f_min p <= r <= f_max p.
Proof.
  intros Hm H. unfold clamp in H. destruct (i32 (v + f_dc p)); cbn [bind] in H; try discriminate.
  injection H as <-. destruct (Z.ltb_spec (f_max p) a); match goal with |- context [?x <? f_min p] => destruct (Z.ltb_spec x (f_min p)) end; lia.
Qed.

Lemma fused_range fr fg fb y cb cr r g b :
  f_min fr <= f_max fr -> f_min fg <= f_max fg -> f_min fb <= f_max fb ->
  fused_rct fr fg fb y cb cr = Ret (r, g, b) ->
  f_min fr <= r <= f_max fr /\ f_min fg <= g <= f_max fg /\ f_min fb <= b <= f_max fb.
Proof.
  intros M1 M2 M3 H. unfold fused_rct in H.
  destruct (i32_of_f32 y); cbn [bind] in H; try discriminate.
  destruct (i32_of_f32 cb); cbn [bind] in H; try discriminate.
  destruct (i32_of_f32 cr); cbn [bind] in H; try discriminate.
  destruct (i32 (a0 + a1)); cbn [bind] in H; try discriminate.
  destruct (i32 (a - _)); cbn [bind] in H; try discriminate.
  destruct (i32 (a1 + _)); cbn [bind] in H; try discriminate.
  destruct (clamp fr _) eqn:E1; cbn [bind] in H; try discriminate.
  destruct (clamp fg _) eqn:E2; cbn [bind] in H; try discriminate.
  destruct (i32 (a0 + _)); cbn [bind] in H; try discriminate.
  destruct (clamp fb _) eqn:E3; cbn [bind] in H; try discriminate.
  injection H as <- <- <-.
  split; [|split]; eapply clamp_range; eauto.
Qed.

(** Encoder side (level shift, forward transform) then decoder side (float
    round trip, fused inverse transform and clamp), one pixel. *)
Definition encode_px (bd : Z) (sgn : bool) (r g b : Z) : out (Z * Z * Z) :=
  let* r := level_shift bd sgn r in
  let* g := level_shift bd sgn g in
  let* b := level_shift bd sgn b in
  fwd_rct r g b.
Definition decode_px (bd : Z) (sgn : bool) (y cb cr : Z) : out (Z * Z * Z) :=
  let* p := rev_params bd sgn in
  decode_mct_px p p p y cb cr.

Lemma level_shift_ok bd sgn v : 1 <= bd <= 30 -> sample_ok bd sgn v ->
  level_shift bd sgn v = Ret (v - (if sgn then 0 else 2 ^ (bd - 1))) /\
  - 2 ^ (bd - 1) <= v - (if sgn then 0 else 2 ^ (bd - 1)) < 2 ^ (bd - 1).
Proof.
  intros Hb Hv. unfold level_shift, sample_ok in *.
  pose proof (pow2_mono (bd - 1) 29). pose proof (pow2_mono 0 (bd - 1)).
  assert (2 ^ bd = 2 * 2 ^ (bd - 1)) by (rewrite <- Z.pow_succ_r by lia; f_equal; lia).
  destruct sgn; cbn [bind].
  - rewrite i32_ok by lia. split; [auto|lia].
  - rewrite Z.shiftl_mul_pow2, Z.mul_1_l by lia. rewrite (i32_ok (2 ^ (bd - 1))) by lia. cbn [bind].
    rewrite i32_ok by lia. split; [auto|lia].
Qed.

Lemma mct_px_lossless bd sgn r g b : 1 <= bd <= 24 ->
  sample_ok bd sgn r -> sample_ok bd sgn g -> sample_ok bd sgn b ->
  exists y cb cr, encode_px bd sgn r g b = Ret (y, cb, cr) /\ decode_px bd sgn y cb cr = Ret (r, g, b).
Proof.
  intros Hb Hr Hg Hbb.
  destruct (level_shift_ok bd sgn r) as [Er Rr]; auto; [lia|].
  destruct (level_shift_ok bd sgn g) as [Eg Rg]; auto; [lia|].
  destruct (level_shift_ok bd sgn b) as [Eb Rb]; auto; [lia|].
  unfold encode_px. rewrite Er, Eg, Eb. cbn [bind].
  set (dc := if sgn then 0 else 2 ^ (bd - 1)) in *.
  pose proof (pow2_mono (bd - 1) 23). pose proof (pow2_mono 0 (bd - 1)).
  assert (E2 : 2 ^ bd = 2 * 2 ^ (bd - 1)) by (rewrite <- Z.pow_succ_r by lia; f_equal; lia).
  rewrite fwd_rct_ok by (unfold small; lia). do 3 eexists. split; [reflexivity|].
  unfold decode_px. rewrite rev_params_ok by lia. cbn [bind]. unfold decode_mct_px.
  rewrite !f32_exact by lia.
  rewrite (fused_two_step _ _ _ _ _ _ (r - dc) (g - dc) (b - dc)); try lia; try reflexivity.
  2: apply inv_fwd_px; unfold small; lia.
  unfold finalize_sample. cbn [f_ds f_rnd Z.ltb Z.compare bind].
  unfold sample_ok in *.
  unfold dc in *; clear dc. destruct sgn.
  all: rewrite !clamp_spec by (cbn [f_dc]; lia); cbn [bind f_min f_max f_dc].
  all: repeat apply f_equal2; try reflexivity.
  all: apply f_equal; repeat apply f_equal2; lia.
Qed.

Lemma mct_row_lossless bd sgn w a b c : 1 <= bd <= 24 ->
  (w <= length a)%nat -> (w <= length b)%nat -> (w <= length c)%nat ->
  Forall (sample_ok bd sgn) (firstn w a) -> Forall (sample_ok bd sgn) (firstn w b) ->
  Forall (sample_ok bd sgn) (firstn w c) ->
  exists a' b' c', row3 (encode_px bd sgn) w a b c = Ret (a', b', c') /\
                   row3 (decode_px bd sgn) w a' b' c' = Ret (a, b, c).
Proof. intros Hb. apply row3_compose. intros. apply mct_px_lossless; auto. Qed.

(** 25-bit components do not survive: the decoder's detour through float. *)
Lemma mct_25bit_lossy : exists r g b y cb cr,
  sample_ok 25 false r /\ sample_ok 25 false g /\ sample_ok 25 false b /\
  encode_px 25 false r g b = Ret (y, cb, cr) /\ decode_px 25 false y cb cr <> Ret (r, g, b).
Proof.
  exists (2 ^ 24 + 1), 0, 0, ((2 ^ 24 + 1 - 2 ^ 24 + 2 * (- 2 ^ 24) + - 2 ^ 24) / 4), 0, (2 ^ 24 + 1).
  unfold sample_ok. repeat split; try lia; try (vm_compute; congruence).
Qed.
