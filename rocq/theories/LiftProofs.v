(** Facts about reflection and lifting at the level of the specification. *)
From Verif Require Import Base BaseLemmas DwtSpec.

Lemma mirror_range i0 i1 j : i0 + 2 <= i1 -> i0 <= mirror i0 i1 j < i1.
Proof.
  intros H. unfold mirror. set (p := 2 * (i1 - i0 - 1)).
  pose proof (Z.mod_pos_bound (j - i0) p ltac:(unfold p; lia)). unfold p in *. lia.
Qed.

Lemma mirror_id i0 i1 j : i0 + 2 <= i1 -> i0 <= j < i1 -> mirror i0 i1 j = j.
Proof.
  intros H Hj. unfold mirror. rewrite Z.mod_small by lia. lia.
Qed.

Lemma mirror_period i0 i1 j k : mirror i0 i1 (j + k * (2 * (i1 - i0 - 1))) = mirror i0 i1 j.
Proof.
  unfold mirror. set (p := 2 * (i1 - i0 - 1)).
  replace (j + k * p - i0) with (j - i0 + k * p) by lia. now rewrite Z_mod_plus_full.
Qed.

Lemma mirror_flip i0 i1 j : i0 + 2 <= i1 -> mirror i0 i1 (2 * i0 - j) = mirror i0 i1 j.
Proof.
  intros H. unfold mirror. set (p := 2 * (i1 - i0 - 1)).
  assert (Hp : 0 < p) by (unfold p; lia).
  replace (2 * i0 - j - i0) with (- (j - i0)) by lia.
  destruct (Z.eq_dec ((j - i0) mod p) 0) as [E | E].
  - rewrite Z.mod_opp_l_z by lia. rewrite E. lia.
  - rewrite Z.mod_opp_l_nz by lia. lia.
Qed.

Lemma mirror_form i0 i1 j : i0 + 2 <= i1 ->
  exists k, mirror i0 i1 j = j + k * (2 * (i1 - i0 - 1))
         \/ mirror i0 i1 j = 2 * i0 - j + k * (2 * (i1 - i0 - 1)).
Proof.
  intros H. unfold mirror. set (p := 2 * (i1 - i0 - 1)).
  assert (Hp : 0 < p) by (unfold p; lia).
  pose proof (Z.div_mod (j - i0) p ltac:(lia)) as E.
  set (q := (j - i0) / p) in *. set (m := (j - i0) mod p) in *.
  destruct (Z.min_spec m (p - m)) as [[_ ->] | [_ ->]].
  - exists (- q). left. lia.
  - exists (q + 1). right. lia.
Qed.

Lemma mirror_parity i0 i1 j : i0 + 2 <= i1 -> mirror i0 i1 j mod 2 = j mod 2.
Proof.
  intros H. destruct (mirror_form i0 i1 j H) as [k [E | E]]; rewrite E.
  - replace (j + k * (2 * (i1 - i0 - 1))) with (j + (k * (i1 - i0 - 1)) * 2) by lia.
    apply Z_mod_plus_full.
  - replace (2 * i0 - j + k * (2 * (i1 - i0 - 1))) with (- j + (i0 + k * (i1 - i0 - 1)) * 2) by lia.
    rewrite Z_mod_plus_full. lia.
Qed.

Lemma mirror_near_top i0 i1 i : i0 + 2 <= i1 -> 0 <= i -> mirror i0 i1 (i0 - i) <= i0 + i.
Proof.
  intros H Hi. replace (i0 - i) with (2 * i0 - (i0 + i)) by lia. rewrite mirror_flip by lia.
  unfold mirror. set (p := 2 * (i1 - i0 - 1)). replace (i0 + i - i0) with i by lia.
  pose proof (Z.mod_le i p Hi ltac:(unfold p; lia)). lia.
Qed.

Lemma mirror_near_bottom i0 i1 i : i0 + 2 <= i1 -> 0 <= i -> i1 - 2 - i <= mirror i0 i1 (i1 + i).
Proof.
  intros H Hi.
  replace (i1 + i) with (2 * i0 - (i1 - 2 - i) + 1 * (2 * (i1 - i0 - 1))) by lia.
  rewrite mirror_period, mirror_flip by lia.
  destruct (Z.le_gt_cases i0 (i1 - 2 - i)).
  - rewrite mirror_id by lia. lia.
  - pose proof (mirror_range i0 i1 (i1 - 2 - i) H). lia.
Qed.

Section Lift.
  Context {T : Type} (first : Z -> bool) (step : Z -> nat -> T -> T -> T -> T).
  (** [first] alternates, the arithmetic depends on parity only, and treats
      the neighbours symmetrically. *)
  Hypothesis first_parity : forall q q', q mod 2 = q' mod 2 -> first q = first q'.
  Hypothesis first_alt : forall q, first (q + 1) = negb (first q).
  Hypothesis step_parity : forall q q' k, q mod 2 = q' mod 2 -> step q k = step q' k.
  Hypothesis step_sym : forall q k t a b, step q k t a b = step q k t b a.

  Lemma first_pred q : first (q - 1) = negb (first q).
  Proof using first_alt.
    pose proof (first_alt (q - 1)) as E. rewrite Z.sub_add in E.
    rewrite E. now destruct (first (q - 1)).
  Qed.

  (** An equivalent reading, one position at a time. *)
  Lemma lifted_first x k r : first r = true ->
    lifted first step x (S k) r =
    step r k (lifted first step x k r) (lifted first step x k (r - 1)) (lifted first step x k (r + 1)).
  Proof. intros E. cbn [lifted]. now rewrite E. Qed.

  Lemma lifted_second x k r : first r = false ->
    lifted first step x (S k) r =
    step r k (lifted first step x k r)
         (lifted first step x (S k) (r - 1)) (lifted first step x (S k) (r + 1)).
  Proof.
    intros E. cbn [lifted]. rewrite E, first_pred, first_alt, E. reflexivity.
  Qed.

  Lemma lifted_ext x x' : (forall r, x r = x' r) ->
    forall k r, lifted first step x k r = lifted first step x' k r.
  Proof.
    intros E k. induction k as [| k IH]; intros r; [apply E |].
    cbn [lifted]. now rewrite !IH.
  Qed.

  (** Lifting commutes with reflections and translations by even amounts. *)
  Lemma lifted_shift x d : d mod 2 = 0 -> (forall r, x (r + d) = x r) ->
    forall k r, lifted first step x k (r + d) = lifted first step x k r.
  Proof.
    intros Hd E k. induction k as [| k IH]; intros r; [apply E |].
    assert (Par : forall q, (q + d) mod 2 = q mod 2) by lia.
    assert (F : forall q, step (q + d) k (lifted first step x k (q + d)) (lifted first step x k (q + d - 1))
                 (lifted first step x k (q + d + 1)) =
                step q k (lifted first step x k q) (lifted first step x k (q - 1)) (lifted first step x k (q + 1))).
    { intros q. rewrite (step_parity (q + d) q) by apply Par.
      replace (q + d - 1) with (q - 1 + d) by lia. replace (q + d + 1) with (q + 1 + d) by lia.
      now rewrite !IH. }
    cbn [lifted]. rewrite (first_parity (r + d) r) by apply Par.
    rewrite F. replace (r + d - 1) with (r - 1 + d) by lia. replace (r + d + 1) with (r + 1 + d) by lia.
    rewrite !F. rewrite (step_parity (r + d) r) by apply Par. now rewrite IH.
  Qed.

  Lemma lifted_flip x c : (forall r, x (2 * c - r) = x r) ->
    forall k r, lifted first step x k (2 * c - r) = lifted first step x k r.
  Proof.
    intros E k. induction k as [| k IH]; intros r; [apply E |].
    assert (Par : forall q, (2 * c - q) mod 2 = q mod 2) by lia.
    assert (F : forall q, step (2 * c - q) k (lifted first step x k (2 * c - q))
                 (lifted first step x k (2 * c - q - 1)) (lifted first step x k (2 * c - q + 1)) =
                step q k (lifted first step x k q) (lifted first step x k (q - 1)) (lifted first step x k (q + 1))).
    { intros q. rewrite (step_parity (2 * c - q) q) by apply Par.
      replace (2 * c - q - 1) with (2 * c - (q + 1)) by lia.
      replace (2 * c - q + 1) with (2 * c - (q - 1)) by lia.
      rewrite !IH. apply step_sym. }
    cbn [lifted]. rewrite (first_parity (2 * c - r) r) by apply Par.
    rewrite F. replace (2 * c - r - 1) with (2 * c - (r + 1)) by lia.
    replace (2 * c - r + 1) with (2 * c - (r - 1)) by lia.
    rewrite !F. rewrite (step_parity (2 * c - r) r) by apply Par. rewrite IH.
    destruct (first r); [reflexivity | apply step_sym].
  Qed.

  (** Lifting a reflected signal gives a reflected signal. *)
  Lemma lifted_mirror x i0 i1 k r : i0 + 2 <= i1 ->
    (forall j, x (mirror i0 i1 j) = x j) ->
    lifted first step x k (mirror i0 i1 r) = lifted first step x k r.
  Proof.
    intros H E.
    assert (Per : forall n q, lifted first step x k (q + n * (2 * (i1 - i0 - 1))) = lifted first step x k q).
    { intros n q. apply lifted_shift.
      - replace (n * (2 * (i1 - i0 - 1))) with (0 + (n * (i1 - i0 - 1)) * 2) by lia.
        now rewrite Z_mod_plus_full.
      - intros j. rewrite <- E, mirror_period, E. reflexivity. }
    assert (Fl : forall q, lifted first step x k (2 * i0 - q) = lifted first step x k q).
    { apply lifted_flip. intros j. rewrite <- E, mirror_flip, E by lia. reflexivity. }
    destruct (mirror_form i0 i1 r H) as [n [-> | ->]]; rewrite Per; [reflexivity | apply Fl].
  Qed.
End Lift.

(** Running the steps backwards undoes [m] rounds. *)
Section Inverse.
  Context {T : Type} (P : T -> Prop) (first : Z -> bool)
    (step inv : Z -> nat -> T -> T -> T -> T) (m : nat).
  Hypothesis first_alt : forall q, first (q + 1) = negb (first q).
  Hypothesis P_step : forall q k t a b, P t -> P a -> P b -> P (step q k t a b).
  (** Round [k] of the inverse undoes round [m-1-k] of the forward transform. *)
  Hypothesis inv_step : forall q k t a b, (k < m)%nat -> P t -> P a -> P b ->
    inv q (m - 1 - k)%nat (step q k t a b) a b = t.

  Let ifirst q := negb (first q).

  Lemma ifirst_alt q : ifirst (q + 1) = negb (ifirst q).
  Proof. unfold ifirst. now rewrite first_alt. Qed.

  Lemma lifted_P x : (forall r, P (x r)) -> forall k r, P (lifted first step x k r).
  Proof.
    intros E k. induction k as [| k IH]; intros r; [apply E |].
    cbn [lifted]. destruct (first r); auto 8.
  Qed.

  Lemma lifted_inverse x y : (forall r, P (x r)) ->
    (forall r, y r = lifted first step x m r) ->
    forall k, (k <= m)%nat -> forall r,
      lifted ifirst inv y k r = lifted first step x (m - k)%nat r.
  Proof.
    intros HP Hy. induction k as [| k IH]; intros Hk r.
    - cbn [lifted]. now rewrite Nat.sub_0_r.
    - assert (IH' := IH ltac:(lia)). clear IH.
      set (j := (m - S k)%nat). assert (Ej : (m - k)%nat = S j) by (unfold j; lia).
      assert (Ek : k = (m - 1 - j)%nat) by (unfold j; lia).
      rewrite Ej in IH'.
      assert (F : forall q, ifirst q = true ->
                lifted ifirst inv y (S k) q = lifted first step x j q).
      { intros q Hq. rewrite lifted_first by exact Hq. rewrite !IH'.
        unfold ifirst in Hq. assert (Hq' : first q = false) by now destruct (first q).
        rewrite (lifted_second first step first_alt x j q Hq'). rewrite Ek.
        apply inv_step; [unfold j; lia | | |]; now apply lifted_P. }
      destruct (ifirst r) eqn:Er; [now apply F |].
      rewrite (lifted_second ifirst inv ifirst_alt y k r Er).
      rewrite IH'. rewrite !F.
      2: { rewrite ifirst_alt, Er. reflexivity. }
      2: { rewrite (first_pred ifirst ifirst_alt), Er. reflexivity. }
      unfold ifirst in Er. assert (Er' : first r = true) by now destruct (first r).
      rewrite lifted_first by exact Er'. rewrite Ek.
      apply inv_step; [unfold j; lia | | |]; now apply lifted_P.
  Qed.
End Inverse.

Lemma extended_mirror {T} (d : T) i0 l j : 2 <= zlen l ->
  extended d i0 l (mirror i0 (i0 + zlen l) j) = extended d i0 l j.
Proof.
  intros H. unfold extended.
  rewrite (mirror_id _ _ (mirror _ _ _)); [reflexivity | lia | apply mirror_range; lia].
Qed.

Lemma extended_inside {T} (d : T) i0 l j : 2 <= zlen l -> i0 <= j < i0 + zlen l ->
  extended d i0 l j = znth d l (j - i0).
Proof. intros H Hj. unfold extended. now rewrite mirror_id by lia. Qed.

Lemma range_len a b : a <= b -> zlen (range a b) = b - a.
Proof. intros H. unfold range. rewrite zlen_map, zseq_len; lia. Qed.
Lemma range_nth a b i : 0 <= i < b - a -> znth 0 (range a b) i = a + i.
Proof.
  intros H. unfold range. rewrite (znth_map 0 0) by (rewrite zseq_len; lia).
  now rewrite zseq_nth.
Qed.
Lemma range_In a b i : In i (range a b) <-> a <= i < b.
Proof.
  unfold range. rewrite in_map_iff. split.
  - intros [k [<- Hk]]. apply zseq_In in Hk. lia.
  - intros H. exists (i - a). split; [lia | apply zseq_In; lia].
Qed.
Lemma map_range_nth {T} (d : T) (g : Z -> T) a b i : 0 <= i < b - a ->
  znth d (map g (range a b)) i = g (a + i).
Proof.
  intros H. rewrite (znth_map 0 d) by (rewrite range_len; lia). now rewrite range_nth.
Qed.
Lemma map_range_len {T} (g : Z -> T) a b : a <= b -> zlen (map g (range a b)) = b - a.
Proof. intros H. now rewrite zlen_map, range_len. Qed.
Lemma map_range_ext {T} (g g' : Z -> T) a b : (forall q, a <= q < b -> g q = g' q) ->
  map g (range a b) = map g' (range a b).
Proof. intros H. apply map_ext_in. intros q Hq. apply H. now apply range_In. Qed.
Lemma list_as_range {T} (d : T) (l : list T) i0 :
  l = map (fun j => znth d l (j - i0)) (range i0 (i0 + zlen l)).
Proof.
  apply (znth_ext d).
  - rewrite map_range_len; pose proof (zlen_nonneg l); lia.
  - intros i Hi. rewrite map_range_nth by lia. f_equal. lia.
Qed.
Lemma map_range_app {T} (g : Z -> T) a b c : a <= b <= c ->
  map g (range a c) = map g (range a b) ++ map g (range b c).
Proof.
  intros H. apply (znth_ext (g 0)).
  - rewrite zlen_app, !map_range_len; lia.
  - intros i Hi. rewrite map_range_len in Hi by lia. rewrite map_range_nth by lia.
    destruct (Z.lt_ge_cases i (b - a)).
    + rewrite znth_app_l by (rewrite map_range_len; lia). now rewrite map_range_nth by lia.
    + rewrite znth_app_r by (rewrite map_range_len; lia). rewrite map_range_len by lia.
      rewrite map_range_nth by lia. f_equal. lia.
Qed.
Lemma range_single a : range a (a + 1) = [a].
Proof. unfold range. replace (a + 1 - a) with 1 by lia. change (zseq 1) with [0]. cbn [map]. now rewrite Z.add_0_r. Qed.
Lemma range_nil a b : b <= a -> range a b = [].
Proof. intros H. unfold range. now rewrite zseq_0 by lia. Qed.
Lemma map_range_slice {T} (g : Z -> T) a b c d : a <= b <= c -> c <= d ->
  ztake (c - b) (zskip (b - a) (map g (range a d))) = map g (range b c).
Proof.
  intros H H'. rewrite (map_range_app g a b d), zskip_app by (try rewrite map_range_len; lia).
  rewrite (map_range_app g b c d), ztake_app; [reflexivity | rewrite map_range_len; lia | lia].
Qed.

Lemma range_cons a b : a < b -> range a b = a :: range (a + 1) b.
Proof.
  intros H. unfold range. replace (b - a) with (Z.of_nat (S (Z.to_nat (b - a - 1)))) by lia.
  unfold zseq at 1. rewrite Nat2Z.id. cbn [seq map]. f_equal; [lia |].
  rewrite <- seq_shift, !map_map. unfold zseq. rewrite map_map.
  replace (Z.to_nat (b - (a + 1))) with (Z.to_nat (b - a - 1)) by lia.
  apply map_ext. intros k. lia.
Qed.
Lemma range_app a b c : a <= b <= c -> range a b ++ range b c = range a c.
Proof.
  intros H. remember (Z.to_nat (b - a)) as n eqn:En. revert a H En.
  induction n as [| n IH]; intros a H En.
  - replace b with a by lia. rewrite range_nil by lia. reflexivity.
  - rewrite (range_cons a b), (range_cons a c) by lia. cbn [app]. f_equal. apply IH; lia.
Qed.
