(** Restricted kernels and ranges give the samples of the window. *)
From Verif Require Import Base BaseLemmas DwtModel DwtSpec LiftProofs DwtProofs DwtMain StreamModel PyramidModel WindowModel WindowSpec.

Ltac cases := repeat match goal with
  | |- context [?a <=? ?b] => destruct (Z.leb_spec a b)
  | |- context [?a <? ?b] => destruct (Z.ltb_spec a b)
  | |- context [?a =? ?b] => destruct (Z.eqb_spec a b)
  end; cbn [andb orb negb].

Lemma even_mod q : (q mod 2 =? 0) = Z.even q.
Proof. rewrite Zmod_even. now destruct (Z.even q). Qed.
Lemma odd_mod q : (q mod 2 =? 1) = negb (Z.even q).
Proof. rewrite <- even_mod. pose proof (Z.mod_pos_bound q 2). destruct (Z.eqb_spec (q mod 2) 1), (Z.eqb_spec (q mod 2) 0); auto; lia. Qed.
Lemma even_true q : Z.even q = true -> q mod 2 = 0.
Proof. rewrite <- even_mod. apply Z.eqb_eq. Qed.
Lemma even_false q : Z.even q = false -> q mod 2 = 1.
Proof. rewrite <- even_mod. intros H. apply Z.eqb_neq in H. pose proof (Z.mod_pos_bound q 2). lia. Qed.

(** *** Loops *)
Section Kernel.
  Context {T : Type}.
  Implicit Types (f : T -> T -> T -> T) (X Y : Z -> T).

  Lemma pass_get f c : forall n X p, pass f c n X p
    = if (n <=? p) && (p <? n + 2 * Z.of_nat c) && ((p - n) mod 2 =? 0) then f (X p) (X (p - 1)) (X (p + 1)) else X p.
  Proof.
    induction c as [| c IH]; intros n X p; cbn [pass].
    - destruct (Z.leb_spec n p), (Z.ltb_spec p (n + 2 * Z.of_nat 0)); cbn [andb]; auto; lia.
    - rewrite IH. unfold put.
      assert (Hm : (p - (n + 2)) mod 2 = (p - n) mod 2).
      { replace (p - n) with (p - (n + 2) + 1 * 2) by lia. now rewrite Z.mod_add by lia. }
      rewrite Hm. replace (n + 2 * Z.of_nat (S c)) with (n + 2 + 2 * Z.of_nat c) by lia.
      destruct (Z.eqb_spec ((p - n) mod 2) 0) as [E | E].
      + assert (p - 1 <> n /\ p + 1 <> n).
        { split; intros N; subst n; revert E; [replace (p - (p - 1)) with 1 by lia | replace (p - (p + 1)) with (-1) by lia]; now cbn. }
        rewrite !Bool.andb_true_r.
        destruct (Z.leb_spec (n + 2) p), (Z.ltb_spec p (n + 2 + 2 * Z.of_nat c)), (Z.leb_spec n p); cbn [andb];
          destruct (Z.eqb_spec (p - 1) n), (Z.eqb_spec (p + 1) n), (Z.eqb_spec p n); subst; try lia; auto.
      + rewrite !Bool.andb_false_r. destruct (Z.eqb_spec p n); [| reflexivity].
        subst. rewrite Z.sub_diag in E. now cbn in E.
  Qed.

  (** What a loop does to the columns: those of one parity inside a range are
      updated, those of the other parity stay. *)
  Definition stage f (ev : bool) (lo hi : Z) X Y : Prop :=
    (forall q, Z.even q = ev -> lo <= q <= hi -> Y q = f (X q) (X (q - 1)) (X (q + 1)))
    /\ (forall q, Z.even q = negb ev -> Y q = X q).

  (** Position [n] of the buffer is column [n - s]. *)
  Definition cols (s : Z) X : Z -> T := fun q => X (q + s).

  Lemma even_diff a b : Z.even a = Z.even b -> (a - b) mod 2 = 0.
  Proof. intros H. apply even_true. rewrite Z.even_sub, H. now destruct (Z.even b). Qed.
  Lemma even_diff' a b : Z.even a = negb (Z.even b) -> (a - b) mod 2 = 1.
  Proof. intros H. apply even_false. rewrite Z.even_sub, H. now destruct (Z.even b). Qed.

  Lemma pass_stage f ev s n c X : Z.even (n - s) = ev ->
    stage f ev (n - s) (n - s + 2 * Z.of_nat c - 1) (cols s X) (cols s (pass f c n X)).
  Proof.
    intros He. unfold stage, cols. split; intros q Hq.
    - intros Hr. rewrite pass_get.
      replace (q + s - n) with (q - (n - s)) by lia. rewrite even_diff by congruence.
      destruct (Z.leb_spec n (q + s)), (Z.ltb_spec (q + s) (n + 2 * Z.of_nat c)); cbn [andb Z.eqb]; try lia.
      now replace (q - 1 + s) with (q + s - 1) by lia; replace (q + 1 + s) with (q + s + 1) by lia.
    - rewrite pass_get. replace (q + s - n) with (q - (n - s)) by lia. rewrite even_diff' by congruence.
      now rewrite !Bool.andb_false_r.
  Qed.

  Lemma clipped_stage f ev s d lo hi a b X : Z.even (a + d - s) = ev -> (b - a) mod 2 = 0 ->
    stage f ev (Z.max lo a + d - s) (Z.min hi b + d - s) (cols s X) (cols s (clipped f d lo hi a b X)).
  Proof.
    intros He Hb. unfold clipped, clip.
    set (ns0 := if a <? lo then lo else a). assert (Ens0 : ns0 = Z.max lo a) by (unfold ns0; destruct (Z.ltb_spec a lo); lia).
    set (ne0 := if hi <? b then hi else b). assert (Ene0 : ne0 = Z.min hi b) by (unfold ne0; destruct (Z.ltb_spec hi b); lia).
    clearbody ns0 ne0.
    set (ns := if (ns0 - a) mod 2 =? 0 then ns0 else ns0 + 1). set (ne := if (ne0 - a) mod 2 =? 0 then ne0 else ne0 - 1).
    assert (Ens : (ns - a) mod 2 = 0 /\ ns0 <= ns <= ns0 + 1).
    { unfold ns. destruct (Z.eqb_spec ((ns0 - a) mod 2) 0); split; try lia; Z.div_mod_to_equations; lia. }
    assert (Ene : (ne - a) mod 2 = 0 /\ ne0 - 1 <= ne <= ne0).
    { unfold ne. destruct (Z.eqb_spec ((ne0 - a) mod 2) 0); split; try lia; Z.div_mod_to_equations; lia. }
    clearbody ns ne. unfold loop.
    assert (He' : Z.even (ns + d - s) = ev).
    { rewrite <- He. rewrite <- !even_mod. f_equal. replace (ns + d - s) with (a + d - s + (ns - a)) by lia.
      rewrite Z.add_mod, (proj1 Ens), Z.add_0_r, Z.mod_mod by lia. reflexivity. }
    destruct (pass_stage f ev s (ns + d) (Z.to_nat ((ne + d - (ns + d)) / 2 + 1)) X He') as [H1 H2].
    split; [| exact H2]. intros q Hq Hr. apply H1; [exact Hq |].
    assert (P : (q - (ns + d - s)) mod 2 = 0) by (apply even_diff; congruence).
    rewrite <- Ens0, <- Ene0 in Hr. clear - P Hr Ens Ene. Z.div_mod_to_equations. lia.
  Qed.

  (** One round: even columns, then odd ones. *)
  Variable st : bool -> nat -> T -> T -> T -> T.
  Definition at_col (q : Z) (k : nat) : T -> T -> T -> T := st (Z.even q) k.
  Definition next (k : nat) (x : Z -> T) (r : Z) : T :=
    let g q := at_col q k (x q) (x (q - 1)) (x (q + 1)) in
    if Z.even r then g r else at_col r k (x r) (g (r - 1)) (g (r + 1)).
  Lemma lifted_next k x r : lifted Z.even at_col x (S k) r = next k (lifted Z.even at_col x k) r.
  Proof. reflexivity. Qed.

  Lemma even_p1 q : Z.even (q + 1) = negb (Z.even q).
  Proof. rewrite Z.even_add. now destruct (Z.even q). Qed.
  Lemma even_m1 q : Z.even (q - 1) = negb (Z.even q).
  Proof. rewrite Z.even_sub. now destruct (Z.even q). Qed.

  Lemma round k X Y Z0 l1 h1 l2 h2 c :
    stage (st true k) true l1 h1 X Y -> stage (st false k) false l2 h2 Y Z0 ->
    (Z.even c = true -> l1 <= c <= h1) ->
    (Z.even c = false -> l2 <= c <= h2 /\ l1 <= c - 1 /\ c + 1 <= h1) ->
    Z0 c = next k X c.
  Proof.
    intros [A1 A2] [B1 B2] He Ho. unfold next, at_col. destruct (Z.even c) eqn:E.
    - rewrite B2 by now rewrite E. rewrite A1 by auto. reflexivity.
    - rewrite B1 by (auto; lia). rewrite A2 by now rewrite E.
      rewrite (even_m1 c), (even_p1 c), E. cbn [negb].
      rewrite (A1 (c - 1)), (A1 (c + 1)) by (first [rewrite even_m1 | rewrite even_p1 | idtac]; rewrite ?E; auto; lia). reflexivity.
  Qed.

  Lemma next_local k x y c :
    (forall q, c - (if Z.even c then 1 else 2) <= q <= c + (if Z.even c then 1 else 2) -> x q = y q) -> next k x c = next k y c.
  Proof.
    intros H. unfold next. destruct (Z.even c) eqn:E.
    - now rewrite !H by lia.
    - replace (c - 1 - 1) with (c - 2) by lia. replace (c - 1 + 1) with c by lia.
      replace (c + 1 - 1) with c by lia. replace (c + 1 + 1) with (c + 2) by lia. now rewrite !H by lia.
  Qed.
  Lemma lifted_local m x y : forall c, (forall q, c - 2 * Z.of_nat m <= q <= c + 2 * Z.of_nat m -> x q = y q) ->
    lifted Z.even at_col x m c = lifted Z.even at_col y m c.
  Proof.
    induction m as [| m IH]; intros c H; [apply H; lia |]. rewrite !lifted_next. apply next_local.
    intros q Hq. apply IH. intros q' Hq'. apply H. destruct (Z.even c); lia.
  Qed.
  Lemma local1 x y c :
    (forall q, c - (if Z.even c then 1 else 2) <= q <= c + (if Z.even c then 1 else 2) -> x q = y q) ->
    next 0 x c = lifted Z.even at_col y 1 c.
  Proof. intros H. rewrite lifted_next. now apply next_local. Qed.
  Lemma lifted_zero z x : (forall b k, st b k z z z = z) -> forall m c,
    (forall q, c - 2 * Z.of_nat m <= q <= c + 2 * Z.of_nat m -> x q = z) -> lifted Z.even at_col x m c = z.
  Proof.
    intros Hz. induction m as [| m IH]; intros c H; [apply H; lia |]. rewrite lifted_next.
    rewrite (next_local m _ (fun _ => z)).
    - unfold next, at_col. destruct (Z.even c); now rewrite !Hz.
    - intros q Hq. apply IH. intros q' Hq'. apply H. destruct (Z.even c); lia.
  Qed.
End Kernel.

(** *** Reflection *)
Lemma mirror_near i0 i1 j r : i0 + 2 <= i1 -> i0 <= r < i1 ->
  Z.abs (mirror i0 i1 j - r) <= Z.abs (j - r).
Proof.
  intros H Hr. unfold mirror. set (p := 2 * (i1 - i0 - 1)). assert (Hp : 0 < p) by (unfold p; lia).
  assert (Hs : 2 * (r - i0) <= p) by (unfold p; lia).
  pose proof (Z.div_mod (j - i0) p ltac:(lia)) as E. pose proof (Z.mod_pos_bound (j - i0) p Hp) as B.
  set (m := (j - i0) mod p) in *. set (q := (j - i0) / p) in *. clearbody m q p.
  assert (Hj : j = i0 + (p * q + m)) by lia. subst j.
  destruct (Z_lt_le_dec q 0).
  - assert (p * q <= - p) by nia. lia.
  - destruct (Z.eq_dec q 0); [subst q; lia |]. assert (p <= p * q) by nia. lia.
Qed.
Lemma mirror_in i0 i1 j : i0 <= j < i1 -> mirror i0 i1 j = j.
Proof.
  intros H. destruct (Z.eq_dec i1 (i0 + 1)).
  - subst. unfold mirror. replace (2 * (i0 + 1 - i0 - 1)) with 0 by lia. rewrite Zmod_0_r. lia.
  - pose proof (mirror_near i0 i1 j j). lia.
Qed.
Lemma pseo_mirror i i0 i1 : i0 + 2 <= i1 -> pseo i i0 i1 = mirror i0 i1 i - i0.
Proof.
  intros H. pose proof (pse_o_mirror i i0 i1 H) as E. unfold pse_o in E. unfold pseo.
  destruct (Z.eqb_spec (2 * (i1 - i0 - 1)) 0); [lia |]. now inversion E.
Qed.
Lemma fill_mirror {T} left right u0 u1 (x : Z -> T) k : u0 + 2 <= u1 -> 0 <= left <= 8 -> 0 <= right <= 4 ->
  - left <= k < u1 - u0 + right -> fill left right u0 u1 x k = x (mirror u0 u1 (u0 + k) - u0).
Proof.
  intros Hw Hl Hr Hk. unfold fill.
  assert (Hin : 0 <= k < u1 - u0 -> x k = x (mirror u0 u1 (u0 + k) - u0)).
  { intros H. rewrite mirror_in by lia. f_equal. lia. }
  destruct (Z.leb_spec 9 (u1 - u0)).
  - destruct (Z.leb_spec (-8) k), (Z.ltb_spec k 0); cbn [andb]; try lia.
    + f_equal. unfold mirror. set (p := 2 * (u1 - u0 - 1)).
      replace ((u0 + k - u0) mod p) with (p + k) by (apply Z.mod_unique with (-1); unfold p; lia). unfold p. lia.
    + destruct (Z.leb_spec (u1 - u0) k), (Z.ltb_spec k (u1 - u0 + 8)); cbn [andb]; try lia; try (apply Hin; lia).
      f_equal. unfold mirror. set (p := 2 * (u1 - u0 - 1)).
      replace ((u0 + k - u0) mod p) with k by (apply Z.mod_unique with 0; unfold p; lia). unfold p. lia.
  - rewrite pseo_mirror by lia.
    destruct (Z.leb_spec (- left) k), (Z.ltb_spec k 0); cbn [andb]; try lia; try reflexivity.
    destruct (Z.leb_spec (u1 - u0) k), (Z.ltb_spec k (u1 - u0 + right)); cbn [andb]; try lia; try reflexivity; apply Hin; lia.
Qed.

(** *** A whole row *)
Section RowProofs.
  Context {T : Type} (A : arith T).
  Variable (wt : Z) (use_i32 : bool).
  Definition rounds : nat := if wt =? 0 then 2%nat else 1%nat.
  Definition hor := @at_col T (hs A).
  Definition ver := @at_col T (vs A).

  (** The row before lifting, reflected. *)
  Definition ext (u0 u1 : Z) (lp hp : Z -> T) (q : Z) : T :=
    let m := mirror u0 u1 q in
    if Z.even m then lp (m / 2 - ceil2 u0) else hp (m / 2 - u0 / 2).

  Lemma filled u0 u1 lp hp old q : u0 + 2 <= u1 ->
    u0 - h_left wt u0 u1 <= q < u1 + h_right wt u0 u1 ->
    fill (h_left wt u0 u1) (h_right wt u0 u1) u0 u1 (woven u0 u1 lp hp old) (q - u0) = ext u0 u1 lp hp q.
  Proof.
    intros Hw Hq. pose proof (Z.mod_pos_bound u0 2 ltac:(lia)). pose proof (Z.mod_pos_bound u1 2 ltac:(lia)).
    rewrite fill_mirror; [| assumption | | | lia].
    - replace (u0 + (q - u0)) with q by lia. pose proof (mirror_range u0 u1 q Hw).
      unfold woven, ext. replace (u0 + (mirror u0 u1 q - u0)) with (mirror u0 u1 q) by lia.
      destruct (Z.leb_spec 0 (mirror u0 u1 q - u0)), (Z.ltb_spec (mirror u0 u1 q - u0) (u1 - u0)); try lia.
      cbn [andb]. now rewrite even_mod.
    - unfold h_left. destruct (1 <? u1 - u0), (wt =? 0); lia.
    - unfold h_right. destruct (1 <? u1 - u0), (wt =? 0); lia.
  Qed.

  (** Both kernels, for the columns whose needs lie inside [lo, hi]
      (columns); [lo] or [hi] may be far outside. *)
  Lemma even_off u0 : Z.even (u0 - u0 mod 2) = true.
  Proof. rewrite <- even_mod. apply Z.eqb_eq. Z.div_mod_to_equations. lia. Qed.

  Lemma range97_lifted left u0 u1 blo bhi X x c : 0 <= u0 -> u0 <= c < u1 -> 
    (forall q, u0 - (3 + u0 mod 2) <= q < u1 + (4 - u1 mod 2) -> X (q - u0 + left) = x q) ->
    blo <= c - u0 + left - 4 -> c - u0 + left + 4 <= bhi ->
    range97 A left u0 u1 blo bhi X (c - u0 + left) = lifted Z.even hor x 2 c.
  Proof.
    intros Hu Hc HX Hlo Hhi. unfold range97. set (s := left - u0).
    set (X1 := clipped _ _ _ _ _ _ X). set (X2 := clipped _ _ _ _ _ _ X1). set (X3 := clipped _ _ _ _ _ _ X2).
    set (X4 := clipped _ _ _ _ _ _ X3).
    assert (E0 : Z.even (left - u0 mod 2 - s) = true) by (unfold s; replace (left - u0 mod 2 - (left - u0)) with (u0 - u0 mod 2) by lia; apply even_off).
    assert (S1 := clipped_stage (hs A true 0) true s 0 blo bhi (-2 + (left - u0 mod 2)) (-2 + (left - u0 mod 2) + 2 * (u1 / 2 - u0 / 2 + 2)) X).
    assert (S2 := clipped_stage (hs A false 0) false s 1 blo bhi (-2 + (left - u0 mod 2)) (-2 + (left - u0 mod 2) + 2 * (u1 / 2 - u0 / 2 + 1)) X1).
    assert (S3 := clipped_stage (hs A true 1) true s 0 blo bhi (left - u0 mod 2) (left - u0 mod 2 + 2 * (u1 / 2 - u0 / 2)) X2).
    assert (S4 := clipped_stage (hs A false 1) false s 1 blo bhi (left - u0 mod 2) (left - u0 mod 2 + 2 * (u1 / 2 - u0 / 2 - 1)) X3).
    assert (M : forall a k, (a + 2 * k - a) mod 2 = 0) by (intros; replace (a + 2 * k - a) with (k * 2) by lia; apply Z.mod_mul; lia).
    specialize (S1 ltac:(replace (-2 + (left - u0 mod 2) + 0 - s) with (left - u0 mod 2 - s - 2 * 1) by lia; rewrite Z.even_sub, E0; reflexivity) (M _ _)).
    specialize (S2 ltac:(replace (-2 + (left - u0 mod 2) + 1 - s) with (left - u0 mod 2 - s - 1) by lia; rewrite Z.even_sub, E0; reflexivity) (M _ _)).
    specialize (S3 ltac:(rewrite Z.add_0_r; exact E0) (M _ _)).
    specialize (S4 ltac:(replace (left - u0 mod 2 + 1 - s) with (left - u0 mod 2 - s + 1) by lia; rewrite Z.even_add, E0; reflexivity) (M _ _)).
    fold X1 in S1. fold X2 in S2. fold X3 in S3. fold X4 in S4. clearbody X1 X2 X3 X4. clear M E0.
    assert (B : Z.even c = true -> c mod 2 = 0) by apply even_true.
    assert (B' : Z.even c = false -> c mod 2 = 1) by apply even_false.
    replace (X4 (c - u0 + left)) with (cols s X4 c) by (unfold cols, s; f_equal; lia).
    rewrite (round _ 1 _ _ _ _ _ _ _ c S3 S4).
    2: { intros E. apply B in E. clear - E Hu Hc Hlo Hhi. unfold s. Z.div_mod_to_equations. lia. }
    2: { intros E. apply B' in E. clear - E Hu Hc Hlo Hhi. unfold s. Z.div_mod_to_equations. lia. }
    unfold hor. rewrite lifted_next. apply next_local. intros q Hq.
    assert (Bq : Z.even q = true -> q mod 2 = 0) by apply even_true.
    assert (Bq' : Z.even q = false -> q mod 2 = 1) by apply even_false.
    assert (Hq' : c - 2 <= q <= c + 2 /\ (c mod 2 = 0 -> c - 1 <= q <= c + 1)).
    { destruct (Z.even c); clear - Hq B B'; try (specialize (B eq_refl)); try (specialize (B' eq_refl)); lia. }
    clear Hq B B'.
    rewrite (round _ 0 _ _ _ _ _ _ _ q S1 S2).
    2: { intros E. apply Bq in E. clear - E Hu Hc Hlo Hhi Hq'. unfold s. Z.div_mod_to_equations. lia. }
    2: { intros E. apply Bq' in E. clear - E Hu Hc Hlo Hhi Hq'. unfold s. Z.div_mod_to_equations. lia. }
    apply local1. intros z Hz. unfold cols, s.
    replace (z + (left - u0)) with (z - u0 + left) by lia. apply HX.
    assert (Hz' : (q mod 2 = 0 -> q - 1 <= z <= q + 1) /\ q - 2 <= z <= q + 2).
    { destruct (Z.even q); clear - Hz Bq Bq'; try (specialize (Bq eq_refl)); try (specialize (Bq' eq_refl)); lia. }
    clear - Hz' Hq' Hc Hu. Z.div_mod_to_equations. lia.
  Qed.

  Lemma range53_lifted left u0 u1 blo bhi X x c : 0 <= u0 -> u0 <= c < u1 ->
    (forall q, u0 - (1 + u0 mod 2) <= q < u1 + (2 - u1 mod 2) -> X (q - u0 + left) = x q) ->
    blo <= c - u0 + left - 2 -> c - u0 + left + 2 <= bhi ->
    range53 A left u0 u1 blo bhi X (c - u0 + left) = lifted Z.even hor x 1 c.
  Proof.
    intros Hu Hc HX Hlo Hhi. unfold range53. set (s := left - u0).
    set (X1 := clipped _ _ _ _ _ _ X). set (X2 := clipped _ _ _ _ _ _ X1).
    assert (E0 : Z.even (left - u0 mod 2 - s) = true) by (unfold s; replace (left - u0 mod 2 - (left - u0)) with (u0 - u0 mod 2) by lia; apply even_off).
    assert (S3 := clipped_stage (hs A true 0) true s 0 blo bhi (left - u0 mod 2) (left - u0 mod 2 + 2 * (u1 / 2 - u0 / 2)) X).
    assert (S4 := clipped_stage (hs A false 0) false s 1 blo bhi (left - u0 mod 2) (left - u0 mod 2 + 2 * (u1 / 2 - u0 / 2 - 1)) X1).
    assert (M : forall a k, (a + 2 * k - a) mod 2 = 0) by (intros; replace (a + 2 * k - a) with (k * 2) by lia; apply Z.mod_mul; lia).
    specialize (S3 ltac:(rewrite Z.add_0_r; exact E0) (M _ _)).
    specialize (S4 ltac:(replace (left - u0 mod 2 + 1 - s) with (left - u0 mod 2 - s + 1) by lia; rewrite Z.even_add, E0; reflexivity) (M _ _)).
    fold X1 in S3. fold X2 in S4. clearbody X1 X2. clear M E0.
    assert (B : Z.even c = true -> c mod 2 = 0) by apply even_true.
    assert (B' : Z.even c = false -> c mod 2 = 1) by apply even_false.
    replace (X2 (c - u0 + left)) with (cols s X2 c) by (unfold cols, s; f_equal; lia).
    rewrite (round _ 0 _ _ _ _ _ _ _ c S3 S4).
    2: { intros E. apply B in E. clear - E Hu Hc Hlo Hhi. unfold s. Z.div_mod_to_equations. lia. }
    2: { intros E. apply B' in E. clear - E Hu Hc Hlo Hhi. unfold s. Z.div_mod_to_equations. lia. }
    unfold hor. apply local1. intros z Hz. unfold cols, s.
    replace (z + (left - u0)) with (z - u0 + left) by lia. apply HX.
    assert (Hz' : (c mod 2 = 0 -> c - 1 <= z <= c + 1) /\ c - 2 <= z <= c + 2).
    { destruct (Z.even c); clear - Hz B B'; try (specialize (B eq_refl)); try (specialize (B' eq_refl)); lia. }
    clear - Hz' Hc Hu. Z.div_mod_to_equations. lia.
  Qed.

  Lemma unclipped f d lo hi a k (X : Z -> T) : lo <= a -> a + 2 * k <= hi ->
    clipped f d lo hi a (a + 2 * k) X = pass f (Z.to_nat (k + 1)) (a + d) X.
  Proof.
    intros Hl Hh. unfold clipped, clip.
    destruct (Z.ltb_spec a lo); [lia |]. destruct (Z.ltb_spec hi (a + 2 * k)); [lia |].
    rewrite Z.sub_diag. cbn [Z.modulo Z.div_eucl Z.eqb].
    replace (a + 2 * k - a) with (k * 2) by lia. rewrite Z.mod_mul by lia. cbn [Z.eqb]. unfold loop.
    f_equal. replace (a + 2 * k + d - (a + d)) with (k * 2) by lia. now rewrite Z.div_mul by lia.
  Qed.
  Lemma full97_range left u0 u1 X blo bhi :
    blo <= -2 + (left - u0 mod 2) -> left - u0 mod 2 + 2 * (u1 / 2 - u0 / 2) + 4 <= bhi ->
    full97 A left u0 u1 X = range97 A left u0 u1 blo bhi X.
  Proof.
    intros Hl Hh. unfold full97, range97. rewrite !unclipped by lia. rewrite !Z.add_0_r.
    replace (u1 / 2 + 2 - (u0 / 2 - 1)) with (u1 / 2 - u0 / 2 + 2 + 1) by lia.
    replace (u1 / 2 + 1 - (u0 / 2 - 1)) with (u1 / 2 - u0 / 2 + 1 + 1) by lia.
    replace (u1 / 2 + 1 - u0 / 2) with (u1 / 2 - u0 / 2 + 1) by lia.
    now replace (u1 / 2 - u0 / 2 - 1 + 1) with (u1 / 2 - u0 / 2) by lia.
  Qed.
  Lemma full53_range left u0 u1 X blo bhi :
    blo <= left - u0 mod 2 -> left - u0 mod 2 + 2 * (u1 / 2 - u0 / 2) <= bhi ->
    full53 A left u0 u1 X = range53 A left u0 u1 blo bhi X.
  Proof.
    intros Hl Hh. unfold full53, range53. rewrite !unclipped by lia. rewrite !Z.add_0_r.
    replace (u1 / 2 + 1 - u0 / 2) with (u1 / 2 - u0 / 2 + 1) by lia.
    now replace (u1 / 2 - u0 / 2 - 1 + 1) with (u1 / 2 - u0 / 2) by lia.
  Qed.

  (** The value of a row at column [c]. *)
  Definition value (u0 u1 : Z) (lp hp : Z -> T) (c : Z) : T :=
    if u1 - u0 =? 1 then (if Z.even u0 then lp 0 else if wt =? 1 then hh A (hp 0) else hp 0)
    else lifted Z.even hor (ext u0 u1 lp hp) rounds c.

  Lemma row_full_value u0 u1 lp hp old c : 0 <= u0 -> u0 + 2 <= u1 -> u0 <= c < u1 ->
    row_full A wt (h_left wt u0 u1) (h_right wt u0 u1) u0 u1 (woven u0 u1 lp hp old) (c - u0)
    = lifted Z.even hor (ext u0 u1 lp hp) rounds c.
  Proof.
    intros Hu Hw Hc. unfold row_full, at_left.
    pose proof (filled u0 u1 lp hp old) as F.
    assert (HL : h_left wt u0 u1 = (if wt =? 0 then 3 else 1) + u0 mod 2).
    { unfold h_left. destruct (Z.ltb_spec 1 (u1 - u0)); [reflexivity | lia]. }
    assert (HR : h_right wt u0 u1 = (if wt =? 0 then 4 else 2) - u1 mod 2).
    { unfold h_right. destruct (Z.ltb_spec 1 (u1 - u0)); [reflexivity | lia]. }
    set (left := h_left wt u0 u1) in *. set (right := h_right wt u0 u1) in *. unfold rounds.
    destruct (wt =? 0).
    - rewrite (full97_range left u0 u1 _ (Z.min (-2 + (left - u0 mod 2)) (c - u0 + left - 4))
        (Z.max (left - u0 mod 2 + 2 * (u1 / 2 - u0 / 2) + 4) (c - u0 + left + 4))) by lia.
      apply range97_lifted; try lia. intros q Hq. replace (q - u0 + left - left) with (q - u0) by lia. apply F; lia.
    - rewrite (full53_range left u0 u1 _ (Z.min (left - u0 mod 2) (c - u0 + left - 2))
        (Z.max (left - u0 mod 2 + 2 * (u1 / 2 - u0 / 2)) (c - u0 + left + 2))) by lia.
      apply range53_lifted; try lia. intros q Hq. replace (q - u0 + left - left) with (q - u0) by lia. apply F; lia.
  Qed.

  Lemma row_range_value u0 u1 col_lo col_hi lp hp old c : 0 <= u0 -> u0 + 2 <= u1 -> u1 - u0 <= 2 ^ 31 - 16 ->
    u0 <= c < u1 -> col_lo <= c < col_hi ->
    row_range A wt (h_left wt u0 u1) (h_right wt u0 u1) u0 u1 col_lo col_hi (woven u0 u1 lp hp old) (c - u0)
    = lifted Z.even hor (ext u0 u1 lp hp) rounds c.
  Proof.
    intros Hu Hw Hm Hc Hin. unfold row_range.
    destruct ((col_lo <=? u0) && (u1 <=? col_hi)); [now apply row_full_value |].
    pose proof (row_full_value u0 u1 lp hp old c Hu Hw Hc) as FV.
    unfold row_full in FV. unfold at_left in FV |- *.
    pose proof (filled u0 u1 lp hp old) as F.
    assert (HL : h_left wt u0 u1 = (if wt =? 0 then 3 else 1) + u0 mod 2).
    { unfold h_left. destruct (Z.ltb_spec 1 (u1 - u0)); [reflexivity | lia]. }
    assert (HR : h_right wt u0 u1 = (if wt =? 0 then 4 else 2) - u1 mod 2).
    { unfold h_right. destruct (Z.ltb_spec 1 (u1 - u0)); [reflexivity | lia]. }
    pose proof (Z.mod_pos_bound u0 2 ltac:(lia)) as Hp.
    set (left := h_left wt u0 u1) in *. set (right := h_right wt u0 u1) in *.
    change (2 ^ 31) with 2147483648 in Hm.
    assert (Hl4 : 0 <= left <= 4) by (destruct (wt =? 0); lia).
    destruct (Z.eqb_spec wt 1) as [W1 | W1].
    - assert (W0 : (wt =? 0) = false) by (apply Z.eqb_neq; lia). unfold rounds. rewrite W0 in *.
      apply range53_lifted; try lia.
      + intros q Hq. replace (q - u0 + left - left) with (q - u0) by lia. apply F; lia.
      + destruct (Z.ltb_spec (col_lo - 2) u0); [change int_min with (-2147483648) |]; lia.
      + destruct (Z.ltb_spec u1 (col_hi + 2)); [change int_max with 2147483647 |]; lia.
    - unfold rounds in FV |- *. destruct (wt =? 0); [| exact FV].
      apply range97_lifted; try lia.
      + intros q Hq. replace (q - u0 + left - left) with (q - u0) by lia. apply F; lia.
      + destruct (Z.ltb_spec (col_lo - 4) u0); [change int_min with (-2147483648) |]; lia.
      + destruct (Z.ltb_spec u1 (col_hi + 4)); [change int_max with 2147483647 |]; lia.
  Qed.

  Lemma from_planar_value u0 u1 col_lo col_hi lp hp old c : 0 <= u0 -> u1 - u0 <= 2 ^ 31 - 16 ->
    u0 <= c < u1 -> col_lo <= c < col_hi ->
    from_planar A wt use_i32 u0 u1 col_lo col_hi lp hp old (c - u0) = value u0 u1 lp hp c.
  Proof.
    intros Hu Hm Hc Hin. unfold from_planar, value.
    destruct (Z.leb_spec (u1 - u0) 0); [lia |].
    destruct (Z.eqb_spec (u1 - u0) 1).
    - unfold put. destruct (Z.eqb_spec (c - u0) 0); [| lia]. now rewrite even_mod.
    - destruct use_i32; [apply row_full_value | apply row_range_value]; lia.
  Qed.

  Lemma scan_zero w x k : sane A -> scan A w x = true -> 0 <= k < w -> x k = zero A.
  Proof.
    intros S H Hk. apply S. unfold scan in H. rewrite forallb_forall in H. apply H. now apply zseq_In.
  Qed.

  (** Positions of the planes a column reads. *)
  Lemma ext_local u0 u1 lp hp lp' hp' q c : u0 + 2 <= u1 -> 0 <= u0 -> u0 <= c < u1 -> Z.abs (q - c) <= 4 ->
    (forall k, 0 <= k < width_lp u0 u1 -> Z.abs (2 * (ceil2 u0 + k) - c) <= 4 -> lp k = lp' k) ->
    (forall k, 0 <= k < width_hp u0 u1 -> hp k = hp' k) ->
    ext u0 u1 lp hp q = ext u0 u1 lp' hp' q.
  Proof.
    intros Hw Hu Hc Hq Hl Hh. unfold ext. pose proof (mirror_range u0 u1 q Hw). pose proof (mirror_near u0 u1 q c Hw Hc).
    set (m := mirror u0 u1 q) in *. clearbody m. destruct (Z.even m) eqn:E.
    - apply even_true in E. apply Hl; unfold width_lp, ceil2; Z.div_mod_to_equations; lia.
    - apply even_false in E. apply Hh. unfold width_hp. Z.div_mod_to_equations; lia.
  Qed.
  Lemma rounds_le : Z.of_nat rounds <= 2.
  Proof. unfold rounds. destruct (wt =? 0); cbn; lia. Qed.
  Lemma value_local u0 u1 lp hp lp' hp' c : 0 <= u0 -> u0 <= c < u1 ->
    (forall k, 0 <= k < width_lp u0 u1 -> Z.abs (2 * (ceil2 u0 + k) - c) <= 4 -> lp k = lp' k) ->
    (forall k, 0 <= k < width_hp u0 u1 -> hp k = hp' k) ->
    value u0 u1 lp hp c = value u0 u1 lp' hp' c.
  Proof.
    intros Hu Hc Hl Hh. unfold value. destruct (Z.eqb_spec (u1 - u0) 1).
    - assert (c = u0) by lia. subst c. destruct (Z.even u0) eqn:E.
      + apply even_true in E. apply Hl; unfold width_lp, ceil2; Z.div_mod_to_equations; lia.
      + apply even_false in E. rewrite (Hh 0); [reflexivity |]. unfold width_hp. Z.div_mod_to_equations; lia.
    - unfold hor. apply lifted_local. intros q Hq. pose proof rounds_le. apply (ext_local _ _ _ _ _ _ q c); auto; lia.
  Qed.
  Lemma value_zero u0 u1 c : sane A -> value u0 u1 (fun _ => zero A) (fun _ => zero A) c = zero A.
  Proof.
    intros (S1 & S2 & S3 & S4 & S5). unfold value. destruct (u1 - u0 =? 1).
    - destruct (Z.even u0); [reflexivity |]. destruct (wt =? 1); auto.
    - unfold hor. apply lifted_zero; auto. intros q _. unfold ext. now destruct (Z.even _).
  Qed.

  (** The planes of row [r]. *)
  Definition lp_of (v0 : Z) (low lh : Z -> Z -> T) (r : Z) : Z -> T :=
    if Z.even r then low (r / 2 - ceil2 v0) else lh (r / 2 - v0 / 2).
  Definition hp_of (v0 : Z) (hl hh : Z -> Z -> T) (r : Z) : Z -> T :=
    if Z.even r then hl (r / 2 - ceil2 v0) else hh (r / 2 - v0 / 2).

  Lemma level_row_value u0 u1 v0 col_lo col_hi row_lo low hl lh hh old r c : sane A ->
    0 <= u0 -> u1 - u0 <= 2 ^ 31 - 16 -> u0 <= c < u1 -> col_lo <= c < col_hi -> row_lo <= r ->
    fst (level_row A wt use_i32 u0 u1 v0 col_lo col_hi row_lo low hl lh hh old r) (c - u0)
    = value u0 u1 (lp_of v0 low lh r) (hp_of v0 hl hh r) c.
  Proof.
    intros S Hu Hm Hc Hin Hr. unfold level_row. destruct (Z.ltb_spec r row_lo); [lia |].
    rewrite even_mod. unfold lp_of, hp_of. cbn [fst].
    assert (G : forall lp hp, (if (0 <? u1 - u0) && (scan A (width_lp u0 u1) lp && scan A (width_hp u0 u1) hp)
      then cleared A (u1 - u0) (old r) else from_planar A wt use_i32 u0 u1 col_lo col_hi lp hp (old r)) (c - u0)
      = value u0 u1 lp hp c); [| destruct (Z.even r); apply G].
    intros lp hp. destruct (Z.ltb_spec 0 (u1 - u0)); [| lia]. cbn [andb].
    destruct (scan A (width_lp u0 u1) lp && scan A (width_hp u0 u1) hp) eqn:E; [| now apply from_planar_value].
    apply andb_true_iff in E. destruct E as [E1 E2].
    unfold cleared. destruct (Z.leb_spec 0 (c - u0)), (Z.ltb_spec (c - u0) (u1 - u0)); try lia. cbn [andb].
    symmetry. rewrite (value_local u0 u1 lp hp (fun _ => zero A) (fun _ => zero A)); auto.
    - now apply value_zero.
    - intros k Hk _. now apply (scan_zero (width_lp u0 u1)).
    - intros k Hk. now apply (scan_zero (width_hp u0 u1)).
  Qed.
  Lemma level_row_flag u0 u1 v0 col_lo col_hi row_lo low hl lh hh old r k : sane A -> 0 <= k < u1 - u0 ->
    snd (level_row A wt use_i32 u0 u1 v0 col_lo col_hi row_lo low hl lh hh old r) = true ->
    fst (level_row A wt use_i32 u0 u1 v0 col_lo col_hi row_lo low hl lh hh old r) k = zero A.
  Proof.
    intros S Hk. unfold level_row. destruct (Z.ltb_spec r row_lo).
    - intros _. cbn [fst]. unfold cleared. destruct (Z.leb_spec 0 k), (Z.ltb_spec k (u1 - u0)); try lia. reflexivity.
    - cbn [fst snd]. intros E. now apply (scan_zero (u1 - u0)).
  Qed.

  (** *** Vertically, column by column *)
  Lemma vert u0 col_lo col_hi (e : Z -> (Z -> T) * bool) k0 : sane A -> col_lo - u0 <= k0 < col_hi - u0 ->
    (forall j, snd (e j) = true -> fst (e j) k0 = zero A) ->
    forall m r, fst (lifted Z.even (skipping (row_step A u0 col_lo col_hi)) e m r) k0
                = lifted Z.even ver (fun j => fst (e j) k0) m r
             /\ (snd (lifted Z.even (skipping (row_step A u0 col_lo col_hi)) e m r) = true ->
                 fst (lifted Z.even (skipping (row_step A u0 col_lo col_hi)) e m r) k0 = zero A).
  Proof.
    intros S Hk Hz. destruct S as (_ & _ & S3 & _).
    assert (St : forall r n t p q t' p' q',
      fst t k0 = t' /\ (snd t = true -> fst t k0 = zero A) ->
      fst p k0 = p' /\ (snd p = true -> fst p k0 = zero A) ->
      fst q k0 = q' /\ (snd q = true -> fst q k0 = zero A) ->
      fst (skipping (row_step A u0 col_lo col_hi) r n t p q) k0 = ver r n t' p' q'
      /\ (snd (skipping (row_step A u0 col_lo col_hi) r n t p q) = true ->
          fst (skipping (row_step A u0 col_lo col_hi) r n t p q) k0 = zero A)).
    { intros r n t p q t' p' q' [Ht Ft] [Hp Fp] [Hq Fq]. 
      destruct t as [t ft], p as [p fp], q as [q fq]. unfold skipping. cbn [fst snd] in *. destruct (fp && fq) eqn:E.
      - apply andb_true_iff in E. destruct E as [E1 E2]. cbn [fst snd]. split; [| exact Ft].
        unfold ver, at_col. rewrite <- Hp, <- Hq, (Fp E1), (Fq E2), S3. exact Ht.
      - cbn [fst snd]. split; [| discriminate]. unfold row_step.
        destruct (Z.leb_spec (col_lo - u0) k0), (Z.ltb_spec k0 (col_hi - u0)); try lia. cbn [andb].
        rewrite even_mod. unfold ver, at_col. congruence. }
    induction m as [| m IH]; intros r; [split; [reflexivity | apply Hz] |].
    cbn [lifted]. destruct (Z.even r); apply St; auto.
  Qed.
End RowProofs.
