(** The one-dimensional 5/3 code computes one round of lifting of the
    reflected signal, and the inverse code undoes it. *)
From Verif Require Import Base BaseLemmas DwtModel DwtSpec LiftProofs.

Lemma rdT_in {T} (d : T) l i : 0 <= i < zlen l -> rdT l i = Ret (znth d l i).
Proof.
  intros H. unfold rdT, znth, zlen in *. destruct (Z.ltb_spec i 0); [lia |].
  rewrite (nth_error_nth' l d) by lia. reflexivity.
Qed.
Lemma rdT_out {T} (l : list T) i : ~ (0 <= i < zlen l) -> rdT l i = UB.
Proof.
  intros H. unfold rdT, zlen in *. destruct (Z.ltb_spec i 0); [reflexivity |].
  destruct (nth_error l (Z.to_nat i)) eqn:E; [| reflexivity].
  assert (Z.to_nat i < length l)%nat by (apply nth_error_Some; congruence). lia.
Qed.
Lemma rdT_range {T} (g : Z -> T) a b i : 0 <= i < b - a -> rdT (map g (range a b)) i = Ret (g (a + i)).
Proof.
  intros H. rewrite (rdT_in (g 0)) by (rewrite map_range_len; lia). now rewrite map_range_nth.
Qed.

Lemma set_nth_length {T} n (v : T) l : length (set_nth n v l) = length l.
Proof. revert n. induction l; intros [| n]; cbn [set_nth length]; auto. Qed.
Lemma set_nth_nth {T} (d : T) n v l k : (n < length l)%nat ->
  nth k (set_nth n v l) d = if Nat.eqb k n then v else nth k l d.
Proof.
  revert n k. induction l as [| a l IH]; intros n k H; cbn [length] in H; [lia |].
  destruct n as [| n]; destruct k as [| k]; cbn [set_nth nth Nat.eqb]; try reflexivity.
  apply IH. lia.
Qed.
Lemma wrT_range {T} (g : Z -> T) a b i v : 0 <= i < b - a ->
  wrT (map g (range a b)) i v = Ret (map (fun q => if q =? a + i then v else g q) (range a b)).
Proof.
  intros H. unfold wrT. pose proof (map_range_len g a b ltac:(lia)) as L.
  rewrite L. destruct (Z.ltb_spec i 0); [lia |]. destruct (Z.leb_spec (b - a) i); [lia |].
  cbn [orb]. f_equal. apply (znth_ext v).
  - unfold zlen. rewrite set_nth_length. now rewrite !map_length.
  - intros k Hk. unfold zlen in Hk. rewrite set_nth_length in Hk. fold (zlen (map g (range a b))) in Hk.
    rewrite L in Hk. rewrite map_range_nth by lia. unfold znth at 1.
    rewrite set_nth_nth by (unfold zlen in L; lia).
    destruct (Nat.eqb_spec (Z.to_nat k) (Z.to_nat i)) as [E | E].
    + destruct (Z.eqb_spec (a + k) (a + i)); [reflexivity | lia].
    + destruct (Z.eqb_spec (a + k) (a + i)); [lia |].
      fold (znth v (map g (range a b)) k). now rewrite map_range_nth.
Qed.

Lemma mapM_Ret {A B} (f : A -> out B) (g : A -> B) l :
  (forall a, In a l -> f a = Ret (g a)) -> mapM f l = Ret (map g l).
Proof.
  induction l as [| a l IH]; intros H; [reflexivity |].
  cbn [mapM map]. rewrite H by now left. cbn [bind]. rewrite IH by (intros; apply H; now right).
  reflexivity.
Qed.

Lemma pse_o_mirror i i0 i1 : i0 + 2 <= i1 -> pse_o i i0 i1 = Ret (mirror i0 i1 i - i0).
Proof.
  intros H. unfold pse_o. set (p := 2 * (i1 - i0 - 1)). assert (Hp : 0 < p) by (unfold p; lia).
  destruct (Z.eqb_spec p 0); [lia |]. f_equal.
  assert (E : forall a, (if a <? p - a then a else p - a) = Z.min a (p - a))
    by (intros a; destruct (Z.ltb_spec a (p - a)); lia).
  rewrite E. destruct (Z.ltb_spec (i - i0) 0).
  - rewrite Z.rem_mod_nonneg by lia.
    transitivity (mirror i0 i1 (2 * i0 - i) - i0); [| now rewrite mirror_flip].
    unfold mirror. fold p. replace (2 * i0 - i - i0) with (i0 - i) by lia. lia.
  - rewrite Z.rem_mod_nonneg by lia. unfold mirror. fold p. lia.
Qed.

Lemma upto_In n i : In i (upto n) <-> 1 <= i <= n.
Proof.
  unfold upto. rewrite in_map_iff. split.
  - intros [k [<- Hk]]. apply zseq_In in Hk. lia.
  - intros H. exists (i - 1). split; [lia | apply zseq_In; lia].
Qed.
Lemma upto_len n : 0 <= n -> zlen (upto n) = n.
Proof. intros. unfold upto. now rewrite zlen_map, zseq_len. Qed.
Lemma upto_nth n i : 0 <= i < n -> znth 0 (upto n) i = i + 1.
Proof. intros. unfold upto. rewrite (znth_map 0 0) by (rewrite zseq_len; lia). now rewrite zseq_nth. Qed.

Lemma rev_upto_map {T} (d : T) (g : Z -> T) n i0 : 0 <= n ->
  map (fun i => g (i0 - i)) (rev (upto n)) = map g (range (i0 - n) i0).
Proof.
  intros Hn. apply (znth_ext d).
  - rewrite zlen_map, zlen_rev, upto_len, map_range_len; lia.
  - intros i Hi. rewrite zlen_map, zlen_rev, upto_len in Hi by lia.
    rewrite map_range_nth by lia.
    rewrite (znth_map 0 d) by (rewrite zlen_rev, upto_len; lia).
    f_equal. unfold znth. pose proof (upto_len n Hn) as L. unfold zlen in L.
    rewrite rev_nth by lia.
    replace (length (upto n) - S (Z.to_nat i))%nat with (Z.to_nat (n - 1 - i)) by lia.
    fold (znth 0 (upto n) (n - 1 - i)). rewrite upto_nth by lia. lia.
Qed.
Lemma upto_map {T} (d : T) (g : Z -> T) n i1 : 0 <= n ->
  map (fun i => g (i1 + i - 1)) (upto n) = map g (range i1 (i1 + n)).
Proof.
  intros Hn. apply (znth_ext d).
  - rewrite zlen_map, upto_len, map_range_len; lia.
  - intros i Hi. rewrite zlen_map, upto_len in Hi by lia.
    rewrite map_range_nth by lia. rewrite (znth_map 0 d) by (rewrite upto_len; lia).
    rewrite upto_nth by lia. f_equal. lia.
Qed.

(** The extended buffer is a window of the doubly infinite reflected signal. *)
Lemma extend_window {T} (d : T) left right i0 (buf : list T) :
  0 <= left -> 0 <= right -> 2 <= zlen buf ->
  extend left right i0 (i0 + zlen buf) buf =
  Ret (map (extended d i0 buf) (range (i0 - left) (i0 + zlen buf + right))).
Proof.
  intros Hl Hr Hn. unfold extend. set (i1 := i0 + zlen buf).
  assert (G : forall j, (let* k := pse_o j i0 i1 in rdT buf k) = Ret (extended d i0 buf j)).
  { intros j. rewrite pse_o_mirror by (unfold i1; lia). cbn [bind].
    pose proof (mirror_range i0 i1 j ltac:(unfold i1; lia)).
    rewrite (rdT_in d) by (unfold i1 in *; lia). reflexivity. }
  rewrite (mapM_Ret _ (fun i => extended d i0 buf (i0 - i))) by (intros; apply G).
  cbn [bind].
  rewrite (mapM_Ret _ (fun i => extended d i0 buf (i1 + i - 1))).
  2: { intros i _. replace (i1 - i0 + i - 1 + i0) with (i1 + i - 1) by lia. apply G. }
  cbn [bind]. f_equal.
  rewrite (rev_upto_map d), (upto_map d) by lia.
  rewrite (ztake_all _ buf) by (unfold i1; lia).
  rewrite (map_range_app _ (i0 - left) i0 (i1 + right)) by (unfold i1; lia). f_equal.
  rewrite (map_range_app _ i0 i1 (i1 + right)) by (unfold i1; lia). f_equal.
  rewrite (list_as_range d buf i0) at 1. fold i1. apply map_range_ext.
  intros q Hq. now rewrite extended_inside by (unfold i1 in *; lia).
Qed.

Lemma extend_wide_window {T} (d : T) left right i0 (buf : list T) :
  0 <= left <= 8 -> 0 <= right <= 8 -> 9 <= zlen buf ->
  extend_wide left right i0 (i0 + zlen buf) buf =
  Ret (map (extended d i0 buf) (range (i0 - left) (i0 + zlen buf + right))).
Proof.
  intros Hl Hr Hn. unfold extend_wide. set (i1 := i0 + zlen buf).
  rewrite (mapM_Ret _ (fun i => extended d i0 buf (i0 - i))).
  2: { intros i Hi. apply in_rev, upto_In in Hi. rewrite (rdT_in d) by lia. f_equal.
       unfold extended. replace (i0 - i) with (2 * i0 - (i0 + i)) by lia.
       rewrite mirror_flip, mirror_id by lia. f_equal. lia. }
  cbn [bind].
  rewrite (mapM_Ret _ (fun i => extended d i0 buf (i1 + i - 1))).
  2: { intros i Hi. apply upto_In in Hi. rewrite (rdT_in d) by (unfold i1; lia). f_equal.
       unfold extended. fold i1.
       replace (i1 + i - 1) with (2 * i0 - (i1 - 1 - i) + 1 * (2 * (i1 - i0 - 1))) by lia.
       rewrite mirror_period, mirror_flip, mirror_id by (unfold i1; lia). f_equal. lia. }
  cbn [bind]. f_equal.
  rewrite (rev_upto_map d), (upto_map d) by lia.
  rewrite (ztake_all _ buf) by (unfold i1; lia).
  rewrite (map_range_app _ (i0 - left) i0 (i1 + right)) by (unfold i1; lia). f_equal.
  rewrite (map_range_app _ i0 i1 (i1 + right)) by (unfold i1; lia). f_equal.
  rewrite (list_as_range d buf i0) at 1. fold i1. apply map_range_ext.
  intros q Hq. now rewrite extended_inside by (unfold i1 in *; lia).
Qed.

(** One pass over a window [a, b). *)
Lemma lift_window {T} (f : T -> T -> T -> T) count : forall (g : Z -> T) a b n,
  (0 < count)%nat -> 1 <= n -> n + 2 * (Z.of_nat count - 1) + 1 < b - a ->
  lift f count n (map g (range a b)) =
  Ret (map (fun q => if (a + n <=? q) && (q <? a + n + 2 * Z.of_nat count) && ((q - (a + n)) mod 2 =? 0)
                     then f (g q) (g (q - 1)) (g (q + 1)) else g q) (range a b)).
Proof.
  induction count as [| c IH]; intros g a b n Hc Hn Hb; [lia |].
  cbn [lift]. rewrite !rdT_range by lia. cbn [bind]. rewrite wrT_range by lia. cbn [bind].
  destruct c as [| c].
  - cbn [lift]. f_equal. apply map_range_ext. intros q Hq.
    destruct (Z.eqb_spec q (a + n)) as [-> | E].
    + replace ((a + n <=? a + n) && (a + n <? a + n + 2 * Z.of_nat 1) && ((a + n - (a + n)) mod 2 =? 0)) with true.
      2: { rewrite Z.sub_diag. cbn. lia. }
      f_equal; f_equal; lia.
    + destruct ((a + n <=? q) && (q <? a + n + 2 * Z.of_nat 1) && ((q - (a + n)) mod 2 =? 0)) eqn:C; [| reflexivity].
      exfalso. apply andb_true_iff in C as [C C3]. apply andb_true_iff in C as [C1 C2]. lia.
  - rewrite IH by lia. f_equal. apply map_range_ext. intros q Hq.
    replace (a + (n + 2)) with (a + n + 2) by lia.
    destruct (Z.eqb_spec q (a + n)) as [-> | E].
    + replace ((a + n + 2 <=? a + n) && (a + n <? a + n + 2 + 2 * Z.of_nat (S c)) &&
               ((a + n - (a + n + 2)) mod 2 =? 0)) with false by lia.
      replace ((a + n <=? a + n) && (a + n <? a + n + 2 * Z.of_nat (S (S c))) && ((a + n - (a + n)) mod 2 =? 0))
        with true. 2: { rewrite Z.sub_diag. cbn. lia. }
      f_equal; f_equal; lia.
    + assert (M : (q - (a + n + 2)) mod 2 = (q - (a + n)) mod 2) by lia. rewrite M.
      replace (a + n + 2 + 2 * Z.of_nat (S c)) with (a + n + 2 * Z.of_nat (S (S c))) by lia.
      destruct (Z.leb_spec (a + n + 2) q); destruct (Z.leb_spec (a + n) q); cbn [andb]; try lia.
      * destruct ((q <? a + n + 2 * Z.of_nat (S (S c)))); cbn [andb]; [| reflexivity].
        destruct (Z.eqb_spec ((q - (a + n)) mod 2) 0) as [M0 | M0]; [| reflexivity].
        destruct (Z.eqb_spec (q - 1) (a + n)); [lia |]. destruct (Z.eqb_spec (q + 1) (a + n)); [lia |].
        reflexivity.
      * destruct (Z.eqb_spec ((q - (a + n)) mod 2) 0) as [M0 | M0]; [lia |].
        rewrite andb_false_r. reflexivity.
      * reflexivity.
Qed.

(** The 5/3 steps as a one-round lifting: odd positions first forwards, even
    positions first backwards. *)
Definition step53 {T} (hp lp : T -> T -> T -> T) (q : Z) (k : nat) : T -> T -> T -> T :=
  if q mod 2 =? 0 then lp else hp.
Definition odd_first (q : Z) : bool := negb (q mod 2 =? 0).
Definition even_first (q : Z) : bool := q mod 2 =? 0.

Lemma odd_first_alt q : odd_first (q + 1) = negb (odd_first q).
Proof. unfold odd_first. destruct (Z.eqb_spec (q mod 2) 0), (Z.eqb_spec ((q + 1) mod 2) 0); cbn; lia. Qed.
Lemma even_first_alt q : even_first (q + 1) = negb (even_first q).
Proof. unfold even_first. destruct (Z.eqb_spec (q mod 2) 0), (Z.eqb_spec ((q + 1) mod 2) 0); cbn; lia. Qed.

Ltac b2p := repeat match goal with
  | H : (_ && _)%bool = true |- _ => apply andb_true_iff in H; destruct H
  | H : (_ =? _) = true |- _ => apply Z.eqb_eq in H
  | H : (_ =? _) = false |- _ => apply Z.eqb_neq in H
  | H : (_ <=? _) = true |- _ => apply Z.leb_le in H
  | H : (_ <? _) = true |- _ => apply Z.ltb_lt in H
  | H : (_ <=? _) = false |- _ => apply Z.leb_gt in H
  | H : (_ <? _) = false |- _ => apply Z.ltb_ge in H
  end.

Ltac ifs := repeat match goal with
  | |- context [if ?b then _ else _] => let E := fresh "C" in destruct b eqn:E
  end.

Lemma fdwt_left_eq i0 : fdwt_left i0 = 2 - i0 mod 2.
Proof. unfold fdwt_left. destruct (Z.eqb_spec (i0 mod 2) 0); lia. Qed.
Lemma fdwt_right_eq i0 : fdwt_right i0 = 1 + i0 mod 2.
Proof. unfold fdwt_right. destruct (Z.eqb_spec (i0 mod 2) 0); lia. Qed.
Lemma idwt_left_eq i0 : idwt_left i0 = 1 + i0 mod 2.
Proof. unfold idwt_left. destruct (Z.eqb_spec (i0 mod 2) 0); lia. Qed.
Lemma idwt_right_eq i0 : idwt_right i0 = 2 - i0 mod 2.
Proof. unfold idwt_right. destruct (Z.eqb_spec (i0 mod 2) 0); lia. Qed.

Lemma fdwt_1d_window {T} (hp lp : T -> T -> T -> T) (g : Z -> T) i0 i1 :
  0 <= i0 -> i0 + 2 <= i1 ->
  exists g', fdwt_1d hp lp (map g (range (i0 - fdwt_left i0) (i1 + fdwt_right i1))) (fdwt_left i0) i0 i1 =
    Ret (map g' (range (i0 - fdwt_left i0) (i1 + fdwt_right i1)))
  /\ forall q, i0 <= q < i1 -> g' q = lifted odd_first (step53 hp lp) g 1 q.
Proof.
  intros H0 H. unfold fdwt_1d, ceil2. rewrite fdwt_left_eq, fdwt_right_eq.
  rewrite lift_window by lia. cbn [bind]. rewrite lift_window by lia.
  eexists. split; [reflexivity |]. intros q Hq. cbn beta.
  cbn [lifted]. unfold odd_first, step53.
  destruct (Z.eqb_spec (q mod 2) 0) as [E | E].
  - cbn [negb]. destruct (Z.eqb_spec ((q - 1) mod 2) 0); [lia |]. destruct (Z.eqb_spec ((q + 1) mod 2) 0); [lia |].
    replace (q - 1 + 1) with q by lia. replace (q + 1 - 1) with q by lia.
    ifs; b2p; try lia; try reflexivity.
  - cbn [negb]. ifs; b2p; try lia; try reflexivity.
Qed.

Lemma idwt_1d_window {T} (lp hp : T -> T -> T -> T) (g : Z -> T) i0 i1 :
  0 <= i0 -> i0 + 2 <= i1 ->
  exists g', idwt_1d lp hp (map g (range (i0 - idwt_left i0) (i1 + idwt_right i1))) (idwt_left i0) i0 i1 =
    Ret (map g' (range (i0 - idwt_left i0) (i1 + idwt_right i1)))
  /\ forall q, i0 <= q < i1 -> g' q = lifted even_first (step53 hp lp) g 1 q.
Proof.
  intros H0 H. unfold idwt_1d. rewrite idwt_left_eq, idwt_right_eq.
  rewrite lift_window by lia. cbn [bind].
  rewrite lift_window by lia.
  eexists. split; [reflexivity |]. intros q Hq. cbn beta.
  cbn [lifted]. unfold even_first, step53.
  destruct (Z.eqb_spec (q mod 2) 0) as [E | E].
  - ifs; b2p; try lia; try reflexivity.
  - destruct (Z.eqb_spec ((q - 1) mod 2) 0); [| lia]. destruct (Z.eqb_spec ((q + 1) mod 2) 0); [| lia].
    replace (q - 1 + 1) with q by lia. replace (q + 1 - 1) with q by lia.
    ifs; b2p; try lia; try reflexivity.
Qed.

Notation fwd_spec hp lp := (lifted odd_first (step53 hp lp)).
Notation inv_spec hp lp := (lifted even_first (step53 hp lp)).

Lemma fwd_row_spec u0 row : 0 <= u0 -> 2 <= zlen row ->
  fwd_row u0 (u0 + zlen row) row =
  Ret (map (fwd_spec fwd_hp fwd_lp (extended 0 u0 row) 1) (range u0 (u0 + zlen row))).
Proof.
  intros H0 H. unfold fwd_row. destruct (Z.eqb_spec (u0 + zlen row) (u0 + 1)); [lia |].
  rewrite (extend_window 0) by (rewrite ?fdwt_left_eq, ?fdwt_right_eq; lia). cbn [bind].
  destruct (fdwt_1d_window fwd_hp fwd_lp (extended 0 u0 row) u0 (u0 + zlen row) H0 ltac:(lia)) as [g' [-> E]].
  cbn [bind]. f_equal.
  replace (fdwt_left u0) with (u0 - (u0 - fdwt_left u0)) at 1 by lia.
  rewrite map_range_slice by (rewrite ?fdwt_left_eq, ?fdwt_right_eq; lia).
  now apply map_range_ext.
Qed.

Lemma inv_row_spec u0 row : 0 <= u0 -> 2 <= zlen row ->
  inv_row_inplace u0 (u0 + zlen row) row =
  Ret (map (inv_spec inv_hp inv_lp (extended 0 u0 row) 1) (range u0 (u0 + zlen row))).
Proof.
  intros H0 H. unfold inv_row_inplace.
  assert (E : (if 9 <=? u0 + zlen row - u0
               then extend_wide (idwt_left u0) (idwt_right (u0 + zlen row)) u0 (u0 + zlen row) row
               else extend (idwt_left u0) (idwt_right (u0 + zlen row)) u0 (u0 + zlen row) row) =
              Ret (map (extended 0 u0 row) (range (u0 - idwt_left u0) (u0 + zlen row + idwt_right (u0 + zlen row))))).
  { destruct (Z.leb_spec 9 (u0 + zlen row - u0)).
    - apply extend_wide_window; rewrite ?idwt_left_eq, ?idwt_right_eq; lia.
    - apply extend_window; rewrite ?idwt_left_eq, ?idwt_right_eq; lia. }
  rewrite E. cbn [bind].
  destruct (idwt_1d_window inv_lp inv_hp (extended 0 u0 row) u0 (u0 + zlen row) H0 ltac:(lia)) as [g' [-> E']].
  cbn [bind]. f_equal.
  replace (idwt_left u0) with (u0 - (u0 - idwt_left u0)) at 1 by lia.
  rewrite map_range_slice by (rewrite ?idwt_left_eq, ?idwt_right_eq; lia).
  now apply map_range_ext.
Qed.

(** The extension of the coefficients is the lifted extension. *)
Lemma extended_lifted {T} (d : T) first step i0 (l : list T) m j :
  (forall q, first (q + 1) = negb (first q)) ->
  (forall q q', q mod 2 = q' mod 2 -> first q = first q') ->
  (forall q q' k, q mod 2 = q' mod 2 -> step q k = step q' k) ->
  (forall q k t a b, step q k t a b = step q k t b a) ->
  2 <= zlen l ->
  extended d i0 (map (lifted first step (extended d i0 l) m) (range i0 (i0 + zlen l))) j =
  lifted first step (extended d i0 l) m j.
Proof.
  intros F0 F1 F2 F3 H. unfold extended at 1.
  rewrite map_range_len by lia. replace (i0 + zlen l - i0) with (zlen l) by lia.
  pose proof (mirror_range i0 (i0 + zlen l) j ltac:(lia)).
  rewrite map_range_nth by lia.
  replace (i0 + (mirror i0 (i0 + zlen l) j - i0)) with (mirror i0 (i0 + zlen l) j) by lia.
  apply lifted_mirror; auto; [lia |]. intros. now apply extended_mirror.
Qed.

Lemma odd_first_parity q q' : q mod 2 = q' mod 2 -> odd_first q = odd_first q'.
Proof. unfold odd_first. now intros ->. Qed.
Lemma even_first_parity q q' : q mod 2 = q' mod 2 -> even_first q = even_first q'.
Proof. unfold even_first. now intros ->. Qed.
Lemma step53_parity {T} (hp lp : T -> T -> T -> T) q q' k :
  q mod 2 = q' mod 2 -> step53 hp lp q k = step53 hp lp q' k.
Proof. unfold step53. now intros ->. Qed.
Lemma step53_sym {T} (hp lp : T -> T -> T -> T) :
  (forall t a b, hp t a b = hp t b a) -> (forall t a b, lp t a b = lp t b a) ->
  forall q k t a b, step53 hp lp q k t a b = step53 hp lp q k t b a.
Proof. intros H L q k t a b. unfold step53. now destruct (q mod 2 =? 0). Qed.

Lemma fwd_hp_sym t a b : fwd_hp t a b = fwd_hp t b a.
Proof. unfold fwd_hp. now rewrite (Z.add_comm a b). Qed.
Lemma fwd_lp_sym t a b : fwd_lp t a b = fwd_lp t b a.
Proof. unfold fwd_lp. now rewrite (Z.add_comm a b). Qed.

(** Perfect reconstruction of a one-round lifting over any element type. *)
Lemma round_trip {T} (P : T -> Prop) (d : T) (fhp flp ihp ilp : T -> T -> T -> T) i0 (l : list T) :
  (forall t a b, fhp t a b = fhp t b a) -> (forall t a b, flp t a b = flp t b a) ->
  (forall t a b, P t -> P a -> P b -> P (fhp t a b)) ->
  (forall t a b, P t -> P a -> P b -> P (flp t a b)) ->
  (forall t a b, P t -> P a -> P b -> ihp (fhp t a b) a b = t) ->
  (forall t a b, P t -> P a -> P b -> ilp (flp t a b) a b = t) ->
  Forall P l -> 2 <= zlen l ->
  let y := map (fwd_spec fhp flp (extended d i0 l) 1) (range i0 (i0 + zlen l)) in
  map (inv_spec ihp ilp (extended d i0 y) 1) (range i0 (i0 + zlen l)) = l.
Proof.
  intros Sh Sl Ph Pl Ih Il HP H y.
  rewrite (list_as_range d l i0) at 2. apply map_range_ext. intros q Hq.
  assert (HPx : forall r, P (extended d i0 l r)).
  { intros r. unfold extended. rewrite Forall_forall in HP. apply HP. apply znth_In.
    pose proof (mirror_range i0 (i0 + zlen l) r ltac:(lia)). lia. }
  rewrite <- (extended_inside d i0 l q) by lia.
  transitivity (lifted (fun q => negb (odd_first q)) (step53 ihp ilp) (extended d i0 y) 1 q).
  { cbn [lifted]. unfold even_first, odd_first. rewrite !negb_involutive. reflexivity. }
  rewrite (lifted_inverse P odd_first (step53 fhp flp) (step53 ihp ilp) 1 odd_first_alt) with (x := extended d i0 l).
  - reflexivity.
  - intros q' k t a b A B C. unfold step53. destruct (q' mod 2 =? 0); auto.
  - intros q' k t a b Hk A B C. unfold step53. destruct (q' mod 2 =? 0); auto.
  - exact HPx.
  - intros r. unfold y. apply extended_lifted; auto.
    + apply odd_first_alt.
    + apply odd_first_parity.
    + intros; now apply step53_parity.
    + now apply step53_sym.
  - lia.
Qed.

Lemma inv_hp_undoes t a b : inv_hp (fwd_hp t a b) a b = t.
Proof. unfold inv_hp, fwd_hp. ring. Qed.
Lemma inv_lp_undoes t a b : inv_lp (fwd_lp t a b) a b = t.
Proof. unfold inv_lp, fwd_lp. ring. Qed.

Lemma row_round_trip u0 row : 0 <= u0 -> 2 <= zlen row ->
  exists y, fwd_row u0 (u0 + zlen row) row = Ret y /\ zlen y = zlen row
         /\ inv_row_inplace u0 (u0 + zlen row) y = Ret row.
Proof.
  intros H0 H. eexists. split; [now apply fwd_row_spec |]. split; [rewrite map_range_len; lia |].
  set (y := map _ _).
  assert (L : zlen y = zlen row) by (unfold y; rewrite map_range_len; lia).
  rewrite <- L at 1. rewrite inv_row_spec by lia. f_equal. rewrite L.
  apply (round_trip (fun _ => True) 0 fwd_hp fwd_lp inv_hp inv_lp); auto.
  - apply fwd_hp_sym.
  - apply fwd_lp_sym.
  - intros. apply inv_hp_undoes.
  - intros. apply inv_lp_undoes.
  - now apply Forall_forall.
Qed.

(** Planes and interleaving. *)
Lemma interleave_len {T} (a b : list T) : zlen (interleave a b) = zlen a + zlen b.
Proof.
  revert b. induction a as [| x a IH]; intros b; cbn [interleave].
  - change (zlen (@nil T)) with 0. lia.
  - destruct b as [| y b]; rewrite !zlen_cons.
    + change (zlen (@nil T)) with 0. lia.
    + rewrite IH. lia.
Qed.

Lemma interleave_nth {T} (d : T) (a b : list T) : forall i,
  zlen b <= zlen a <= zlen b + 1 -> 0 <= i < zlen a + zlen b ->
  znth d (interleave a b) i = if i mod 2 =? 0 then znth d a (i / 2) else znth d b (i / 2).
Proof.
  revert b. induction a as [| x a IH]; intros b i H Hi.
  - change (zlen (@nil T)) with 0 in *. lia.
  - cbn [interleave]. rewrite zlen_cons in *. pose proof (zlen_nonneg a).
    destruct (Z.eq_dec i 0) as [-> | N]; [reflexivity |].
    rewrite znth_cons by lia. destruct b as [| y b].
    + change (zlen (@nil T)) with 0 in *. lia.
    + rewrite zlen_cons in *. destruct (Z.eq_dec i 1) as [-> | N1]; [reflexivity |].
      rewrite znth_cons by lia. rewrite IH by lia.
      assert ((i - 1 - 1) mod 2 = i mod 2) as -> by lia.
      destruct (Z.eqb_spec (i mod 2) 0) as [E | E].
      * rewrite (znth_cons _ x) by lia. f_equal. lia.
      * rewrite (znth_cons _ y) by lia. f_equal. lia.
Qed.

Lemma plane_lp_range (g : Z -> Z) u0 u1 : 0 <= u0 <= u1 ->
  plane_lp u0 u1 (map g (range u0 u1)) = Ret (map (fun k => g (2 * k)) (range (ceil2 u0) (ceil2 u1))).
Proof.
  intros H. unfold plane_lp, width_lp, ceil2.
  rewrite (mapM_Ret _ (fun i => g (2 * ((u0 + 1) / 2 + i)))).
  - f_equal. unfold range. now rewrite map_map.
  - intros i Hi. apply zseq_In in Hi. rewrite rdT_range by lia. do 2 f_equal. lia.
Qed.
Lemma plane_hp_range (g : Z -> Z) u0 u1 : 0 <= u0 <= u1 ->
  plane_hp u0 u1 (map g (range u0 u1)) = Ret (map (fun k => g (2 * k + 1)) (range (u0 / 2) (u1 / 2))).
Proof.
  intros H. unfold plane_hp, width_hp.
  rewrite (mapM_Ret _ (fun i => g (2 * (u0 / 2 + i) + 1))).
  - f_equal. unfold range. now rewrite map_map.
  - intros i Hi. apply zseq_In in Hi. rewrite rdT_range by lia. do 2 f_equal. lia.
Qed.

Lemma interleave_even {T} (g : Z -> T) u0 u1 : 0 <= u0 <= u1 -> u0 mod 2 = 0 ->
  interleave (map (fun k => g (2 * k)) (range (ceil2 u0) (ceil2 u1)))
             (map (fun k => g (2 * k + 1)) (range (u0 / 2) (u1 / 2))) = map g (range u0 u1).
Proof.
  intros H E. unfold ceil2.
  assert (La : zlen (map (fun k => g (2 * k)) (range ((u0 + 1) / 2) ((u1 + 1) / 2))) = (u1 + 1) / 2 - (u0 + 1) / 2)
    by (rewrite map_range_len; lia).
  assert (Lb : zlen (map (fun k => g (2 * k + 1)) (range (u0 / 2) (u1 / 2))) = u1 / 2 - u0 / 2)
    by (rewrite map_range_len; lia).
  apply (znth_ext (g 0)).
  - rewrite interleave_len, La, Lb, map_range_len; lia.
  - intros i Hi. rewrite interleave_len, La, Lb in Hi.
    rewrite interleave_nth by (rewrite La, Lb; lia).
    destruct (Z.eqb_spec (i mod 2) 0); rewrite !map_range_nth by lia; f_equal; lia.
Qed.
Lemma interleave_odd {T} (g : Z -> T) u0 u1 : 0 <= u0 <= u1 -> u0 mod 2 <> 0 ->
  interleave (map (fun k => g (2 * k + 1)) (range (u0 / 2) (u1 / 2)))
             (map (fun k => g (2 * k)) (range (ceil2 u0) (ceil2 u1))) = map g (range u0 u1).
Proof.
  intros H E. unfold ceil2.
  assert (La : zlen (map (fun k => g (2 * k)) (range ((u0 + 1) / 2) ((u1 + 1) / 2))) = (u1 + 1) / 2 - (u0 + 1) / 2)
    by (rewrite map_range_len; lia).
  assert (Lb : zlen (map (fun k => g (2 * k + 1)) (range (u0 / 2) (u1 / 2))) = u1 / 2 - u0 / 2)
    by (rewrite map_range_len; lia).
  apply (znth_ext (g 0)).
  - rewrite interleave_len, La, Lb, map_range_len; lia.
  - intros i Hi. rewrite interleave_len, La, Lb in Hi.
    rewrite interleave_nth by (rewrite La, Lb; lia).
    destruct (Z.eqb_spec (i mod 2) 0); rewrite !map_range_nth by lia; f_equal; lia.
Qed.

Lemma planes_interleave u0 (row : list Z) : 0 <= u0 ->
  exists lp hp, plane_lp u0 (u0 + zlen row) row = Ret lp /\ plane_hp u0 (u0 + zlen row) row = Ret hp
    /\ zlen lp = width_lp u0 (u0 + zlen row) /\ zlen hp = width_hp u0 (u0 + zlen row)
    /\ (if u0 mod 2 =? 0 then interleave lp hp else interleave hp lp) = row.
Proof.
  intros H. pose proof (zlen_nonneg row).
  set (g := fun j => znth 0 row (j - u0)). set (u1 := u0 + zlen row).
  assert (E : row = map g (range u0 u1)) by apply (list_as_range 0).
  exists (map (fun k => g (2 * k)) (range (ceil2 u0) (ceil2 u1))).
  exists (map (fun k => g (2 * k + 1)) (range (u0 / 2) (u1 / 2))).
  split; [| split; [| split; [| split]]].
  - rewrite E. apply plane_lp_range. unfold u1. lia.
  - rewrite E. apply plane_hp_range. unfold u1. lia.
  - rewrite map_range_len; unfold width_lp, ceil2, u1; lia.
  - rewrite map_range_len; unfold width_hp, u1; lia.
  - destruct (Z.eqb_spec (u0 mod 2) 0).
    + rewrite interleave_even; [symmetry; exact E | unfold u1; lia | assumption].
    + rewrite interleave_odd; [symmetry; exact E | unfold u1; lia | assumption].
Qed.

(** Forward filtering, splitting into planes, and inverse filtering from the
    planes: the path a row takes through encoder and decoder. *)
Lemma planar_round_trip u0 row : 0 <= u0 -> 1 <= zlen row ->
  exists y lp hp, fwd_row u0 (u0 + zlen row) row = Ret y /\ zlen y = zlen row
    /\ plane_lp u0 (u0 + zlen row) y = Ret lp /\ plane_hp u0 (u0 + zlen row) y = Ret hp
    /\ zlen lp = width_lp u0 (u0 + zlen row) /\ zlen hp = width_hp u0 (u0 + zlen row)
    /\ inv_row_planar u0 (u0 + zlen row) lp hp = Ret row.
Proof.
  intros H0 H. destruct (Z.eq_dec (zlen row) 1) as [L1 | L1].
  - destruct row as [| x [| x' row]]; [discriminate L1 | | rewrite !zlen_cons in L1; pose proof (zlen_nonneg row); lia].
    rewrite L1.
    assert (F : fwd_row u0 (u0 + 1) [x] = Ret [if u0 mod 2 =? 0 then x else 2 * x]).
    { unfold fwd_row. now rewrite Z.eqb_refl. }
    rewrite F. set (y := [if u0 mod 2 =? 0 then x else 2 * x]).
    destruct (planes_interleave u0 y H0) as [lp [hp [E1 [E2 [E3 [E4 E5]]]]]].
    change (zlen y) with 1 in *. exists y, lp, hp. do 6 (split; [assumption || reflexivity |]).
    unfold inv_row_planar. replace (u0 + 1 - u0) with 1 by lia. cbn [Z.leb Z.eqb].
    unfold width_lp, ceil2 in E3. unfold width_hp in E4.
    destruct (Z.eqb_spec (u0 mod 2) 0) as [E | E].
    + assert (zlen hp = 0) by lia. assert (hp = []) as -> by now apply zlen_0.
      assert (lp = [x]) as ->.
      { unfold y in E5. destruct lp as [| a [| b lp]]; cbn [interleave] in E5; congruence. }
      reflexivity.
    + assert (zlen lp = 0) by lia. assert (lp = []) as -> by now apply zlen_0.
      assert (hp = [2 * x]) as ->.
      { unfold y in E5. destruct hp as [| a [| b hp]]; cbn [interleave] in E5; congruence. }
      change (1 <=? 0) with false. change (1 =? 1)%positive with true. cbn iota.
      change (rdT [2 * x] 0) with (Ret (2 * x)). cbn [bind]. do 2 f_equal.
      rewrite Z.shiftr_div_pow2 by lia. change (2 ^ 1) with 2. lia.
  - destruct (row_round_trip u0 row H0 ltac:(lia)) as [y [F [L I]]].
    destruct (planes_interleave u0 y H0) as [lp [hp [E1 [E2 [E3 [E4 E5]]]]]]. rewrite L in *.
    exists y, lp, hp. do 6 (split; [assumption |]).
    unfold inv_row_planar. replace (u0 + zlen row - u0) with (zlen row) by lia.
    destruct (Z.leb_spec (zlen row) 0); [lia |]. destruct (Z.eqb_spec (zlen row) 1); [lia |].
    rewrite E5. exact I.
Qed.
