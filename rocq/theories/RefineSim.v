(** SigProp and MagRef on the arrays of the code against those on the
    coefficients. *)
From Verif Require Import Base BaseLemmas OutModel OutProofs StripProofs PassModel PassSpec PassProofs DequantProofs RefineModel RefineSpec RefineProofs.

Lemma row_bits a b c : (Z.testbit a 3 = true -> Z.testbit a 4 = true) -> (Z.testbit b 3 = true -> Z.testbit b 4 = true) -> (Z.testbit c 3 = true -> Z.testbit c 4 = true) ->
  forall m, m = Z.lor (Z.lor a b) c -> Z.testbit m 0 || (Z.testbit m 3 && Z.testbit m 4) = (Z.testbit a 0 || Z.testbit a 3) || (Z.testbit b 0 || Z.testbit b 3) || (Z.testbit c 0 || Z.testbit c 3).
Proof.
  intros Ha Hb Hc m ->. rewrite !Z.lor_spec. destruct (Z.testbit a 0), (Z.testbit b 0), (Z.testbit c 0); try reflexivity; try (rewrite ?orb_true_r; reflexivity).
  destruct (Z.testbit a 3); [rewrite (Ha eq_refl)|]; (destruct (Z.testbit b 3); [rewrite (Hb eq_refl)|]); (destruct (Z.testbit c 3); [rewrite (Hc eq_refl)|]); cbn; rewrite ?orb_true_r; reflexivity.
Qed.

Lemma up2_eq {A} (f : Z -> Z -> A) y x v : up2 f y x v y x = v.
Proof. unfold up2. rewrite !Z.eqb_refl. reflexivity. Qed.

Section SP.
  Variables w h : Z.
  Variable causal : bool.
  Variable D : list Z.
  Variable p : Z.
  Variable sigma : Z -> Z -> bool.
  Variable base : Z -> Z -> Z.
  Hypothesis Hp : 1 <= p <= 29.
  Notation inside := (inside w h).
  Notation adr := (adr w).
  Notation sadr := (sadr w).
  Notation near := (near w h causal sigma).
  Notation lit := (lit w h causal sigma).
  Notation mag_step := (mag_step w h causal sigma).
  Notation B := (sp_bit D).

  Lemma inside_iff y x : inside y x = true <-> 0 <= y < h /\ 0 <= x < w.
  Proof using. clear. unfold RefineSpec.inside. rewrite !andb_true_iff, !Z.leb_le, !Z.ltb_lt. tauto. Qed.

  Definition nval (n m : bool) : Z := if n then 3 * 2 ^ (p - 1) + Z.b2z m * 2 ^ 31 else 0.
  Record RS (b : ref spdec) (s : news) : Prop := {
    rs_sig : forall y x, inside y x = true -> Z.testbit (r_st b (adr y x)) 0 = sigma y x;
    rs_new : forall y x, inside y x = true -> Z.testbit (r_st b (adr y x)) 3 = new s y x;
    rs_scan : forall y x, inside y x = true -> new s y x = true -> Z.testbit (r_st b (adr y x)) 4 = true;
    rs_border : forall y x, -1 <= y <= h -> -1 <= x <= w -> inside y x = false -> r_st b (adr y x) = 0;
    rs_sm : forall y x, inside y x = true -> r_sm b (sadr y x) = if sigma y x then base y x else nval (new s y x) (minus s y x);
    rs_old : forall y x, sigma y x = true -> new s y x = false;
    rs_minus : forall y x, new s y x = false -> minus s y x = false;
    rs_src : Rsp D (r_src b) (used s) }.

  Lemma ld_st_in {A} (b : ref A) y x : -1 <= y <= h -> -1 <= x <= w -> ld_st w h b (adr y x) = Ret (r_st b (adr y x)).
  Proof using. clear. intros Hy Hx. unfold ld_st. rewrite (adr_in w h) by assumption. reflexivity. Qed.
  Lemma ld_sm_in {A} (b : ref A) y x : inside y x = true -> ld_sm w h b (x + y * sstr w) = Ret (r_sm b (sadr y x)).
  Proof using. clear. intros H. apply inside_iff in H. unfold ld_sm. replace (x + y * sstr w) with (sadr y x) by (unfold PassProofs.sadr; lia). rewrite (sadr_in w h) by exact H. reflexivity. Qed.
  Lemma adr_eqb y x y' x' : -1 <= x <= w -> -1 <= x' <= w -> (adr y' x' =? adr y x) = (y' =? y) && (x' =? x).
  Proof using. clear.
    intros H H'. destruct (Z.eqb_spec (adr y' x') (adr y x)) as [E|N].
    - apply adr_inj in E as [-> ->]; [|assumption|assumption]. rewrite !Z.eqb_refl. reflexivity.
    - destruct (Z.eqb_spec y' y), (Z.eqb_spec x' x); try reflexivity. subst. exfalso. apply N. reflexivity.
  Qed.
  Lemma sadr_eqb y x y' x' : 0 <= x < w -> 0 <= x' < w -> (sadr y' x' =? sadr y x) = (y' =? y) && (x' =? x).
  Proof using. clear.
    intros H H'. destruct (Z.eqb_spec (sadr y' x') (sadr y x)) as [E|N].
    - apply sadr_inj in E as [-> ->]; [|assumption|assumption]. rewrite !Z.eqb_refl. reflexivity.
    - destruct (Z.eqb_spec y' y), (Z.eqb_spec x' x); try reflexivity. subst. exfalso. apply N. reflexivity.
  Qed.

  (** The neighbourhood. *)
  Lemma cell_bits b s y x : RS b s -> -1 <= y <= h -> -1 <= x <= w ->
    (Z.testbit (r_st b (adr y x)) 3 = true -> Z.testbit (r_st b (adr y x)) 4 = true) /\
    Z.testbit (r_st b (adr y x)) 0 || Z.testbit (r_st b (adr y x)) 3 = inside y x && (sigma y x || new s y x).
  Proof using. clear.
    intros R Hy Hx. destruct (inside y x) eqn:E.
    - split; [intros H; apply (rs_scan _ _ R _ _ E); rewrite (rs_new _ _ R _ _ E) in H; exact H|]. rewrite (rs_sig _ _ R _ _ E), (rs_new _ _ R _ _ E). reflexivity.
    - rewrite (rs_border _ _ R _ _ Hy Hx E), !Z.bits_0. split; [discriminate|reflexivity].
  Qed.
  Lemma calc_mbr_near b s y x (c : bool) : RS b s -> inside y x = true ->
    (forall x', inside (y + 1) x' && negb (causal && (y / 4 <? (y + 1) / 4)) = inside (y + 1) x' && c) ->
    calc_mbr w h b y x (Z.b2z c) = Ret (Z.b2z (near s y x)).
  Proof using. clear.
    intros R Hi Hc. pose proof (proj1 (inside_iff _ _) Hi) as [Hy Hx]. unfold calc_mbr. cbv zeta.
    replace (y * tstr w + x) with (adr (y - 1) (x - 1)) by (unfold PassProofs.adr; lia). replace (adr (y - 1) (x - 1) + 1) with (adr (y - 1) x) by (unfold PassProofs.adr; lia). replace (adr (y - 1) (x - 1) + 2) with (adr (y - 1) (x + 1)) by (unfold PassProofs.adr; lia).
    replace ((y + 1) * tstr w + x) with (adr y (x - 1)) by (unfold PassProofs.adr; lia). replace (adr y (x - 1) + 2) with (adr y (x + 1)) by (unfold PassProofs.adr; lia).
    replace ((y + 2) * tstr w + x) with (adr (y + 1) (x - 1)) by (unfold PassProofs.adr; lia). replace (adr (y + 1) (x - 1) + 1) with (adr (y + 1) x) by (unfold PassProofs.adr; lia). replace (adr (y + 1) (x - 1) + 2) with (adr (y + 1) (x + 1)) by (unfold PassProofs.adr; lia).
    rewrite !ld_st_in by lia. cbn [bind]. f_equal. rewrite land1_bit. f_equal.
    destruct (cell_bits b s (y - 1) (x - 1) R ltac:(lia) ltac:(lia)) as [A0 A0']. destruct (cell_bits b s (y - 1) x R ltac:(lia) ltac:(lia)) as [A1 A1']. destruct (cell_bits b s (y - 1) (x + 1) R ltac:(lia) ltac:(lia)) as [A2 A2'].
    destruct (cell_bits b s y (x - 1) R ltac:(lia) ltac:(lia)) as [B0 B0']. destruct (cell_bits b s y (x + 1) R ltac:(lia) ltac:(lia)) as [B2 B2'].
    destruct (cell_bits b s (y + 1) (x - 1) R ltac:(lia) ltac:(lia)) as [C0 C0']. destruct (cell_bits b s (y + 1) x R ltac:(lia) ltac:(lia)) as [C1 C1']. destruct (cell_bits b s (y + 1) (x + 1) R ltac:(lia) ltac:(lia)) as [C2 C2'].
    pose proof (row_bits _ _ _ A0 A1 A2 _ eq_refl) as RA. pose proof (row_bits _ _ _ B0 B2 B2 _ eq_refl) as RB. pose proof (row_bits _ _ _ C0 C1 C2 _ eq_refl) as RC.
    rewrite <- Z.lor_assoc, Z.lor_diag in RB. rewrite <- orb_assoc, orb_diag in RB.
    rewrite A0', A1', A2' in RA. rewrite B0', B2' in RB. rewrite C0', C1', C2' in RC.
    set (m0 := Z.lor (Z.lor _ _) _) in *. set (m1 := Z.lor _ _) in RB. set (m2 := Z.lor (Z.lor _ _) _) in RC.
    fold m1. fold m2. rewrite !Z.lor_spec, !Z.land_spec, !Z.shiftr_spec by lia. cbn [Z.add]. replace (Z.testbit (Z.b2z c) 0) with c by (destruct c; reflexivity).
    transitivity ((Z.testbit m0 0 || Z.testbit m0 3 && Z.testbit m0 4) || (Z.testbit m1 0 || Z.testbit m1 3 && Z.testbit m1 4) || (c && (Z.testbit m2 0 || Z.testbit m2 3 && Z.testbit m2 4))).
    { destruct (Z.testbit m0 0), (Z.testbit m1 0), (Z.testbit m2 0), c, (Z.testbit m0 3 && Z.testbit m0 4), (Z.testbit m1 3 && Z.testbit m1 4), (Z.testbit m2 3 && Z.testbit m2 4); reflexivity. }
    rewrite RA, RB, RC. unfold RefineSpec.near, RefineSpec.lit.
    replace (y / 4 <? (y - 1) / 4) with false by lia. replace (y / 4 <? y / 4) with false by lia. rewrite !Hc, andb_false_r. cbn [negb]. rewrite !andb_true_r.
    generalize (inside (y - 1) (x - 1) && (sigma (y - 1) (x - 1) || new s (y - 1) (x - 1))), (inside (y - 1) x && (sigma (y - 1) x || new s (y - 1) x)), (inside (y - 1) (x + 1) && (sigma (y - 1) (x + 1) || new s (y - 1) (x + 1))),
      (inside y (x - 1) && (sigma y (x - 1) || new s y (x - 1))), (inside y (x + 1) && (sigma y (x + 1) || new s y (x + 1))).
    intros q1 q2 q3 q4 q5. destruct q1, q2, q3, q4, q5; try reflexivity. cbn [orb].
    destruct c; cbn [andb]; rewrite ?andb_true_r, ?andb_false_r; reflexivity.
  Qed.

  Lemma flag_bits v f : Z.testbit (Z.lor v f) 0 = Z.testbit v 0 || Z.testbit f 0 /\ Z.testbit (Z.lor v f) 3 = Z.testbit v 3 || Z.testbit f 3 /\ Z.testbit (Z.lor v f) 4 = Z.testbit v 4 || Z.testbit f 4.
  Proof using. clear. rewrite !Z.lor_spec. repeat split. Qed.

  Lemma or_state_in {A} (b : ref A) y x v : inside y x = true ->
    or_state w h b (adr y x) v = Ret (Ref (fun j => if j =? adr y x then Z.lor (r_st b (adr y x)) v else r_st b j) (r_sm b) (r_src b)).
  Proof using. clear. intros H. apply inside_iff in H. unfold or_state. rewrite ld_st_in by lia. reflexivity. Qed.
  Lemma set_sample_in {A} (b : ref A) y x v : inside y x = true ->
    set_sample w h b (x + y * sstr w) v = Ret (Ref (r_st b) (fun j => if j =? sadr y x then v else r_sm b j) (r_src b)).
  Proof using. clear. intros H. unfold set_sample. rewrite ld_sm_in by exact H. cbn [bind]. replace (x + y * sstr w) with (sadr y x) by (unfold PassProofs.sadr; lia). reflexivity. Qed.

  (** One cell: magnitude. *)
  Lemma mag_at bot b s y x : RS b s -> inside y x = true -> new s y x = false ->
    (y < bot - 1 -> (y + 1) / 4 = y / 4) -> (y = bot - 1 -> y / 4 < (y + 1) / 4 \/ h <= y + 1) -> y < bot ->
    exists b', sp_mag_at w h causal D p bot b x y = Ret b' /\ RS b' (mag_step B s (y, x)).
  Proof using Hp.
    intros R Hi Hn H1 H2 H3. pose proof (proj1 (inside_iff _ _) Hi) as [Hy Hx]. unfold sp_mag_at.
    change ((y + 1) * tstr w + (x + 1)) with (adr y x). cbv zeta. rewrite ld_st_in by lia. cbn [bind].
    rewrite land1_bit, Z.shiftr_0_r, (rs_sig _ _ R _ _ Hi).
    assert (K : forall f m sr n', (forall y' x', inside y' x' = true -> (y' =? y) && (x' =? x) = false -> new n' y' x' = new s y' x') -> (forall y' x', minus n' y' x' = minus s y' x') ->
              Z.testbit f 0 = false -> Z.testbit f 3 = new n' y x -> Z.testbit f 4 = true -> m = (if sigma y x then base y x else nval (new n' y x) (minus s y x)) -> (sigma y x = true -> new n' y x = false) ->
              (forall y' x', (y' =? y) && (x' =? x) = false -> new n' y' x' = new s y' x') -> Rsp D sr (used n') ->
              RS (Ref (fun j => if j =? adr y x then Z.lor (r_st b (adr y x)) f else r_st b j) (fun j => if j =? sadr y x then m else r_sm b j) sr) n').
    { intros f m sr n' N1 N2 F0 F3 F4 M So Ne Rs. destruct R as [R0 R3 R4 Rb Rm Ro Rmi Rr].
      assert (Hnm : minus s y x = false) by (apply Rmi; exact Hn).
      split; cbn [r_st r_sm r_src].
      - intros y' x' H. pose proof (proj1 (inside_iff _ _) H). rewrite adr_eqb by lia. destruct ((y' =? y) && (x' =? x)) eqn:E; [|apply R0; exact H]. apply andb_true_iff in E as [->%Z.eqb_eq ->%Z.eqb_eq]. rewrite Z.lor_spec, F0, orb_false_r. apply R0. exact H.
      - intros y' x' H. pose proof (proj1 (inside_iff _ _) H). rewrite adr_eqb by lia. destruct ((y' =? y) && (x' =? x)) eqn:E; [|rewrite Ne by exact E; apply R3; exact H]. apply andb_true_iff in E as [->%Z.eqb_eq ->%Z.eqb_eq]. rewrite Z.lor_spec, F3, (R3 _ _ H), Hn. reflexivity.
      - intros y' x' H. pose proof (proj1 (inside_iff _ _) H). rewrite adr_eqb by lia. destruct ((y' =? y) && (x' =? x)) eqn:E; [|rewrite Ne by exact E; apply R4; exact H]. rewrite Z.lor_spec, F4, orb_true_r. reflexivity.
      - intros y' x' H H' Ho. rewrite adr_eqb by lia. destruct ((y' =? y) && (x' =? x)) eqn:E; [|apply Rb; assumption]. apply andb_true_iff in E as [->%Z.eqb_eq ->%Z.eqb_eq]. congruence.
      - intros y' x' H. pose proof (proj1 (inside_iff _ _) H). rewrite sadr_eqb by lia. destruct ((y' =? y) && (x' =? x)) eqn:E; [|rewrite Ne, N2 by exact E; apply Rm; exact H]. apply andb_true_iff in E as [->%Z.eqb_eq ->%Z.eqb_eq]. rewrite N2. exact M.
      - intros y' x' H. destruct ((y' =? y) && (x' =? x)) eqn:E; [|rewrite Ne by exact E; apply Ro; exact H]. apply andb_true_iff in E as [->%Z.eqb_eq ->%Z.eqb_eq]. apply So. exact H.
      - intros y' x' H. rewrite N2. destruct ((y' =? y) && (x' =? x)) eqn:E; [|rewrite Ne in H by exact E; apply Rmi; exact H]. apply andb_true_iff in E as [->%Z.eqb_eq ->%Z.eqb_eq]. exact Hnm.
      - exact Rs. }
    assert (Plain : exists b', or_state w h b (adr y x) 16 = Ret b' /\ RS b' s).
    { rewrite or_state_in by exact Hi. eexists. split; [reflexivity|]. specialize (K 16 (r_sm b (sadr y x)) (r_src b) s).
      assert (Q : RS (Ref (fun j => if j =? adr y x then Z.lor (r_st b (adr y x)) 16 else r_st b j) (fun j => if j =? sadr y x then r_sm b (sadr y x) else r_sm b j) (r_src b)) s).
      { apply K; [intros; reflexivity|intros; reflexivity|reflexivity|rewrite Hn; reflexivity|reflexivity|rewrite (rs_sm _ _ R _ _ Hi); reflexivity|intros _; exact Hn|intros; reflexivity|exact (rs_src _ _ R)]. }
      destruct Q as [Q0 Q3 Q4 Qb Qm Qo Qmi Qr]. split; try assumption. intros y' x' H. rewrite <- (Qm y' x' H). cbn [r_sm]. destruct (Z.eqb_spec (sadr y' x') (sadr y x)) as [->|_]; reflexivity. }
    unfold RefineSpec.mag_step. destruct (sigma y x) eqn:Es; cbn [negb andb Z.b2z].
    - change (1 =? 0) with false. cbn [bind]. change (0 =? 0) with true. cbn [bind]. exact Plain.
    - change (0 =? 0) with true. cbn [bind].
      replace (if negb causal || negb (y =? bot - 1) then 1 else 0) with (Z.b2z (negb causal || negb (y =? bot - 1))) by (destruct (negb causal || negb (y =? bot - 1)); reflexivity).
      rewrite (calc_mbr_near b s y x _ R Hi).
      2:{ intros x'. destruct causal; [|reflexivity]. cbn [negb orb andb]. destruct (Z.eqb_spec y (bot - 1)) as [E|E]; cbn [negb].
          - destruct (H2 E) as [G|G]; [replace (y / 4 <? (y + 1) / 4) with true by lia; reflexivity|]. replace (inside (y + 1) x') with false; [reflexivity|]. symmetry. apply not_true_iff_false. rewrite inside_iff. lia.
          - rewrite H1 by lia. rewrite Z.ltb_irrefl. reflexivity. }
      cbn [bind]. destruct (near s y x) eqn:En; cbn [Z.b2z]; [|change (0 =? 0) with true; cbn [bind]; exact Plain].
      change (1 =? 0) with false. rewrite or_state_in by exact Hi. cbn [bind r_src r_st r_sm].
      destruct (import_sp_R D _ _ (rs_src _ _ R)) as (sr & -> & Rs). cbn [bind]. rewrite or_state_in by exact Hi. cbn [bind]. rewrite ld_sm_in by exact Hi. cbn [bind r_st r_sm r_src]. rewrite set_sample_in by exact Hi. cbn [bind]. rewrite or_state_in by exact Hi. cbn [r_st r_sm r_src].
      rewrite !Z.eqb_refl. eexists. split; [reflexivity|].
      specialize (K (Z.lor (Z.lor 4 (Z.b2z (B (used s)) * 8)) 16) (nval (B (used s)) false) sr (News (up2 (new s) y x (B (used s))) (minus s) (S (used s)))).
      assert (Hm : minus s y x = false) by (apply (rs_minus _ _ R); exact Hn).
      assert (Q : RS (Ref (fun j => if j =? adr y x then Z.lor (r_st b (adr y x)) (Z.lor (Z.lor 4 (Z.b2z (B (used s)) * 8)) 16) else r_st b j) (fun j => if j =? sadr y x then nval (B (used s)) false else r_sm b j) sr) (News (up2 (new s) y x (B (used s))) (minus s) (S (used s)))).
      { apply K; cbn [new minus used].
        - intros y' x' _ E. unfold up2. rewrite E. reflexivity.
        - reflexivity.
        - destruct (B (used s)); reflexivity.
        - rewrite up2_eq. destruct (B (used s)); reflexivity.
        - destruct (B (used s)); reflexivity.
        - rewrite up2_eq, Hm. reflexivity.
        - discriminate.
        - intros y' x' E. unfold up2. rewrite E. reflexivity.
        - exact Rs. }
      assert (V : Z.lor (Z.lor (r_sm b (sadr y x)) (Z.b2z (B (used s)) * 2 ^ p)) (Z.b2z (B (used s)) * 2 ^ (p - 1)) = nval (B (used s)) false).
      { rewrite (rs_sm _ _ R _ _ Hi), Es, Hn. cbn [nval]. rewrite Z.lor_0_l. destruct (B (used s)); cbn [Z.b2z nval]; [|rewrite !Z.mul_0_l; reflexivity].
        rewrite !Z.mul_1_l, Z.mul_0_l, Z.add_0_r. rewrite lor_add; [|lia|exists 1; rewrite Z.mul_1_l; f_equal; lia|apply Z.pow_nonneg; lia].
        replace p with (1 + (p - 1)) at 1 by lia. rewrite Z.pow_add_r by lia. change (2 ^ 1) with 2. lia. }
      destruct Q as [Q0 Q3 Q4 Qb Qm Qo Qmi Qr]. cbn [r_st r_sm r_src] in *.
      assert (Es' : forall j, (if j =? adr y x then Z.lor (Z.lor (Z.lor (r_st b (adr y x)) 4) (Z.b2z (B (used s)) * 8)) 16 else if j =? adr y x then Z.lor (Z.lor (r_st b (adr y x)) 4) (Z.b2z (B (used s)) * 8) else if j =? adr y x then Z.lor (r_st b (adr y x)) 4 else r_st b j) =
               (if j =? adr y x then Z.lor (r_st b (adr y x)) (Z.lor (Z.lor 4 (Z.b2z (B (used s)) * 8)) 16) else r_st b j)).
      { intros j. destruct (j =? adr y x); [rewrite !Z.lor_assoc; reflexivity|reflexivity]. }
      split; cbn [r_st r_sm r_src]; try assumption.
      + intros y' x' H. rewrite Es'. apply Q0. exact H.
      + intros y' x' H. rewrite Es'. apply Q3. exact H.
      + intros y' x' H. rewrite Es'. apply Q4. exact H.
      + intros y' x' H H' Ho. rewrite Es'. apply Qb; assumption.
      + intros y' x' H. rewrite <- (Qm y' x' H). destruct (sadr y' x' =? sadr y x); [exact V|reflexivity].
  Qed.

  (** One cell: sign. *)
  Lemma sign_at b s y x : RS b s -> inside y x = true -> minus s y x = false ->
    exists b', sp_sign_at w h D b x y = Ret b' /\ RS b' (sign_step B s (y, x)).
  Proof using Hp.
    intros R Hi Hn. pose proof (proj1 (inside_iff _ _) Hi) as [Hy Hx]. unfold sp_sign_at, sign_step.
    change ((y + 1) * tstr w + (x + 1)) with (adr y x). rewrite ld_st_in by lia. cbn [bind].
    rewrite land1_bit, Z.shiftr_spec by lia. cbn [Z.add]. rewrite (rs_new _ _ R _ _ Hi).
    destruct (new s y x) eqn:En; cbn [Z.b2z]; [|change (0 =? 0) with true; exists b; split; [reflexivity|exact R]]. change (1 =? 0) with false. cbn [negb].
    destruct (import_sp_R D _ _ (rs_src _ _ R)) as (sr & -> & Rs). cbn [bind]. cbv zeta. rewrite ld_sm_in by exact Hi. cbn [bind r_sm]. rewrite set_sample_in by exact Hi. cbn [r_st r_sm r_src]. eexists. split; [reflexivity|].
    assert (Hs : sigma y x = false) by (destruct (sigma y x) eqn:E; [rewrite (rs_old _ _ R _ _ E) in En; discriminate|reflexivity]).
    assert (V : Z.lor (r_sm b (sadr y x)) (Z.b2z (B (used s)) * 2 ^ 31) = nval true (B (used s))).
    { rewrite (rs_sm _ _ R _ _ Hi), Hs, En, Hn. cbn [nval]. destruct (B (used s)); cbn [Z.b2z]; [|rewrite !Z.mul_0_l, Z.lor_0_r; reflexivity].
      rewrite Z.mul_0_l, Z.add_0_r, Z.mul_1_l, Z.lor_comm.
      assert (L : 0 <= 3 * 2 ^ (p - 1) < 2 ^ 31). { pose proof (Z.pow_pos_nonneg 2 (p - 1) ltac:(lia) ltac:(lia)). pose proof (Z.pow_le_mono_r 2 (p - 1) 28 ltac:(lia) ltac:(lia)) as X. change (2 ^ 28) with 268435456 in X. change (2 ^ 31) with 2147483648. lia. }
      rewrite Z.add_comm, <- Z.lxor_lor, <- Z.add_nocarry_lxor; [reflexivity| |];
      apply Z.bits_inj'; intros j Hj; rewrite Z.land_spec, Z.bits_0, Z.pow2_bits_eqb by lia; (destruct (Z.eqb_spec 31 j) as [<-|N]; [|reflexivity]); cbn [andb]; destruct (Z.eqb_spec (3 * 2 ^ (p - 1)) 0) as [->|Z0]; try (apply Z.bits_0); apply Z.bits_above_log2; try lia; apply Z.log2_lt_pow2; lia. }
    destruct R as [R0 R3 R4 Rb Rm Ro Rmi Rr]. split; cbn [r_st r_sm r_src new minus used]; try assumption.
    - intros y' x' H. pose proof (proj1 (inside_iff _ _) H). rewrite sadr_eqb by lia. unfold up2. destruct ((y' =? y) && (x' =? x)) eqn:E; [|apply Rm; exact H]. apply andb_true_iff in E as [->%Z.eqb_eq ->%Z.eqb_eq]. rewrite Hs, En. exact V.
    - intros y' x' H. unfold up2. destruct ((y' =? y) && (x' =? x)) eqn:E; [|apply Rmi; exact H]. apply andb_true_iff in E as [->%Z.eqb_eq ->%Z.eqb_eq]. congruence.
  Qed.

  (** ** Groups *)
  Lemma mag_new l : forall s y x, ~ In (y, x) l -> new (fold_left (mag_step B) l s) y x = new s y x.
  Proof using. clear.
    induction l as [|[y1 x1] l IH]; intros s y x H; [reflexivity|]. cbn [fold_left]. rewrite IH by (intros C; apply H; right; exact C).
    unfold RefineSpec.mag_step. destruct (negb (sigma y1 x1) && near s y1 x1); [|reflexivity]. cbn [new]. unfold up2. destruct ((y =? y1) && (x =? x1)) eqn:E; [|reflexivity]. apply andb_true_iff in E as [->%Z.eqb_eq ->%Z.eqb_eq]. exfalso. apply H. left. reflexivity.
  Qed.
  Lemma mag_minus l : forall s, minus (fold_left (mag_step B) l s) = minus s.
  Proof using. clear. induction l as [|[y1 x1] l IH]; intros s; [reflexivity|]. cbn [fold_left]. rewrite IH. unfold RefineSpec.mag_step. destruct (negb (sigma y1 x1) && near s y1 x1); reflexivity. Qed.
  Lemma sign_new l : forall s, new (fold_left (sign_step B) l s) = new s.
  Proof using. clear. induction l as [|[y1 x1] l IH]; intros s; [reflexivity|]. cbn [fold_left]. rewrite IH. unfold sign_step. destruct (new s y1 x1); reflexivity. Qed.

  Definition bot_ok (bot y : Z) : Prop := (y < bot - 1 -> (y + 1) / 4 = y / 4) /\ (y = bot - 1 -> y / 4 < (y + 1) / 4 \/ h <= y + 1) /\ y < bot.
  Lemma mags bot l : NoDup l -> forall b s, RS b s -> (forall y x, In (y, x) l -> inside y x = true /\ new s y x = false /\ bot_ok bot y) ->
    exists b', foldo (fun a yx => sp_mag_at w h causal D p bot a (snd yx) (fst yx)) b l = Ret b' /\ RS b' (fold_left (mag_step B) l s).
  Proof using Hp.
    induction l as [|[y x] l IH]; intros Hn b s R H; [exists b; split; [reflexivity|exact R]|]. inversion_clear Hn as [|? ? Hx Hl]. cbn [foldo fold_left fst snd].
    destruct (H y x (or_introl eq_refl)) as (Hi & Hnw & G1 & G2 & G3). destruct (mag_at bot b s y x R Hi Hnw G1 G2 G3) as (b1 & -> & R1). cbn [bind]. apply (IH Hl b1 _ R1).
    intros y' x' H'. destruct (H y' x' (or_intror H')) as (Hi' & Hnw' & G'). split; [exact Hi'|]. split; [|exact G'].
    rewrite <- Hnw'. apply (mag_new [(y, x)] s y' x'). intros [E|[]]. injection E as <- <-. exact (Hx H').
  Qed.
  Lemma signs l : NoDup l -> forall b s, RS b s -> (forall y x, In (y, x) l -> inside y x = true /\ minus s y x = false) ->
    exists b', foldo (fun a yx => sp_sign_at w h D a (snd yx) (fst yx)) b l = Ret b' /\ RS b' (fold_left (sign_step B) l s).
  Proof using Hp.
    induction l as [|[y x] l IH]; intros Hn b s R H; [exists b; split; [reflexivity|exact R]|]. inversion_clear Hn as [|? ? Hx Hl]. cbn [foldo fold_left fst snd].
    destruct (H y x (or_introl eq_refl)) as (Hi & Hm). destruct (sign_at b s y x R Hi Hm) as (b1 & -> & R1). cbn [bind]. apply (IH Hl b1 _ R1).
    intros y' x' H'. destruct (H y' x' (or_intror H')) as (Hi' & Hm'). split; [exact Hi'|]. rewrite <- Hm'. unfold sign_step. destruct (new s y x); [|reflexivity]. cbn [minus]. unfold up2.
    destruct ((y' =? y) && (x' =? x)) eqn:E; [|reflexivity]. apply andb_true_iff in E as [->%Z.eqb_eq ->%Z.eqb_eq]. exfalso. exact (Hx H').
  Qed.
  Definition proc (b : ref spdec) (ng : Z * Z) : out (ref spdec) :=
    process w h causal D p b (4 * fst ng) (4 * snd ng) (Z.min 4 (w - 4 * snd ng)) (Z.min 4 (h - 4 * fst ng)).
  Lemma proc_group b s n g : RS b s -> 0 <= n -> 0 <= g -> (forall y x, In (y, x) (group w h n g) -> new s y x = false) ->
    exists b', proc b (n, g) = Ret b' /\ RS b' (sp_group w h causal sigma B s (group w h n g)) /\
      forall y x, ~ In (y, x) (group w h n g) -> new (sp_group w h causal sigma B s (group w h n g)) y x = new s y x.
  Proof using Hp.
    intros R Hn Hg H. unfold proc, process. cbn [fst snd].
    rewrite (foldo_cells (fun b j i => sp_mag_at w h causal D p (4 * n + Z.min 4 (h - 4 * n)) b j i)). fold (group w h n g).
    destruct (mags (4 * n + Z.min 4 (h - 4 * n)) (group w h n g) (NoDup_cells _ _ _ _) b s R) as (b1 & E1 & R1).
    { intros y x Hi. split; [apply inside_iff; apply in_cells in Hi; lia|]. split; [apply H; exact Hi|]. apply in_cells in Hi. unfold bot_ok. lia. }
    rewrite E1. cbn [bind]. rewrite (foldo_cells (fun b j i => sp_sign_at w h D b j i)). fold (group w h n g).
    destruct (signs (group w h n g) (NoDup_cells _ _ _ _) b1 _ R1) as (b2 & E2 & R2).
    { intros y x Hi. split; [apply inside_iff; apply in_cells in Hi; lia|]. rewrite mag_minus. apply (rs_minus _ _ R). apply H. exact Hi. }
    exists b2. split; [exact E2|]. split; [exact R2|]. intros y x N. unfold sp_group. rewrite sign_new. apply mag_new. exact N.
  Qed.
  Lemma procs l : NoDup l -> (forall n g, In (n, g) l -> 0 <= n /\ 0 <= g) -> forall b s, RS b s -> (forall n g y x, In (n, g) l -> In (y, x) (group w h n g) -> new s y x = false) ->
    exists b', foldo proc b l = Ret b' /\ RS b' (fold_left (sp_group w h causal sigma B) (map (fun ng => group w h (fst ng) (snd ng)) l) s).
  Proof using Hp.
    induction l as [|[n g] l IH]; intros Hn H0 b s R H; [exists b; split; [reflexivity|exact R]|]. inversion_clear Hn as [|? ? Hx Hl]. cbn [foldo map fold_left fst snd].
    destruct (H0 n g (or_introl eq_refl)) as [A1 A2]. destruct (proc_group b s n g R A1 A2) as (b1 & -> & R1 & N1); [intros y x Hi; exact (H n g y x (or_introl eq_refl) Hi)|]. cbn [bind].
    apply (IH Hl); [intros; apply H0; right; assumption|exact R1|]. intros n' g' y x Hi Hc. rewrite N1; [exact (H n' g' y x (or_intror Hi) Hc)|].
    intros C. apply in_cells in C, Hc. destruct (H0 n' g' (or_intror Hi)). assert (n = n') by lia. assert (g = g') by lia. subst n' g'. exact (Hx Hi).
  Qed.
  Lemma zseq_up k : 0 <= k -> zseq ((k + 3) / 4) = zseq (k / 4) ++ (if k mod 4 =? 0 then [] else [k / 4]).
  Proof using. clear.
    intros H. destruct (Z.eqb_spec (k mod 4) 0) as [E|E]; [rewrite app_nil_r; f_equal; lia|]. rewrite <- zseq_snoc by lia. f_equal. lia.
  Qed.
  Lemma row_procs b n : 0 <= w -> 0 <= n -> sp_row w h causal D p b (4 * n) (Z.min 4 (h - 4 * n)) = foldo proc b (map (fun g => (n, g)) (zseq ((w + 3) / 4))).
  Proof using. clear.
    intros Hw Hn. unfold sp_row. rewrite foldo_map, zseq_up, foldo_app by exact Hw.
    rewrite (foldo_ext_in (fun b0 n0 => process w h causal D p b0 (4 * n) (4 * n0) 4 (Z.min 4 (h - 4 * n))) (fun a g => proc a (n, g))).
    - destruct (foldo (fun a g => proc a (n, g)) b (zseq (w / 4))) as [b1| |]; cbn [bind]; [|reflexivity|reflexivity]. destruct (Z.eqb_spec (w mod 4) 0) as [E|E]; [reflexivity|]. cbn [foldo]. unfold proc. cbn [fst snd].
      replace (Z.min 4 (w - 4 * (w / 4))) with (w mod 4) by lia. destruct (process _ _ _ _ _ _ _ _ _ _); reflexivity.
    - intros a g Hg. apply zseq_In in Hg. unfold proc. cbn [fst snd]. replace (Z.min 4 (w - 4 * g)) with 4 by lia. reflexivity.
  Qed.
  Lemma process_empty b y0 x0 ww : process w h causal D p b y0 x0 ww 0 = Ret b.
  Proof using. clear.
    unfold process. rewrite (zseq_0 0) by lia. cbn [foldo]. assert (K : forall l (b : ref spdec), foldo (fun b (_ : Z) => Ret b) b l = Ret b) by (induction l as [|? l IH]; intros b1; [reflexivity|apply IH]). rewrite (K (zseq ww) b). cbn [bind]. apply K.
  Qed.
  Lemma row_empty b y0 : sp_row w h causal D p b y0 0 = Ret b.
  Proof using. clear.
    unfold sp_row. rewrite (foldo_ext_in _ (fun b _ => Ret b)) by (intros; apply process_empty). assert (K : forall l (b : ref spdec), foldo (fun b (_ : Z) => Ret b) b l = Ret b) by (induction l as [|? l IH]; intros b1; [reflexivity|apply IH]).
    rewrite K. cbn [bind]. rewrite process_empty. destruct (w mod 4 =? 0); reflexivity.
  Qed.
  Theorem sigprop_run st sm : 0 <= w -> 0 <= h -> RS (Ref st sm sp_init) (News (fun _ _ => false) (fun _ _ => false) 0) ->
    exists st' sm' sr, ht_sigprop w h causal D p st sm = Ret (st', sm') /\ RS (Ref st' sm' sr) (sig_prop w h causal sigma D).
  Proof using Hp.
    intros Hw Hh R. set (l := flat_map (fun n => map (fun g => (n, g)) (zseq ((w + 3) / 4))) (zseq ((h + 3) / 4))).
    assert (E : ht_sigprop w h causal D p st sm = let* b := foldo proc (Ref st sm sp_init) l in Ret (r_st b, r_sm b)).
    { unfold ht_sigprop. replace (p =? 0) with false by lia. unfold l. rewrite foldo_flat, (zseq_up h Hh), foldo_app.
      rewrite (foldo_ext_in (fun b n => sp_row w h causal D p b (4 * n) 4) (fun a e => foldo proc a (map (fun g => (e, g)) (zseq ((w + 3) / 4))))).
      - destruct (foldo (fun a e => foldo proc a (map (fun g => (e, g)) (zseq ((w + 3) / 4)))) (Ref st sm sp_init) (zseq (h / 4))) as [b1| |]; cbn [bind]; [|reflexivity|reflexivity].
        destruct (Z.eqb_spec (h mod 4) 0) as [E|E]; [rewrite E, row_empty; reflexivity|]. cbn [foldo]. rewrite <- row_procs by lia. replace (Z.min 4 (h - 4 * (h / 4))) with (h mod 4) by lia. destruct (sp_row _ _ _ _ _ _ _ _); reflexivity.
      - intros a n Hn. apply zseq_In in Hn. rewrite <- row_procs by lia. f_equal. lia. }
    rewrite E. destruct (procs l) with (b := Ref st sm sp_init) (s := News (fun _ _ => false) (fun _ _ => false) 0) as (b' & E' & R').
    - unfold l. apply NoDup_flat; [apply NoDup_zseq|intros n _; apply FinFun.Injective_map_NoDup; [intros a c X; injection X; lia|apply NoDup_zseq]|].
      intros n n' c _ _ A A'. apply in_map_iff in A as (g & <- & _). apply in_map_iff in A' as (g' & X & _). injection X. lia.
    - intros n g Hi. apply in_flat_map in Hi as (n' & Hn & Hi). apply in_map_iff in Hi as (g' & X & Hg). injection X as <- <-. apply zseq_In in Hn, Hg. lia.
    - exact R.
    - intros n g y x _ _. reflexivity.
    - rewrite E'. cbn [bind]. exists (r_st b'), (r_sm b'), (r_src b'). split; [reflexivity|]. unfold sig_prop.
      replace (groups w h) with (map (fun ng => group w h (fst ng) (snd ng)) l); [destruct b'; exact R'|].
      unfold groups, l. rewrite !flat_map_concat_map, concat_map, map_map. f_equal. apply map_ext. intros n. rewrite map_map. reflexivity.
  Qed.
End SP.

(** ** MagRef *)
Lemma land_high u k : 0 <= k <= 32 -> 0 <= u < 2 ^ 32 -> Z.land u (2 ^ 32 - 2 ^ k) = u / 2 ^ k * 2 ^ k.
Proof.
  intros Hk Hu. assert (E : 2 ^ 32 - 2 ^ k = Z.shiftl (Z.ones (32 - k)) k).
  { rewrite Z.shiftl_mul_pow2, Z.ones_equiv by lia. replace (2 ^ 32) with (2 ^ (32 - k) * 2 ^ k) by (rewrite <- Z.pow_add_r by lia; f_equal; lia). lia. }
  rewrite E, <- Z.shiftr_div_pow2, <- Z.shiftl_mul_pow2 by lia. apply Z.bits_inj'. intros j Hj. rewrite Z.land_spec, !Z.shiftl_spec by lia.
  destruct (Z.ltb_spec j k) as [L|L]; [rewrite !(Z.testbit_neg_r _ (j - k)) by lia; apply andb_false_r|]. rewrite Z.shiftr_spec by lia. replace (j - k + k) with j by lia.
  destruct (Z.ltb_spec (j - k) (32 - k)) as [M|M]; [rewrite Z.ones_spec_low by lia; apply andb_true_r|]. rewrite Z.ones_spec_high by lia. rewrite andb_false_r. symmetry.
  destruct (Z.eqb_spec u 0) as [->|N]; [apply Z.bits_0|]. apply Z.bits_above_log2; [lia|]. enough (Z.log2 u < 32) by lia. apply Z.log2_lt_pow2; lia.
Qed.
Lemma refine_value p (m sg b : Z) : 1 <= p <= 29 -> 0 <= m -> (sg = 0 \/ sg = 1) -> (b = 0 \/ b = 1) -> (2 * m + 1) * 2 ^ p < 2 ^ 31 ->
  Z.lor (Z.land (sg * 2 ^ 31 + (2 * m + 1) * 2 ^ p) (wrap32 (Z.lor 4294967294 b * 2 ^ p))) (2 ^ (p - 1)) = sg * 2 ^ 31 + (2 * (2 * m + b) + 1) * 2 ^ (p - 1).
Proof.
  intros Hp Hm Hs Hb Hl. pose proof (Z.pow_pos_nonneg 2 (p - 1) ltac:(lia) ltac:(lia)) as Q.
  assert (P1 : 2 ^ p = 2 * 2 ^ (p - 1)) by (rewrite <- Z.pow_succ_r by lia; f_equal; lia).
  assert (P2 : 2 ^ (p + 1) = 4 * 2 ^ (p - 1)) by (replace (p + 1) with (2 + (p - 1)) by lia; rewrite Z.pow_add_r by lia; reflexivity).
  assert (P3 : 2 ^ 31 = 2 ^ (30 - p) * 2 ^ (p + 1)) by (rewrite <- Z.pow_add_r by lia; f_equal; lia).
  assert (P4 : 2 ^ 31 = 2 ^ (31 - p) * 2 ^ p) by (rewrite <- Z.pow_add_r by lia; f_equal; lia).
  pose proof (Z.pow_pos_nonneg 2 (30 - p) ltac:(lia) ltac:(lia)). pose proof (Z.pow_pos_nonneg 2 (31 - p) ltac:(lia) ltac:(lia)).
  assert (U : 0 <= sg * 2 ^ 31 + (2 * m + 1) * 2 ^ p < 2 ^ 32) by (change (2 ^ 32) with (2 * 2 ^ 31); nia).
  pose proof (Z.pow_le_mono_r 2 (p + 1) 30 ltac:(lia) ltac:(lia)) as X. change (2 ^ 30) with 1073741824 in X.
  assert (W : wrap32 (Z.lor 4294967294 b * 2 ^ p) = 2 ^ 32 - 2 ^ (if b =? 0 then p + 1 else p)).
  { destruct Hb as [-> | ->].
    - change (Z.lor 4294967294 0) with (4294967296 - 2). change (0 =? 0) with true. cbn [negb]. unfold wrap32. change two32 with 4294967296. change (2 ^ 32) with 4294967296.
      replace ((4294967296 - 2) * 2 ^ p) with (4294967296 - 2 ^ (p + 1) + (2 ^ p - 1) * 4294967296) by lia. rewrite Z.mod_add by lia. apply Z.mod_small. lia.
    - change (Z.lor 4294967294 1) with (4294967296 - 1). change (1 =? 0) with false. unfold wrap32. change two32 with 4294967296. change (2 ^ 32) with 4294967296.
      replace ((4294967296 - 1) * 2 ^ p) with (4294967296 - 2 ^ p + (2 ^ p - 1) * 4294967296) by lia. rewrite Z.mod_add by lia. apply Z.mod_small. lia. }
  rewrite W. destruct Hb as [-> | ->].
  - change (0 =? 0) with true. rewrite land_high by lia.
    replace ((sg * 2 ^ 31 + (2 * m + 1) * 2 ^ p) / 2 ^ (p + 1)) with (sg * 2 ^ (30 - p) + m).
    + rewrite lor_add; [|lia|exists (2 * (sg * 2 ^ (30 - p) + m)); rewrite P2, Z.sub_add, P1; lia|nia]. rewrite P3, P2. lia.
    + apply Z.div_unique with (r := 2 ^ p); [lia|]. rewrite P3, P2, P1. lia.
  - change (1 =? 0) with false. rewrite land_high by lia.
    replace ((sg * 2 ^ 31 + (2 * m + 1) * 2 ^ p) / 2 ^ p) with (sg * 2 ^ (31 - p) + (2 * m + 1)).
    + rewrite lor_add; [|lia|exists (sg * 2 ^ (31 - p) + (2 * m + 1)); rewrite Z.sub_add; reflexivity|nia]. rewrite P4, P1. lia.
    + symmetry. rewrite P4. replace (sg * (2 ^ (31 - p) * 2 ^ p) + (2 * m + 1) * 2 ^ p) with ((sg * 2 ^ (31 - p) + (2 * m + 1)) * 2 ^ p) by lia. apply Z.div_mul. lia.
Qed.

Section MRef.
  Variables w h : Z.
  Variable D : list Z.
  Variable p : Z.
  Variable sigma : Z -> Z -> bool.
  Variables mu : Z -> Z -> Z.
  Variable sgn : Z -> Z -> bool.
  Variable other : Z -> Z -> Z.
  Hypothesis Hp : 1 <= p <= 29.
  Hypothesis Hmu : forall y x, inside w h y x = true -> sigma y x = true -> 0 <= mu y x /\ (2 * mu y x + 1) * 2 ^ p < 2 ^ 31.
  Notation inside := (inside w h).
  Notation adr := (adr w).
  Notation sadr := (sadr w).
  Notation B := (mr_bit D).
  Notation ref_step := (ref_step sigma).

  Record RM (todo : list (Z * Z)) (b : ref mrdec) (s : (Z -> Z -> bool) * nat) : Prop := {
    rm_sig : forall y x, inside y x = true -> Z.testbit (r_st b (adr y x)) 0 = sigma y x;
    rm_todo : forall y x, inside y x = true -> sigma y x = true -> In (y, x) todo -> r_sm b (sadr y x) = Z.b2z (sgn y x) * 2 ^ 31 + (2 * mu y x + 1) * 2 ^ p;
    rm_done : forall y x, inside y x = true -> sigma y x = true -> ~ In (y, x) todo -> r_sm b (sadr y x) = Z.b2z (sgn y x) * 2 ^ 31 + (2 * (2 * mu y x + Z.b2z (fst s y x)) + 1) * 2 ^ (p - 1);
    rm_other : forall y x, inside y x = true -> sigma y x = false -> r_sm b (sadr y x) = other y x;
    rm_src : Rmr D (r_src b) (snd s) }.

  Lemma mr_at_step todo b s y x : NoDup ((y, x) :: todo) -> RM ((y, x) :: todo) b s -> inside y x = true ->
    exists b', mr_at w h D p b x y = Ret b' /\ RM todo b' (ref_step B s (y, x)).
  Proof using Hp Hmu.
    intros Hn R Hi. inversion_clear Hn as [|? ? Hx _]. pose proof (proj1 (inside_iff w h _ _) Hi) as [Hy Hxx]. unfold mr_at. change ((y + 1) * tstr w + (x + 1)) with (adr y x). cbv zeta.
    rewrite ld_st_in by lia. cbn [bind]. rewrite land1_bit, Z.shiftr_0_r, (rm_sig _ _ _ R _ _ Hi). unfold RefineSpec.ref_step.
    destruct (sigma y x) eqn:Es; cbn [Z.b2z].
    - change (1 =? 0) with false. rewrite or_state_in by exact Hi. cbn [bind r_src]. destruct (import_mr_R D _ _ (rm_src _ _ _ R)) as (sr & -> & Rs). cbn [bind]. rewrite ld_sm_in by exact Hi. cbn [bind r_st r_sm r_src]. rewrite set_sample_in by exact Hi. cbn [r_st r_sm r_src].
      eexists. split; [reflexivity|]. split; cbn [r_st r_sm r_src fst snd].
      + intros y' x' H. pose proof (proj1 (inside_iff w h _ _) H). rewrite adr_eqb by lia. destruct ((y' =? y) && (x' =? x)) eqn:E; [|apply (rm_sig _ _ _ R); exact H]. apply andb_true_iff in E as [->%Z.eqb_eq ->%Z.eqb_eq]. rewrite Z.lor_spec. change (Z.testbit 4 0) with false. rewrite orb_false_r. apply (rm_sig _ _ _ R). exact H.
      + intros y' x' H Hs Ht. pose proof (proj1 (inside_iff w h _ _) H). rewrite sadr_eqb by lia. destruct ((y' =? y) && (x' =? x)) eqn:E; [apply andb_true_iff in E as [->%Z.eqb_eq ->%Z.eqb_eq]; exfalso; exact (Hx Ht)|]. apply (rm_todo _ _ _ R); [exact H|exact Hs|right; exact Ht].
      + intros y' x' H Hs Ht. pose proof (proj1 (inside_iff w h _ _) H). rewrite sadr_eqb by lia. unfold up2. destruct ((y' =? y) && (x' =? x)) eqn:E.
        * apply andb_true_iff in E as [->%Z.eqb_eq ->%Z.eqb_eq]. rewrite (rm_todo _ _ _ R _ _ Hi Es (or_introl eq_refl)). destruct (Hmu y x Hi Es) as [M1 M2].
          apply refine_value; [exact Hp|exact M1|destruct (sgn y x); cbn; lia|destruct (B (snd s)); cbn; lia|exact M2].
        * apply (rm_done _ _ _ R); [exact H|exact Hs|]. intros [C|C]; [|exact (Ht C)]. injection C as -> ->. rewrite !Z.eqb_refl in E. discriminate E.
      + intros y' x' H Hs. pose proof (proj1 (inside_iff w h _ _) H). rewrite sadr_eqb by lia. destruct ((y' =? y) && (x' =? x)) eqn:E; [apply andb_true_iff in E as [->%Z.eqb_eq ->%Z.eqb_eq]; congruence|]. apply (rm_other _ _ _ R); assumption.
      + exact Rs.
    - change (0 =? 0) with true. exists b. split; [reflexivity|]. destruct R as [R0 R1 R2 R3 R4]. split; try assumption.
      + intros y' x' H Hs Ht. apply R1; [exact H|exact Hs|right; exact Ht].
      + intros y' x' H Hs Ht. apply R2; [exact H|exact Hs|]. intros [C|C]; [injection C as -> ->; congruence|exact (Ht C)].
  Qed.
  Lemma mrs l : forall todo b s, NoDup (l ++ todo) -> RM (l ++ todo) b s -> (forall y x, In (y, x) l -> inside y x = true) ->
    exists b', foldo (fun a yx => mr_at w h D p a (snd yx) (fst yx)) b l = Ret b' /\ RM todo b' (fold_left (ref_step B) l s).
  Proof using Hp Hmu.
    induction l as [|[y x] l IH]; intros todo b s Hn R H; [exists b; split; [reflexivity|exact R]|]. cbn [foldo fold_left fst snd].
    destruct (mr_at_step (l ++ todo) b s y x Hn R (H y x (or_introl eq_refl))) as (b1 & -> & R1). cbn [bind]. inversion_clear Hn. apply IH; [assumption|exact R1|]. intros y' x' Hi. apply H. right. exact Hi.
  Qed.
  Lemma mr_rows_cells b y0 hh : mr_rows w h D p b y0 hh = foldo (fun a yx => mr_at w h D p a (snd yx) (fst yx)) b (cells y0 hh 0 w).
  Proof using. clear. unfold mr_rows. rewrite <- (foldo_cells (fun a j i => mr_at w h D p a j i)). apply foldo_ext_in. intros a j _. rewrite Z.add_0_l. reflexivity. Qed.
  Theorem magref_run st sm : 0 <= w -> 0 <= h -> RM (stripe_scan w h) (Ref st sm (mr_init D)) (fun _ _ => false, O) ->
    exists st' sm', ht_magref w h D p st sm = Ret (st', sm') /\
      (forall y x, inside y x = true -> r_sm (Ref st' sm' tt) (sadr y x) = if sigma y x then Z.b2z (sgn y x) * 2 ^ 31 + (2 * (2 * mu y x + Z.b2z (mag_ref w h sigma D y x)) + 1) * 2 ^ (p - 1) else other y x).
  Proof using Hp Hmu.
    intros Hw Hh R.
    assert (E : ht_magref w h D p st sm = let* b := foldo (fun a yx => mr_at w h D p a (snd yx) (fst yx)) (Ref st sm (mr_init D)) (stripe_scan w h) in Ret (r_st b, r_sm b)).
    { unfold ht_magref. replace (p =? 0) with false by lia. unfold stripe_scan. rewrite foldo_flat, (zseq_up h Hh), foldo_app.
      rewrite (foldo_ext_in (fun b n => mr_rows w h D p b (4 * n) 4) (fun a e => foldo (fun a yx => mr_at w h D p a (snd yx) (fst yx)) a (cells (4 * e) (Z.min 4 (h - 4 * e)) 0 w))).
      - match goal with |- context [bind ?F _] => destruct F as [b1| |] end; cbn [bind]; [|reflexivity|reflexivity]. rewrite mr_rows_cells.
        destruct (Z.eqb_spec (h mod 4) 0) as [E|E].
        + rewrite E. replace (cells (4 * (h / 4)) 0 0 w) with (@nil (Z * Z)); [reflexivity|]. unfold cells. rewrite (zseq_0 0) by lia. cbn [map]. induction (zseq w) as [|? l IH]; [reflexivity|exact IH].
        + cbn [foldo]. replace (Z.min 4 (h - 4 * (h / 4))) with (h mod 4) by lia. destruct (foldo _ _ _); reflexivity.
      - intros a n Hn. apply zseq_In in Hn. rewrite mr_rows_cells. do 2 f_equal. lia. }
    assert (Hin : forall y x, In (y, x) (stripe_scan w h) <-> inside y x = true).
    { intros y x. unfold stripe_scan. rewrite in_flat_map, inside_iff. split.
      - intros (n & Hn & Hc). apply zseq_In in Hn. apply in_cells in Hc. lia.
      - intros [Hy Hx]. exists (y / 4). split; [apply zseq_In; lia|apply in_cells; lia]. }
    destruct (mrs (stripe_scan w h) [] (Ref st sm (mr_init D)) (fun _ _ => false, O)) as (b' & E' & R').
    - rewrite app_nil_r. unfold stripe_scan. apply NoDup_flat; [apply NoDup_zseq|intros; apply NoDup_cells|]. intros n n' [y x] Hn Hn' A A'. apply zseq_In in Hn, Hn'. apply in_cells in A, A'. lia.
    - rewrite app_nil_r. exact R.
    - intros y x H. apply Hin. exact H.
    - rewrite E, E'. cbn [bind]. exists (r_st b'), (r_sm b'). split; [reflexivity|]. cbn [r_sm]. intros y x H. destruct (sigma y x) eqn:Es; [apply (rm_done _ _ _ R'); [exact H|exact Es|intros []]|apply (rm_other _ _ _ R'); assumption].
  Qed.
End MRef.
