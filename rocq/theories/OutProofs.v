(** Lemmas for OutProps.v: where decode_line_based stores its samples. *)
From Coq Require Import FinFun.
From Verif Require Import Base BaseLemmas PrecinctModel PrecinctSpec PrecinctProofs GeoModel MarkerModel OutModel OutSpec.

Lemma foldo_app {A B} (f : A -> B -> out A) a l1 l2 : foldo f a (l1 ++ l2) = bind (foldo f a l1) (fun a => foldo f a l2).
Proof. revert a. induction l1 as [|b l1 IH]; intros a; [reflexivity|]. cbn. destruct (f a b); cbn; [apply IH|reflexivity|reflexivity]. Qed.
Lemma foldx_app {A B} (f : A -> B -> ex A) a l1 l2 : foldx f a (l1 ++ l2) = bindx (foldx f a l1) (fun a => foldx f a l2).
Proof. revert a. induction l1 as [|b l1 IH]; intros a; [reflexivity|]. cbn. destruct (f a b) as [[x|]| |]; cbn; [apply IH|reflexivity|reflexivity|reflexivity]. Qed.

(** A loop over 0 .. n-1 that keeps an invariant. *)
Lemma foldo_inv {A} (f : A -> Z -> out A) (P : Z -> A -> Prop) n a : 0 <= n ->
  P 0 a -> (forall i a, 0 <= i < n -> P i a -> exists b, f a i = Ret b /\ P (i + 1) b) ->
  exists b, foldo f a (zseq n) = Ret b /\ P n b.
Proof.
  intros Hn H0 Hs. set (m := n) at 1 2. assert (Hm : 0 <= m <= n) by (subst m; lia).
  clearbody m. assert (Hm' := Hm). destruct Hm as [Hm1 _]. revert Hm'. pattern m. apply natlike_ind; [| |assumption].
  - intros _. exists a. split; [reflexivity|assumption].
  - intros x Hx IH Hb. destruct IH as (b & E & Q); [lia|]. destruct (Hs x b ltac:(lia) Q) as (b' & E' & Q').
    exists b'. replace (Z.succ x) with (x + 1) by lia. rewrite zseq_snoc by lia. rewrite foldo_app, E. cbn. rewrite E'.
    split; [reflexivity|assumption].
Qed.
Lemma foldx_inv {A} (f : A -> Z -> ex A) (P : Z -> A -> Prop) n a : 0 <= n ->
  P 0 a -> (forall i a, 0 <= i < n -> P i a -> exists b, f a i = ret b /\ P (i + 1) b) ->
  exists b, foldx f a (zseq n) = ret b /\ P n b.
Proof.
  intros Hn H0 Hs. set (m := n) at 1 2. assert (Hm : 0 <= m <= n) by (subst m; lia).
  clearbody m. assert (Hm' := Hm). destruct Hm as [Hm1 _]. revert Hm'. pattern m. apply natlike_ind; [| |assumption].
  - intros _. exists a. split; [reflexivity|assumption].
  - intros x Hx IH Hb. destruct IH as (b & E & Q); [lia|]. destruct (Hs x b ltac:(lia) Q) as (b' & E' & Q').
    exists b'. replace (Z.succ x) with (x + 1) by lia. rewrite zseq_snoc by lia. rewrite foldx_app, E. cbn. rewrite E'.
    split; [reflexivity|assumption].
Qed.

Notation ci_at cis c := (znth (CI 0 0 0 0 0) cis c).

Section Tile.
  Variable raw : Z -> Z -> Z -> Z -> Z.
  Variable fin : Z -> Z -> Z.
  Variable mix : Z -> Z -> Z -> Z -> Z.
  Variable size : Z -> Z.
  Variable t : Z.
  Variable mct : bool.
  Variable cis : list cinfo.
  Variable m0 : mem.

  Record ci_ok (c : Z) : Prop := {
    ok_pos : 0 <= csize_x (ci_at cis c) /\ 0 <= csize_y (ci_at cis c) /\ 0 <= x_offset (ci_at cis c) /\ 0 <= y_offset (ci_at cis c);
    ok_w : x_offset (ci_at cis c) + csize_x (ci_at cis c) <= out_stride (ci_at cis c);
    ok_h : (y_offset (ci_at cis c) + csize_y (ci_at cis c)) * out_stride (ci_at cis c) <= size c;
    ok_small : size c < two32 /\ y_offset (ci_at cis c) + csize_y (ci_at cis c) < two32;
    ok_first : csize_y (ci_at cis c) <= csize_y (ci_at cis 0) }.
  Hypothesis Hok : forall c, 0 <= c < zlen cis -> ci_ok c.
  Definition use_mct : bool := (3 <=? zlen cis) && mct.
  Hypothesis Hmct : use_mct = true -> forall c, 1 <= c <= 2 ->
    csize_x (ci_at cis c) = csize_x (ci_at cis 0) /\ csize_y (ci_at cis c) = csize_y (ci_at cis 0).

  (** What the tile gives for component [c], row [k], column [n]. *)
  Definition tval (c k n : Z) : Z :=
    if use_mct && (c <? 3) then mix c (raw t 0 k n) (raw t 1 k n) (raw t 2 k n) else fin c (raw t c k n).

  (** Element [i] lies in one of the first [y] rows of the tile. *)
  Definition hit (I : cinfo) (y i : Z) : bool :=
    (y_offset I <=? i / out_stride I) && (i / out_stride I <? y_offset I + Z.min y (csize_y I)) &&
    (x_offset I <=? i mod out_stride I) && (i mod out_stride I <? x_offset I + csize_x I).
  Definition M (y c i : Z) : option Z :=
    if (0 <=? c) && (c <? zlen cis) && hit (ci_at cis c) y i
    then Some (tval c (i / out_stride (ci_at cis c) - y_offset (ci_at cis c)) (i mod out_stride (ci_at cis c) - x_offset (ci_at cis c)))
    else m0 c i.

  Definition Inv (f : Z -> Z) (st : (Z -> Z) * mem) : Prop :=
    (forall c, 0 <= c < zlen cis -> fst st c = Z.min (f c) (csize_y (ci_at cis c))) /\
    (forall c i, snd st c i = M (f c) c i).

  Lemma row_start_exact c y : 0 <= c < zlen cis -> 0 <= y < csize_y (ci_at cis c) -> 0 < csize_x (ci_at cis c) ->
    row_start (ci_at cis c) y = x_offset (ci_at cis c) + (y + y_offset (ci_at cis c)) * out_stride (ci_at cis c) /\
    0 <= row_start (ci_at cis c) y /\ row_start (ci_at cis c) y + csize_x (ci_at cis c) <= size c.
  Proof.
    intros Hc Hy Hx. destruct (Hok c Hc) as [(A1 & A2 & A3 & A4) B C [D1 D2] E]. set (I := ci_at cis c) in *.
    unfold row_start. rewrite (wrap32_small (y + y_offset I)) by lia.
    assert (0 < out_stride I) by lia.
    assert ((y + y_offset I + 1) * out_stride I <= (y_offset I + csize_y I) * out_stride I) by nia.
    rewrite wrap32_small by nia. nia.
  Qed.

  (** Storing one row. *)
  Lemma in_row c y i : 0 <= c < zlen cis -> 0 <= y < csize_y (ci_at cis c) -> 0 < csize_x (ci_at cis c) ->
    let I := ci_at cis c in
    row_start I y <= i < row_start I y + csize_x I <->
    (i / out_stride I = y + y_offset I /\ x_offset I <= i mod out_stride I < x_offset I + csize_x I).
  Proof.
    intros Hc Hy Hx I. destruct (row_start_exact c y Hc Hy Hx) as (E & _ & _). fold I in E. rewrite E.
    destruct (Hok c Hc) as [(A1 & A2 & A3 & A4) B C [D1 D2] F]. fold I in A1, A2, A3, A4, B, C, D2, F, Hx, Hy.
    assert (0 < out_stride I) by lia. split.
    - intros Hi. assert (Q : i / out_stride I = y + y_offset I).
      { symmetry. apply (Z.div_unique_pos i (out_stride I) (y + y_offset I) (i - (y + y_offset I) * out_stride I)); lia. }
      split; [assumption|]. rewrite Z.mod_eq by lia. rewrite Q. lia.
    - intros [Q R]. rewrite Z.mod_eq in R by lia. rewrite Q in R. lia.
  Qed.

  Lemma hit_step c y i : 0 <= c < zlen cis -> 0 <= y < csize_y (ci_at cis c) ->
    let I := ci_at cis c in
    hit I (y + 1) i = (hit I y i || ((row_start I y <=? i) && (i <? row_start I y + csize_x I))).
  Proof.
    intros Hc Hy I. destruct (Z.eq_dec (csize_x I) 0) as [E0|N0].
    - unfold hit. rewrite E0. replace (x_offset I + 0) with (x_offset I) by lia. replace (row_start I y + 0) with (row_start I y) by lia.
      destruct (x_offset I <=? i mod out_stride I) eqn:A; destruct (i mod out_stride I <? x_offset I) eqn:B; try lia;
        rewrite ?andb_false_r; cbn; lia.
    - assert (Hx : 0 < csize_x I) by (destruct (Hok c Hc) as [(A1 & _) _ _ _ _]; fold I in A1; lia).
      pose proof (in_row c y i Hc Hy Hx) as H. fold I in H. cbv zeta in H.
      apply Bool.eq_iff_eq_true. rewrite orb_true_iff. unfold hit. rewrite !andb_true_iff, !Z.leb_le, !Z.ltb_lt.
      destruct (Hok c Hc) as [(A1 & A2 & A3 & A4) _ _ _ _]; fold I in A1, A2, A3, A4, Hy.
      rewrite (Z.min_l (y + 1)), (Z.min_l y) by lia. rewrite H. lia.
  Qed.
  Lemma hit_over c y y' i : csize_y (ci_at cis c) <= y -> csize_y (ci_at cis c) <= y' -> hit (ci_at cis c) y i = hit (ci_at cis c) y' i.
  Proof. intros A B. unfold hit. rewrite !Z.min_r by lia. reflexivity. Qed.

  Lemma M_row c y i : 0 <= c < zlen cis -> 0 <= y < csize_y (ci_at cis c) ->
    let I := ci_at cis c in
    M (y + 1) c i = if (row_start I y <=? i) && (i <? row_start I y + csize_x I)
                    then Some (tval c y (i - row_start I y)) else M y c i.
  Proof.
    intros Hc Hy I. unfold M. replace ((0 <=? c) && (c <? zlen cis)) with true by lia. cbn [andb]. fold I.
    pose proof (hit_step c y i Hc Hy) as S. fold I in S. cbv zeta in S. rewrite S.
    destruct ((row_start I y <=? i) && (i <? row_start I y + csize_x I)) eqn:B.
    - rewrite orb_true_r. assert (Hx : 0 < csize_x I) by lia. pose proof (in_row c y i Hc Hy Hx) as H. fold I in H. cbv zeta in H.
      destruct (proj1 H) as [Q R]; [lia|]. destruct (row_start_exact c y Hc Hy Hx) as (E & _ & _). fold I in E.
      destruct (Hok c Hc) as [(A1 & A2 & A3 & A4) B' _ _ _]. fold I in A1, A2, A3, A4, B'.
      f_equal. f_equal; [lia|]. rewrite (Z.mod_eq i (out_stride I)) by lia. rewrite Q. lia.
    - rewrite orb_false_r. reflexivity.
  Qed.

  Lemma pull_exact f st c : 0 <= c < zlen cis -> Inv f st -> 0 <= f c < csize_y (ci_at cis c) ->
    pull cis (fst st) c = (Some (f c), upd (fst st) c (f c + 1)).
  Proof. intros Hc [A _] Hf. unfold pull. rewrite (A c Hc), Z.min_l by lia. replace (f c <? csize_y (ci_at cis c)) with true by lia. reflexivity. Qed.

  Lemma pull_cur cur c y : cur c = y -> y < csize_y (ci_at cis c) -> pull cis cur c = (Some y, upd cur c (y + 1)).
  Proof. intros E H. unfold pull. rewrite E. replace (y <? csize_y (ci_at cis c)) with true by lia. reflexivity. Qed.

  Lemma plain_exact f st y c : 0 <= c < zlen cis -> 0 <= y -> Inv f st -> f c = y -> (use_mct && (c <? 3) = false) ->
    exists st', plain_row raw fin size t y cis st c = Ret st' /\ Inv (upd f c (y + 1)) st'.
  Proof.
    intros Hc Hy HI Hf Hm. unfold plain_row. set (I := ci_at cis c).
    destruct (csize_y I <=? y) eqn:E.
    - exists st. split; [reflexivity|]. destruct HI as [A B]. split.
      + intros d Hd. rewrite (A d Hd). unfold upd. destruct (Z.eqb_spec d c) as [->|]; [|reflexivity]. fold I. lia.
      + intros d i. rewrite B. unfold upd. destruct (Z.eqb_spec d c) as [->|]; [|reflexivity].
        unfold M. rewrite (hit_over c (f c) (y + 1)) by (fold I; lia). reflexivity.
    - rewrite (pull_exact f st c Hc HI) by (fold I; lia). rewrite Hf.
      destruct (foldo_inv (fun m n => let* v := sample raw t c I (Some y) n in store size m c (row_start I y + n) (fin c v))
        (fun n m => forall d i, m d i = if (d =? c) && (row_start I y <=? i) && (i <? row_start I y + n)
                                       then Some (tval c y (i - row_start I y)) else snd st d i)
        (csize_x I) (snd st)) as (m & Em & Hmem).
      { destruct (Hok c Hc) as [(A & _) _ _ _ _]. exact A. }
      { intros d i. destruct (d =? c); cbn [andb]; [|reflexivity]. replace ((row_start I y <=? i) && (i <? row_start I y + 0)) with false by lia. reflexivity. }
      { intros n m Hn Hm'. unfold sample. replace (n <? csize_x I) with true by lia. cbn [bind].
        destruct (row_start_exact c y Hc ltac:(fold I; lia) ltac:(fold I; lia)) as (R1 & R2 & R3). fold I in R1, R2, R3.
        unfold store. replace ((0 <=? row_start I y + n) && (row_start I y + n <? size c)) with true by lia.
        eexists. split; [reflexivity|]. intros d i. unfold upd. destruct (Z.eqb_spec d c) as [->|]; cbn [andb].
        - destruct (Z.eqb_spec i (row_start I y + n)) as [->|N].
          + replace ((row_start I y <=? row_start I y + n) && (row_start I y + n <? row_start I y + (n + 1))) with true by lia.
            unfold tval. rewrite Hm. f_equal. f_equal. f_equal. lia.
          + rewrite Hm'. replace (c =? c) with true by lia. cbn [andb].
            replace ((row_start I y <=? i) && (i <? row_start I y + (n + 1))) with ((row_start I y <=? i) && (i <? row_start I y + n)) by lia. reflexivity.
        - rewrite Hm'. replace (d =? c) with false by lia. reflexivity. }
      rewrite Em. cbn [bind]. eexists. split; [reflexivity|]. destruct HI as [A B]. split; cbn [fst snd].
      + intros d Hd. unfold upd. destruct (Z.eqb_spec d c) as [->|]; [fold I; lia|apply A; assumption].
      + intros d i. rewrite Hmem. unfold upd. destruct (Z.eqb_spec d c) as [->|]; cbn [andb].
        * rewrite (M_row c y i Hc) by (fold I; lia). fold I. cbv zeta.
          destruct ((row_start I y <=? i) && (i <? row_start I y + csize_x I)); [reflexivity|]. rewrite B, Hf. reflexivity.
        * apply B.
  Qed.

  Lemma mct_exact f st y : use_mct = true -> 0 <= y < csize_y (ci_at cis 0) -> Inv f st -> f 0 = y -> f 1 = y -> f 2 = y ->
    exists st', mct_row raw mix size t y cis st = Ret st' /\ Inv (upd (upd (upd f 0 (y + 1)) 1 (y + 1)) 2 (y + 1)) st'.
  Proof.
    intros Hu Hy HI F0 F1 F2. assert (N3 : 3 <= zlen cis) by (unfold use_mct in Hu; lia).
    destruct (Hmct Hu 1 ltac:(lia)) as [X1 Y1]. destruct (Hmct Hu 2 ltac:(lia)) as [X2 Y2].
    unfold mct_row. rewrite (pull_exact f st 0) by (try assumption; lia).
    assert (P1 : pull cis (upd (fst st) 0 (f 0 + 1)) 1 = (Some y, upd (upd (fst st) 0 (f 0 + 1)) 1 (y + 1))).
    { apply pull_cur; [|lia]. unfold upd. change (1 =? 0) with false. cbv iota. destruct HI as [A _]. rewrite (A 1 ltac:(lia)), F1. lia. }
    rewrite P1.
    assert (P2 : pull cis (upd (upd (fst st) 0 (f 0 + 1)) 1 (y + 1)) 2 = (Some y, upd (upd (upd (fst st) 0 (f 0 + 1)) 1 (y + 1)) 2 (y + 1))).
    { apply pull_cur; [|lia]. unfold upd. change (2 =? 1) with false. change (2 =? 0) with false. cbv iota. destruct HI as [A _]. rewrite (A 2 ltac:(lia)), F2. lia. }
    rewrite P2. rewrite F0. set (w := csize_x (ci_at cis 0)) in *.
    set (b c := row_start (ci_at cis c) y).
    destruct (foldo_inv (fun m n => let* v0 := sample raw t 0 (ci_at cis 0) (Some y) n in
                                let* v1 := sample raw t 1 (ci_at cis 1) (Some y) n in
                                let* v2 := sample raw t 2 (ci_at cis 2) (Some y) n in
                                let* m := store size m 0 (row_start (ci_at cis 0) y + n) (mix 0 v0 v1 v2) in
                                let* m := store size m 1 (row_start (ci_at cis 1) y + n) (mix 1 v0 v1 v2) in
                                store size m 2 (row_start (ci_at cis 2) y + n) (mix 2 v0 v1 v2))
        (fun n m => forall d i, m d i = if (0 <=? d) && (d <? 3) && (b d <=? i) && (i <? b d + n)
                                       then Some (tval d y (i - b d)) else snd st d i)
        w (snd st)) as (m & Em & Hmem).
    { destruct (Hok 0 ltac:(lia)) as [(A & _) _ _ _ _]. exact A. }
    { intros d i. destruct ((0 <=? d) && (d <? 3)); cbn [andb]; [|reflexivity]. replace ((b d <=? i) && (i <? b d + 0)) with false by lia. reflexivity. }
    { intros n m Hn Hm'. unfold sample. fold w. rewrite X1, X2. replace (n <? w) with true by lia. cbn [bind].
      destruct (row_start_exact 0 y ltac:(lia) Hy ltac:(fold w; lia)) as (_ & R2 & R3).
      destruct (row_start_exact 1 y ltac:(lia) ltac:(lia) ltac:(lia)) as (_ & R4 & R5).
      destruct (row_start_exact 2 y ltac:(lia) ltac:(lia) ltac:(lia)) as (_ & R6 & R7).
      fold w in R3. rewrite X1 in R5. rewrite X2 in R7. fold (b 0) (b 1) (b 2) in *.
      unfold store. replace ((0 <=? b 0 + n) && (b 0 + n <? size 0)) with true by lia.
      replace ((0 <=? b 1 + n) && (b 1 + n <? size 1)) with true by lia.
      replace ((0 <=? b 2 + n) && (b 2 + n <? size 2)) with true by lia. cbn [bind].
      eexists. split; [reflexivity|]. intros d i. unfold upd.
      assert (T : forall e, 0 <= e < 3 -> tval e y n = mix e (raw t 0 y n) (raw t 1 y n) (raw t 2 y n)).
      { intros e He. unfold tval. rewrite Hu. replace (e <? 3) with true by lia. reflexivity. }
      assert (G : forall e, 0 <= e < 3 -> forall x, x = mix e (raw t 0 y n) (raw t 1 y n) (raw t 2 y n) ->
                (if i =? b e + n then Some x else m e i) =
                (if (0 <=? e) && (e <? 3) && (b e <=? i) && (i <? b e + (n + 1)) then Some (tval e y (i - b e)) else snd st e i)).
      { intros e He x ->. replace ((0 <=? e) && (e <? 3)) with true by lia. cbn [andb]. destruct (Z.eqb_spec i (b e + n)) as [->|N].
        - replace ((b e <=? b e + n) && (b e + n <? b e + (n + 1))) with true by lia. replace (b e + n - b e) with n by lia. rewrite T by lia. reflexivity.
        - rewrite Hm'. replace ((0 <=? e) && (e <? 3)) with true by lia. cbn [andb].
          replace ((b e <=? i) && (i <? b e + (n + 1))) with ((b e <=? i) && (i <? b e + n)) by lia. reflexivity. }
      destruct (Z.eqb_spec d 2) as [->|N2]; [change (2 =? 1) with false; change (2 =? 0) with false; cbv iota; apply G; [lia|reflexivity]|].
      destruct (Z.eqb_spec d 1) as [->|N1]; [change (1 =? 0) with false; cbv iota; apply G; [lia|reflexivity]|].
      destruct (Z.eqb_spec d 0) as [->|N0]; [apply G; [lia|reflexivity]|].
      rewrite Hm'. replace ((0 <=? d) && (d <? 3)) with false by lia. reflexivity. }
    rewrite Em. cbn [bind]. eexists. split; [reflexivity|]. destruct HI as [A B]. split; cbn [fst snd].
    - intros d Hd. unfold upd. destruct (Z.eqb_spec d 2) as [->|]; [lia|]. destruct (Z.eqb_spec d 1) as [->|]; [lia|].
      destruct (Z.eqb_spec d 0) as [->|]; [lia|]. apply A; assumption.
    - intros d i. rewrite Hmem.
      assert (G : forall e, 0 <= e < 3 -> f e = y -> csize_x (ci_at cis e) = w -> csize_y (ci_at cis e) = csize_y (ci_at cis 0) ->
                 (if (0 <=? e) && (e <? 3) && (b e <=? i) && (i <? b e + w) then Some (tval e y (i - b e)) else snd st e i) = M (y + 1) e i).
      { intros e He Fe We Ye. replace ((0 <=? e) && (e <? 3)) with true by lia. cbn [andb]. rewrite (M_row e y i) by lia. cbv zeta. rewrite We.
        fold (b e). destruct ((b e <=? i) && (i <? b e + w)); [reflexivity|]. rewrite B, Fe. reflexivity. }
      unfold upd. destruct (Z.eqb_spec d 2) as [->|N2]; [apply G; lia|]. destruct (Z.eqb_spec d 1) as [->|N1]; [apply G; lia|].
      destruct (Z.eqb_spec d 0) as [->|N0]; [apply G; lia|]. replace ((0 <=? d) && (d <? 3)) with false by lia. apply B.
  Qed.

  Lemma Inv_ext f g st : (forall c, 0 <= c < zlen cis -> f c = g c) -> Inv f st -> Inv g st.
  Proof.
    intros E [A B]. split.
    - intros c Hc. rewrite <- (E c Hc). apply A. assumption.
    - intros c i. rewrite B. unfold M. destruct ((0 <=? c) && (c <? zlen cis)) eqn:R; [|reflexivity]. rewrite (E c) by lia. reflexivity.
  Qed.

  Lemma rows_exact : 1 <= zlen cis ->
    exists m, tile_rows raw fin mix size t mct cis m0 = Ret m /\
      forall c i, m c i = M (csize_y (ci_at cis 0)) c i.
  Proof.
    intros N1. unfold tile_rows. fold use_mct.
    set (H := csize_y (ci_at cis 0)).
    destruct (foldo_inv (fun st y =>
        if use_mct then
          let* st := mct_row raw mix size t y cis st in
          foldo (plain_row raw fin size t y cis) st (map (fun c => 3 + c) (zseq (zlen cis - 3)))
        else foldo (plain_row raw fin size t y cis) st (zseq (zlen cis)))
      (fun y st => Inv (fun _ => y) st) H (fun _ => 0, m0)) as (st & E & [A B]).
    { destruct (Hok 0 ltac:(lia)) as [(_ & Y & _) _ _ _ _]. exact Y. }
    { split; cbn [fst snd].
      - intros c Hc. destruct (Hok c Hc) as [(_ & Y & _) _ _ _ _]. lia.
      - intros c i. unfold M. destruct ((0 <=? c) && (c <? zlen cis)) eqn:R; [|reflexivity].
        destruct (Hok c ltac:(lia)) as [(_ & Y & _) _ _ _ _]. unfold hit. rewrite Z.min_l by lia.
        replace ((y_offset (ci_at cis c) <=? i / out_stride (ci_at cis c)) && (i / out_stride (ci_at cis c) <? y_offset (ci_at cis c) + 0)) with false by lia.
        reflexivity. }
    { intros y st Hy HI. assert (U : use_mct = true \/ use_mct = false) by (destruct use_mct; tauto). destruct U as [U|U]; rewrite U.
      - assert (N3 : 3 <= zlen cis) by (unfold use_mct in U; lia).
        destruct (mct_exact (fun _ => y) st y U ltac:(fold H; lia) HI eq_refl eq_refl eq_refl) as (st1 & E1 & I1).
        rewrite E1. cbn [bind].
        assert (G : forall l st f, (forall c, In c l -> 3 <= c < zlen cis /\ f c = y) -> NoDup l -> Inv f st ->
                  exists st', foldo (plain_row raw fin size t y cis) st l = Ret st' /\
                    Inv (fun c => if in_dec Z.eq_dec c l then y + 1 else f c) st').
        { induction l as [|c l IH]; intros s f Hl Nd HI'.
          - exists s. split; [reflexivity|]. eapply Inv_ext; [|exact HI']. intros; reflexivity.
          - destruct (Hl c (or_introl eq_refl)) as [Hc Fc].
            destruct (plain_exact f s y c ltac:(lia) ltac:(lia) HI' Fc) as (s' & E' & I'); [lia|].
            cbn [foldo]. rewrite E'. cbn [bind]. apply NoDup_cons_iff in Nd. destruct Nd as [Nc Nd].
            destruct (IH s' (upd f c (y + 1))) as (s'' & E'' & I''); [|assumption|assumption|].
            { intros d Hd. destruct (Hl d (or_intror Hd)) as [? ?]. split; [assumption|]. unfold upd. destruct (Z.eqb_spec d c) as [->|]; [contradiction|assumption]. }
            exists s''. split; [assumption|]. eapply Inv_ext; [|exact I'']. intros d Hd. cbv beta.
            destruct (in_dec Z.eq_dec d l) as [Hin|Hni]; destruct (in_dec Z.eq_dec d (c :: l)) as [Hin'|Hni']; try reflexivity.
            + exfalso. apply Hni'. right. assumption.
            + unfold upd. destruct Hin' as [->|]; [|contradiction]. rewrite Z.eqb_refl. reflexivity.
            + unfold upd. destruct (Z.eqb_spec d c) as [->|]; [|reflexivity]. exfalso. apply Hni'. left. reflexivity. }
        destruct (G (map (fun c => 3 + c) (zseq (zlen cis - 3))) st1 (upd (upd (upd (fun _ => y) 0 (y + 1)) 1 (y + 1)) 2 (y + 1))) as (st2 & E2 & I2); [| |assumption|].
        { intros c Hc. apply in_map_iff in Hc. destruct Hc as (d & <- & Hd). apply zseq_In in Hd. split; [lia|].
          unfold upd. replace (3 + d =? 2) with false by lia. replace (3 + d =? 1) with false by lia. replace (3 + d =? 0) with false by lia. reflexivity. }
        { apply Injective_map_NoDup; [intros a b; lia|]. unfold zseq. apply Injective_map_NoDup; [intros a b; lia|]. apply seq_NoDup. }
        exists st2. split; [assumption|]. eapply Inv_ext; [|exact I2]. intros c Hc. cbv beta.
        destruct (in_dec Z.eq_dec c (map (fun c => 3 + c) (zseq (zlen cis - 3)))) as [|Hn]; [reflexivity|].
        unfold upd. destruct (Z.eqb_spec c 2); [reflexivity|]. destruct (Z.eqb_spec c 1); [reflexivity|]. destruct (Z.eqb_spec c 0); [reflexivity|].
        exfalso. apply Hn. apply in_map_iff. exists (c - 3). split; [lia|]. apply zseq_In. lia.
      - destruct (foldo_inv (plain_row raw fin size t y cis) (fun c st => Inv (fun d => if d <? c then y + 1 else y) st) (zlen cis) st) as (st2 & E2 & I2).
        + lia.
        + eapply Inv_ext; [|exact HI]. intros c Hc. replace (c <? 0) with false by lia. reflexivity.
        + intros c s Hc HI'. destruct (plain_exact _ s y c Hc ltac:(lia) HI') as (s' & E' & I').
          * replace (c <? c) with false by lia. reflexivity.
          * rewrite U. reflexivity.
          * exists s'. split; [assumption|]. eapply Inv_ext; [|exact I']. intros d Hd. unfold upd. destruct (Z.eqb_spec d c) as [->|].
            -- replace (c <? c + 1) with true by lia. reflexivity.
            -- replace (d <? c + 1) with (d <? c) by lia. reflexivity.
        + exists st2. split; [assumption|]. eapply Inv_ext; [|exact I2]. intros c Hc. cbv beta. replace (c <? zlen cis) with true by lia. reflexivity. }
    rewrite E. cbn [bind]. eexists. split; [reflexivity|]. exact B.
  Qed.
End Tile.

(** ** Geometry *)

Lemma in_span r sub a b u : 0 <= r -> 1 <= sub -> within (res_span r (comp_span sub (a, b))) u <-> a <= u * 2 ^ r * sub < b.
Proof.
  intros Hr Hs. unfold within, res_span, comp_span. cbn [fst snd]. assert (0 < 2 ^ r) by (apply Z.pow_pos_nonneg; lia).
  rewrite ceil_le, ceil_lt by lia. rewrite ceil_le, ceil_lt by lia. reflexivity.
Qed.
Lemma ceil_sub a b d : 0 < d -> a <= b -> ceil_div b d - ceil_div a d <= ceil_div (b - a) d.
Proof.
  intros Hd Hab. enough (ceil_div b d <= ceil_div a d + ceil_div (b - a) d) by lia. apply ceil_le; [lia|].
  pose proof (proj1 (ceil_le a d (ceil_div a d) Hd) (Z.le_refl _)). pose proof (proj1 (ceil_le (b - a) d (ceil_div (b - a) d) Hd) (Z.le_refl _)). nia.
Qed.
Lemma ceil_thin a b k : 1 <= k -> a <= b -> ceil_div b k - ceil_div a k <= b - a.
Proof.
  intros Hk Hab. enough (ceil_div b k <= ceil_div a k + (b - a)) by lia. apply ceil_le; [lia|].
  pose proof (proj1 (ceil_le a k (ceil_div a k) ltac:(lia)) (Z.le_refl _)). nia.
Qed.

Lemma pow_r r : 0 <= r <= 31 -> 1 <= 2 ^ r <= 2147483648.
Proof. intros Hr. pose proof (pow2_bounds r Hr). change (2 ^ 31) with 2147483648 in *. lia. Qed.

Section Axis.
  Variables size origin tsize torigin : Z.
  Hypothesis L : axis_legal size origin tsize torigin.
  Variables r sub : Z.
  Hypothesis Hr : 0 <= r <= 31.
  Hypothesis Hs : 1 <= sub <= 255.
  Let whole := comp_span sub (origin, size).
  Let part p := comp_span sub (tile_span size origin tsize torigin p).

  Lemma whole_ok : span_ok whole.
  Proof. apply comp_span_ok; [lia|]. destruct L. unfold span_ok. cbn [fst snd]. lia. Qed.
  Lemma whole_exact : cdiv origin sub = ret (fst whole) /\ cdiv size sub = ret (snd whole).
  Proof. destruct L. change (2 ^ 31) with 2147483648 in *. unfold whole, comp_span. cbn [fst snd]. split; apply cdiv_exact; rewrite ?two32_val; lia. Qed.
  Lemma extent_exact : cdiv (sub32 (snd whole) (fst whole)) (2 ^ r) = ret (ceil_div (snd whole - fst whole) (2 ^ r)).
  Proof.
    destruct whole_ok as [A B]. change (2 ^ 31) with 2147483648 in *. pose proof (pow_r r Hr). unfold sub32.
    rewrite wrap32_small by (rewrite two32_val; lia). apply cdiv_exact; rewrite ?two32_val; lia.
  Qed.
  Lemma first_exact : cdiv (fst whole) (2 ^ r) = ret (fst (res_span r whole)).
  Proof. destruct whole_ok as [A B]. change (2 ^ 31) with 2147483648 in *. pose proof (pow_r r Hr). apply cdiv_exact; rewrite ?two32_val; lia. Qed.

  Section Part.
    Variable p : Z.
    Hypothesis Hp : 0 <= p < tiles size torigin tsize.
    Lemma part_ok : span_ok (part p).
    Proof. apply comp_span_ok; [lia|]. pose proof (tile_span_ok _ _ _ _ _ L Hp) as S. cbv zeta in S. unfold span_ok. lia. Qed.
    Lemma part_exact : cdiv (tile_lo torigin tsize origin p) sub = ret (fst (part p)) /\ cdiv (tile_hi torigin tsize size p) sub = ret (snd (part p)).
    Proof.
      rewrite (tile_lo_exact _ _ _ _ _ L Hp), (tile_hi_exact _ _ _ _ _ L Hp). pose proof (tile_span_ok _ _ _ _ _ L Hp) as S. cbv zeta in S.
      change (2 ^ 31) with 2147483648 in *. split; apply cdiv_exact; rewrite ?two32_val; lia.
    Qed.
    Lemma res_part : cdiv (fst (part p)) (2 ^ r) = ret (fst (res_span r (part p))) /\ cdiv (snd (part p)) (2 ^ r) = ret (snd (res_span r (part p))).
    Proof.
      destruct part_ok as [A B]. change (2 ^ 31) with 2147483648 in *. pose proof (pow_r r Hr). split; apply cdiv_exact; rewrite ?two32_val; lia.
    Qed.
    Lemma part_inside : fst (res_span r whole) <= fst (res_span r (part p)) <= snd (res_span r (part p)) /\
      snd (res_span r (part p)) <= snd (res_span r whole).
    Proof.
      pose proof (tile_span_ok _ _ _ _ _ L Hp) as S. cbv zeta in S. pose proof (pow_r r Hr).
      unfold res_span, part, whole, comp_span. cbn [fst snd].
      repeat split; (apply ceil_mono; [lia|]; apply ceil_mono; lia).
    Qed.
    Lemma part_numbers : let a := fst (res_span r (part p)) in let b := snd (res_span r (part p)) in let z := fst (res_span r whole) in
      sub32 b a = b - a /\ sub32 a z = a - z /\ 0 <= a - z /\ 0 <= b - a /\ b - z <= ceil_div (snd whole - fst whole) (2 ^ r) /\ b - z <= 2 ^ 31.
    Proof.
      intros a b z. pose proof part_inside as P. fold a b z in P. pose proof (pow_r r Hr). destruct whole_ok as [W1 W2].
      pose proof (res_span_ok r whole ltac:(lia) whole_ok) as [R1 R2]. pose proof (ceil_sub (fst whole) (snd whole) (2 ^ r) ltac:(lia) ltac:(lia)) as C.
      change (ceil_div (snd whole) (2 ^ r)) with (snd (res_span r whole)) in C. change (ceil_div (fst whole) (2 ^ r)) with (fst (res_span r whole)) in C.
      fold z in R1, C. change (2 ^ 31) with 2147483648 in *. unfold sub32. rewrite !wrap32_small by (rewrite two32_val; lia). lia.
    Qed.
  End Part.

  Lemma part_unique p p' u : 0 <= p -> 0 <= p' -> within (res_span r (part p)) u -> within (res_span r (part p')) u -> p = p'.
  Proof.
    intros Hp Hp' A B. unfold part, tile_span in A, B. apply in_span in A; [|lia|lia]. apply in_span in B; [|lia|lia].
    destruct L. set (x := u * 2 ^ r * sub) in *. nia.
  Qed.
  Lemma part_found u : within (res_span r whole) u <-> exists p, 0 <= p < tiles size torigin tsize /\ within (res_span r (part p)) u.
  Proof.
    unfold whole. rewrite in_span by lia. destruct L as [L1 L2 L3 L4]. set (x := u * 2 ^ r * sub). split.
    - intros Hx. set (p := (x - torigin) / tsize). pose proof (Z.div_mod (x - torigin) tsize ltac:(lia)). pose proof (Z.mod_pos_bound (x - torigin) tsize ltac:(lia)).
      fold p in H. exists p. split.
      + split; [unfold p; apply Z.div_pos; lia|]. unfold tiles. apply ceil_lt; lia.
      + unfold part, tile_span. apply in_span; [lia|lia|]. fold x. nia.
    - intros (p & Hp & H). unfold part, tile_span in H. apply in_span in H; [|lia|lia]. fold x in H. lia.
  Qed.
End Axis.

(** Fewer rows than the first component. *)
Lemma thinner size origin tsize torigin r sub0 sub p : axis_legal size origin tsize torigin -> 0 <= r ->
  1 <= sub0 -> 1 <= sub -> (sub0 | sub) -> 0 <= p < tiles size torigin tsize ->
  let n k := snd (res_span r (comp_span k (tile_span size origin tsize torigin p))) - fst (res_span r (comp_span k (tile_span size origin tsize torigin p))) in
  n sub <= n sub0.
Proof.
  intros L Hr H0 H1 (k & Hk) Hp n. assert (1 <= k) by nia. pose proof (tile_span_ok _ _ _ _ _ L Hp) as S. cbv zeta in S.
  assert (0 < 2 ^ r) by (apply Z.pow_pos_nonneg; lia).
  unfold n, res_span, comp_span. cbn [fst snd]. set (a := fst (tile_span size origin tsize torigin p)) in *. set (b := snd (tile_span size origin tsize torigin p)) in *.
  assert (E : forall x, ceil_div (ceil_div x sub) (2 ^ r) = ceil_div (ceil_div (ceil_div x sub0) (2 ^ r)) k).
  { intros x. rewrite !ceil_ceil by nia. f_equal. nia. }
  rewrite !E. apply ceil_thin; [lia|]. apply ceil_mono; [lia|]. apply ceil_mono; lia.
Qed.

Section Image.
  Variable s : siz.
  Variable r : Z.
  Hypothesis L : image_legal s.
  Hypothesis Hr : 0 <= r <= 31.

  Definition out_w (c : Z) : Z := ceil_div (snd (comp_span (sub_x s c) (XOsiz s, Xsiz s)) - fst (comp_span (sub_x s c) (XOsiz s, Xsiz s))) (2 ^ r).
  Definition out_h (c : Z) : Z := ceil_div (snd (comp_span (sub_y s c) (YOsiz s, Ysiz s)) - fst (comp_span (sub_y s c) (YOsiz s, Ysiz s))) (2 ^ r).

  Lemma siz_at_exact c : 0 <= c < Csiz s -> exists g, siz_at s c = Ret (g, sub_x s c, sub_y s c).
  Proof.
    intros Hc. destruct L as [_ _ [N _] _ _]. unfold siz_at, sub_x, sub_y. replace ((0 <=? c) && (c <? zlen (Comps s))) with true by lia.
    destruct (znth (0, 0, 0) (Comps s) c) as [[g a] b]. exists g. reflexivity.
  Qed.

  Lemma out_size_exact c : 0 <= c < Csiz s -> out_size s r c = ret (out_w c, out_h c).
  Proof.
    intros Hc. destruct (siz_at_exact c Hc) as (g & E). unfold out_size. rewrite E. cbn [bind].
    destruct L as [Lx Ly _ Hsub _]. destruct (Hsub c Hc) as [Sx Sy].
    destruct (whole_exact _ _ _ _ Lx _ Sx) as [-> ->]. destruct (whole_exact _ _ _ _ Ly _ Sy) as [-> ->]. rewrite !ret_bindx.
    rewrite shl1_exact by lia. rewrite ret_bindx.
    rewrite (extent_exact _ _ _ _ Lx r _ Hr Sx), (extent_exact _ _ _ _ Ly r _ Hr Sy). reflexivity.
  Qed.

  Lemma grid_pos : 1 <= cols_of_tiles s /\ 1 <= rows_of_tiles s.
  Proof. destruct L as [Lx Ly _ _ _]. pose proof (tiles_pos _ _ _ _ Lx). pose proof (tiles_pos _ _ _ _ Ly). unfold cols_of_tiles, rows_of_tiles. lia. Qed.

  Lemma place i : 0 <= i < cols_of_tiles s * rows_of_tiles s ->
    0 <= i mod cols_of_tiles s < cols_of_tiles s /\ 0 <= i / cols_of_tiles s < rows_of_tiles s.
  Proof.
    intros Hi. destruct grid_pos. split; [apply Z.mod_pos_bound; lia|]. split; [apply Z.div_pos; lia|]. apply Z.div_lt_upper_bound; lia.
  Qed.

  (** What comp_info must give for component [c] of tile [i]. *)
  Definition ci_spec (i c : Z) : cinfo :=
    let tx := tile_columns s r c (i mod cols_of_tiles s) in
    let ty := tile_lines s r c (i / cols_of_tiles s) in
    CI (snd tx - fst tx) (snd ty - fst ty) (fst tx - fst (columns s r c)) (fst ty - fst (lines s r c)) (out_w c).

  Lemma comp_info_exact i c NL : 0 <= i < cols_of_tiles s * rows_of_tiles s -> 0 <= c < Csiz s -> r <= NL <= 32 ->
    bindx (tile_region s (cols_of_tiles s) i) (fun g => comp_info s r g NL c) = ret (ci_spec i c).
  Proof.
    intros Hi Hc HNL. destruct (place i Hi) as [Hp Hq]. destruct grid_pos. unfold tile_region. replace (cols_of_tiles s =? 0) with false by lia.
    set (p := i mod cols_of_tiles s) in *. set (q := i / cols_of_tiles s) in *. rewrite ret_bindx.
    destruct (siz_at_exact c Hc) as (g & E). unfold comp_info. rewrite E. cbn [bind].
    destruct L as [Lx Ly _ Hsub _]. destruct (Hsub c Hc) as [Sx Sy].
    destruct (whole_exact _ _ _ _ Lx _ Sx) as [-> ->]. destruct (whole_exact _ _ _ _ Ly _ Sy) as [-> _]. rewrite !ret_bindx.
    unfold tcomp_region. cbn [x0 y0 x1 y1].
    destruct (part_exact _ _ _ _ Lx _ Sx p Hp) as [-> ->]. destruct (part_exact _ _ _ _ Ly _ Sy q Hq) as [-> ->]. rewrite !ret_bindx.
    unfold active_region. rewrite Z.mod_small by lia. replace (NL <? NL - r) with false by lia.
    unfold res_region. replace (NL - (NL - r)) with r by lia. rewrite !shl1_exact by lia. rewrite !ret_bindx. cbn [x0 y0 x1 y1].
    destruct (res_part _ _ _ _ Lx r _ Hr Sx p Hp) as [-> ->]. destruct (res_part _ _ _ _ Ly r _ Hr Sy q Hq) as [-> ->]. rewrite !ret_bindx. cbn [x0 y0 x1 y1].
    rewrite (first_exact _ _ _ _ Lx r _ Hr Sx), (first_exact _ _ _ _ Ly r _ Hr Sy). rewrite !ret_bindx.
    rewrite (extent_exact _ _ _ _ Lx r _ Hr Sx). rewrite ret_bindx.
    pose proof (part_numbers _ _ _ _ Lx r _ Hr Sx p Hp) as (-> & -> & _). pose proof (part_numbers _ _ _ _ Ly r _ Hr Sy q Hq) as (-> & -> & _).
    reflexivity.
  Qed.
End Image.
