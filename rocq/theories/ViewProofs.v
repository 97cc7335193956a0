From Coq Require Import Sorted.
From Verif Require Import Base BaseLemmas PrecinctModel PrecinctSpec PrecinctProofs
  ViewModel ViewSpec.

(** * The discard level *)

Lemma fold_max l m0 : let m := fold_left (fun m i => if m <? NL i then NL i else m) l m0 in
  m0 <= m /\ (forall i, In i l -> NL i <= m) /\ (m = m0 \/ exists i, In i l /\ NL i = m).
Proof.
  revert m0. induction l as [|a l IH]; intros m0; cbn [fold_left].
  - conj; try lia. intros i [].
  - specialize (IH (if m0 <? NL a then NL a else m0)). cbv zeta in IH.
    destruct IH as (H1 & H2 & H3).
    set (m := fold_left _ l _) in *. clearbody m.
    destruct (Z.ltb_spec m0 (NL a)).
    + split; [lia|]. split.
      * intros i [->|Hi]; [lia|auto].
      * right. destruct H3 as [->|(i & Hi & E)]; [exists a|exists i]; split; auto;
        [left; reflexivity|right; assumption].
    + split; [lia|]. split.
      * intros i [->|Hi]; [lia|auto].
      * destruct H3 as [->|(i & Hi & E)]; [left; reflexivity|].
        right. exists i. split; [right|]; assumption.
Qed.

Section View.
  Variable h : header.
  Hypothesis Hleg : legal h.
  Hypothesis Hcnt : countable h.
  Let x := index_of_header h.

  Lemma tcs_in i : In i (tcs x) ->
    exists tx ty c, 0 <= tx < tiles_x h /\ 0 <= ty < tiles_y h /\
      In c (h_comps h) /\ i = tc_of h tx ty c.
  Proof.
    unfold x, index_of_header. cbn [tcs]. intros Hi.
    apply in_concat in Hi as (l1 & Hl1 & Hi).
    apply in_concat in Hl1 as (l2 & Hl2 & Hl1).
    apply in_map_iff in Hl2 as (ty & <- & Hty).
    apply in_map_iff in Hl1 as (tx & <- & Htx).
    apply in_map_iff in Hi as (c & <- & Hc).
    apply zseq_In in Hty, Htx. exists tx, ty, c. auto.
  Qed.

  Lemma tcs_has tx ty c : 0 <= tx < tiles_x h -> 0 <= ty < tiles_y h ->
    In c (h_comps h) -> In (tc_of h tx ty c) (tcs x).
  Proof.
    intros Htx Hty Hc. unfold x, index_of_header. cbn [tcs].
    apply in_concat. exists (map (tc_of h tx ty) (h_comps h)). split.
    - apply in_concat. eexists. split; [apply in_map; apply zseq_In; exact Hty|].
      cbv beta.
      apply (in_map (fun tx => map (tc_of h tx ty) (h_comps h))). apply zseq_In. exact Htx.
    - apply in_map. exact Hc.
  Qed.

  Lemma max_NL_most : most_levels h (max_NL x) /\ 0 <= max_NL x <= 31.
  Proof.
    unfold max_NL. pose proof (fold_max (tcs x) 0) as H. cbv zeta in H.
    set (m := fold_left _ _ _) in *. destruct H as (H1 & H2 & H3).
    pose proof (n_tiles_small h Hleg) as (Ht1 & Ht2 & _).
    pose proof (lg_ncomps h Hleg) as Hnc.
    assert (All : forall c, In c (h_comps h) -> c_NL c <= m).
    { intros c Hc. apply (H2 _ (tcs_has 0 0 c ltac:(lia) ltac:(lia) Hc)). }
    assert (Ex : exists c, In c (h_comps h) /\ c_NL c = m).
    { destruct H3 as [Hm|(i & Hi & E)].
      - destruct (h_comps h) as [|c l] eqn:Ec; [cbn in Hnc; lia|].
        exists c. split; [left; reflexivity|].
        pose proof (All c (or_introl eq_refl)).
        assert (In c (h_comps h)) by (rewrite Ec; left; reflexivity).
        destruct (comp_is_legal h Hleg c H0) as (_ & _ & HN & _). lia.
      - destruct (tcs_in i Hi) as (tx & ty & c & _ & _ & Hc & ->). exists c. auto. }
    split; [split; assumption|]. split; [exact H1|].
    destruct Ex as (c & Hc & <-). apply (comp_is_legal h Hleg c Hc).
  Qed.

  Lemma fsiz_exact r : 0 <= r <= 31 -> fsiz_at x r = ret (frame_w h r, frame_h h r).
  Proof.
    intros Hr. unfold fsiz_at. change (hdr x) with h. cbv zeta.
    rewrite shl1_exact by lia. rewrite ret_bindx.
    pose proof (pow2_bounds r Hr) as Hp. change (2 ^ 31) with 2147483648 in *.
    destruct (lg_x h Hleg) as [X1 X2 _ _]. destruct (lg_y h Hleg) as [Y1 Y2 _ _].
    change (2 ^ 31) with 2147483648 in *.
    rewrite !cdiv_exact by (rewrite ?two32_val; lia). rewrite !ret_bindx.
    assert (F : forall s o, 0 <= o < s -> s <= 2147483648 ->
      wrap32 (ceil_div s (2 ^ r) - ceil_div o (2 ^ r)) = reduced s o r).
    { intros s o Ho Hs. apply wrap32_small. rewrite two32_val. unfold reduced.
      pose proof (ceil_mono o s (2 ^ r)). pose proof (ceil_nonneg o (2 ^ r)).
      pose proof (ceil_le_self s (2 ^ r)). lia. }
    rewrite !F by lia. reflexivity.
  Qed.

  Lemma reduced_mono s o r r' : 0 <= o <= s -> 0 <= r <= r' ->
    0 <= reduced s o r' <= reduced s o r.
  Proof.
    intros Ho Hr. unfold reduced.
    replace r' with (r + (r' - r)) by lia. rewrite Z.pow_add_r by lia.
    pose proof (Z.pow_pos_nonneg 2 r ltac:(lia) ltac:(lia)).
    pose proof (Z.pow_pos_nonneg 2 (r' - r) ltac:(lia) ltac:(lia)).
    rewrite <- !ceil_ceil by lia.
    pose proof (ceil_mono o s (2 ^ r) ltac:(lia) ltac:(lia)) as Hm.
    set (a := ceil_div o (2 ^ r)) in *. set (b := ceil_div s (2 ^ r)) in *.
    set (P := 2 ^ (r' - r)) in *. clearbody a b P.
    pose proof (ceil_mono a b P ltac:(lia) Hm).
    split; [lia|].
    assert (ceil_div b P <= ceil_div a P + (b - a)); [|lia].
    apply ceil_le; [lia|].
    pose proof (proj1 (ceil_le a P _ ltac:(lia)) (Z.le_refl _)). nia.
  Qed.

  Lemma frame_mono r r' : 0 <= r <= r' ->
    0 <= frame_w h r' <= frame_w h r /\ 0 <= frame_h h r' <= frame_h h r.
  Proof.
    intros Hr. destruct (lg_x h Hleg) as [X1 X2 _ _]. destruct (lg_y h Hleg) as [Y1 Y2 _ _].
    split; apply reduced_mono; lia.
  Qed.

  Lemma frame_bound r : 0 <= r -> frame_w h r <= 2 ^ 31 /\ frame_h h r <= 2 ^ 31.
  Proof.
    intros Hr. destruct (frame_mono 0 r ltac:(lia)) as [H1 H2].
    destruct (lg_x h Hleg) as [X1 X2 _ _]. destruct (lg_y h Hleg) as [Y1 Y2 _ _].
    unfold frame_w at 3 in H1. unfold frame_h at 3 in H2. unfold reduced in H1, H2.
    change (2 ^ 0) with 1 in *.
    assert (F : forall a, ceil_div a 1 = a) by (intros; unfold ceil_div; rewrite Z.div_1_r; lia).
    rewrite !F in H1, H2. lia.
  Qed.

  Lemma pick_down_spec qx qy m a n : (0 <= m <= 31) -> (Z.of_nat a + Z.of_nat n = m + 1) ->
    exists r, pick_down x qx qy (map Z.of_nat (seq a n)) m = ret r /\
      ((Z.of_nat a <= r <= m /\ frame_w h r <= qx /\ frame_h h r <= qy /\
        forall r', Z.of_nat a <= r' < r -> ~ (frame_w h r' <= qx /\ frame_h h r' <= qy)) \/
       (r = m /\ forall r', Z.of_nat a <= r' <= m -> ~ (frame_w h r' <= qx /\ frame_h h r' <= qy))).
  Proof.
    intros Hm. revert a. induction n as [|n IH]; intros a Ha; cbn [seq map pick_down].
    - exists m. split; [reflexivity|]. right. split; [reflexivity|]. intros; lia.
    - rewrite fsiz_exact by lia. rewrite ret_bindx.
      destruct (Z.leb_spec (frame_w h (Z.of_nat a)) qx);
        destruct (Z.leb_spec (frame_h h (Z.of_nat a)) qy); cbn [andb].
      1: { exists (Z.of_nat a). split; [reflexivity|]. left. conj; try lia. }
      all: destruct (IH (S a) ltac:(lia)) as (r & E & HH); exists r; split; [exact E|];
        destruct HH as [(B & W & H' & F)|(B & F)];
        [ left; conj; try lia; intros r' Hr'; assert (r' = Z.of_nat a \/ Z.of_nat (S a) <= r') as [->|] by lia;
          [lia|apply F; lia]
        | right; split; [assumption|]; intros r' Hr';
          assert (r' = Z.of_nat a \/ Z.of_nat (S a) <= r') as [->|] by lia; [lia|apply F; lia] ].
  Qed.

  Lemma pick_up_spec qx qy n : Z.of_nat n <= 32 ->
    exists r, pick_up x qx qy (rev (map Z.of_nat (seq 0 n))) = ret r /\
      ((0 <= r < Z.of_nat n /\ qx <= frame_w h r /\ qy <= frame_h h r /\
        forall r', r < r' < Z.of_nat n -> ~ (qx <= frame_w h r' /\ qy <= frame_h h r')) \/
       (r = 0 /\ forall r', 0 <= r' < Z.of_nat n -> ~ (qx <= frame_w h r' /\ qy <= frame_h h r'))).
  Proof.
    induction n as [|n IH]; intros Hn.
    - exists 0. split; [reflexivity|]. right. split; [reflexivity|]. intros; lia.
    - rewrite seq_S, map_app, rev_app_distr. cbn [map rev app pick_up Nat.add].
      rewrite fsiz_exact by lia. rewrite ret_bindx.
      destruct (Z.leb_spec qx (frame_w h (Z.of_nat n)));
        destruct (Z.leb_spec qy (frame_h h (Z.of_nat n))); cbn [andb].
      1: { exists (Z.of_nat n). split; [reflexivity|]. left. conj; try lia. }
      all: destruct (IH ltac:(lia)) as (r & E & HH); exists r; split; [exact E|];
        destruct HH as [(B & W & H' & F)|(B & F)];
        [ left; conj; try lia; intros r' Hr'; assert (r' = Z.of_nat n \/ r' < Z.of_nat n) as [->|] by lia;
          [lia|apply F; lia]
        | right; split; [assumption|]; intros r' Hr';
          assert (r' = Z.of_nat n \/ r' < Z.of_nat n) as [->|] by lia; [lia|apply F; lia] ].
  Qed.

  Lemma pick_closest_spec target a n bd br : (Z.of_nat a + Z.of_nat n <= 32) ->
    0 <= target <= (2 ^ 32 - 1) * (2 ^ 32 - 1) ->
    let diff := fun r => Z.abs (frame_w h r * frame_h h r - target) in
    ((a = 0%nat /\ bd = two64 - 1 /\ br = 0) \/
     (0 <= br < Z.of_nat a /\ bd = diff br /\
       forall r', 0 <= r' < Z.of_nat a -> diff br <= diff r' /\ (r' < br -> diff br < diff r'))) ->
    (0 < Z.of_nat a + Z.of_nat n) ->
    exists r, pick_closest x target (map Z.of_nat (seq a n)) bd br = ret r /\
      0 <= r < Z.of_nat a + Z.of_nat n /\
      forall r', 0 <= r' < Z.of_nat a + Z.of_nat n ->
        diff r <= diff r' /\ (r' < r -> diff r < diff r').
  Proof.
    intros Hb Ht diff. revert a Hb bd br.
    induction n as [|n IH]; intros a Hb bd br Hinv Hpos; cbn [seq map pick_closest].
    - exists br. split; [reflexivity|].
      destruct Hinv as [(-> & _)|(B & E & F)]; [lia|].
      rewrite Nat2Z.inj_0, Z.add_0_r. split; [lia|exact F].
    - rewrite fsiz_exact by lia. rewrite ret_bindx.
      destruct (frame_bound (Z.of_nat a) ltac:(lia)) as [B1 B2].
      destruct (frame_mono (Z.of_nat a) (Z.of_nat a) ltac:(lia)) as [M1 M2].
      change (2 ^ 31) with 2147483648 in *. change (2 ^ 32) with 4294967296 in *.
      cbv zeta.
      rewrite (wrap64_small (frame_w h (Z.of_nat a) * frame_h h (Z.of_nat a)))
        by (rewrite two64_val; nia).
      set (ar := frame_w h (Z.of_nat a) * frame_h h (Z.of_nat a)).
      assert (Har : 0 <= ar <= 2147483648 * 2147483648) by (unfold ar; nia).
      assert (Ed : (if target <? ar then ar - target else target - ar) = diff (Z.of_nat a)).
      { unfold diff. fold ar. destruct (Z.ltb_spec target ar); lia. }
      rewrite Ed.
      assert (Hd : 0 <= diff (Z.of_nat a) < two64 - 1).
      { unfold diff. fold ar. rewrite two64_val. lia. }
      replace (Z.of_nat a + Z.of_nat (S n)) with (Z.of_nat (S a) + Z.of_nat n) in * by lia.
      destruct (Z.ltb_spec (diff (Z.of_nat a)) bd).
      + apply IH; [lia| |lia]. right. split; [lia|]. split; [reflexivity|].
        intros r' Hr'. assert (r' = Z.of_nat a \/ 0 <= r' < Z.of_nat a) as [->|] by lia.
        * lia.
        * destruct Hinv as [(-> & _)|(B & E & F)]; [lia|].
          destruct (F r' ltac:(lia)). lia.
      + apply IH; [lia| |lia]. right.
        destruct Hinv as [(-> & E & _)|(B & E & F)]; [lia|].
        split; [lia|]. split; [exact E|].
        intros r' Hr'. assert (r' = Z.of_nat a \/ 0 <= r' < Z.of_nat a) as [->|] by lia.
        * lia.
        * apply F; lia.
  Qed.

  Variable w : window.
  Hypothesis Hw : window_ok w.

  Lemma pick_spec m : most_levels h m ->
    exists d, pick_discard_level x w = ret d /\ 0 <= d <= m /\
    let qx := asked_w h w in let qy := asked_h h w in
    let fits r := frame_w h r <= qx /\ frame_h h r <= qy in
    let holds r := qx <= frame_w h r /\ qy <= frame_h h r in
    let diff r := Z.abs (frame_w h r * frame_h h r - qx * qy) in
    match rounding w with
    | Down =>
        (fits d /\ forall r, 0 <= r <= m -> fits r ->
           frame_w h r <= frame_w h d /\ frame_h h r <= frame_h h d) \/
        (d = m /\ forall r, 0 <= r <= m -> ~ fits r)
    | Up =>
        (holds d /\ forall r, 0 <= r <= m -> holds r ->
           frame_w h d <= frame_w h r /\ frame_h h d <= frame_h h r) \/
        (d = 0 /\ forall r, 0 <= r <= m -> ~ holds r)
    | Closest =>
        forall r, 0 <= r <= m -> diff d <= diff r /\ (r < d -> diff d < diff r)
    end.
  Proof.
    intros [(c0 & Hc0 & E0) Hall]. destruct max_NL_most as [[(c1 & Hc1 & E1) Hall1] Hb].
    assert (Em : m = max_NL x).
    { pose proof (Hall c1 Hc1). pose proof (Hall1 c0 Hc0). lia. }
    rewrite Em. clear Em E0 Hall Hc0. cbv zeta.
    clear m.
    unfold pick_discard_level. change (hdr x) with h. cbv zeta.
    fold (asked_w h w) (asked_h h w).
    set (qx := asked_w h w). set (qy := asked_h h w).
    set (m := max_NL x) in *. clearbody m.
    assert (Zn : Z.of_nat (Z.to_nat (m + 1)) = m + 1) by lia.
    destruct (rounding w); unfold zseq.
    - destruct (pick_down_spec qx qy m 0 (Z.to_nat (m + 1)) Hb ltac:(lia)) as (d & E & HH).
      exists d. split; [exact E|]. destruct HH as [(B & W & H' & F)|(B & F)].
      + split; [lia|]. left. split; [split; assumption|].
        intros r Hr Hfit. destruct (Z.ltb_spec r d) as [Hlt|Hge].
        * destruct (F r ltac:(lia)). exact Hfit.
        * destruct (frame_mono d r ltac:(lia)). lia.
      + split; [lia|]. right. split; [exact B|]. intros r Hr. apply F. lia.
    - destruct (pick_up_spec qx qy (Z.to_nat (m + 1)) ltac:(lia)) as (d & E & HH).
      exists d. split; [exact E|]. rewrite Zn in HH. destruct HH as [(B & W & H' & F)|(B & F)].
      + split; [lia|]. left. split; [split; assumption|].
        intros r Hr Hfit. destruct (Z.ltb_spec d r) as [Hlt|Hge].
        * destruct (F r ltac:(lia)). exact Hfit.
        * destruct (frame_mono r d ltac:(lia)). lia.
      + split; [lia|]. right. split; [exact B|]. intros r Hr. apply F. lia.
    - assert (Hq : 0 <= qx * qy <= (2 ^ 32 - 1) * (2 ^ 32 - 1)).
      { destruct Hw as [[A1 A2] [A3 A4] _ _ _ _ _].
        destruct (lg_x h Hleg) as [X1 X2 _ _]. destruct (lg_y h Hleg) as [Y1 Y2 _ _].
        assert (0 <= qx <= 2 ^ 32 - 1) by (unfold qx, asked_w; destruct (fx w =? 0); lia).
        assert (0 <= qy <= 2 ^ 32 - 1) by (unfold qy, asked_h; destruct (fy w =? 0); lia).
        nia. }
      rewrite (wrap64_small (qx * qy)) by (rewrite two64_val; lia).
      destruct (pick_closest_spec (qx * qy) 0 (Z.to_nat (m + 1)) (two64 - 1) 0
                  ltac:(lia) Hq) as (d & E & B & F).
      + left. auto.
      + lia.
      + exists d. split; [exact E|]. split; [lia|]. intros r Hr. apply F. lia.
  Qed.
End View.
