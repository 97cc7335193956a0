(** Segments of a contribution: the reader against the standard. *)
From Verif Require Import Base BaseLemmas ChainModel ChainProps PacketModel PacketTree PacketCode PacketProofs SegmentSpec.

Lemma digits_bits n : forall v, digits n v = bits_of n v.
Proof. induction n as [|n IH]; intros v; cbn [digits bits_of]; [reflexivity|]. now rewrite IH. Qed.
Lemma get_N_digits k v rest : 0 <= k <= 32 -> 0 <= v < 2 ^ k -> get_N list_bit k (digits (Z.to_nat k) v ++ rest) = ret (v, rest).
Proof. rewrite digits_bits. apply get_N_ok. Qed.

Lemma get_passes_ok n rest : 1 <= n <= 164 -> get_passes list_bit (pass_code n ++ rest) = ret (n, rest).
Proof.
  intros H. unfold pass_code, get_passes.
  destruct (Z.eqb_spec n 1) as [->|N1]; [reflexivity|]. destruct (Z.eqb_spec n 2) as [->|N2]; [reflexivity|].
  destruct (Z.leb_spec n 5) as [G|G].
  { rewrite <- app_assoc. cbn [app]. cbn [list_bit]. go. change (2 <=? 1 + 1) with true. cbv iota. cbn [list_bit]. go. change (1 + 1 + 1) with 3. change (3 <=? 3) with true. cbv iota.
    change (digits 2 (n - 3)) with (digits (Z.to_nat 2) (n - 3)). rewrite get_N_digits by (change (2 ^ 2) with 4; lia). go. rewrite Z.mod_small by lia. replace (6 <=? 3 + (n - 3)) with false by lia. f_equal. f_equal. f_equal. lia. }
  destruct (Z.leb_spec n 36) as [G1|G1].
  { rewrite <- app_assoc. cbn [app]. cbn [list_bit]. go. change (2 <=? 1 + 1) with true. cbv iota. cbn [list_bit]. go. change (1 + 1 + 1) with 3. change (3 <=? 3) with true. cbv iota.
    change (1 :: 1 :: digits 5 (n - 6) ++ rest) with (digits (Z.to_nat 2) 3 ++ (digits (Z.to_nat 5) (n - 6) ++ rest)). rewrite get_N_digits by (change (2 ^ 2) with 4; lia). go. change (3 + 3 mod 256) with 6. change (6 <=? 6) with true. cbv iota.
    rewrite get_N_digits by (change (2 ^ 5) with 32; lia). go. rewrite Z.mod_small by lia. replace (37 <=? 6 + (n - 6)) with false by lia. f_equal. f_equal. f_equal. lia. }
  rewrite <- app_assoc. cbn [app]. cbn [list_bit]. go. change (2 <=? 1 + 1) with true. cbv iota. cbn [list_bit]. go. change (1 + 1 + 1) with 3. change (3 <=? 3) with true. cbv iota.
  change (1 :: 1 :: 1 :: 1 :: 1 :: 1 :: 1 :: digits 7 (n - 37) ++ rest) with (digits (Z.to_nat 2) 3 ++ (digits (Z.to_nat 5) 31 ++ (digits (Z.to_nat 7) (n - 37) ++ rest))). rewrite get_N_digits by (change (2 ^ 2) with 4; lia). go. change (3 + 3 mod 256) with 6. change (6 <=? 6) with true. cbv iota.
  rewrite get_N_digits by (change (2 ^ 5) with 32; lia). go. change (6 + 31 mod 256) with 37. change (37 <=? 37) with true. cbv iota.
  rewrite get_N_digits by (change (2 ^ 7) with 128; lia). go. rewrite Z.mod_small by lia. f_equal. f_equal. f_equal. lia.
Qed.

(** ** Recording a segment *)
Lemma wr_at l i v : 0 <= i < zlen l -> wr l i v = Ret (ztake i l ++ [v] ++ zskip (i + 1) l).
Proof. intros H. unfold wr. replace ((0 <=? i) && (i <? zlen l)) with true by lia. reflexivity. Qed.
Lemma zero_fill_is n : forall fuel l c, n <= zlen l -> 0 <= c <= n -> n - c < Z.of_nat fuel ->
  zero_fill fuel n l c = Ret (ztake c l ++ repeat 0 (Z.to_nat (n - c)) ++ zskip n l, n).
Proof.
  induction fuel as [|fuel IH]; intros l c Hn Hc Hf; [lia|]. cbn [zero_fill]. destruct (Z.ltb_spec c n) as [G|G].
  - rewrite wr_at by lia. go. rewrite IH; [|rewrite !zlen_app, zlen_ztake, zlen_zskip by lia; change (zlen [0]) with 1; lia|lia|lia]. f_equal. f_equal.
    assert (zlen (ztake c l ++ [0]) = c + 1) as Lc by (rewrite zlen_app, zlen_ztake by lia; reflexivity). rewrite !(app_assoc (ztake c l) [0]). rewrite (ztake_app (c + 1)) by exact Lc.
    replace (zskip n ((ztake c l ++ [0]) ++ zskip (c + 1) l)) with (zskip n l).
    + replace (Z.to_nat (n - c)) with (S (Z.to_nat (n - (c + 1)))) by lia. cbn [repeat]. rewrite <- app_assoc. reflexivity.
    + replace n with (n - (c + 1) + (c + 1)) by lia. rewrite <- !(zskip_zskip (n - (c + 1)) (c + 1)) by lia. rewrite (zskip_app (c + 1) _ _ Lc). reflexivity.
  - assert (c = n) as -> by lia. replace (Z.to_nat (n - n)) with O by lia. cbn [repeat app]. now rewrite ztake_zskip.
Qed.
Lemma add_is b bytes k v : holds b bytes -> 1 <= k -> zlen bytes + k <= 128 ->
  exists b', add_segment b k v = ret b' /\ holds b' (bytes ++ repeat 0 (Z.to_nat (k - 1)) ++ [v]) /\
    cmodes b' = cmodes b /\ nzbp b' = nzbp b /\ fskip b' = fskip b /\ lblock b' = lblock b /\ lstart b' = lstart b /\ lpasses b' = lpasses b /\ included b' = included b.
Proof.
  intros [H1 H2 H3 H4] Hk Hs. unfold add_segment. pose proof (zlen_nonneg bytes) as Hb. replace (128 <? k) with false by lia. rewrite H1, H2. cbv zeta. rewrite (Z.mod_small k) by lia. rewrite Z.mod_small by lia. replace (128 <? zlen bytes + k) with false by lia.
  set (n := zlen bytes) in *. set (l := ensure_pass_capacity (plen b) (n + k)).
  assert (ztake n l = bytes /\ (zlen l = 4 /\ n + k <= 4 \/ zlen l = 128 /\ n + k <= 128)) as [T R].
  { subst l. unfold ensure_pass_capacity. destruct (Z.leb_spec (n + k) 4) as [A|A]; cbn [orb]; [split; [exact H3|lia]|]. destruct (Z.eqb_spec (zlen (plen b)) 4) as [B|B]; cbn [negb]; [|split; [exact H3|lia]].
    rewrite ztake_app_le by lia. split; [exact H3|]. rewrite zlen_app, zlen_repeat, B. change (4 + Z.of_nat 124) with 128. lia. }
  rewrite zero_fill_is by lia. go. rewrite T. set (l1 := bytes ++ repeat 0 (Z.to_nat (n + k - n)) ++ zskip (n + k) l).
  assert (zlen l1 = zlen l) as L1 by (unfold l1; rewrite !zlen_app, zlen_repeat, zlen_zskip by lia; fold n; lia). rewrite wr_at by lia. go. eexists. split; [reflexivity|].
  assert (ztake (n + k - 1) l1 = bytes ++ repeat 0 (Z.to_nat (k - 1))) as T1.
  { unfold l1. replace (Z.to_nat (n + k - n)) with (Z.to_nat (k - 1) + 1)%nat by lia. rewrite repeat_app, <- app_assoc, app_assoc. apply ztake_app. rewrite zlen_app, zlen_repeat. fold n. lia. }
  assert (zlen (bytes ++ repeat 0 (Z.to_nat (k - 1)) ++ [v]) = n + k) as Ln by (rewrite !zlen_app, zlen_repeat; change (zlen [v]) with 1; fold n; lia).
  split; [|cbn [cmodes npasses nzbp fskip lblock lstart lpasses included]; repeat split; reflexivity].
  constructor; cbn [npasses plcount plen]; rewrite ?Ln; try reflexivity.
  - rewrite T1, app_assoc. change (n + k) with (n + k). rewrite ztake_app; rewrite <- ?app_assoc; [reflexivity|exact Ln].
  - rewrite !zlen_app, zlen_ztake, zlen_zskip by lia. change (zlen [v]) with 1. lia.
Qed.

(** ** Runs *)
Lemma runs_together n : forall i k, 0 <= k -> runs Together n i k = if k + Z.of_nat n =? 0 then [] else [k + Z.of_nat n].
Proof.
  induction n as [|n IH]; intros i k Hk; cbn [runs ends]; [rewrite Z.add_0_r; reflexivity|]. rewrite IH by lia. replace (k + 1 + Z.of_nat n) with (k + Z.of_nat (S n)) by lia. reflexivity.
Qed.
Lemma runs_early n : forall i k, 0 <= k -> 0 <= i <= 9 -> runs Lazy n i k =
  if Z.of_nat n <=? 9 - i then if k + Z.of_nat n =? 0 then [] else [k + Z.of_nat n] else (k + (10 - i)) :: runs Lazy (n - Z.to_nat (10 - i)) 10 0.
Proof.
  induction n as [|n IH]; intros i k Hk Hi; [cbn [runs]; replace (Z.of_nat 0 <=? 9 - i) with true by lia; rewrite Z.add_0_r; reflexivity|]. cbn [runs].
  destruct (Z.eq_dec i 9) as [->|N].
  - change (ends Lazy 9) with true. cbv iota. replace (Z.of_nat (S n) <=? 9 - 9) with false by lia. change (10 - 9) with 1. f_equal. change (9 + 1) with 10. f_equal. change (Z.to_nat 1) with 1%nat. lia.
  - unfold ends at 1. replace (9 <=? i) with false by lia. cbn [andb]. rewrite IH by lia. replace (Z.of_nat n <=? 9 - (i + 1)) with (Z.of_nat (S n) <=? 9 - i) by lia. destruct (Z.of_nat (S n) <=? 9 - i).
    + replace (k + 1 + Z.of_nat n) with (k + Z.of_nat (S n)) by lia. reflexivity.
    + f_equal; [lia|]. f_equal. lia.
Qed.
(** From pass 10 of the lazy mode, and in an HT block *)
Definition late (g : grouping) (i : Z) : Prop := match g with Lazy => 10 <= i | Ht => 0 <= i | _ => False end.
Lemma late_ends g i : late g i -> ends g i = negb (i mod 3 =? 1).
Proof. destruct g; cbn [late ends]; try contradiction; auto. intros H. replace (9 <=? i) with true by lia. reflexivity. Qed.
Lemma late_next g i k : late g i -> 0 <= k -> late g (i + k).
Proof. destruct g; cbn [late]; lia. Qed.
Lemma runs_one g n i : late g i -> i mod 3 <> 1 -> runs g (S n) i 0 = 1 :: runs g n (i + 1) 0.
Proof. intros L H. cbn [runs]. rewrite late_ends by exact L. replace (i mod 3 =? 1) with false by lia. reflexivity. Qed.
Lemma runs_last g i : late g i -> runs g 1 i 0 = [1].
Proof. intros L. cbn [runs]. destruct (ends g i); reflexivity. Qed.
Lemma runs_two g n i : late g i -> i mod 3 = 1 -> runs g (S (S n)) i 0 = 2 :: runs g n (i + 2) 0.
Proof.
  intros L H. cbn [runs]. rewrite (late_ends g i) by exact L. replace (i mod 3 =? 1) with true by lia. cbn [negb]. rewrite late_ends by (apply late_next; [exact L|lia]).
  replace ((i + 1) mod 3 =? 1) with false by lia. cbn [negb]. change (0 + 1 + 1) with 2. f_equal. f_equal. lia.
Qed.

(** ** The loops over further segments *)
Definition kept (b b' : cb) : Prop :=
  cmodes b' = cmodes b /\ nzbp b' = nzbp b /\ lblock b' = lblock b /\ lstart b' = lstart b /\ lpasses b' = lpasses b /\ included b' = included b.
Lemma kept_refl b : kept b b.
Proof. repeat split. Qed.
Lemma kept_trans a b c : kept a b -> kept b c -> kept a c.
Proof. unfold kept. intuition congruence. Qed.
Lemma pass_bytes_cons k v segs : pass_bytes ((k, v) :: segs) = (repeat 0 (Z.to_nat (k - 1)) ++ [v]) ++ pass_bytes segs.
Proof. reflexivity. Qed.
Lemma length_code_cons lb k v segs : length_code lb ((k, v) :: segs) = digits (Z.to_nat (lb + Z.log2 k)) v ++ length_code lb segs.
Proof. reflexivity. Qed.
Lemma fits_cons lb k v segs : fits lb ((k, v) :: segs) -> (lb + Z.log2 k <= 32 /\ 0 <= v < 2 ^ (lb + Z.log2 k)) /\ fits lb segs.
Proof. intros H. inversion H as [|? ? A B]. split; [exact A|exact B]. Qed.
Lemma zlen_more bytes k (v : Z) : 1 <= k -> zlen (bytes ++ repeat 0 (Z.to_nat (k - 1)) ++ [v]) = zlen bytes + k.
Proof. intros H. rewrite !zlen_app, zlen_repeat. change (zlen [v]) with 1. lia. Qed.
Lemma segs_nil (segs : list (Z * Z)) : map fst segs = [] -> segs = @nil (Z * Z).
Proof. destruct segs; [reflexivity|discriminate]. Qed.
Lemma segs_cons (segs : list (Z * Z)) k l : map fst segs = k :: l -> exists v segs' , segs = (k, v) :: segs' /\ map fst segs' = l.
Proof. destruct segs as [|[k0 v] segs]; [discriminate|]. cbn [map fst]. intros H. injection H as -> <-. eauto. Qed.
Lemma plain_S {S} (get : S -> ex (Z * S)) fuel b new next term s : plain_segments get (Datatypes.S fuel) b new next term s =
  if new <=? 0 then ret (b, s)
  else
    let '(sp, next, bits) :=
      if negb (term =? 0) then
        let sp := if 1 <? new then next else 1 in (sp, (3 - next) mod 256, (lblock b + sp - 1) mod 256)
      else (1, next, lblock b) in
    let? (bytes, s) := get_N get bits s in
    let? b := add_segment b sp bytes in
    plain_segments get fuel b (new - sp mod 256) next term s.
Proof. reflexivity. Qed.

Definition turn (i next : Z) : Prop := i mod 3 = 1 /\ next = 2 \/ i mod 3 = 0 /\ next = 1.
(** The first of the runs, in step with the code's alternation *)
Lemma runs_turn g m i next : late g i -> turn i next -> exists sp m', sp = (if 1 <? Z.of_nat (S m) then next else 1) /\ 1 <= sp <= 2 /\ Z.of_nat (S m) = sp + Z.of_nat m' /\ (m' <= m)%nat /\
  runs g (S m) i 0 = sp :: runs g m' (i + sp) 0 /\ (m' = O \/ turn (i + sp) (3 - next)).
Proof.
  intros L [[H ->]|[H ->]].
  - destruct m as [|m].
    + exists 1, O. rewrite runs_last by exact L. split; [reflexivity|]. split; [lia|]. split; [lia|]. split; [lia|]. split; [reflexivity|]. now left.
    + exists 2, m. replace (1 <? Z.of_nat (S (S m))) with true by lia. rewrite runs_two by assumption. split; [reflexivity|]. split; [lia|]. split; [lia|]. split; [lia|]. split; [reflexivity|]. right. right. lia.
  - exists 1, m. rewrite runs_one by (auto; lia). split; [destruct (1 <? Z.of_nat (S m)); reflexivity|]. split; [lia|]. split; [lia|]. split; [lia|]. split; [reflexivity|]. right. left. lia.
Qed.

Lemma plain_apart : forall m fuel segs b bytes next rest, holds b bytes -> map fst segs = runs Apart m (zlen bytes) 0 -> fits (lblock b) segs -> 0 <= lblock b ->
  zlen bytes + Z.of_nat m <= 128 -> (m < fuel)%nat ->
  exists b', plain_segments list_bit fuel b (Z.of_nat m) next 0 (length_code (lblock b) segs ++ rest) = ret (b', rest) /\ holds b' (bytes ++ pass_bytes segs) /\ kept b b'.
Proof.
  induction m as [|m IH]; intros fuel segs b bytes next rest H R F Hl Hs Hf; (destruct fuel as [|fuel]; [lia|]); rewrite plain_S.
  - cbn [runs] in R. apply segs_nil in R. subst segs. exists b. cbn [length_code pass_bytes flat_map app]. rewrite app_nil_r. repeat split; auto; apply H.
  - replace (Z.of_nat (S m) <=? 0) with false by lia. change (negb (0 =? 0)) with false. cbv iota. cbn [runs ends] in R. apply segs_cons in R as (v & segs' & -> & R). change (0 + 1) with 1 in *. apply fits_cons in F as [[F1 F2] F']. change (Z.log2 1) with 0 in *. rewrite Z.add_0_r in *.
    rewrite length_code_cons. change (Z.log2 1) with 0. rewrite Z.add_0_r, <- app_assoc, get_N_digits by lia. go. destruct (add_is b bytes 1 v H) as (b1 & E1 & H1 & K1 & K2 & _ & K3 & K4 & K5 & K6); [lia|lia|]. rewrite E1. go.
    change (1 mod 256) with 1. replace (Z.of_nat (S m) - 1) with (Z.of_nat m) by lia. rewrite <- K3. destruct (IH fuel segs' b1 _ next rest H1) as (b' & E' & H' & K'); rewrite ?K3; auto.
    + rewrite zlen_more by lia. exact R.
    + rewrite zlen_more; lia.
    + lia.
    + exists b'. split; [rewrite <- K3; exact E'|]. rewrite pass_bytes_cons, app_assoc. split; [exact H'|]. apply (kept_trans b b1); [repeat split; congruence|exact K'].
Qed.
Lemma plain_late : forall fuel m segs b bytes next rest, holds b bytes -> late Lazy (zlen bytes) -> m = O \/ turn (zlen bytes) next -> map fst segs = runs Lazy m (zlen bytes) 0 -> fits (lblock b) segs -> 0 <= lblock b ->
  zlen bytes + Z.of_nat m <= 128 -> (m < fuel)%nat ->
  exists b', plain_segments list_bit fuel b (Z.of_nat m) next 10 (length_code (lblock b) segs ++ rest) = ret (b', rest) /\ holds b' (bytes ++ pass_bytes segs) /\ kept b b'.
Proof.
  induction fuel as [|fuel IH]; intros m segs b bytes next rest H L T R F Hl Hs Hf; [lia|]. rewrite plain_S. destruct m as [|m].
  - cbn [runs] in R. apply segs_nil in R. subst segs. exists b. cbn [length_code pass_bytes flat_map app]. rewrite app_nil_r. repeat split; auto; apply H.
  - replace (Z.of_nat (S m) <=? 0) with false by lia. change (negb (10 =? 0)) with true. cbv iota zeta. destruct T as [T|T]; [lia|]. destruct (runs_turn Lazy m (zlen bytes) next L T) as (sp & m' & E & Hsp & Em & Lm & R' & T'). rewrite <- E. clear E. rewrite R' in R. apply segs_cons in R as (v & segs' & -> & R).
    assert (sp - 1 = Z.log2 sp) as El by (assert (sp = 1 \/ sp = 2) as [-> | ->] by lia; reflexivity). apply fits_cons in F as [[F1 F2] F']. replace (lblock b + sp - 1) with (lblock b + Z.log2 sp) by lia. pose proof (Z.log2_nonneg sp). rewrite (Z.mod_small (lblock b + Z.log2 sp)) by lia. rewrite (Z.mod_small sp) by lia.
    assert ((3 - next) mod 256 = 3 - next) as -> by (apply Z.mod_small; unfold turn in T; lia).
    rewrite length_code_cons, <- app_assoc, get_N_digits by lia. go. destruct (add_is b bytes sp v H) as (b1 & E1 & H1 & K1 & K2 & _ & K3 & K4 & K5 & K6); [lia|lia|]. rewrite E1. go. rewrite <- K3. replace (Z.of_nat (S m) - sp) with (Z.of_nat m') by lia.
    destruct (IH m' segs' b1 _ (3 - next) rest H1) as (b' & E' & H' & K'); rewrite ?K3, ?zlen_more by lia; auto; try lia.
    + apply late_next; [exact L|lia].
    + exists b'. split; [rewrite <- K3; exact E'|]. rewrite pass_bytes_cons, app_assoc. split; [exact H'|]. apply (kept_trans b b1); [repeat split; congruence|exact K'].
Qed.
Lemma ht_late : forall fuel m segs b bytes next empty rest, holds b bytes -> m = O \/ turn (zlen bytes) next -> map fst segs = runs Ht m (zlen bytes) 0 -> fits (lblock b) segs -> 0 <= lblock b ->
  ht_legal (zlen bytes) empty segs -> zlen bytes + Z.of_nat m <= 128 -> (m < fuel)%nat ->
  exists b', ht_segments list_bit fuel b (Z.of_nat m) next empty (length_code (lblock b) segs ++ rest) = ret (b', rest) /\ holds b' (bytes ++ pass_bytes segs) /\ kept b b'.
Proof.
  induction fuel as [|fuel IH]; intros m segs b bytes next empty rest H T R F Hl Hg Hs Hf; [lia|]. rewrite ht_segments_S. destruct m as [|m].
  - cbn [runs] in R. apply segs_nil in R. subst segs. exists b. cbn [length_code pass_bytes flat_map app]. rewrite app_nil_r. repeat split; auto; apply H.
  - replace (Z.of_nat (S m) <=? 0) with false by lia. cbv zeta. destruct T as [T|T]; [lia|]. assert (late Ht (zlen bytes)) as L by apply zlen_nonneg. destruct (runs_turn Ht m (zlen bytes) next L T) as (sp & m' & E & Hsp & Em & Lm & R' & T'). rewrite <- E. clear E. rewrite R' in R. apply segs_cons in R as (v & segs' & -> & R).
    assert (sp - 1 = Z.log2 sp) as El by (assert (sp = 1 \/ sp = 2) as [-> | ->] by lia; reflexivity). apply fits_cons in F as [[F1 F2] F']. replace (lblock b + sp - 1) with (lblock b + Z.log2 sp) by lia. pose proof (Z.log2_nonneg sp). rewrite (Z.mod_small (lblock b + Z.log2 sp)) by lia. rewrite (Z.mod_small sp) by lia.
    assert ((3 - next) mod 256 = 3 - next) as -> by (apply Z.mod_small; unfold turn in T; lia).
    rewrite length_code_cons, <- app_assoc, get_N_digits by lia. go. cbn [ht_legal] in Hg.
    match goal with |- context [bindx ?x _] => assert (exists f e, x = ret (with_fskip b f, e) /\ ht_legal (zlen bytes + sp) e segs') as (f & e & -> & Hg') end.
    { destruct T as [[T ->]|[T ->]].
      - replace (zlen bytes mod 3 =? 0) with false in Hg by lia. destruct Hg as [G1 G2]. change (3 - 2 =? 2) with false. cbv iota. destruct empty.
        + rewrite (G1 eq_refl). change (0 =? 0) with true. cbv iota. eauto.
        + exists (fskip b), false. split; [destruct b; reflexivity|exact G2].
      - replace (zlen bytes mod 3 =? 0) with true in Hg by lia. destruct Hg as [G1 G2]. change (3 - 1 =? 2) with true. cbv iota. destruct (Z.eqb_spec v 0) as [Z0|Z0]; [eauto|]. replace (v <? 2) with false by lia. eauto. }
    go. assert (holds (with_fskip b f) bytes) as Hw by (destruct H; constructor; assumption).
    destruct (add_is (with_fskip b f) bytes sp v Hw) as (b1 & E1 & H1 & K1 & K2 & _ & K3 & K4 & K5 & K6); [lia|lia|]. rewrite E1. go. cbn [with_fskip cmodes nzbp lblock lstart lpasses included] in K1, K2, K3, K4, K5, K6. rewrite <- K3. replace (Z.of_nat (S m) - sp) with (Z.of_nat m') by lia.
    destruct (IH m' segs' b1 _ (3 - next) e rest H1) as (b' & E' & H' & K'); rewrite ?K3, ?zlen_more by lia; auto; try lia.
    exists b'. split; [rewrite <- K3; exact E'|]. rewrite pass_bytes_cons, app_assoc. split; [exact H'|]. apply (kept_trans b b1); [repeat split; congruence|exact K'].
Qed.

(** ** The whole contribution *)
(** Up to the first segment *)
Lemma contribution_start b layer new d fuel rest : 1 <= new <= 164 -> 0 <= layer < zlen (lpasses b) -> 0 <= lblock b -> lblock b + Z.of_nat d < 256 -> (d < fuel)%nat ->
  exists b1, contribution list_bit fuel layer b (pass_code new ++ repeat 1 d ++ [0] ++ rest) =
    (let? (g, s) := first_segment list_bit b1 new rest in
     let? b := add_segment (with_modes b1 (g_modes g)) (g_passes g) (g_bytes g) in
     let left := new - g_passes g mod 256 in
     if Z.land (cmodes b) (HT + HT_PHLD) =? HT then
       ht_segments list_bit 256 (with_fskip b 0) left (g_next g) ((g_next g =? 2) && (g_bytes g =? 0)) s
     else plain_segments list_bit 256 b left (g_next g) (g_term g) s) /\
    updated b b1 layer new (lblock b + Z.of_nat d) /\ cmodes b1 = cmodes b /\ forall bytes, holds b bytes -> holds b1 bytes.
Proof.
  intros Hn Hy Hl Hd Hf. unfold contribution. rewrite get_passes_ok by exact Hn. go. unfold set_layer_passes. rewrite wr_at by exact Hy. go. cbn [lblock]. cbn [app]. rewrite get_lblock_ok by lia. go. rewrite (Z.mod_small new) by lia.
  match goal with |- context [first_segment list_bit ?x] => exists x end. split; [reflexivity|]. split; [repeat split; reflexivity|]. split; [reflexivity|]. intros bytes [A1 A2 A3 A4]. constructor; assumption.
Qed.
Lemma updated_kept b b1 b2 layer new lb : updated b b1 layer new lb -> nzbp b2 = nzbp b1 -> lblock b2 = lblock b1 -> lstart b2 = lstart b1 -> lpasses b2 = lpasses b1 -> included b2 = included b1 -> updated b b2 layer new lb.
Proof. unfold updated. intuition congruence. Qed.
Lemma lens_more bytes k (v : Z) l : (bytes ++ repeat 0 (Z.to_nat (k - 1)) ++ [v]) ++ l = bytes ++ (repeat 0 (Z.to_nat (k - 1)) ++ [v]) ++ l.
Proof. now rewrite <- !app_assoc. Qed.

Lemma has_bit m n : 0 <= n -> has m (2 ^ n) = Z.testbit m n.
Proof.
  intros Hn. unfold has. destruct (Z.testbit m n) eqn:T.
  - destruct (Z.eqb_spec (Z.land m (2 ^ n)) 0) as [E|E]; [|reflexivity]. assert (Z.testbit (Z.land m (2 ^ n)) n = true) as X by (rewrite Z.land_spec, T, Z.pow2_bits_true by lia; reflexivity). rewrite E, Z.bits_0 in X. discriminate.
  - assert (Z.land m (2 ^ n) = 0) as ->; [|reflexivity]. apply Z.bits_inj'. intros k Hk. rewrite Z.land_spec, Z.bits_0. destruct (Z.eq_dec k n) as [->|N]; [rewrite T; reflexivity|]. rewrite Z.pow2_bits_false by lia. apply andb_false_r.
Qed.
Lemma grouping_is m : grouping_of m = if has m HT then Ht else if has m RESTART then Apart else if has m BYPASS then Lazy else Together.
Proof. unfold grouping_of. change HT with (2 ^ 6). change RESTART with (2 ^ 2). change BYPASS with (2 ^ 0). now rewrite !has_bit by lia. Qed.
Lemma has_or m : has m (RESTART + BYPASS) = has m RESTART || has m BYPASS.
Proof.
  unfold has. change (RESTART + BYPASS) with (Z.lor RESTART BYPASS). rewrite Z.land_lor_distr_r. destruct (Z.eqb_spec (Z.land m RESTART) 0) as [->|A]; destruct (Z.eqb_spec (Z.land m BYPASS) 0) as [->|B]; cbn [negb orb].
  - reflexivity.
  - rewrite Z.lor_0_l. apply Z.eqb_neq in B. now rewrite B.
  - rewrite Z.lor_0_r. apply Z.eqb_neq in A. now rewrite A.
  - destruct (Z.eqb_spec (Z.lor (Z.land m RESTART) (Z.land m BYPASS)) 0) as [E|E]; [apply Z.lor_eq_0_iff in E; tauto|reflexivity].
Qed.
Lemma not_ht m : has m HT = false -> (Z.land m (HT + HT_PHLD) =? HT) = false.
Proof.
  unfold has. intros H. destruct (Z.eqb_spec (Z.land m HT) 0) as [E|E]; [|discriminate]. apply Z.eqb_neq. intros X. assert (Z.land (Z.land m (HT + HT_PHLD)) HT = 64) as Y by (rewrite X; reflexivity). rewrite <- Z.land_assoc in Y. change (Z.land (HT + HT_PHLD) HT) with HT in Y. rewrite E in Y. discriminate.
Qed.
Lemma only_ht m : has m HT = true -> has m HT_PHLD = false -> (Z.land m (HT + HT_PHLD) =? HT) = true.
Proof.
  unfold has. intros H P. destruct (Z.eqb_spec (Z.land m HT_PHLD) 0) as [E|E]; [|discriminate]. change (HT + HT_PHLD) with (Z.lor HT HT_PHLD). rewrite Z.land_lor_distr_r, E, Z.lor_0_r.
  destruct (Z.eqb_spec (Z.land m HT) 0) as [E1|E1]; [discriminate|]. apply Z.eqb_eq. change HT with (2 ^ 6) in *. rewrite Z.land_comm in *. clear H P E. revert E1.
  change (2 ^ 6) with (Z.shiftl 1 6). intros E1. apply Z.bits_inj'. intros n Hn. rewrite Z.land_spec, Z.shiftl_spec by lia. destruct (Z.eq_dec n 6) as [->|N].
  - change (Z.testbit 1 (6 - 6)) with true. cbn [andb]. destruct (Z.testbit m 6) eqn:T; [reflexivity|]. exfalso. apply E1. apply Z.bits_inj'. intros k Hk. rewrite Z.land_spec, Z.shiftl_spec, Z.bits_0 by lia. destruct (Z.eq_dec k 6) as [->|N]; [rewrite T; reflexivity|]. replace (Z.testbit 1 (k - 6)) with false; [reflexivity|]. destruct (Z_lt_le_dec k 6); [rewrite Z.testbit_neg_r by lia; reflexivity|]. symmetry. apply (Z.pow2_bits_false 0). lia.
  - replace (Z.testbit 1 (n - 6)) with false; [reflexivity|]. destruct (Z_lt_le_dec n 6); [rewrite Z.testbit_neg_r by lia; reflexivity|]. symmetry. apply (Z.pow2_bits_false 0). lia.
Qed.
Lemma log2_loop_ok n : 1 <= n <= 164 -> log2_loop 8 0 n = Z.log2 n.
Proof.
  intros H. assert (forallb (fun v => log2_loop 8 0 (v + 1) =? Z.log2 (v + 1)) (zseq 164) = true) as F by (vm_compute; reflexivity). rewrite forallb_forall in F. specialize (F (n - 1)). rewrite zseq_In in F. specialize (F ltac:(lia)). replace (n - 1 + 1) with n in F by lia. lia.
Qed.
Lemma cons_inj {A} (x y : A) l m : x :: l = y :: m -> x = y /\ l = m.
Proof. intros H. injection H. auto. Qed.
Lemma runs_nonempty g n : forall i k, 0 <= k -> (0 < n)%nat -> exists x l, runs g n i k = x :: l.
Proof.
  induction n as [|n IH]; intros i k Hk Hn; [lia|]. cbn [runs]. destruct (ends g i); [eauto|]. destruct n as [|n]; [|apply IH; lia]. cbn [runs]. replace (k + 1 =? 0) with false by lia. eauto.
Qed.
(** What is left to do after the first segment, in each grouping *)
Lemma first_is g m b1 (bytes : list Z) new segs rest : cmodes b1 = m -> has m HT_PHLD = false -> g = grouping_of m -> npasses b1 = zlen bytes -> 1 <= new <= 128 -> map fst segs = runs g (Z.to_nat new) (zlen bytes) 0 -> fits (lblock b1) segs -> 0 <= lblock b1 ->
  exists k v segs' next term n', segs = (k, v) :: segs' /\ first_segment list_bit b1 new (length_code (lblock b1) segs ++ rest) = ret (Seg k v next term m, length_code (lblock b1) segs' ++ rest) /\
    1 <= k /\ new = k + Z.of_nat n' /\ map fst segs' = runs g n' (zlen bytes + k) 0 /\ fits (lblock b1) segs' /\
    match g with
    | Together => n' = O
    | Apart => term = 0
    | Lazy => n' = O \/ term = 10 /\ late Lazy (zlen bytes + k) /\ turn (zlen bytes + k) next
    | Ht => (n' = O \/ turn (zlen bytes + k) next) /\ (next = 2 <-> zlen bytes mod 3 = 0)
    end.
Proof.
  intros Em Hp Eg En Hn R F Hl. unfold first_segment. rewrite Em, Hp. cbv zeta. rewrite has_or. destruct (runs_nonempty g (Z.to_nat new) (zlen bytes) 0) as (x & l & Er); [lia|lia|]. rewrite Er in R. apply segs_cons in R as (v & segs' & -> & R).
  apply fits_cons in F as [[F1 F2] F']. pose proof (zlen_nonneg bytes) as Hb. pose proof (Z.log2_nonneg x) as Hx.
  rewrite grouping_is in Eg. destruct (has m HT) eqn:M1; [|destruct (has m RESTART) eqn:M2; [|destruct (has m BYPASS) eqn:M3]]; subst g; cbn [orb negb]; rewrite length_code_cons, <- app_assoc.
  - unfold ht_segment. rewrite En, Em. assert (late Ht (zlen bytes)) as L by exact Hb. destruct (Z.eqb_spec (zlen bytes mod 3) 0) as [G|G].
    + replace (Z.to_nat new) with (S (Z.to_nat (new - 1))) in Er by lia. rewrite runs_one in Er by (auto; lia). apply cons_inj in Er as [<- <-]. change (Z.log2 1) with 0 in *. rewrite Z.add_0_r in *. rewrite get_N_digits by lia. go.
      exists 1, v, segs', 2, 0, (Z.to_nat (new - 1)). split; [reflexivity|]. split; [reflexivity|]. split; [lia|]. split; [lia|]. split; [exact R|]. split; [exact F'|]. split; [right; left; lia|lia].
    + cbv zeta. destruct (Z.eq_dec (zlen bytes mod 3) 1) as [G1|G1].
      * destruct (Z.eq_dec new 1) as [->|N].
        -- change (Z.to_nat 1) with 1%nat in Er. rewrite runs_last in Er by exact L. apply cons_inj in Er as [<- <-]. change (1 <? 1) with false. cbv iota. change (Z.log2 1) with 0 in *. rewrite Z.add_0_r in *. change (1 - 1 + lblock b1) with (lblock b1). rewrite Z.mod_small by lia. rewrite get_N_digits by lia. go.
           exists 1, v, segs', 1, 0, O. split; [reflexivity|]. split; [reflexivity|]. split; [lia|]. split; [lia|]. split; [exact R|]. split; [exact F'|]. split; [now left|lia].
        -- replace (Z.to_nat new) with (S (S (Z.to_nat (new - 2)))) in Er by lia. rewrite runs_two in Er by (auto; lia). apply cons_inj in Er as [<- <-]. replace (1 <? new) with true by lia. rewrite G1. change (3 - 1) with 2. change (Z.log2 2) with 1 in *. replace (2 - 1 + lblock b1) with (lblock b1 + 1) by lia. rewrite Z.mod_small by lia. rewrite get_N_digits by lia. go.
           exists 2, v, segs', 1, 0, (Z.to_nat (new - 2)). split; [reflexivity|]. split; [reflexivity|]. split; [lia|]. split; [lia|]. split; [exact R|]. split; [exact F'|]. split; [right; right; lia|lia].
      * replace (Z.to_nat new) with (S (Z.to_nat (new - 1))) in Er by lia. rewrite runs_one in Er by (auto; lia). apply cons_inj in Er as [<- <-]. replace (if 1 <? new then 3 - zlen bytes mod 3 else 1) with 1 by (destruct (1 <? new); lia). change (Z.log2 1) with 0 in *. rewrite Z.add_0_r in *. change (1 - 1 + lblock b1) with (lblock b1). rewrite Z.mod_small by lia. rewrite get_N_digits by lia. go.
        exists 1, v, segs', 1, 0, (Z.to_nat (new - 1)). split; [reflexivity|]. split; [reflexivity|]. split; [lia|]. split; [lia|]. split; [exact R|]. split; [exact F'|]. split; [right; right; lia|lia].
  - replace (Z.to_nat new) with (S (Z.to_nat (new - 1))) in Er by lia. cbn [runs ends] in Er. change (0 + 1) with 1 in Er. apply cons_inj in Er as [<- <-]. change (Z.log2 1) with 0 in *. rewrite Z.add_0_r in *. rewrite get_N_digits by lia. go.
    exists 1, v, segs', 1, 0, (Z.to_nat (new - 1)). split; [reflexivity|]. split; [reflexivity|]. split; [lia|]. split; [lia|]. split; [exact R|]. split; [exact F'|]. reflexivity.
  - unfold bypass_segment. rewrite En, Em. cbv zeta. destruct (Z.ltb_spec (zlen bytes) 10) as [G|G].
    + rewrite runs_early in Er by lia. rewrite Z2Nat.id in Er by lia. destruct (Z.leb_spec new (9 - zlen bytes)) as [A|A].
      * replace (0 + new =? 0) with false in Er by lia. change (0 + new) with new in Er. apply cons_inj in Er as [<- <-]. replace (new <? 10 - zlen bytes) with true by lia. cbv iota. rewrite log2_loop_ok by lia. rewrite (Z.add_comm (Z.log2 new)). rewrite Z.mod_small by lia. rewrite get_N_digits by lia. go.
        exists new, v, segs', 2, 10, O. split; [reflexivity|]. split; [reflexivity|]. split; [lia|]. split; [lia|]. split; [exact R|]. split; [exact F'|]. now left.
      * change (0 + (10 - zlen bytes)) with (10 - zlen bytes) in Er. apply cons_inj in Er as [<- <-]. replace (if new <? 10 - zlen bytes then new else 10 - zlen bytes) with (10 - zlen bytes) by (destruct (Z.ltb_spec new (10 - zlen bytes)); lia). rewrite log2_loop_ok by lia. rewrite (Z.add_comm (Z.log2 (10 - zlen bytes))). rewrite Z.mod_small by lia. rewrite get_N_digits by lia. go.
        exists (10 - zlen bytes), v, segs', 2, 10, (Z.to_nat new - Z.to_nat (10 - zlen bytes))%nat. split; [reflexivity|]. split; [reflexivity|]. split; [lia|]. split; [lia|]. replace (zlen bytes + (10 - zlen bytes)) with 10 by lia. split; [exact R|]. split; [exact F'|]. right. split; [reflexivity|]. split; [cbn [late]; lia|]. left. split; reflexivity.
    + assert (late Lazy (zlen bytes)) as L by (cbn [late]; lia). destruct (Z.ltb_spec ((zlen bytes - 10) mod 3) 2) as [A|A].
      * destruct (Z.eq_dec (zlen bytes mod 3) 1) as [G1|G1].
        -- destruct (Z.eq_dec new 1) as [->|N].
           ++ change (Z.to_nat 1) with 1%nat in Er. rewrite runs_last in Er by exact L. apply cons_inj in Er as [<- <-]. change (1 <? 1) with false. cbv iota zeta. change (Z.log2 1) with 0 in *. rewrite Z.add_0_r in *. change (1 - 1 + lblock b1) with (lblock b1). rewrite Z.mod_small by lia. rewrite get_N_digits by lia. go.
              exists 1, v, segs', 1, 10, O. split; [reflexivity|]. split; [reflexivity|]. split; [lia|]. split; [lia|]. split; [exact R|]. split; [exact F'|]. now left.
           ++ replace (Z.to_nat new) with (S (S (Z.to_nat (new - 2)))) in Er by lia. rewrite runs_two in Er by (auto; lia). apply cons_inj in Er as [<- <-]. replace (1 <? new) with true by lia. replace (2 - (zlen bytes - 10) mod 3) with 2 by lia. cbv iota. change (Z.log2 2) with 1 in *. replace (2 - 1 + lblock b1) with (lblock b1 + 1) by lia. rewrite Z.mod_small by lia. rewrite get_N_digits by lia. go.
              exists 2, v, segs', 1, 10, (Z.to_nat (new - 2)). split; [reflexivity|]. split; [reflexivity|]. split; [lia|]. split; [lia|]. split; [exact R|]. split; [exact F'|]. right. split; [reflexivity|]. split; [apply late_next; [exact L|lia]|]. right. lia.
        -- replace (Z.to_nat new) with (S (Z.to_nat (new - 1))) in Er by lia. rewrite runs_one in Er by (auto; lia). apply cons_inj in Er as [<- <-]. replace (if 1 <? new then 2 - (zlen bytes - 10) mod 3 else 1) with 1 by (destruct (1 <? new); lia). change (Z.log2 1) with 0 in *. rewrite Z.add_0_r in *. change (1 - 1 + lblock b1) with (lblock b1). rewrite Z.mod_small by lia. rewrite get_N_digits by lia. go.
           exists 1, v, segs', 1, 10, (Z.to_nat (new - 1)). split; [reflexivity|]. split; [reflexivity|]. split; [lia|]. split; [lia|]. split; [exact R|]. split; [exact F'|]. right. split; [reflexivity|]. split; [apply late_next; [exact L|lia]|]. right. lia.
      * replace (Z.to_nat new) with (S (Z.to_nat (new - 1))) in Er by lia. rewrite runs_one in Er by (auto; lia). apply cons_inj in Er as [<- <-]. change (Z.log2 1) with 0 in *. rewrite Z.add_0_r in *. change (0 + lblock b1) with (lblock b1). rewrite Z.mod_small by lia. rewrite get_N_digits by lia. go.
        exists 1, v, segs', 2, 10, (Z.to_nat (new - 1)). split; [reflexivity|]. split; [reflexivity|]. split; [lia|]. split; [lia|]. split; [exact R|]. split; [exact F'|]. right. split; [reflexivity|]. split; [apply late_next; [exact L|lia]|]. left. lia.
  - rewrite runs_together in Er by lia. rewrite Z2Nat.id in Er by lia. replace (0 + new =? 0) with false in Er by lia. change (0 + new) with new in Er. apply cons_inj in Er as [<- <-]. rewrite (Z.mod_small new) by lia. rewrite Z.mod_small by lia. rewrite get_N_digits by lia. go.
    exists new, v, segs', 0, 0, O. split; [reflexivity|]. split; [reflexivity|]. split; [lia|]. split; [lia|]. split; [exact R|]. split; [exact F'|]. reflexivity.
Qed.
Lemma segments_std b bytes layer new d segs rest fuel : holds b bytes -> has (cmodes b) HT_PHLD = false -> 1 <= new -> zlen bytes + new <= 128 ->
  map fst segs = runs (grouping_of (cmodes b)) (Z.to_nat new) (zlen bytes) 0 -> fits (lblock b + Z.of_nat d) segs -> (has (cmodes b) HT = true -> ht_legal (zlen bytes) false segs) ->
  0 <= lblock b -> 0 <= layer < zlen (lpasses b) -> (d < fuel)%nat ->
  exists b', contribution list_bit fuel layer b (contribution_code new (lblock b) d segs ++ rest) = ret (b', rest) /\
    holds b' (bytes ++ pass_bytes segs) /\ updated b b' layer new (lblock b + Z.of_nat d) /\ cmodes b' = cmodes b.
Proof.
  intros H Hp Hn Hs R F Hg Hl Hy Hf. pose proof (zlen_nonneg bytes) as Hb.
  assert (lblock b + Z.of_nat d <= 32) as Hd. { destruct (runs_nonempty (grouping_of (cmodes b)) (Z.to_nat new) (zlen bytes) 0) as (x & l & Er); [lia|lia|]. rewrite Er in R. apply segs_cons in R as (v & segs' & -> & R). apply fits_cons in F as [[F1 _] _]. pose proof (Z.log2_nonneg x). lia. }
  unfold contribution_code. rewrite <- !app_assoc. destruct (contribution_start b layer new d fuel (length_code (lblock b + Z.of_nat d) segs ++ rest)) as (b1 & -> & U & M & Ho); [lia|lia|lia|lia|lia|]. specialize (Ho _ H). pose proof U as (U1 & _). rewrite <- U1 in *.
  destruct (first_is (grouping_of (cmodes b)) (cmodes b) b1 bytes new segs rest) as (k & v & segs' & next & term & n' & -> & -> & Hk & En & R' & F' & T); auto; [apply Ho|lia|lia|]. go. cbn [g_modes g_passes g_bytes g_next g_term].
  assert (with_modes b1 (cmodes b) = b1) as -> by (rewrite <- M; destruct b1; reflexivity). destruct (add_is b1 bytes k v Ho) as (b2 & -> & H2 & K1 & K2 & _ & K3 & K4 & K5 & K6); [lia|lia|]. go. cbv zeta. rewrite (Z.mod_small k) by lia. replace (new - k) with (Z.of_nat n') by lia. rewrite K1, M.
  assert (updated b b2 layer new (lblock b1)) as U2 by (apply (updated_kept b b1); assumption). rewrite grouping_is in *.
  assert (zlen (bytes ++ repeat 0 (Z.to_nat (k - 1)) ++ [v]) = zlen bytes + k) as Lb by (apply zlen_more; lia).
  assert (forall b', holds b' ((bytes ++ repeat 0 (Z.to_nat (k - 1)) ++ [v]) ++ pass_bytes segs') -> kept b2 b' -> holds b' (bytes ++ pass_bytes ((k, v) :: segs')) /\ updated b b' layer new (lblock b1) /\ cmodes b' = cmodes b) as Fin.
  { intros b' H' (Q1 & Q2 & Q3 & Q4 & Q5 & Q6). rewrite pass_bytes_cons, <- lens_more. split; [exact H'|]. split; [apply (updated_kept b b2); assumption|congruence]. }
  destruct (has (cmodes b) HT) eqn:M1.
  - rewrite only_ht by assumption. specialize (Hg eq_refl). cbn [ht_legal] in Hg. destruct T as [T1 T2].
    assert (ht_legal (zlen bytes + k) ((next =? 2) && (v =? 0)) segs') as Hg'.
    { destruct (Z.eqb_spec (zlen bytes mod 3) 0) as [G|G]; destruct Hg as [_ Hg]; [replace (next =? 2) with true by lia; exact Hg|]. replace (next =? 2) with false by lia. exact Hg. }
    rewrite <- K3. destruct (ht_late 256 n' segs' (with_fskip b2 0) (bytes ++ repeat 0 (Z.to_nat (k - 1)) ++ [v]) next ((next =? 2) && (v =? 0)) rest) as (b' & E' & H' & K').
    + destruct H2; constructor; assumption.
    + rewrite Lb. exact T1.
    + rewrite Lb. exact R'.
    + cbn [with_fskip lblock]. rewrite K3. exact F'.
    + cbn [with_fskip lblock]. lia.
    + rewrite Lb. exact Hg'.
    + lia.
    + lia.
    + exists b'. split; [exact E'|]. rewrite K3. apply Fin; [exact H'|exact K'].
  - rewrite not_ht by exact M1. rewrite <- K3. destruct (has (cmodes b) RESTART) eqn:M2; [subst term|destruct (has (cmodes b) BYPASS) eqn:M3].
    + destruct (plain_apart n' 256 segs' b2 (bytes ++ repeat 0 (Z.to_nat (k - 1)) ++ [v]) next rest) as (b' & E' & H' & K'); rewrite ?Lb, ?K3; auto; try lia. exists b'. rewrite K3 in E'. split; [exact E'|]. apply Fin; assumption.
    + destruct T as [T|(-> & T1 & T2)].
      * subst n'. cbn [runs] in R'. change (0 =? 0) with true in R'. cbv iota in R'. apply segs_nil in R'. subst segs'. exists b2. split; [reflexivity|]. rewrite K3. apply Fin; [cbn [pass_bytes flat_map]; rewrite app_nil_r; exact H2|apply kept_refl].
      * destruct (plain_late 256 n' segs' b2 (bytes ++ repeat 0 (Z.to_nat (k - 1)) ++ [v]) next rest) as (b' & E' & H' & K'); rewrite ?Lb, ?K3; auto; try lia. exists b'. rewrite K3 in E'. split; [exact E'|]. apply Fin; assumption.
    + subst n'. cbn [runs] in R'. change (0 =? 0) with true in R'. cbv iota in R'. apply segs_nil in R'. subst segs'. exists b2. split; [reflexivity|]. rewrite K3. apply Fin; [cbn [pass_bytes flat_map]; rewrite app_nil_r; exact H2|apply kept_refl].
Qed.

(** ** HT blocks before their first cleanup pass *)
Lemma grow_shift p : forall f bits bound, 0 <= bits -> bits + Z.of_nat f < 256 -> grow f bits bound p = (bits + fst (grow f 0 bound p), snd (grow f 0 bound p)) /\ 0 <= fst (grow f 0 bound p) <= Z.of_nat f.
Proof.
  induction f as [|f IH]; intros bits bound Hb Hs; cbn [grow]; [cbn [fst snd]; rewrite Z.add_0_r; split; [reflexivity|lia]|]. destruct (bound <=? p); [|cbn [fst snd]; rewrite Z.add_0_r; split; [reflexivity|lia]].
  rewrite Z.mod_small by lia. change ((0 + 1) mod 256) with 1. destruct (IH (bits + 1) (bound + bound)) as [-> B]; [lia|lia|]. destruct (IH 1 (bound + bound)) as [-> _]; [lia|lia|]. cbn [fst snd]. split; [f_equal; lia|lia].
Qed.
Lemma grow_is bits p : 0 <= bits -> bits + 9 < 256 -> 1 <= p <= 164 -> grow 9 bits 2 p = (bits + Z.log2 p, 2 ^ (Z.log2 p + 1)).
Proof.
  intros Hb Hs Hp. assert (forallb (fun v => (fst (grow 9 0 2 (v + 1)) =? Z.log2 (v + 1)) && (snd (grow 9 0 2 (v + 1)) =? 2 ^ (Z.log2 (v + 1) + 1))) (zseq 164) = true) as F by (vm_compute; reflexivity).
  rewrite forallb_forall in F. specialize (F (p - 1)). rewrite zseq_In in F. specialize (F ltac:(lia)). replace (p - 1 + 1) with p in F by lia. apply andb_prop in F as [F1 F2]. apply Z.eqb_eq in F1, F2. destruct (grow_shift p 9 bits 2) as [-> _]; [lia|lia|]. rewrite F1, F2. reflexivity.
Qed.
Lemma digits_0 n : digits n 0 = repeat 0 n.
Proof. induction n as [|n IH]; cbn [digits repeat]; [reflexivity|]. rewrite Z.div_0_l, IH by (apply Z.pow_nonzero; lia). reflexivity. Qed.
Lemma grow_read_is p rest : 1 <= p -> forall f j, 0 <= j <= Z.log2 p -> Z.log2 p - j < Z.of_nat f -> grow_read list_bit f (2 ^ (j + 1)) p 0 (repeat 0 (Z.to_nat (Z.log2 p - j)) ++ rest) = ret (0, rest).
Proof.
  intros Hp. induction f as [|f IH]; intros j Hj Hf; [lia|]. cbn [grow_read]. pose proof (Z.log2_spec p ltac:(lia)) as [L1 L2]. destruct (Z.leb_spec (2 ^ (j + 1)) p) as [G|G].
  - assert (j < Z.log2 p) as Lt by (apply (Z.log2_le_mono) in G; rewrite Z.log2_pow2 in G by lia; lia). replace (Z.to_nat (Z.log2 p - j)) with (S (Z.to_nat (Z.log2 p - (j + 1)))) by lia. cbn [repeat app list_bit]. go. change (wrap32 (wrap32 (Z.shiftl 0 1) + 0)) with 0.
    replace (2 ^ (j + 1) + 2 ^ (j + 1)) with (2 ^ (j + 1 + 1)) by (rewrite (Z.pow_add_r 2 (j + 1) 1) by lia; lia). apply IH; lia.
  - assert (j = Z.log2 p) as ->. { destruct (Z.eq_dec j (Z.log2 p)) as [E|E]; [exact E|]. assert (2 ^ (j + 1) <= 2 ^ Z.log2 p) by (apply Z.pow_le_mono_r; lia). lia. }
    replace (Z.to_nat (Z.log2 p - Z.log2 p)) with O by lia. reflexivity.
Qed.
(** Placeholder passes: one empty segment *)
Lemma placeholder_std b bytes layer new d rest fuel : holds b bytes -> has (cmodes b) HT_PHLD = true -> has (cmodes b) HT_MIXED = false -> 1 <= new -> zlen bytes + new <= 128 ->
  fits (lblock b + Z.of_nat d) [(new, 0)] -> 0 <= lblock b -> 0 <= layer < zlen (lpasses b) -> (d < fuel)%nat ->
  exists b', contribution list_bit fuel layer b (contribution_code new (lblock b) d [(new, 0)] ++ rest) = ret (b', rest) /\
    holds b' (bytes ++ pass_bytes [(new, 0)]) /\ updated b b' layer new (lblock b + Z.of_nat d) /\ cmodes b' = cmodes b.
Proof.
  intros H Hp Hm Hn Hs F Hl Hy Hf. pose proof (zlen_nonneg bytes) as Hb. apply fits_cons in F as [[F1 F2] _]. pose proof (Z.log2_nonneg new) as Hx.
  unfold contribution_code. rewrite <- !app_assoc. destruct (contribution_start b layer new d fuel (length_code (lblock b + Z.of_nat d) [(new, 0)] ++ rest)) as (b1 & -> & U & M & Ho); [lia|lia|lia|lia|lia|]. specialize (Ho _ H). pose proof U as (U1 & _). rewrite <- U1 in *.
  assert (exists next term, first_segment list_bit b1 new (length_code (lblock b1) [(new, 0)] ++ rest) = ret (Seg new 0 next term (cmodes b), rest)) as (next & term & ->).
  { exists 0, 0. unfold first_segment. rewrite M, Hp. unfold phld_segment. rewrite M, (ho_passes _ _ Ho). cbv zeta. set (href := (zlen bytes + new - 1) mod 3). assert (0 <= href <= 2) as Hh by (unfold href; lia). unfold length_code. cbn [flat_map]. rewrite app_nil_r, digits_0. destruct (Z.ltb_spec (new - href) 1) as [G|G].
    - rewrite grow_is by lia. rewrite <- digits_0, get_N_digits by lia. go. reflexivity.
    - rewrite grow_is by lia. pose proof (Z.log2_le_mono (new - href) new ltac:(lia)) as Lm. pose proof (Z.log2_nonneg (new - href)). replace (Z.to_nat (lblock b1 + Z.log2 new)) with (Z.to_nat (lblock b1 + Z.log2 (new - href)) + Z.to_nat (Z.log2 new - Z.log2 (new - href)))%nat by lia.
      rewrite repeat_app, <- app_assoc, <- digits_0, get_N_digits; [|lia|split; [lia|apply Z.pow_pos_nonneg; lia]]. go. change (0 =? 0) with true. cbv iota. assert (Z.log2 new <= 7) by (pose proof (Z.log2_le_mono new 128 ltac:(lia)) as X; change (Z.log2 128) with 7 in X; lia). rewrite grow_read_is by lia. go. reflexivity. }
  go. cbn [g_modes g_passes g_bytes g_next g_term]. assert (with_modes b1 (cmodes b) = b1) as -> by (rewrite <- M; destruct b1; reflexivity). destruct (add_is b1 bytes new 0 Ho) as (b2 & -> & H2 & K1 & K2 & _ & K3 & K4 & K5 & K6); [lia|lia|]. go. cbv zeta. rewrite (Z.mod_small new) by lia. replace (new - new) with 0 by lia. rewrite K1, M.
  assert ((Z.land (cmodes b) (HT + HT_PHLD) =? HT) = false) as ->.
  { apply Z.eqb_neq. intros X. unfold has in Hp. assert (Z.land (Z.land (cmodes b) (HT + HT_PHLD)) HT_PHLD = 0) as Y by (rewrite X; reflexivity). rewrite <- Z.land_assoc in Y. change (Z.land (HT + HT_PHLD) HT_PHLD) with HT_PHLD in Y. rewrite Y in Hp. discriminate. }
  exists b2. split; [reflexivity|]. split; [unfold pass_bytes; cbn [flat_map]; rewrite app_nil_r; exact H2|]. split; [apply (updated_kept b b1); assumption|congruence].
Qed.
(** The first cleanup pass, with the placeholder passes before it *)
Lemma cleanup_std b bytes layer new d sp v segs rest fuel : holds b bytes -> has (cmodes b) HT = true -> has (cmodes b) HT_PHLD = true -> has (cmodes b) HT_MIXED = false -> 1 <= new -> zlen bytes + new <= 128 ->
  sp = new - (zlen bytes + new - 1) mod 3 -> 1 <= sp -> 2 <= v -> map fst segs = runs Ht (Z.to_nat (new - sp)) (zlen bytes + sp) 0 -> fits (lblock b + Z.of_nat d) ((sp, v) :: segs) -> ht_legal (zlen bytes + sp) false segs ->
  0 <= cmodes b < 65536 -> 0 <= lblock b -> 0 <= layer < zlen (lpasses b) -> (d < fuel)%nat ->
  exists b', contribution list_bit fuel layer b (contribution_code new (lblock b) d ((sp, v) :: segs) ++ rest) = ret (b', rest) /\
    holds b' (bytes ++ pass_bytes ((sp, v) :: segs)) /\ updated b b' layer new (lblock b + Z.of_nat d) /\ cmodes b' = clear_flags (cmodes b) HT_PHLD.
Proof.
  intros H Hh Hp Hm Hn Hs Esp Hsp Hv R F Hg Hc Hl Hy Hf. pose proof (zlen_nonneg bytes) as Hb. apply fits_cons in F as [[F1 F2] F']. pose proof (Z.log2_nonneg sp) as Hx. assert (sp <= new) as Hle by lia.
  unfold contribution_code. rewrite <- !app_assoc. destruct (contribution_start b layer new d fuel (length_code (lblock b + Z.of_nat d) ((sp, v) :: segs) ++ rest)) as (b1 & -> & U & M & Ho); [lia|lia|lia|lia|lia|]. specialize (Ho _ H). pose proof U as (U1 & _). rewrite <- U1 in *.
  assert (first_segment list_bit b1 new (length_code (lblock b1) ((sp, v) :: segs) ++ rest) = ret (Seg sp v 2 0 (clear_flags (cmodes b) HT_PHLD), length_code (lblock b1) segs ++ rest)) as ->.
  { unfold first_segment. rewrite M, Hp. unfold phld_segment. rewrite M, (ho_passes _ _ Ho). cbv zeta. rewrite <- Esp. rewrite length_code_cons, <- app_assoc. replace (sp <? 1) with false by lia. rewrite grow_is by lia. rewrite get_N_digits by lia. go. replace (v =? 0) with false by lia. rewrite Hm. cbn [negb]. replace (v <? 2) with false by lia. reflexivity. }
  go. cbn [g_modes g_passes g_bytes g_next g_term]. assert (holds (with_modes b1 (clear_flags (cmodes b) HT_PHLD)) bytes) as Hw by (destruct Ho; constructor; assumption). destruct (add_is _ bytes sp v Hw) as (b2 & -> & H2 & K1 & K2 & _ & K3 & K4 & K5 & K6); [lia|lia|]. cbn [with_modes cmodes nzbp lblock lstart lpasses included] in K1, K2, K3, K4, K5, K6. go. cbv zeta. rewrite (Z.mod_small sp) by lia. rewrite K1.
  assert ((Z.land (clear_flags (cmodes b) HT_PHLD) (HT + HT_PHLD) =? HT) = true) as ->.
  { unfold clear_flags. rewrite <- Z.land_assoc. change (Z.land (65535 - HT_PHLD) (HT + HT_PHLD)) with HT. unfold has in Hh. pose proof (only_ht (Z.land (cmodes b) HT)) as O. unfold has in O. rewrite <- !Z.land_assoc in O. change (Z.land HT HT) with HT in O. change (Z.land HT HT_PHLD) with 0 in O. change (Z.land HT (HT + HT_PHLD)) with HT in O. rewrite Z.land_0_r in O. apply O; [exact Hh|reflexivity]. }
  replace (v =? 0) with false by lia. rewrite andb_false_r. rewrite <- K3. assert (zlen (bytes ++ repeat 0 (Z.to_nat (sp - 1)) ++ [v]) = zlen bytes + sp) as Lb by (apply zlen_more; lia).
  destruct (ht_late 256 (Z.to_nat (new - sp)) segs (with_fskip b2 0) (bytes ++ repeat 0 (Z.to_nat (sp - 1)) ++ [v]) 2 false rest) as (b' & E' & H' & K').
  - destruct H2; constructor; assumption.
  - rewrite Lb. destruct (Z.eq_dec new sp) as [->|N]; [left; lia|]. right. left. lia.
  - rewrite Lb. exact R.
  - cbn [with_fskip lblock]. rewrite K3. exact F'.
  - cbn [with_fskip lblock]. lia.
  - rewrite Lb. exact Hg.
  - lia.
  - lia.
  - rewrite Z2Nat.id in E' by lia. exists b'. split; [exact E'|]. rewrite pass_bytes_cons, <- lens_more. split; [exact H'|]. destruct K' as (Q1 & Q2 & Q3 & Q4 & Q5 & Q6). cbn [with_fskip cmodes nzbp lblock lstart lpasses included] in Q1, Q2, Q3, Q4, Q5, Q6.
    split; [rewrite K3; apply (updated_kept b b2); auto; apply (updated_kept b b1); assumption|congruence].
Qed.
