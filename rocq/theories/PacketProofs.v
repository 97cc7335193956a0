(** Packet headers: writing then reading one band. *)
From Verif Require Import Base BaseLemmas ChainModel ChainProps PacketModel PacketTree PacketCode PacketSpec.

(** ** One contribution *)
Lemma flags_ok style : 64 <= style < 128 ->
  has (Z.lor style HT_PHLD) HT_PHLD = true /\ has (Z.lor style HT_PHLD) HT_MIXED = false /\ clear_flags (Z.lor style HT_PHLD) HT_PHLD = style /\ (Z.land style (HT + HT_PHLD) =? HT) = true.
Proof.
  intros H. assert (forallb (fun v => let s := v + 64 in has (Z.lor s HT_PHLD) HT_PHLD && negb (has (Z.lor s HT_PHLD) HT_MIXED) && (clear_flags (Z.lor s HT_PHLD) HT_PHLD =? s) && (Z.land s (HT + HT_PHLD) =? HT)) (zseq 64) = true) as F by (vm_compute; reflexivity).
  rewrite forallb_forall in F. specialize (F (style - 64)). rewrite zseq_In in F. specialize (F ltac:(lia)). cbv zeta in F. replace (style - 64 + 64) with style in F by lia.
  apply andb_prop in F. destruct F as [F F4]. apply andb_prop in F. destruct F as [F F3]. apply andb_prop in F. destruct F as [F1 F2]. repeat split; auto; [destruct (has (Z.lor style HT_PHLD) HT_MIXED); [discriminate|reflexivity]|lia].
Qed.
Lemma put_lblocks_S f pl new pass lb w : put_lblocks (S f) pl new pass lb w =
  if new <=? 0 then Ret (lb, w)
  else let sp := if pass =? 0 then 1 else new in
    let* bytes := sum_lengths (Z.to_nat sp) pl pass in let* (lb, w) := put_lblock 32 bytes (log2_loop 8 0 sp + lb) lb w in put_lblocks f pl (new - sp) (pass + sp) lb w.
Proof. reflexivity. Qed.
Lemma put_lengths_S f pl new pass lb w : put_lengths (S f) pl new pass lb w =
  if new <=? 0 then Ret w
  else let sp := if pass =? 0 then 1 else new in
    let* bytes := sum_lengths (Z.to_nat sp) pl pass in put_lengths f pl (new - sp) (pass + sp) lb (put_Nbits w bytes (log2_loop 8 0 sp + lb)).
Proof. reflexivity. Qed.
Lemma ht_segments_S {S} (get : S -> ex (Z * S)) f b new next empty s : ht_segments get (Datatypes.S f) b new next empty s =
  if new <=? 0 then ret (b, s)
  else
    let sp := if 1 <? new then next else 1 in
    let next := (3 - next) mod 256 in
    let? (bytes, s) := get_N get ((lblock b + sp - 1) mod 256) s in
    let new := new - sp mod 256 in
    let? (b, empty) :=
      if next =? 2 then
        if bytes =? 0 then ret (with_fskip b ((fskip b + 1) mod 256), true)
        else if bytes <? 2 then throw
        else ret (with_fskip b 0, false)
      else if empty then
        if bytes =? 0 then ret (with_fskip b ((fskip b + sp) mod 256), empty) else throw
      else ret (b, empty) in
    let? b := add_segment b sp bytes in
    ht_segments get f b new next empty s.
Proof. reflexivity. Qed.

(** The two loops of the writer for a cleanup segment of [L] bytes and [rp]
    further passes of [R] bytes. *)
Lemma lengths_ok pl L R rp : 0 <= rp <= 2 -> 2 <= L < 2 ^ 29 -> 0 <= R < 2 ^ 29 ->
  sum_lengths 1 pl 0 = Ret L -> (0 < rp -> sum_lengths (Z.to_nat rp) pl 1 = Ret R) ->
  exists k, (forall w, put_lblocks 256 pl (1 + rp) 0 3 w = Ret (3 + Z.of_nat k, put_all w (repeat 1 k))) /\ L < 2 ^ (3 + Z.of_nat k) /\ (0 < rp -> R < 2 ^ (rp - 1 + (3 + Z.of_nat k))) /\ rp - 1 + (3 + Z.of_nat k) <= 30 /\ 3 + Z.of_nat k <= 30 /\
    forall w, put_lengths 256 pl (1 + rp) 0 (3 + Z.of_nat k) w = Ret (put_all w (bits_of (Z.to_nat (3 + Z.of_nat k)) L ++ if rp =? 0 then [] else bits_of (Z.to_nat (rp - 1 + (3 + Z.of_nat k))) R)).
Proof.
  intros Hr HL HR S1 S2. change 256%nat with (S (S (S 253))). 
  destruct (put_lblock_ok 32 L (0 + 3) 3) as (k1 & E1 & B1 & C1); [lia|lia|lia|]. change (0 + 3) with 3 in *.
  assert (forall w, put_lblocks (S (S (S 253))) pl (1 + rp) 0 3 w = put_lblocks (S (S 253)) pl rp 1 (3 + Z.of_nat k1) (put_all w (repeat 1 k1))) as P1.
  { intros w. rewrite put_lblocks_S. replace (1 + rp <=? 0) with false by lia. change (0 =? 0) with true. cbv iota zeta. change (Z.to_nat 1) with 1%nat. rewrite S1. go. change (log2_loop 8 0 1) with 0. change (0 + 3) with 3. rewrite E1. go. replace (1 + rp - 1) with rp by lia. reflexivity. }
  destruct (Z.leb_spec rp 0) as [G|G].
  - assert (rp = 0) by lia. subst rp. exists k1. split; [intros w; rewrite P1; reflexivity|]. split; [exact B1|]. split; [lia|]. split; [lia|]. split; [lia|]. intros w'. rewrite put_lengths_S. change (1 + 0 <=? 0) with false. change (0 =? 0) with true. cbv iota zeta. change (Z.to_nat 1) with 1%nat. rewrite S1. go. change (log2_loop 8 0 1) with 0. rewrite put_lengths_S. change (1 + 0 - 1 <=? 0) with true. cbv iota.
    rewrite app_nil_r. f_equal. change (0 + (3 + Z.of_nat k1)) with (3 + Z.of_nat k1). rewrite <- put_Nbits_all. rewrite Z2Nat.id by lia. reflexivity.
  - assert (log2_loop 8 0 rp = rp - 1) as Lg by (assert (rp = 1 \/ rp = 2) as [-> | ->] by lia; reflexivity).
    destruct (put_lblock_ok 32 R (rp - 1 + (3 + Z.of_nat k1)) (3 + Z.of_nat k1)) as (k2 & E2 & B2 & C2); [lia|lia|lia|].
    exists (k1 + k2)%nat.
    assert (2 ^ (3 + Z.of_nat k1) <= 2 ^ (3 + Z.of_nat (k1 + k2))) as Pm by (apply Z.pow_le_mono_r; lia).
    split; [intros w; rewrite P1, put_lblocks_S; replace (rp <=? 0) with false by lia; change (1 =? 0) with false; cbv iota zeta; rewrite (S2 G); go; rewrite Lg, E2; go; rewrite put_lblocks_S; replace (rp - rp <=? 0) with true by lia; rewrite repeat_app, put_all_app; f_equal; f_equal; lia|]. split; [lia|]. split; [intros _; replace (rp - 1 + (3 + Z.of_nat (k1 + k2))) with (rp - 1 + (3 + Z.of_nat k1) + Z.of_nat k2) by lia; exact B2|]. split; [lia|]. split; [lia|].
    intros w'. rewrite put_lengths_S. replace (1 + rp <=? 0) with false by lia. change (0 =? 0) with true. cbv iota zeta. change (Z.to_nat 1) with 1%nat. rewrite S1. go. change (log2_loop 8 0 1) with 0.
    replace (1 + rp - 1) with rp by lia. change (0 + 1) with 1. rewrite put_lengths_S. replace (rp <=? 0) with false by lia. change (1 =? 0) with false. cbv iota zeta. rewrite (S2 G). go. rewrite Lg. rewrite put_lengths_S. replace (rp - rp <=? 0) with true by lia. replace (rp =? 0) with false by lia.
    f_equal. rewrite put_all_app, <- !put_Nbits_all, !Z2Nat.id by lia. reflexivity.
Qed.

(** The reader's side. *)
Lemma segments_ok style z ls lp L R rp k rest fuel : 64 <= style < 128 -> 0 <= rp <= 2 -> 2 <= L < 2 ^ (3 + k) -> 0 <= R -> (0 < rp -> R < 2 ^ (rp - 1 + (3 + k))) -> 0 <= k -> rp - 1 + (3 + k) <= 30 -> 3 + k <= 30 ->
  (k < Z.of_nat fuel) -> forall lpt, lp = 0 :: lpt ->
  contribution list_bit fuel 0 (CB (Z.lor style HT_PHLD) 0 z 0 3 (repeat 0 4) 0 ls lp true)
    ((if rp =? 0 then [0] else if rp =? 1 then [1; 0] else [1; 1; 0; 0]) ++ repeat 1 (Z.to_nat k) ++ 0 :: bits_of (Z.to_nat (3 + k)) L ++ (if rp =? 0 then [] else bits_of (Z.to_nat (rp - 1 + (3 + k))) R) ++ rest) =
  ret (CB style (1 + rp) z 0 (3 + k) (if rp =? 0 then [L; 0; 0; 0] else if rp =? 1 then [L; R; 0; 0] else [L; 0; R; 0]) (1 + rp) ls (1 + rp :: lpt) true, rest).
Proof.
  intros Hs Hr HL HR0 HR Hk Hm Hm' Hf lpt ->. destruct (flags_ok style Hs) as (F1 & F2 & F3 & F4).
  unfold contribution.
  assert (forall r, get_passes list_bit ((if rp =? 0 then [0] else if rp =? 1 then [1; 0] else [1; 1; 0; 0]) ++ r) = ret (1 + rp, r)) as Gp.
  { intros r. assert (rp = 0 \/ rp = 1 \/ rp = 2) as [-> | [-> | ->]] by lia; reflexivity. }
  rewrite Gp. go. unfold set_layer_passes, wr. cbn [lpasses]. rewrite zlen_cons. pose proof (zlen_nonneg lpt). replace ((0 <=? 0) && (0 <? 1 + zlen lpt)) with true by lia. go. cbn [lblock cmodes npasses nzbp fskip plen plcount lstart included].
  rewrite get_lblock_ok by lia. go. unfold with_lblock. cbn [lblock cmodes npasses nzbp fskip plen plcount lstart lpasses included]. rewrite Z2Nat.id by lia.
  unfold first_segment. cbn [cmodes]. rewrite F1. unfold phld_segment. cbn [cmodes npasses lblock]. replace ((0 + (1 + rp) - 1) mod 3) with rp by (rewrite Z.mod_small; lia). replace (1 + rp - rp) with 1 by lia. change (1 <? 1) with false. cbv iota zeta.
  change (grow 9 (3 + k) 2 1) with (3 + k, 2). cbv iota beta. rewrite get_N_ok by lia. go. replace (L =? 0) with false by lia. rewrite F2. cbn [negb]. replace (L <? 2) with false by lia. go. cbn [g_passes g_bytes g_next g_term g_modes]. rewrite F3.
  unfold with_modes. cbn [lblock cmodes npasses nzbp fskip plen plcount lstart lpasses included].
  change (ztake 0 (0 :: lpt) ++ [(1 + rp) mod 256] ++ zskip (0 + 1) (0 :: lpt)) with ((1 + rp) mod 256 :: lpt). rewrite (Z.mod_small (1 + rp)) by lia. set (lp := 1 + rp :: lpt).
  assert (forall v, add_segment (CB style 0 z 0 (3 + k) (repeat 0 4) 0 ls lp true) 1 v = ret (CB style 1 z 0 (3 + k) [v; 0; 0; 0] 1 ls lp true)) as A1 by (intros v; reflexivity).
  rewrite A1. go. cbn [cmodes]. rewrite F4. unfold with_fskip. cbn [lblock cmodes npasses nzbp fskip plen plcount lstart lpasses included]. change (1 mod 256) with 1. replace (1 + rp - 1) with rp by lia.
  change 256%nat with (S (S 254)). rewrite ht_segments_S.
  destruct (Z.leb_spec rp 0) as [G|G].
  - assert (rp = 0) by lia. subst rp. change (0 =? 0) with true. cbv iota. cbn [app]. reflexivity.
  - replace (rp =? 0) with false by lia. cbn [lblock].
    assert ((if 1 <? rp then 2 else 1) = rp) as -> by (assert (rp = 1 \/ rp = 2) as [-> | ->] by lia; reflexivity). cbv zeta. rewrite Z.mod_small by lia. replace (3 + k + rp - 1) with (rp - 1 + (3 + k)) by lia. rewrite get_N_ok by lia. go.
    change ((3 - 2) mod 256) with 1. change (1 =? 2) with false. change (2 =? 2) with true. replace (L =? 0) with false by lia. cbn [andb]. go.
    assert (add_segment (CB style 1 z 0 (3 + k) [L; 0; 0; 0] 1 ls lp true) rp R = ret (CB style (1 + rp) z 0 (3 + k) (if rp =? 1 then [L; R; 0; 0] else [L; 0; R; 0]) (1 + rp) ls lp true)) as A2 by (assert (rp = 1 \/ rp = 2) as [-> | ->] by lia; reflexivity).
    rewrite A2. go. rewrite ht_segments_S. replace (rp - rp mod 256 <=? 0) with true by (rewrite Z.mod_small; lia). reflexivity.
Qed.

Lemma Forall_take {A} (P : A -> Prop) n l : Forall P l -> Forall P (ztake n l).
Proof. intros H. apply Forall_forall. intros x Hx. rewrite Forall_forall in H. apply H. rewrite <- (firstn_skipn (Z.to_nat n) l). apply in_or_app. now left. Qed.
Lemma sums_ok pl n : 1 <= n <= 3 -> n <= zlen pl -> Forall (fun v => 0 <= v) pl -> total (ztake 3 pl) < 2 ^ 29 ->
  let R := total (ztake (n - 1) (zskip 1 pl)) in
  sum_lengths 1 pl 0 = Ret (znth 0 pl 0) /\ znth 0 pl 0 < 2 ^ 29 /\ 0 <= R < 2 ^ 29 /\ (0 < n - 1 -> sum_lengths (Z.to_nat (n - 1)) pl 1 = Ret R).
Proof.
  intros Hn Hl Hf Ht.
  assert (forall l, Forall (fun v => 0 <= v) l -> 0 <= total l) as Tn by (induction 1; cbn [total fold_right]; [lia|]; change (fold_right Z.add 0 l) with (total l); lia).
  destruct pl as [|L pl]; [change (zlen (@nil Z)) with 0 in Hl; lia|]. rewrite zlen_cons in Hl. inversion Hf as [|? ? HL Hf1]; subst.
  change (znth 0 (L :: pl) 0) with L. change (zskip 1 (L :: pl)) with pl.
  assert (L < 2 ^ 29 -> sum_lengths 1 (L :: pl) 0 = Ret L) as S1.
  { intros HB. cbn [sum_lengths]. change (0 + Z.of_nat 0) with 0. unfold rd. rewrite zlen_cons. pose proof (zlen_nonneg pl). replace ((0 <=? 0) && (0 <? 1 + zlen pl)) with true by lia. go. change (znth 0 (L :: pl) 0) with L. f_equal. rewrite Z.add_0_r. apply wrap32_small. unfold two32. lia. }
  assert (total (ztake 3 (L :: pl)) = L + total (ztake 2 pl)) as Te by reflexivity. rewrite Te in Ht.
  assert (n = 1 \/ n = 2 \/ n = 3) as [-> | [-> | ->]] by lia.
  - pose proof (Tn (ztake 2 pl) ltac:(apply Forall_take; exact Hf1)). change (total (ztake (1 - 1) pl)) with 0. split; [apply S1; lia|]. split; [lia|]. split; lia.
  - destruct pl as [|r1 pl]; [change (zlen (@nil Z)) with 0 in Hl; lia|]. inversion Hf1 as [|? ? H1 Hf2]; subst. pose proof (Tn (ztake 1 pl) ltac:(apply Forall_take; exact Hf2)).
    change (total (ztake 2 (r1 :: pl))) with (r1 + total (ztake 1 pl)) in Ht. change (total (ztake (2 - 1) (r1 :: pl))) with (r1 + 0). split; [apply S1; lia|]. split; [lia|]. split; [lia|]. intros _. change (Z.to_nat (2 - 1)) with 1%nat. cbn [sum_lengths]. change (1 + Z.of_nat 0) with 1. unfold rd. rewrite !zlen_cons. pose proof (zlen_nonneg pl). replace ((0 <=? 1) && (1 <? 1 + (1 + zlen pl))) with true by lia. go. change (znth 0 (L :: r1 :: pl) 1) with r1. f_equal. apply wrap32_small. unfold two32. lia.
  - destruct pl as [|r1 pl]; [change (zlen (@nil Z)) with 0 in Hl; lia|]. inversion Hf1 as [|? ? H1 Hf2]; subst. destruct pl as [|r2 pl]; [rewrite zlen_cons in Hl; change (zlen (@nil Z)) with 0 in Hl; lia|]. inversion Hf2 as [|? ? H2 Hf3]; subst.
    change (total (ztake 2 (r1 :: r2 :: pl))) with (r1 + (r2 + 0)) in Ht. change (total (ztake (3 - 1) (r1 :: r2 :: pl))) with (r1 + (r2 + 0)). split; [apply S1; lia|]. split; [lia|]. split; [lia|]. intros _. change (Z.to_nat (3 - 1)) with 2%nat. cbn [sum_lengths]. change (1 + Z.of_nat 0) with 1. change (1 + Z.of_nat 1) with 2. unfold rd. rewrite !zlen_cons. pose proof (zlen_nonneg pl). replace ((0 <=? 1) && (1 <? 1 + (1 + (1 + zlen pl)))) with true by lia. replace ((0 <=? 2) && (2 <? 1 + (1 + (1 + zlen pl)))) with true by lia. go. change (znth 0 (L :: r1 :: r2 :: pl) 1) with r1. change (znth 0 (L :: r1 :: r2 :: pl) 2) with r2. f_equal. rewrite (wrap32_small (r1 + 0)) by (unfold two32; lia). rewrite wrap32_small by (unfold two32; lia). lia.
Qed.
Lemma bits_of_bits n v : Forall bit (bits_of n v).
Proof. apply bits_of_bit. Qed.
Lemma contribution_ok b style layers fuel : coded b -> 0 < znth 0 (e_passes b) 0 -> e_lblock b = 3 -> 64 <= style < 128 -> 1 <= layers -> (256 < fuel)%nat ->
  exists bits, (forall w, exists b', put_contribution 0 b w = Ret (put_all w bits, b')) /\ Forall bit bits /\
    exists b', (forall rest ls, contribution list_bit fuel 0 (CB (Z.lor style HT_PHLD) 0 (e_zbp b) 0 3 (repeat 0 4) 0 ls (repeat 0 (Z.to_nat layers)) true) (bits ++ rest) = ret (b' ls, rest)) /\ forall ls, got (b' ls) = sent b.
Proof.
  intros C Hn Hb Hs Hy Hf. pose proof (co_n _ C) as Hn3. destruct (co_bytes _ C) as [Hb1 Hb2]. pose proof (co_first _ C Hn) as HL. destruct (co_start _ C) as [st0 Es]. destruct (co_passes _ C) as [ps0 Ep].
  destruct (sums_ok (e_plen b) (znth 0 (e_passes b) 0)) as (S1 & S2 & S3 & S4); [lia|apply (co_plen _ C)|exact Hb1|exact Hb2|].
  unfold sent. cbv zeta. replace (znth 0 (e_passes b) 0 =? 0) with false by lia. set (L := znth 0 (e_plen b) 0) in *. set (R := total (ztake (znth 0 (e_passes b) 0 - 1) (zskip 1 (e_plen b)))) in *. remember (znth 0 (e_passes b) 0 - 1) as rp eqn:Er. assert (znth 0 (e_passes b) 0 = 1 + rp) as En by lia. rewrite En in *. clear Er.
  destruct (lengths_ok (e_plen b) L R rp) as (k & P1 & P2 & P3 & P4 & P5 & P6); [lia|lia|lia|exact S1|exact S4|].
  exists ((if rp =? 0 then [0] else if rp =? 1 then [1; 0] else [1; 1; 0; 0]) ++ repeat 1 k ++ [0] ++ bits_of (Z.to_nat (3 + Z.of_nat k)) L ++ (if rp =? 0 then [] else bits_of (Z.to_nat (rp - 1 + (3 + Z.of_nat k))) R)).
  split; [|split].
  - intros w. eexists. unfold put_contribution. rewrite Ep, Es. unfold rd. rewrite !zlen_cons. pose proof (zlen_nonneg st0). pose proof (zlen_nonneg ps0). replace ((0 <=? 0) && (0 <? 1 + zlen ps0)) with true by lia. replace ((0 <=? 0) && (0 <? 1 + zlen st0)) with true by lia. go. change (znth 0 (0 :: st0) 0) with 0. change (znth 0 (1 + rp :: ps0) 0) with (1 + rp). replace (1 + rp =? 0) with false by lia. rewrite Hb, P1. go. rewrite P6. go. f_equal. f_equal. rewrite !put_all_app. f_equal. f_equal. f_equal.
    assert (rp = 0 \/ rp = 1 \/ rp = 2) as [-> | [-> | ->]] by lia; reflexivity.
  - apply Forall_app; split; [destruct (rp =? 0), (rp =? 1); repeat (constructor; [first [left; reflexivity|right; reflexivity]|]); constructor|]. apply Forall_app; split; [clear; induction k; constructor; auto; right; reflexivity|]. constructor; [left; reflexivity|]. apply Forall_app; split; [apply bits_of_bit|]. destruct (rp =? 0); [constructor|apply bits_of_bit].
  - assert (exists l, repeat 0 (Z.to_nat layers) = 0 :: l) as Hl by (destruct (Z.to_nat layers) eqn:E; [lia|]; eexists; reflexivity).
    destruct Hl as [lpt Hl]. eexists (fun ls => CB style (1 + rp) (e_zbp b) 0 (3 + Z.of_nat k) _ (1 + rp) ls (1 + rp :: lpt) true). split.
    + intros rest ls. rewrite Hl, <- !app_assoc. rewrite <- (Nat2Z.id k) at 1. cbn [app]. apply (segments_ok style (e_zbp b) ls (0 :: lpt) L R rp (Z.of_nat k) rest fuel); auto; lia.
    + intros ls. unfold got. cbn [lpasses nzbp npasses plen]. change (znth 0 (1 + rp :: lpt) 0) with (1 + rp). replace (1 + rp =? 0) with false by lia. subst R.
      assert (rp = 0 \/ rp = 1 \/ rp = 2) as [-> | [-> | ->]] by lia; [reflexivity| |]; match goal with |- Some (_, _, _, ?a) = Some (_, _, _, ?b) => assert (a = b) as ->; [|reflexivity] end; cbn [Z.eqb Pos.eqb].
      * generalize (total (ztake 1 (zskip 1 (e_plen b)))). intros v. change (v + 0 = v). lia.
      * generalize (total (ztake 2 (zskip 1 (e_plen b)))). intros v. change (0 + (v + 0) = v). lia.
Qed.

(** ** One band *)
Definition fills (inc zbp : tree) (i : Z) (b : eblk) : Prop :=
  ~ decided (nd inc i) /\ (val (nd inc i) <= 0 <-> 0 < znth 0 (e_passes b) 0) /\ val (nd zbp i) = e_zbp b.
Definition with_lb (b : eblk) : eblk := EB (e_length b) (e_zbp b) (e_start b) (e_passes b) (e_plen b) 3.
Lemma coded_lb b : coded b -> coded (with_lb b).
Proof. intros [A1 A2 A3 A4 A5 A6 A7 A8]. constructor; assumption. Qed.

Lemma block_ok n style layers ccap fuel b i inc zbp dinc dzbp : 64 <= style < 128 -> has ccap 49152 = false -> 1 <= layers -> (256 < fuel)%nat ->
  IInv n inc dinc -> ZInv n zbp dzbp -> same inc zbp -> 0 <= i < n -> coded b -> fills inc zbp i b ->
  exists bits inc' zbp' dinc' dzbp' b1,
    (forall w, exists b' w1, put_first 0 i b inc zbp w = Ret (inc', zbp', w1, b') /\ exists b'', put_contribution 0 b' w1 = Ret (put_all w bits, b'')) /\
    (forall rest, parse_block list_bit fuel 0 ccap i (fresh_cb style layers) dinc dzbp (bits ++ rest) = ret (dinc', dzbp', b1, rest)) /\
    Forall bit bits /\ got b1 = sent b /\ IInv n inc' dinc' /\ ZInv n zbp' dzbp' /\ same inc' zbp' /\
    (forall k c, i < k < n -> fills inc zbp k c -> fills inc' zbp' k c).
Proof.
  intros Hs Hc Hy Hf I Z Sm Hi C (Hd & Hv & Hz). pose proof (tp_len _ _ (ii_topo _ _ _ I)) as TL.
  pose proof (sm_len _ _ Sm) as SL. pose proof (sm_len _ _ (ii_same _ _ _ I)) as SLd.
  destruct (tree_path_ok n inc i (ii_topo _ _ _ I) ltac:(lia)) as (p & Pp & Up1 & Ph).
  destruct (tree_path_ok n dinc i (topo_same _ _ _ (ii_topo _ _ _ I) (ii_same _ _ _ I)) ltac:(lia)) as (p' & Pp' & Up1' & Ph').
  assert (rev p' = rev p) as Rp by (apply (Up_det n dinc _ _ i (topo_same _ _ _ (ii_topo _ _ _ I) (ii_same _ _ _ I))); [exact Up1'|apply (Up_same inc); [apply (ii_same _ _ _ I)|exact Up1]]).
  destruct (path_step n inc dinc (rev p) i I Up1) as (te & td & bs & inc' & Q1 & Q2 & Q3 & Q4 & Q5 & Q6 & Q7 & Q8 & Q9 & Q10).
  destruct (co_passes _ C) as [ps0 Ep]. destruct (co_start _ C) as [st0 Es]. pose proof (co_n _ C) as Hn3.
  assert (rd (e_passes b) 0 = Ret (znth 0 (e_passes b) 0)) as Rd by (rewrite Ep at 1; unfold rd; rewrite zlen_cons; pose proof (zlen_nonneg ps0); replace ((0 <=? 0) && (0 <? 1 + zlen ps0)) with true by lia; rewrite Ep; reflexivity).
  assert (exists l, repeat 0 (Z.to_nat layers) = 0 :: l) as [l0 Hl] by (destruct (Z.to_nat layers) eqn:E; [lia|]; eexists; reflexivity).
  assert (exists ls, start_layer (fresh_cb style layers) 0 = Ret (CB style 0 0 0 0 (repeat 0 4) 0 ls (repeat 0 (Z.to_nat layers)) false)) as [ls Sl].
  { eexists. unfold start_layer, fresh_cb. cbn [cmodes npasses nzbp fskip lblock plen plcount lstart lpasses included]. rewrite Hl. unfold wr. rewrite zlen_cons. pose proof (zlen_nonneg l0). replace ((0 <=? 0) && (0 <? 1 + zlen l0)) with true by lia. go. reflexivity. }
  assert (HT <=? style = true) as Hh by (unfold HT; lia).
  assert (forall t t', (forall k, 0 <= k -> ~ In k (rev p) -> nd t k = nd inc k) -> (forall k, 0 <= k < zlen zbp -> val (nd t' k) = val (nd zbp k)) -> forall k c, i < k < n -> fills inc zbp k c -> fills t t' k c) as Keep.
  { intros t t' K1 K2 k c Hk (A & B & D). unfold fills. rewrite K1; [|lia|]; [rewrite K2 by lia; auto|]. intros Hin. destruct (Up_range _ _ _ _ (ii_topo _ _ _ I) Up1) as [_ Ur]. apply Ur in Hin. lia. }
  destruct (Z.eq_dec (znth 0 (e_passes b) 0) 0) as [N0|N0].
  - assert (inc' = false) as Ei by (destruct inc'; [|reflexivity]; exfalso; pose proof (proj1 (Q8 Hd) eq_refl) as Hx; apply Hv in Hx; lia).
    exists bs, te, zbp, td, dzbp. eexists. split; [|split].
    + intros w. do 2 eexists. split.
      * unfold put_first. rewrite Rd. go. change (preceding 0 b) with 0. change (0 =? 0) with true. cbv iota. rewrite Pp. go. rewrite Q1. go. rewrite N0. change (0 <? 0) with false. cbv iota. reflexivity.
      * eexists. unfold put_contribution. rewrite Rd. go. rewrite N0. reflexivity.
    + intros rest. unfold parse_block. rewrite Sl. unfold lift at 1. go. cbn [included]. unfold first_inclusion. cbn [cmodes]. rewrite Hh, Hc. unfold lift. rewrite Pp'. go. change (0 <? 0) with false. cbv iota. go. rewrite Rp, Q2. go. subst inc'. cbv iota. go. unfold set_layer_passes, with_modes, wr. cbn [cmodes npasses nzbp fskip lblock plen plcount lstart lpasses included]. rewrite Hl, zlen_cons. pose proof (zlen_nonneg l0). replace ((0 <=? 0) && (0 <? 1 + zlen l0)) with true by lia. go. reflexivity.
    + split; [exact Q4|]. split; [unfold got, sent; cbn [lpasses]; rewrite N0; reflexivity|]. split; [exact Q3|]. split; [exact Z|]. split; [apply (same_trans _ inc); [apply same_sym; exact Q10|exact Sm]|].
      apply Keep; [exact Q6|auto].
  - assert (0 < znth 0 (e_passes b) 0) as Np by lia. assert (inc' = true) as Ei by (apply (Q8 Hd); tauto).
    destruct (zbp_path_step n zbp dzbp (rev p) i fuel Z Hf (Up_same _ _ _ _ Sm Up1)) as (ze & zd & zs & Z1 & Z2 & Z3 & Z4 & Z5 & Z6 & Z7 & Z8).
    destruct (contribution_ok (with_lb b) style layers fuel (coded_lb _ C) Np eq_refl Hs Hy Hf) as (cs & C1 & C2 & b' & C3 & C4).
    exists (bs ++ zs ++ cs), te, ze, td, zd. exists (b' ls). split; [|split].
    + intros w. do 2 eexists. split.
      * unfold put_first. rewrite Rd. go. change (preceding 0 b) with 0. change (0 =? 0) with true. cbv iota. rewrite Pp. go. rewrite Q1. go. replace (0 <? znth 0 (e_passes b) 0) with true by lia. cbv iota. rewrite Z1. go. reflexivity.
      * fold (with_lb b). destruct (C1 (put_all (put_all w bs) zs)) as [b2 E2]. exists b2. rewrite E2, !put_all_app. reflexivity.
    + intros rest. unfold parse_block. rewrite Sl. unfold lift at 1. go. cbn [included]. unfold first_inclusion. cbn [cmodes]. rewrite Hh, Hc. unfold lift. rewrite Pp'. go. change (0 <? 0) with false. cbv iota. go. rewrite Rp, <- !app_assoc, Q2. go. subst inc'. cbv iota. rewrite Z2. go. rewrite Ph'. pose proof (zi_nd _ _ _ Z3 i) as Zi. pose proof (sm_len _ _ Z8) as SZ. pose proof (sm_len _ _ (zi_same _ _ _ Z3)) as SZd. rewrite nget_in by lia. go. destruct Zi as (_ & Zr & Zi); [lia|]. destruct Zi as [Zi|(_ & _ & Zi)]; [lia|]. rewrite Zi, Z6, Hz by lia. rewrite Z.mod_small by apply C.
      unfold with_modes, with_zbp. cbn [cmodes npasses nzbp fskip lblock plen plcount lstart lpasses included]. pose proof (C3 rest ls) as C3'. cbn [e_zbp with_lb] in C3'. rewrite C3'. go. reflexivity.
    + split; [apply Forall_app; split; [exact Q4|apply Forall_app; auto]|]. split; [rewrite C4; reflexivity|]. split; [exact Q3|]. split; [exact Z3|]. split; [apply (same_trans _ inc); [apply same_sym; exact Q10|apply (same_trans _ zbp); auto]|].
      apply Keep; [exact Q6|exact Z6].
Qed.

Lemma blocks_ok n style layers ccap fuel : 64 <= style < 128 -> has ccap 49152 = false -> 1 <= layers -> (256 < fuel)%nat ->
  forall bs i inc zbp dinc dzbp, IInv n inc dinc -> ZInv n zbp dzbp -> same inc zbp -> 0 <= i -> i + zlen bs = n -> Forall coded bs ->
  (forall k b, nth_error bs k = Some b -> fills inc zbp (i + Z.of_nat k) b) ->
  exists bits dinc' dzbp' cbs, (forall w, put_blocks 0 i bs inc zbp w = Ret (put_all w bits)) /\
    (forall rest, parse_blocks list_bit fuel 0 ccap i (repeat (fresh_cb style layers) (length bs)) dinc dzbp (bits ++ rest) = ret (dinc', dzbp', cbs, rest)) /\
    Forall bit bits /\ map got cbs = map sent bs.
Proof.
  intros Hs Hc Hy Hf. induction bs as [|b bs IH]; intros i inc zbp dinc dzbp I Z Sm Hi Hn C F.
  - exists [], dinc, dzbp, []. split; [reflexivity|]. split; [reflexivity|]. split; [constructor|reflexivity].
  - inversion C as [|? ? Cb Cs]; subst. rewrite zlen_cons in *. pose proof (zlen_nonneg bs).
    destruct (block_ok _ style layers ccap fuel b i inc zbp dinc dzbp Hs Hc Hy Hf I Z Sm ltac:(lia) Cb) as (b1 & inc1 & zbp1 & dinc1 & dzbp1 & c1 & E1 & E2 & E3 & E4 & E5 & E6 & E7 & E8); [specialize (F O b eq_refl); rewrite Z.add_0_r in F; exact F|].
    destruct (IH (i + 1) inc1 zbp1 dinc1 dzbp1) as (b2 & dinc2 & dzbp2 & cbs & G1 & G2 & G3 & G4); auto; try lia.
    { intros k b' Hk. apply E8; [assert (k < length bs)%nat by (apply nth_error_Some; congruence); unfold zlen; lia|]. replace (i + 1 + Z.of_nat k) with (i + Z.of_nat (S k)) by lia. apply F. exact Hk. }
    exists (b1 ++ b2), dinc2, dzbp2, (c1 :: cbs). split; [|split; [|split]].
    + intros w. cbn [put_blocks]. destruct (E1 w) as (b' & w1 & A1 & b'' & A2). rewrite A1. go. rewrite A2. go. rewrite G1, put_all_app. reflexivity.
    + intros rest. cbn [length repeat parse_blocks]. rewrite <- app_assoc, E2. go. rewrite G2. reflexivity.
    + apply Forall_app; auto.
    + cbn [map]. rewrite E4, G4. reflexivity.
Qed.

(** The trees as both sides start. *)
Lemma set_leaves_ok : forall bs i inc zbp, Forall coded bs -> 0 <= i -> i + zlen bs <= zlen inc -> zlen zbp = zlen inc ->
  exists inc' zbp', set_leaves bs i inc zbp = Ret (inc', zbp') /\ same inc inc' /\ same zbp zbp' /\
    (forall k, 0 <= k < zlen inc -> ~ (i <= k < i + zlen bs) -> nd inc' k = nd inc k /\ nd zbp' k = nd zbp k) /\
    (forall k b, nth_error bs k = Some b -> let j := i + Z.of_nat k in isset (nd inc' j) = true /\ isset (nd zbp' j) = true /\ val (nd inc' j) = (if znth 0 (e_passes b) 0 =? 0 then 1 else 0) /\ val (nd zbp' j) = e_zbp b).
Proof.
  induction bs as [|b bs IH]; intros i inc zbp C Hi Hn L.
  - exists inc, zbp. split; [reflexivity|]. split; [apply same_refl|]. split; [apply same_refl|]. split; [auto|]. intros [|k] b H; discriminate.
  - inversion C as [|? ? Cb Cs]; subst. rewrite zlen_cons in *. pose proof (zlen_nonneg bs). cbn [set_leaves].
    destruct (co_start _ Cb) as [st0 Es]. assert (rd (e_start b) 0 = Ret 0) as Rd by (rewrite Es; unfold rd; rewrite zlen_cons; pose proof (zlen_nonneg st0); replace ((0 <=? 0) && (0 <? 1 + zlen st0)) with true by lia; reflexivity).
    rewrite Rd. go. rewrite !nupd_in by lia. go.
    set (v := if e_length b =? 0 then 1 else 0). assert (v = if znth 0 (e_passes b) 0 =? 0 then 1 else 0) as Ev by (subst v; pose proof (co_empty _ Cb); destruct (Z.eqb_spec (e_length b) 0), (Z.eqb_spec (znth 0 (e_passes b) 0) 0); tauto).
    destruct (IH (i + 1) (nput inc i (set_value v (nd inc i))) (nput zbp i (set_value (e_zbp b) (nd zbp i)))) as (inc' & zbp' & E1 & E2 & E3 & E4 & E5); auto; try (rewrite ?zlen_nput by lia; lia).
    exists inc', zbp'. split; [exact E1|]. split; [eapply same_trans; [|exact E2]; apply same_nput; auto using same_refl; lia|]. split; [eapply same_trans; [|exact E3]; apply same_nput; auto using same_refl; lia|].
    rewrite zlen_nput in E4 by lia. split.
    + intros k Hk Nk. destruct (E4 k) as [A B]; [lia|lia|]. rewrite A, B. rewrite !nput_other by lia. auto.
    + intros [|k] b' Hb.
      * injection Hb as <-. cbv zeta. rewrite Z.add_0_r. destruct (E4 i) as [A B]; [lia|lia|]. rewrite A, B, !nput_same by lia. rewrite <- Ev. repeat split; reflexivity.
      * replace (i + Z.of_nat (S k)) with (i + 1 + Z.of_nat k) by lia. apply E5. exact Hb.
Qed.

Lemma header_ok nx ny bs style layers ccap fuel : grid (nx, ny, bs) -> 64 <= style < 128 -> has ccap 49152 = false -> 1 <= layers -> (256 < fuel)%nat ->
  exists bits d d', fresh_band nx ny style layers = Ret d /\ (forall w, generate_packet_header nx ny bs 0 w = Ret (put_all w bits)) /\
    (forall rest, parse_packet_header list_bit fuel 0 ccap d (bits ++ rest) = ret (d', rest)) /\ Forall bit bits /\ map got (bblocks d') = map sent bs.
Proof.
  intros (Hx & Hy & Hm & Hl & C) Hs Hc Hly Hf. unfold fresh_band, generate_packet_header, parse_packet_header.
  destruct (Z.eqb_spec (nx * ny) 0) as [E0|E0].
  - exists [], (Band nx ny [] [] []), (Band nx ny [] [] []). cbn [bnx bny bblocks]. rewrite E0. split; [reflexivity|]. split; [reflexivity|]. split; [reflexivity|]. split; [constructor|]. assert (bs = []) as -> by (destruct bs; [reflexivity|rewrite zlen_cons in Hl; pose proof (zlen_nonneg bs); lia]). reflexivity.
  - destruct (tagtree_ok nx ny) as (t & Et & T & Bl); [nia|nia|exact Hm|]. rewrite Et. go. pose proof (tp_len _ _ T) as TL.
    destruct (set_leaves_ok bs 0 t t C) as (i0 & z0 & E1 & E2 & E3 & E4 & E5); [lia|lia|reflexivity|].
    pose proof (sm_len _ _ E2) as Li. pose proof (sm_len _ _ E3) as Lz.
    assert (forall k, 0 <= k < nx * ny -> exists b, nth_error bs (Z.to_nat k) = Some b) as Nt by (intros k Hk; destruct (nth_error bs (Z.to_nat k)) eqn:E; [eauto|]; apply nth_error_None in E; unfold zlen in Hl; lia).
    destruct (build_ok (fun _ => True) (nx * ny) i0) as (i1 & B1 & B2 & B3 & B4 & B5); [apply (topo_same _ t); assumption| |auto|].
    { intros k Hk. destruct (Z.ltb_spec k (nx * ny)) as [G|G]; [destruct (Nt k) as [b Hb]; [lia|]; pose proof (E5 _ _ Hb) as (X & _); cbv zeta in X; rewrite Z.add_0_l, Z2Nat.id in X by lia; exact X|]. destruct (E4 k) as [X _]; [lia|lia|]. rewrite X. apply Bl. lia. }
    destruct (build_ok (fun v => 0 <= v <= 255) (nx * ny) z0) as (z1 & D1 & D2 & D3 & D4 & D5); [apply (topo_same _ t); assumption| | |].
    { intros k Hk. destruct (Z.ltb_spec k (nx * ny)) as [G|G]; [destruct (Nt k) as [b Hb]; [lia|]; pose proof (E5 _ _ Hb) as (_ & X & _); cbv zeta in X; rewrite Z.add_0_l, Z2Nat.id in X by lia; exact X|]. destruct (E4 k) as [_ X]; [lia|lia|]. rewrite X. apply Bl. lia. }
    { intros k Hk. destruct (Nt k) as [b Hb]; [lia|]. pose proof (E5 _ _ Hb) as (_ & _ & _ & X). cbv zeta in X. rewrite Z.add_0_l, Z2Nat.id in X by lia. rewrite X. rewrite Forall_forall in C. pose proof (co_zbp b (C b (nth_error_In _ _ Hb))). lia. }
    destruct (blocks_ok (nx * ny) style layers ccap fuel Hs Hc Hly Hf bs 0 i1 z1 t t) as (bits & di & dz & cbs & G1 & G2 & G3 & G4); auto; try lia.
    + pose proof (same_trans _ _ _ E2 B2) as St. pose proof (sm_len _ _ St) as Lt. constructor.
      * apply (topo_same _ t); assumption.
      * apply same_sym. exact St.
      * intros k Hk. pose proof (Bl k ltac:(lia)) as X. pose proof (B3 k ltac:(lia)) as (Y1 & Y2 & _). destruct X as (X1 & X2 & X3 & X4). rewrite X1, X2, Y1, Y2. auto.
      * intros k Hk. pose proof (B3 k ltac:(lia)) as (Y1 & Y2 & _). lia.
      * intros k Hk. apply B5. lia.
      * intros k Hk Dk. pose proof (B3 k ltac:(lia)) as (Y1 & Y2 & _). destruct Dk; lia.
    + pose proof (same_trans _ _ _ E3 D2) as St. pose proof (sm_len _ _ St) as Lt. constructor.
      * apply (topo_same _ t); assumption.
      * apply same_sym. exact St.
      * intros k Hk. pose proof (Bl k ltac:(lia)) as X. pose proof (D3 k ltac:(lia)) as (Y1 & Y2 & Y3). destruct X as (X1 & X2 & X3 & X4). rewrite X1, X2, Y1. lia.
      * intros k Hk. apply D5. lia.
      * intros k Hk Dk. pose proof (D3 k ltac:(lia)) as (Y1 & Y2 & _). lia.
    + apply (same_trans _ t); [apply same_sym; apply (same_trans _ i0); assumption|apply (same_trans _ z0); assumption].
    + intros k b Hb. rewrite Z.add_0_l. assert (k < length bs)%nat as Hk by (apply nth_error_Some; congruence). unfold zlen in Hl. pose proof (E5 _ _ Hb) as X. cbv zeta in X. rewrite Z.add_0_l in X. destruct X as (_ & _ & X3 & X4). pose proof (B3 (Z.of_nat k) ltac:(lia)) as (Y1 & Y2 & _).
      unfold fills. rewrite B4, D4 by lia. rewrite X3, X4. split; [intros [Q|Q]; lia|]. split; [|reflexivity]. rewrite Forall_forall in C. pose proof (co_n b (C b (nth_error_In _ _ Hb))). destruct (Z.eqb_spec (znth 0 (e_passes b) 0) 0); lia.
    + exists bits, (Band nx ny t t (repeat (fresh_cb style layers) (Z.to_nat (nx * ny)))), (Band nx ny di dz cbs). split; [reflexivity|]. cbn [bnx bny binc bzbp bblocks]. replace (nx * ny =? 0) with false by lia. split; [|split; [|auto]].
      * intros w. rewrite E1. go. rewrite B1. go. rewrite D1. go. apply G1.
      * intros rest. replace (Z.to_nat (nx * ny)) with (length bs) by (unfold zlen in Hl; lia). rewrite G2. reflexivity.
Qed.
