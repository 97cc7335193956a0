(** Properties of the codestream walker. *)
From Verif Require Import Base BaseLemmas Be WalkerModel WalkerSpec.

Lemma find_sod_in fuel bytes : forall j, bytes_ok bytes -> 0 <= j -> zlen bytes - j < 2 * Z.of_nat fuel -> 0 < Z.of_nat fuel ->
  exists r, find_sod fuel bytes j = Ret r /\ forall k, r = Some k -> j <= k /\ k + 2 <= zlen bytes.
Proof.
  induction fuel as [|fuel IH]; intros j Hb Hj Hf H0; [lia|]. cbn [find_sod].
  destruct (j + 2 <=? zlen bytes) eqn:E1; [|eexists; split; [reflexivity|discriminate]].
  destruct (rd16_in bytes j Hb Hj ltac:(lia)) as (m & -> & Hm). cbn [bind].
  destruct (m =? SOD). { eexists. split; [reflexivity|]. intros k Ek. apply Some_inj in Ek. lia. }
  destruct (no_length m).
  { destruct (IH (j + 2) Hb ltac:(lia) ltac:(lia) ltac:(lia)) as (r & -> & Hr). exists r. split; [reflexivity|].
    intros k Ek. specialize (Hr k Ek). lia. }
  destruct (zlen bytes <? j + 4) eqn:E2; [eexists; split; [reflexivity|discriminate]|].
  destruct (rd16_in bytes (j + 2) Hb ltac:(lia) ltac:(lia)) as (L & -> & HL). cbn [bind].
  destruct ((L <? 2) || (zlen bytes <? j + 2 + L)) eqn:E3; [eexists; split; [reflexivity|discriminate]|].
  destruct (IH (j + (2 + L)) Hb ltac:(lia) ltac:(lia) ltac:(lia)) as (r & -> & Hr). exists r. split; [reflexivity|].
  intros k Ek. specialize (Hr k Ek). lia.
Qed.

Definition layout_inside (len : Z) (o : layout) : Prop :=
  0 <= l_header_end o <= len /\ 0 <= l_eoc o <= len /\ Forall (part_inside len) (l_parts o).

Lemma walk_loop_in fuel bytes : forall i seen o, bytes_ok bytes -> 0 <= i -> zlen bytes - i < Z.of_nat fuel -> 0 < Z.of_nat fuel ->
  layout_inside (zlen bytes) o -> exists o', walk_loop fuel bytes i seen o = Ret o' /\ layout_inside (zlen bytes) o'.
Proof.
  induction fuel as [|fuel IH]; intros i seen o Hb Hi Hf H0 Ho; [lia|]. cbn [walk_loop].
  destruct (i + 2 <=? zlen bytes) eqn:E1; [|eauto].
  destruct (rd16_in bytes i Hb Hi ltac:(lia)) as (m & -> & Hm). cbn [bind].
  destruct Ho as (O1 & O2 & O3).
  destruct (m =? EOC). { eexists. split; [reflexivity|]. repeat split; cbn; auto; lia. }
  destruct (m =? SOT).
  { destruct (zlen bytes <? i + 12) eqn:E2; [eexists; split; [reflexivity|]; repeat split; auto; lia|].
    destruct (rd16_in bytes (i + 2) Hb ltac:(lia) ltac:(lia)) as (Ls & -> & _). cbn [bind].
    destruct (negb (Ls =? 10)); [eexists; split; [reflexivity|]; repeat split; auto; lia|].
    destruct (rd16_in bytes (i + 4) Hb ltac:(lia) ltac:(lia)) as (Is & -> & _).
    destruct (rd32_in bytes (i + 6) Hb ltac:(lia) ltac:(lia)) as (Ps & -> & HP).
    destruct (rd_in_ex bytes (i + 10) Hb ltac:(lia)) as (TP & -> & _).
    destruct (rd_in_ex bytes (i + 11) Hb ltac:(lia)) as (TN & -> & _). cbn [bind].
    set (o1 := if seen then o else Layout i (l_eoc o) (l_parts o)).
    assert (layout_inside (zlen bytes) o1) as (P1 & P2 & P3) by (unfold o1; destruct seen; repeat split; cbn; auto; lia).
    destruct (find_sod_in (S (length bytes)) bytes (i + 12) Hb ltac:(lia)) as ([j|] & -> & Hj); try (unfold zlen; lia); cbn [bind].
    - destruct (Hj j eq_refl) as [J1 J2].
      set (be := if negb (Ps =? 0) then if zlen bytes <? i + Ps then zlen bytes else i + Ps else zlen bytes).
      assert (i < be <= zlen bytes) as Hbe.
      { unfold be. destruct (Ps =? 0) eqn:A; cbn [negb]; [lia|]. destruct (zlen bytes <? i + Ps) eqn:B; lia. }
      apply IH; try lia; auto. split; [cbn; lia|]. split; [cbn; lia|]. cbn [l_parts].
      apply Forall_app. split; [exact P3|]. constructor; [|constructor]. unfold part_inside. cbn. lia.
    - eexists. split; [reflexivity|]. repeat split; auto; lia. }
  destruct (no_length m). { apply IH; auto; try lia. repeat split; auto; lia. }
  destruct (zlen bytes <? i + 4) eqn:E2; [eexists; split; [reflexivity|]; repeat split; auto; lia|].
  destruct (rd16_in bytes (i + 2) Hb ltac:(lia) ltac:(lia)) as (L & -> & HL). cbn [bind].
  destruct ((L <? 2) || (zlen bytes <? i + 2 + L)) eqn:E3; [eexists; split; [reflexivity|]; repeat split; auto; lia|].
  apply IH; auto; try lia. repeat split; auto; lia.
Qed.

(** ** C16.  Arbitrary bytes: the walk ends, reads inside the buffer only, and
    every offset it reports lies inside the buffer. *)
Theorem C16_any_bytes : forall bytes, Forall (fun b => 0 <= b < 256) bytes ->
  exists r, walk_codestream bytes = Ret r /\
    forall o, r = Some o ->
      0 <= l_header_end o <= zlen bytes /\ 0 <= l_eoc o <= zlen bytes /\ Forall (part_inside (zlen bytes)) (l_parts o).
Proof.
  intros bytes Hb. unfold walk_codestream.
  destruct (zlen bytes <? 2) eqn:E; [eexists; split; [reflexivity|discriminate]|].
  destruct (rd16_in bytes 0 Hb ltac:(lia) ltac:(lia)) as (m & -> & _). cbn [bind].
  destruct (negb (m =? SOC)); [eexists; split; [reflexivity|discriminate]|].
  destruct (walk_loop_in (S (length bytes)) bytes 2 false (Layout 0 (zlen bytes) []) Hb ltac:(lia)) as (o & -> & Ho);
    try (unfold zlen; lia).
  - repeat split; cbn; try lia. constructor.
  - cbn [bind]. eexists. split; [reflexivity|]. intros o' E'. apply Some_inj in E'. subst o'. exact Ho.
Qed.
Print Assumptions C16_any_bytes.

(** A Psot below the header length makes a reported body end before it starts. *)
Theorem C16_body_may_be_negative_refuted : exists bytes o t, Forall (fun b => 0 <= b < 256) bytes /\
  walk_codestream bytes = ret o /\ In t (l_parts o) /\ tp_body_end t < tp_body_offset t.
Proof.
  exists (be16 SOC ++ be16 SOT ++ be16 10 ++ be16 0 ++ be32 12 ++ [0; 1] ++ be16 SOD ++ [1; 2; 3]).
  eexists. eexists. split; [repeat constructor; vm_compute; congruence|]. split; [vm_compute; reflexivity|].
  split; [left; reflexivity|]. vm_compute. reflexivity.
Qed.
Print Assumptions C16_body_may_be_negative_refuted.

(** Psot = 0 takes in the EOC marker with the last tile-part. *)
Theorem C16_zero_psot_takes_eoc_refuted : exists bytes o t, Forall (fun b => 0 <= b < 256) bytes /\
  bytes = be16 SOC ++ be16 SOT ++ be16 10 ++ be16 0 ++ be32 0 ++ [0; 1] ++ be16 SOD ++ [1; 2; 3] ++ be16 EOC /\
  walk_codestream bytes = ret o /\ l_parts o = [t] /\ tp_body_end t = zlen bytes /\ l_eoc o = zlen bytes.
Proof.
  eexists. eexists. eexists. split; [|split; [reflexivity|]]; [repeat constructor; vm_compute; congruence|].
  split; [vm_compute; reflexivity|]. split; [reflexivity|]. split; reflexivity.
Qed.
Print Assumptions C16_zero_psot_takes_eoc_refuted.

(** ** Well-formed codestreams *)

Lemma seg_len s : zlen (seg_bytes s) = 4 + zlen (sg_payload s).
Proof. unfold seg_bytes. rewrite !zlen_app, !be16_len. lia. Qed.
Lemma low_byte m : 65280 <= m < 65536 -> Z.land m 255 = m - 65280.
Proof.
  intros H. change 255 with (Z.ones 8). rewrite Z.land_ones by lia. change (2 ^ 8) with 256.
  symmetry. apply (Z.mod_unique_pos m 256 255); lia.
Qed.
Lemma no_length_iff m : 65280 <= m < 65536 -> no_length m = true <-> stands_alone m.
Proof.
  intros H. unfold no_length, stands_alone, SOC, SOD, EOC. rewrite low_byte by assumption. cbn [In].
  destruct ((m =? 65359) || (m =? 65427) || (m =? 65497)) eqn:A; [split; [lia|reflexivity]|].
  destruct (m =? 65426) eqn:B; [split; [lia|reflexivity]|]. lia.
Qed.
Lemma seg_length s : seg_ok s -> no_length (sg_marker s) = false.
Proof.
  intros (A & B & _). destruct (no_length (sg_marker s)) eqn:E; [|reflexivity]. exfalso. apply B, no_length_iff; assumption.
Qed.
Lemma marker_not s m : seg_ok s -> no_length m = true -> sg_marker s <> m.
Proof. intros H E X. apply seg_length in H. rewrite X in H. congruence. Qed.

Lemma find_sod_segs l : forall fuel pre rest, Forall seg_ok l -> (length l < fuel)%nat ->
  find_sod fuel (pre ++ segs_bytes l ++ be16 SOD ++ rest) (zlen pre) = Ret (Some (zlen pre + zlen (segs_bytes l))).
Proof.
  induction l as [|s t IH]; intros fuel pre rest Hl Hf; (destruct fuel as [|fuel]; [cbn in Hf; lia|]); cbn [find_sod].
  - cbn [segs_bytes concat map app]. rewrite !zlen_app. pose proof (zlen_nonneg rest). pose proof (be16_len SOD).
    replace (zlen pre + 2 <=? zlen pre + (zlen (be16 SOD) + zlen rest)) with true by lia.
    rewrite (rd16_be pre SOD rest _ eq_refl) by (vm_compute; intuition congruence). cbn [bind].
    change (SOD =? SOD) with true. cbv iota. do 2 f_equal. unfold segs_bytes. cbn. lia.
  - inversion Hl as [|? ? Hs Ht]; subst. pose proof (seg_length s Hs) as S2. destruct Hs as (S1 & _ & S3).
    assert (segs_bytes (s :: t) = seg_bytes s ++ segs_bytes t) as Es by reflexivity. rewrite Es.
    set (B := pre ++ (seg_bytes s ++ segs_bytes t) ++ be16 SOD ++ rest).
    assert (zlen B = zlen pre + (4 + zlen (sg_payload s)) + zlen (segs_bytes t) + 2 + zlen rest) as LB.
    { unfold B. rewrite !zlen_app, seg_len, be16_len. lia. }
    pose proof (zlen_nonneg (sg_payload s)). pose proof (zlen_nonneg (segs_bytes t)). pose proof (zlen_nonneg rest).
    replace (zlen pre + 2 <=? zlen B) with true by lia.
    assert (rd16 B (zlen pre) = Ret (sg_marker s)) as ->.
    { unfold B, seg_bytes. rewrite <- !app_assoc. apply rd16_be; [reflexivity|lia]. }
    cbn [bind]. assert (sg_marker s <> SOD) as N by (intros E; rewrite E in S2; discriminate).
    replace (sg_marker s =? SOD) with false by lia. rewrite S2.
    replace (zlen B <? zlen pre + 4) with false by lia.
    assert (rd16 B (zlen pre + 2) = Ret (2 + zlen (sg_payload s))) as ->.
    { unfold B, seg_bytes. rewrite <- !app_assoc. rewrite (app_assoc pre). apply rd16_be; [|lia].
      rewrite zlen_app, be16_len. lia. }
    cbn [bind].
    match goal with |- context [if ?x then _ else _] => replace x with false by lia end.
    replace (zlen pre + (2 + (2 + zlen (sg_payload s)))) with (zlen (pre ++ seg_bytes s)) by (rewrite zlen_app, seg_len; lia).
    assert (B = (pre ++ seg_bytes s) ++ segs_bytes t ++ be16 SOD ++ rest) as -> by (unfold B; now rewrite !app_assoc).
    rewrite IH; [|exact Ht|cbn in Hf; lia]. rewrite !zlen_app. do 2 f_equal. lia.
Qed.

Lemma segs_count l : Forall seg_ok l -> Z.of_nat (length l) <= zlen (segs_bytes l).
Proof.
  induction 1 as [|s t _ _ IH]; [cbn; lia|].
  assert (segs_bytes (s :: t) = seg_bytes s ++ segs_bytes t) as -> by reflexivity.
  rewrite zlen_app, seg_len. pose proof (zlen_nonneg (sg_payload s)). cbn [length]. lia.
Qed.

Lemma part_bytes_len p : zlen (part_bytes p) = part_len p.
Proof. unfold part_bytes, part_len. rewrite !zlen_app, !be16_len, be32_len. change (zlen [pt_idx p; pt_cnt p]) with 2. lia. Qed.

Lemma walk_parts ps : forall fuel pre seen o rest, Forall part_ok ps -> (length ps < fuel)%nat ->
  walk_loop fuel (pre ++ concat (map part_bytes ps) ++ be16 EOC ++ rest) (zlen pre) seen o =
  Ret (Layout (if seen then l_header_end o else match ps with [] => l_header_end o | _ => zlen pre end)
              (zlen pre + zlen (concat (map part_bytes ps))) (l_parts o ++ locate (zlen pre) ps)).
Proof.
  induction ps as [|p t IH]; intros fuel pre seen o rest Hp Hf; (destruct fuel as [|fuel]; [cbn in Hf; lia|]); cbn [walk_loop].
  - cbn [map concat app locate]. rewrite !zlen_app, be16_len, app_nil_r. pose proof (zlen_nonneg rest).
    replace (zlen pre + 2 <=? zlen pre + (2 + zlen rest)) with true by lia.
    rewrite (rd16_be pre EOC rest _ eq_refl) by (vm_compute; intuition congruence). cbn [bind].
    change (EOC =? EOC) with true. cbv iota. change (zlen []) with 0. rewrite Z.add_0_r. destruct seen; reflexivity.
  - inversion Hp as [|? ? Hp1 Ht]; subst. destruct Hp1 as (P1 & P2 & P3).
    cbn [map concat].
    set (B := pre ++ (part_bytes p ++ concat (map part_bytes t)) ++ be16 EOC ++ rest).
    assert (zlen B = zlen pre + part_len p + zlen (concat (map part_bytes t)) + 2 + zlen rest) as LB.
    { unfold B. rewrite !zlen_app, part_bytes_len, be16_len. lia. }
    assert (Hpl : part_len p = 12 + zlen (segs_bytes (pt_segs p)) + 2 + zlen (pt_body p)) by reflexivity.
    pose proof (zlen_nonneg (segs_bytes (pt_segs p))). pose proof (zlen_nonneg (pt_body p)).
    pose proof (zlen_nonneg (concat (map part_bytes t))). pose proof (zlen_nonneg rest). pose proof (zlen_nonneg pre).
    assert (B = pre ++ be16 SOT ++ be16 10 ++ be16 (pt_tile p) ++ be32 (part_len p) ++ pt_idx p :: pt_cnt p ::
              (segs_bytes (pt_segs p) ++ be16 SOD ++ (pt_body p ++ concat (map part_bytes t) ++ be16 EOC ++ rest))) as EB.
    { unfold B, part_bytes. rewrite <- !app_assoc. reflexivity. }
    replace (zlen pre + 2 <=? zlen B) with true by lia.
    assert (rd16 B (zlen pre) = Ret SOT) as -> by (rewrite EB; apply rd16_be; [reflexivity|vm_compute; intuition congruence]).
    cbn [bind]. change (SOT =? EOC) with false. change (SOT =? SOT) with true. cbv iota.
    replace (zlen B <? zlen pre + 12) with false by lia.
    assert (rd16 B (zlen pre + 2) = Ret 10) as ->.
    { rewrite EB, (app_assoc pre). apply rd16_be; [rewrite zlen_app, be16_len; lia|lia]. }
    cbn [bind]. change (negb (10 =? 10)) with false. cbv iota.
    assert (rd16 B (zlen pre + 4) = Ret (pt_tile p)) as ->.
    { rewrite EB, (app_assoc pre), (app_assoc (pre ++ _)). apply rd16_be; [rewrite !zlen_app, !be16_len; lia|exact P1]. }
    assert (rd32 B (zlen pre + 6) = Ret (part_len p)) as ->.
    { rewrite EB, (app_assoc pre), (app_assoc (pre ++ _)), (app_assoc ((pre ++ _) ++ _)).
      apply rd32_be; [rewrite !zlen_app, !be16_len; lia|lia]. }
    assert (rd B (zlen pre + 10) = Ret (pt_idx p)) as ->.
    { rewrite EB, (app_assoc pre), (app_assoc (pre ++ _)), (app_assoc ((pre ++ _) ++ _)), (app_assoc (((pre ++ _) ++ _) ++ _)).
      apply rd_be. rewrite !zlen_app, !be16_len, be32_len. lia. }
    assert (rd B (zlen pre + 11) = Ret (pt_cnt p)) as ->.
    { rewrite EB, (app_assoc pre), (app_assoc (pre ++ _)), (app_assoc ((pre ++ _) ++ _)), (app_assoc (((pre ++ _) ++ _) ++ _)).
      match goal with |- rd (?a ++ ?x :: ?y :: ?r) _ = _ => change (x :: y :: r) with ([x] ++ y :: r); rewrite (app_assoc a) end.
      apply rd_be. rewrite !zlen_app, !be16_len, be32_len. change (zlen [pt_idx p]) with 1. lia. }
    cbn [bind].
    assert (find_sod (S (length B)) B (zlen pre + 12) = Ret (Some (zlen pre + 12 + zlen (segs_bytes (pt_segs p))))) as ->.
    { set (hd := pre ++ be16 SOT ++ be16 10 ++ be16 (pt_tile p) ++ be32 (part_len p) ++ [pt_idx p; pt_cnt p]).
      assert (B = hd ++ segs_bytes (pt_segs p) ++ be16 SOD ++ (pt_body p ++ concat (map part_bytes t) ++ be16 EOC ++ rest)) as EB2.
      { rewrite EB. unfold hd. rewrite <- !app_assoc. reflexivity. }
      assert (zlen pre + 12 = zlen hd) as -> by (unfold hd; rewrite !zlen_app, !be16_len, be32_len; change (zlen [pt_idx p; pt_cnt p]) with 2; lia).
      rewrite EB2 at 2. apply find_sod_segs; [exact P2|].
      pose proof (segs_count _ P2). unfold zlen in LB at 1. lia. }
    cbn [bind].
    replace (negb (part_len p =? 0)) with true by lia. replace (zlen B <? zlen pre + part_len p) with false by lia.
    assert (zlen (pre ++ part_bytes p) = zlen pre + part_len p) as Ln by (rewrite zlen_app, part_bytes_len; lia).
    assert (B = (pre ++ part_bytes p) ++ concat (map part_bytes t) ++ be16 EOC ++ rest) as EB3 by (unfold B; now rewrite !app_assoc).
    rewrite EB3, <- Ln. rewrite IH; [|exact Ht|cbn in Hf; lia]. cbn [l_header_end l_parts locate]. rewrite Ln.
    f_equal. f_equal; [destruct seen; reflexivity|rewrite zlen_app, part_bytes_len; lia|].
    destruct seen; cbn [l_parts]; rewrite <- app_assoc; reflexivity.
Qed.

Lemma walk_main segs : forall fuel pre o tail, Forall seg_ok segs -> Forall (fun s => sg_marker s <> SOT) segs ->
  walk_loop (length segs + fuel) (pre ++ segs_bytes segs ++ tail) (zlen pre) false o =
  walk_loop fuel (pre ++ segs_bytes segs ++ tail) (zlen pre + zlen (segs_bytes segs)) false o.
Proof.
  induction segs as [|s t IH]; intros fuel pre o tail Hs Hn.
  - cbn [length Nat.add segs_bytes map concat]. now rewrite Z.add_0_r.
  - inversion Hs as [|? ? Hs1 Ht]; subst. inversion Hn as [|? ? N Hn']; subst.
    pose proof (marker_not s EOC Hs1 eq_refl) as N2. pose proof (seg_length s Hs1) as S2. destruct Hs1 as (S1 & _ & S3).
    assert (segs_bytes (s :: t) = seg_bytes s ++ segs_bytes t) as Es by reflexivity. rewrite Es.
    set (B := pre ++ (seg_bytes s ++ segs_bytes t) ++ tail).
    assert (zlen B = zlen pre + (4 + zlen (sg_payload s)) + zlen (segs_bytes t) + zlen tail) as LB.
    { unfold B. rewrite !zlen_app, seg_len. lia. }
    pose proof (zlen_nonneg (sg_payload s)). pose proof (zlen_nonneg (segs_bytes t)). pose proof (zlen_nonneg tail).
    cbn [length Nat.add]. cbn [walk_loop].
    replace (zlen pre + 2 <=? zlen B) with true by lia.
    assert (rd16 B (zlen pre) = Ret (sg_marker s)) as ->.
    { unfold B, seg_bytes. rewrite <- !app_assoc. apply rd16_be; [reflexivity|lia]. }
    cbn [bind]. replace (sg_marker s =? EOC) with false by lia. replace (sg_marker s =? SOT) with false by lia. rewrite S2.
    replace (zlen B <? zlen pre + 4) with false by lia.
    assert (rd16 B (zlen pre + 2) = Ret (2 + zlen (sg_payload s))) as ->.
    { unfold B, seg_bytes. rewrite <- !app_assoc. rewrite (app_assoc pre). apply rd16_be; [|lia].
      rewrite zlen_app, be16_len. lia. }
    cbn [bind].
    match goal with |- context [if ?x then _ else _] => replace x with false by lia end.
    replace (zlen pre + (2 + (2 + zlen (sg_payload s)))) with (zlen (pre ++ seg_bytes s)) by (rewrite zlen_app, seg_len; lia).
    assert (B = (pre ++ seg_bytes s) ++ segs_bytes t ++ tail) as -> by (unfold B; now rewrite !app_assoc).
    rewrite IH by assumption. f_equal. rewrite !zlen_app. lia.
Qed.

Lemma parts_count ps : Z.of_nat (length ps) <= zlen (concat (map part_bytes ps)).
Proof.
  induction ps as [|p t IH]; [cbn; lia|]. cbn [map concat length]. rewrite zlen_app, part_bytes_len. unfold part_len.
  pose proof (zlen_nonneg (segs_bytes (pt_segs p))). pose proof (zlen_nonneg (pt_body p)). lia.
Qed.

(** Every well-formed codestream: exactly its tile-parts are reported. *)
Theorem C16_well_formed : forall main parts rest,
  Forall seg_ok main -> Forall (fun s => sg_marker s <> SOT) main -> Forall part_ok parts ->
  let start := 2 + zlen (segs_bytes main) in
  walk_codestream (codestream main parts rest) =
    ret (Layout (match parts with [] => 0 | _ => start end)
                (start + zlen (concat (map part_bytes parts))) (locate start parts)).
Proof.
  intros main parts rest Hm Hn Hp start. unfold walk_codestream.
  set (B := codestream main parts rest).
  assert (zlen B = 2 + zlen (segs_bytes main) + zlen (concat (map part_bytes parts)) + 2 + zlen rest) as LB.
  { unfold B, codestream. rewrite !zlen_app, !be16_len. lia. }
  pose proof (zlen_nonneg (segs_bytes main)). pose proof (zlen_nonneg (concat (map part_bytes parts))). pose proof (zlen_nonneg rest).
  replace (zlen B <? 2) with false by lia.
  assert (rd16 B 0 = Ret SOC) as ->.
  { unfold B, codestream. apply (rd16_be [] SOC _ 0); [reflexivity|vm_compute; intuition congruence]. }
  cbn [bind]. change (negb (SOC =? SOC)) with false. cbv iota.
  pose proof (segs_count main Hm). pose proof (parts_count parts).
  assert (exists f, S (length B) = (length main + f)%nat /\ (length parts < f)%nat) as (f & -> & Hf).
  { exists (S (length B) - length main)%nat. unfold zlen in LB at 1. lia. }
  unfold B at 1, codestream. rewrite (walk_main main f (be16 SOC) _ _ Hm Hn).
  change (zlen (be16 SOC)) with 2. fold start. rewrite app_assoc.
  assert (start = zlen (be16 SOC ++ segs_bytes main)) as E by (rewrite zlen_app, be16_len; reflexivity).
  rewrite E at 1. rewrite walk_parts by assumption. cbn [bind l_header_end l_parts app]. rewrite <- E.
  unfold ret. reflexivity.
Qed.
Print Assumptions C16_well_formed.

Definition demo_main : list seg := [Seg 65361 [1; 2; 3]; Seg 65362 []; Seg 65372 [255; 144]].
Definition demo_parts : list part := [Part 3 0 2 [Seg 65374 [7]] [255; 217; 9]; Part 3 1 2 [] []].
Example C16_demo : Forall seg_ok demo_main /\ Forall (fun s => sg_marker s <> SOT) demo_main /\ Forall part_ok demo_parts /\
  locate 19 demo_parts = [Tp 19 36 38 41 3 0 2; Tp 41 53 55 55 3 1 2] /\ 2 + zlen (segs_bytes demo_main) = 19.
Proof. repeat split; repeat constructor; vm_compute; intuition congruence. Qed.

(** ** Markers that stand alone *)

(** A header made of segments and of markers that stand alone. *)
Inductive piece := Segment (s : seg) | Alone (m : Z).
Definition piece_bytes (p : piece) : list Z := match p with Segment s => seg_bytes s | Alone m => be16 m end.
Definition piece_ok (p : piece) : Prop :=
  match p with
  | Segment s => seg_ok s /\ sg_marker s <> SOT
  | Alone m => stands_alone m /\ m <> EOC
  end.
Definition pieces_bytes (l : list piece) : list Z := concat (map piece_bytes l).

Lemma walk_pieces l : forall fuel pre o tail, Forall piece_ok l ->
  walk_loop (length l + fuel) (pre ++ pieces_bytes l ++ tail) (zlen pre) false o =
  walk_loop fuel (pre ++ pieces_bytes l ++ tail) (zlen pre + zlen (pieces_bytes l)) false o.
Proof.
  induction l as [|p t IH]; intros fuel pre o tail H.
  - cbn [length Nat.add pieces_bytes map concat]. now rewrite Z.add_0_r.
  - inversion H as [|? ? Hp Ht]; subst.
    assert (pieces_bytes (p :: t) = piece_bytes p ++ pieces_bytes t) as Es by reflexivity. rewrite Es.
    assert (Step : forall fuel, walk_loop (S fuel) (pre ++ (piece_bytes p ++ pieces_bytes t) ++ tail) (zlen pre) false o =
      walk_loop fuel (pre ++ (piece_bytes p ++ pieces_bytes t) ++ tail) (zlen pre + zlen (piece_bytes p)) false o).
    { intros f. destruct p as [s|m]; cbn [piece_bytes piece_ok] in *.
      - destruct Hp as [Hp Hn].
        pose proof (walk_main [s] f pre o (pieces_bytes t ++ tail) ltac:(constructor; [exact Hp|constructor]) ltac:(constructor; [exact Hn|constructor])) as W.
        assert (E : segs_bytes [s] = seg_bytes s) by (unfold segs_bytes; cbn [map concat]; apply app_nil_r).
        rewrite E in W. cbn [length Nat.add] in W. rewrite <- app_assoc. exact W.
      - destruct Hp as [Hm Hne]. assert (65280 <= m < 65536) as R by (unfold stands_alone in Hm; cbn [In] in Hm; lia).
        cbn [walk_loop]. rewrite !zlen_app, be16_len. pose proof (zlen_nonneg (pieces_bytes t)). pose proof (zlen_nonneg tail).
        replace (zlen pre + 2 <=? zlen pre + (2 + zlen (pieces_bytes t) + zlen tail)) with true by lia.
        assert (rd16 (pre ++ (be16 m ++ pieces_bytes t) ++ tail) (zlen pre) = Ret m) as ->.
        { rewrite <- !app_assoc. apply rd16_be; [reflexivity|lia]. }
        cbn [bind]. replace (m =? EOC) with false by lia.
        assert (m <> SOT) as N by (unfold stands_alone in Hm; cbn [In] in Hm; unfold SOT; lia).
        replace (m =? SOT) with false by lia. apply (no_length_iff m R) in Hm. rewrite Hm. reflexivity. }
    cbn [length Nat.add]. rewrite Step, <- zlen_app.
    assert (pre ++ (piece_bytes p ++ pieces_bytes t) ++ tail = (pre ++ piece_bytes p) ++ pieces_bytes t ++ tail) as ->
      by now rewrite !app_assoc.
    rewrite IH by assumption. f_equal. rewrite !zlen_app. lia.
Qed.
Lemma pieces_count l : Z.of_nat (length l) <= zlen (pieces_bytes l).
Proof.
  induction l as [|p t IH]; [cbn; lia|]. change (pieces_bytes (p :: t)) with (piece_bytes p ++ pieces_bytes t).
  rewrite zlen_app. cbn [length]. enough (1 <= zlen (piece_bytes p)) by lia.
  destruct p as [s|m]; cbn [piece_bytes]; [rewrite seg_len; pose proof (zlen_nonneg (sg_payload s)); lia|rewrite be16_len; lia].
Qed.

(** Markers that stand alone in the main header are stepped over: the
    tile-parts after them are found where they are. *)
Theorem C16_markers_alone : forall main parts rest, Forall piece_ok main -> Forall part_ok parts ->
  let start := 2 + zlen (pieces_bytes main) in
  walk_codestream (be16 SOC ++ pieces_bytes main ++ concat (map part_bytes parts) ++ be16 EOC ++ rest) =
    ret (Layout (match parts with [] => 0 | _ => start end)
                (start + zlen (concat (map part_bytes parts))) (locate start parts)).
Proof.
  intros main parts rest Hm Hp start. unfold walk_codestream.
  set (B := be16 SOC ++ _).
  assert (zlen B = 2 + zlen (pieces_bytes main) + zlen (concat (map part_bytes parts)) + 2 + zlen rest) as LB.
  { unfold B. rewrite !zlen_app, !be16_len. lia. }
  pose proof (zlen_nonneg (pieces_bytes main)). pose proof (zlen_nonneg (concat (map part_bytes parts))). pose proof (zlen_nonneg rest).
  replace (zlen B <? 2) with false by lia.
  assert (rd16 B 0 = Ret SOC) as ->.
  { unfold B. apply (rd16_be [] SOC _ 0); [reflexivity|vm_compute; intuition congruence]. }
  cbn [bind]. change (negb (SOC =? SOC)) with false. cbv iota.
  pose proof (pieces_count main). pose proof (parts_count parts).
  assert (exists f, S (length B) = (length main + f)%nat /\ (length parts < f)%nat) as (f & -> & Hf).
  { exists (S (length B) - length main)%nat. unfold zlen in LB at 1. lia. }
  unfold B at 1. rewrite (walk_pieces main f (be16 SOC) _ _ Hm).
  change (zlen (be16 SOC)) with 2. fold start. rewrite app_assoc.
  assert (start = zlen (be16 SOC ++ pieces_bytes main)) as E by (rewrite zlen_app, be16_len; reflexivity).
  rewrite E at 1. rewrite walk_parts by assumption. cbn [bind l_header_end l_parts app]. rewrite <- E.
  unfold ret. reflexivity.
Qed.
Print Assumptions C16_markers_alone.
Example C16_markers_alone_case :
  Forall piece_ok [Segment (Seg 65361 [1; 2; 3]); Alone 65328; Alone 65343; Alone 65426; Segment (Seg 65362 [])].
Proof. repeat constructor; vm_compute; intuition congruence. Qed.
