(** * C79: the refinement passes of high-throughput code-blocks

    [block_holds] says where the code keeps what the cleanup pass has found:
    a state byte per sample with a border of one, and a 32-bit pattern per
    sample. *)
From Verif Require Import Base BaseLemmas OutModel OutProofs StripProofs PassModel PassSpec PassProofs DequantProofs RefineModel RefineSpec RefineProofs RefineSim.

Definition st_at (w y x : Z) : Z := (y + 1) * tstr w + (x + 1).
Definition sm_at (w y x : Z) : Z := y * sstr w + x.
Definition block_holds (w h : Z) {p : Z} (c : cleaned p) (st sm : Z -> Z) : Prop :=
  (forall y x, -1 <= y <= h -> -1 <= x <= w -> st (st_at w y x) = Z.b2z (inside w h y x && sig c y x)) /\
  (forall y x, 0 <= y < h -> 0 <= x < w -> sm (sm_at w y x) = if sig c y x then pattern (neg c y x) ((2 * mag c y x + 1) * 2 ^ p) else 0).
Definition mag_fits (w h : Z) {p : Z} (c : cleaned p) : Prop :=
  forall y x, 0 <= y < h -> 0 <= x < w -> sig c y x = true -> 0 <= mag c y x < 2 ^ (30 - p).

Lemma fits p m : 0 <= p <= 29 -> 0 <= m < 2 ^ (30 - p) -> (2 * m + 1) * 2 ^ p < 2 ^ 31.
Proof.
  intros Hp Hm. assert (E : 2 ^ 31 = 2 * (2 ^ (30 - p) * 2 ^ p)) by (rewrite <- Z.pow_add_r by lia; replace (30 - p + p) with 30 by lia; reflexivity).
  pose proof (Z.pow_pos_nonneg 2 p ltac:(lia) ltac:(lia)). nia.
Qed.

(** Whatever the refinement segment holds, with one refinement pass (2 passes)
    or two (3 or more), every sample ends up as the standard says, and nothing
    outside the arrays is touched. *)
Theorem C79_refinement_passes : forall w h causal D p passes (c : cleaned p) st sm,
  1 <= w -> 1 <= h -> 1 <= p <= 29 -> 2 <= passes -> mag_fits w h c -> block_holds w h c st sm ->
  exists st' sm', ht_refine w h causal D p passes st sm = Ret (st', sm') /\
    forall y x, 0 <= y < h -> 0 <= x < w -> sm' (sm_at w y x) = refined w h causal D p passes c y x.
Proof.
  intros w h causal D p passes c st sm Hw Hh Hp Hpass Hf [Hst Hsm]. set (base := fun y x => pattern (neg c y x) ((2 * mag c y x + 1) * 2 ^ p)).
  destruct (sigprop_run w h causal D p (sig c) base Hp st sm) as (st1 & sm1 & sr & E1 & R1); [lia|lia| |].
  { split; cbn [r_st r_sm r_src new minus used].
    - intros y x H. pose proof H as Hi. apply inside_iff in Hi as [Hy Hx]. change (adr w y x) with (st_at w y x). rewrite Hst by lia. rewrite H. cbn [andb]. destruct (sig c y x); reflexivity.
    - intros y x H. pose proof H as Hi. apply inside_iff in Hi as [Hy Hx]. change (adr w y x) with (st_at w y x). rewrite Hst by lia. destruct (RefineSpec.inside w h y x && sig c y x); reflexivity.
    - discriminate.
    - intros y x Hy Hx H. change (adr w y x) with (st_at w y x). rewrite Hst by lia. rewrite H. reflexivity.
    - intros y x H. apply inside_iff in H as [Hy Hx]. change (sadr w y x) with (sm_at w y x). rewrite Hsm by assumption. reflexivity.
    - reflexivity.
    - reflexivity.
    - apply sp_init_R. }
  unfold ht_refine. replace (1 <? passes) with true by lia. rewrite E1. cbn [bind]. destruct (Z.ltb_spec 2 passes) as [L|L].
  - set (s := sig_prop w h causal (sig c) D) in R1.
    destruct (magref_run w h D p (sig c) (mag c) (neg c) (fun y x => nval p (new s y x) (minus s y x)) Hp) with (st := st1) (sm := sm1) as (st2 & sm2 & E2 & R2); [|lia|lia| |].
    + intros y x H Hs. apply inside_iff in H as [Hy Hx]. pose proof (Hf y x Hy Hx Hs). split; [lia|]. apply fits; [lia|assumption].
    + split; cbn [r_st r_sm r_src fst snd].
      * intros y x H. exact (rs_sig _ _ _ _ _ _ _ _ R1 _ _ H).
      * intros y x H Hs _. pose proof (rs_sm _ _ _ _ _ _ _ _ R1 _ _ H) as X. rewrite Hs in X. exact X.
      * intros y x H _ C. exfalso. apply C. apply inside_iff in H as [Hy Hx]. unfold stripe_scan. apply in_flat_map. exists (y / 4). split; [apply zseq_In; lia|apply in_cells; lia].
      * intros y x H Hs. pose proof (rs_sm _ _ _ _ _ _ _ _ R1 _ _ H) as X. rewrite Hs in X. exact X.
      * apply mr_init_R.
    + exists st2, sm2. split; [exact E2|]. intros y x Hy Hx. specialize (R2 y x). cbn [r_sm] in R2. change (sm_at w y x) with (sadr w y x). rewrite R2 by (apply inside_iff; split; assumption).
      unfold refined. fold s. replace (passes <? 3) with false by lia. destruct (sig c y x); [reflexivity|]. unfold nval, pattern. destruct (new s y x); [lia|reflexivity].
  - exists st1, sm1. split; [reflexivity|]. intros y x Hy Hx. pose proof (rs_sm _ _ _ _ _ _ _ _ R1 y x) as X. cbn [r_sm] in X. change (sm_at w y x) with (sadr w y x). rewrite X by (apply inside_iff; split; assumption).
    unfold refined. replace (passes <? 3) with true by lia. destruct (sig c y x); [reflexivity|]. unfold nval, pattern. destruct (new _ y x); [lia|reflexivity].
Qed.
Print Assumptions C79_refinement_passes.

(** Below the lowest bit-plane there is nothing to refine. *)
Theorem C79_no_plane_below : forall w h causal D passes st sm, ht_refine w h causal D 0 passes st sm = Ret (st, sm).
Proof. intros. unfold ht_refine, ht_sigprop, ht_magref. change (0 =? 0) with true. destruct (1 <? passes), (2 <? passes); reflexivity. Qed.
Print Assumptions C79_no_plane_below.

(** Whatever is in the arrays and in the segment, also if no encoder writes
    such a thing, the passes end and stay inside the arrays. *)
Lemma foldo_total {A B} (P : A -> Prop) (f : A -> B -> out A) l : (forall a b, In b l -> P a -> exists a', f a b = Ret a' /\ P a') -> forall a, P a -> exists a', foldo f a l = Ret a' /\ P a'.
Proof.
  induction l as [|b l IH]; intros H a Ha; [exists a; split; [reflexivity|exact Ha]|]. cbn [foldo]. destruct (H a b (or_introl eq_refl) Ha) as (a1 & -> & H1). cbn [bind]. apply IH; [|exact H1]. intros a' b' Hb. apply H. right. exact Hb.
Qed.
Lemma process_total w h causal D p y0 x0 ww hh b : 0 <= y0 -> 0 <= x0 -> y0 + hh <= h -> x0 + ww <= w -> (exists k, Rsp D (r_src b) k) ->
  exists b', process w h causal D p b y0 x0 ww hh = Ret b' /\ exists k, Rsp D (r_src b') k.
Proof.
  intros H1 H2 H3 H4 Hb. unfold process.
  assert (M : forall j i (a : ref spdec), In j (zseq ww) -> In i (zseq hh) -> (exists k, Rsp D (r_src a) k) -> exists a', sp_mag_at w h causal D p (y0 + hh) a (x0 + j) (y0 + i) = Ret a' /\ exists k, Rsp D (r_src a') k).
  { intros j i a Hj Hi [k Hk]. apply zseq_In in Hj, Hi. assert (Hin : RefineSpec.inside w h (y0 + i) (x0 + j) = true) by (apply inside_iff; lia).
    unfold sp_mag_at. set (y := y0 + i) in *. set (x := x0 + j) in *. pose proof (proj1 (inside_iff w h _ _) Hin) as [Hy Hx]. cbv zeta. change ((y + 1) * tstr w + (x + 1)) with (adr w y x). rewrite ld_st_in by lia. cbn [bind].
    set (cc := if negb causal || negb (y =? y0 + hh - 1) then 1 else 0).
    assert (C : exists m, (if Z.land (Z.shiftr (r_st a (adr w y x)) 0) 1 =? 0 then calc_mbr w h a y x cc else Ret 0) = Ret m).
    { destruct (Z.land _ 1 =? 0); [|eexists; reflexivity]. unfold calc_mbr. cbv zeta.
      replace (y * tstr w + x) with (adr w (y - 1) (x - 1)) by (unfold adr; lia). replace (adr w (y - 1) (x - 1) + 1) with (adr w (y - 1) x) by (unfold adr; lia). replace (adr w (y - 1) (x - 1) + 2) with (adr w (y - 1) (x + 1)) by (unfold adr; lia).
      replace ((y + 1) * tstr w + x) with (adr w y (x - 1)) by (unfold adr; lia). replace (adr w y (x - 1) + 2) with (adr w y (x + 1)) by (unfold adr; lia).
      replace ((y + 2) * tstr w + x) with (adr w (y + 1) (x - 1)) by (unfold adr; lia). replace (adr w (y + 1) (x - 1) + 1) with (adr w (y + 1) x) by (unfold adr; lia). replace (adr w (y + 1) (x - 1) + 2) with (adr w (y + 1) (x + 1)) by (unfold adr; lia).
      rewrite !ld_st_in by lia. cbn [bind]. eexists. reflexivity. }
    destruct C as (m & ->). cbn [bind]. destruct (m =? 0).
    - cbn [bind]. rewrite or_state_in by exact Hin. eexists. split; [reflexivity|]. exists k. exact Hk.
    - rewrite or_state_in by exact Hin. cbn [bind r_src]. destruct (import_sp_R D _ _ Hk) as (sr & -> & Rs). cbn [bind]. rewrite or_state_in by exact Hin. cbn [bind]. rewrite ld_sm_in by exact Hin. cbn [bind]. rewrite set_sample_in by exact Hin. cbn [bind]. rewrite or_state_in by exact Hin. eexists. split; [reflexivity|]. exists (S k). exact Rs. }
  assert (G : forall j i (a : ref spdec), In j (zseq ww) -> In i (zseq hh) -> (exists k, Rsp D (r_src a) k) -> exists a', sp_sign_at w h D a (x0 + j) (y0 + i) = Ret a' /\ exists k, Rsp D (r_src a') k).
  { intros j i a Hj Hi [k Hk]. apply zseq_In in Hj, Hi. assert (Hin : RefineSpec.inside w h (y0 + i) (x0 + j) = true) by (apply inside_iff; lia).
    unfold sp_sign_at. set (y := y0 + i) in *. set (x := x0 + j) in *. pose proof (proj1 (inside_iff w h _ _) Hin) as [Hy Hx]. change ((y + 1) * tstr w + (x + 1)) with (adr w y x). rewrite ld_st_in by lia. cbn [bind].
    destruct (Z.land _ 1 =? 0); [eexists; split; [reflexivity|exists k; exact Hk]|]. destruct (import_sp_R D _ _ Hk) as (sr & -> & Rs). cbn [bind]. cbv zeta. rewrite ld_sm_in by exact Hin. cbn [bind]. rewrite set_sample_in by exact Hin. eexists. split; [reflexivity|]. exists (S k). exact Rs. }
  destruct (foldo_total (fun a : ref spdec => exists k, Rsp D (r_src a) k) (fun b j => foldo (fun b i => sp_mag_at w h causal D p (y0 + hh) b (x0 + j) (y0 + i)) b (zseq hh)) (zseq ww)) with (a := b) as (b1 & -> & B1); [|exact Hb|].
  { intros a j Hj Ha. apply (foldo_total (fun a : ref spdec => exists k, Rsp D (r_src a) k)); [|exact Ha]. intros a' i Hi. apply M; assumption. }
  cbn [bind]. apply (foldo_total (fun a : ref spdec => exists k, Rsp D (r_src a) k)); [|exact B1]. intros a j Hj Ha. apply (foldo_total (fun a : ref spdec => exists k, Rsp D (r_src a) k)); [|exact Ha]. intros a' i Hi. apply G; assumption.
Qed.
Theorem C79_refinement_is_safe : forall w h causal D p passes st sm, 1 <= w -> 1 <= h ->
  exists st' sm', ht_refine w h causal D p passes st sm = Ret (st', sm').
Proof.
  intros w h causal D p passes st sm Hw Hh. unfold ht_refine.
  assert (S1 : exists st1 sm1, ht_sigprop w h causal D p st sm = Ret (st1, sm1)).
  { unfold ht_sigprop. destruct (p =? 0); [do 2 eexists; reflexivity|].
    assert (Row : forall (b : ref spdec) y0 hh, 0 <= y0 -> y0 + hh <= h -> (exists k, Rsp D (r_src b) k) -> exists b', sp_row w h causal D p b y0 hh = Ret b' /\ exists k, Rsp D (r_src b') k).
    { intros b y0 hh H1 H2 Hb. unfold sp_row. destruct (foldo_total (fun a : ref spdec => exists k, Rsp D (r_src a) k) (fun b n => process w h causal D p b y0 (4 * n) 4 hh) (zseq (w / 4))) with (a := b) as (b1 & -> & B1); [|exact Hb|].
      - intros a n Hn Ha. apply zseq_In in Hn. apply process_total; [lia|lia|lia|lia|exact Ha].
      - cbn [bind]. destruct (w mod 4 =? 0); [exists b1; split; [reflexivity|exact B1]|]. apply process_total; [lia|lia|lia|lia|exact B1]. }
    destruct (foldo_total (fun a : ref spdec => exists k, Rsp D (r_src a) k) (fun b n => sp_row w h causal D p b (4 * n) 4) (zseq (h / 4))) with (a := Ref st sm sp_init) as (b1 & -> & B1).
    - intros a n Hn Ha. apply zseq_In in Hn. apply Row; [lia|lia|exact Ha].
    - exists O. apply sp_init_R.
    - cbn [bind]. destruct (Row b1 (4 * (h / 4)) (h mod 4) ltac:(lia) ltac:(lia) B1) as (b2 & -> & _). do 2 eexists. reflexivity. }
  assert (S2 : forall st sm, exists st1 sm1, ht_magref w h D p st sm = Ret (st1, sm1)).
  { clear S1 st sm. intros st sm. unfold ht_magref. destruct (p =? 0); [do 2 eexists; reflexivity|].
    assert (Row : forall (b : ref mrdec) y0 hh, 0 <= y0 -> y0 + hh <= h -> (exists k, Rmr D (r_src b) k) -> exists b', mr_rows w h D p b y0 hh = Ret b' /\ exists k, Rmr D (r_src b') k).
    { intros b y0 hh H1 H2 Hb. unfold mr_rows. apply (foldo_total (fun a : ref mrdec => exists k, Rmr D (r_src a) k)); [|exact Hb]. intros a j Hj Ha. apply zseq_In in Hj. apply (foldo_total (fun a : ref mrdec => exists k, Rmr D (r_src a) k)); [|exact Ha].
      intros a' i Hi [k Hk]. apply zseq_In in Hi. assert (Hin : RefineSpec.inside w h (y0 + i) j = true) by (apply inside_iff; lia). unfold mr_at. set (y := y0 + i) in *. pose proof (proj1 (inside_iff w h _ _) Hin) as [Hy Hx]. cbv zeta. change ((y + 1) * tstr w + (j + 1)) with (adr w y j).
      rewrite ld_st_in by lia. cbn [bind]. destruct (Z.land (Z.shiftr _ 0) 1 =? 0); [eexists; split; [reflexivity|exists k; exact Hk]|]. rewrite or_state_in by exact Hin. cbn [bind r_src]. destruct (import_mr_R D _ _ Hk) as (sr & -> & Rs). cbn [bind]. rewrite ld_sm_in by exact Hin. cbn [bind]. rewrite set_sample_in by exact Hin. eexists. split; [reflexivity|]. exists (S k). exact Rs. }
    destruct (foldo_total (fun a : ref mrdec => exists k, Rmr D (r_src a) k) (fun b n => mr_rows w h D p b (4 * n) 4) (zseq (h / 4))) with (a := Ref st sm (mr_init D)) as (b1 & -> & B1).
    - intros a n Hn Ha. apply zseq_In in Hn. apply Row; [lia|lia|exact Ha].
    - exists O. apply mr_init_R.
    - cbn [bind]. destruct (Row b1 (4 * (h / 4)) (h mod 4) ltac:(lia) ltac:(lia) B1) as (b2 & -> & _). do 2 eexists. reflexivity. }
  destruct (1 <? passes); [destruct S1 as (st1 & sm1 & ->)|]; cbn [bind]; (destruct (2 <? passes); [apply S2|do 2 eexists; reflexivity]).
Qed.
Print Assumptions C79_refinement_is_safe.

(** A block of 5 by 5 samples with one significant sample in the middle, a
    causal one, and a segment whose first byte is 0xFF. *)
Definition ex_c : cleaned 10 := Cleaned (fun y x => (y =? 2) && (x =? 2)) (fun _ _ => 5) (fun _ _ => true).
Definition ex_st (i : Z) : Z := if i =? st_at 5 2 2 then 1 else 0.
Definition ex_sm (i : Z) : Z := if i =? sm_at 5 2 2 then 2 ^ 31 + 11 * 2 ^ 10 else 0.
Definition ex_D : list Z := [255; 85; 3].
Lemma ex_holds : block_holds 5 5 ex_c ex_st ex_sm /\ mag_fits 5 5 ex_c.
Proof.
  split; [split|].
  - intros y x Hy Hx. unfold ex_st. change (st_at 5 y x) with (adr 5 y x). change (st_at 5 2 2) with (adr 5 2 2). rewrite adr_eqb by lia. cbn [ex_c sig]. unfold RefineSpec.inside.
    destruct (Z.eqb_spec y 2) as [->|N]; cbn [andb]; [|rewrite andb_false_r; reflexivity]. destruct (Z.eqb_spec x 2) as [->|N]; [reflexivity|rewrite andb_false_r; reflexivity].
  - intros y x Hy Hx. unfold ex_sm. change (sm_at 5 y x) with (sadr 5 y x). change (sm_at 5 2 2) with (sadr 5 2 2). rewrite sadr_eqb by lia. reflexivity.
  - intros y x _ _ _. cbn. lia.
Qed.
Definition samples (w h : Z) (r : out ((Z -> Z) * (Z -> Z))) : out (list Z) :=
  let* (_, sm) := r in Ret (flat_map (fun y => map (fun x => sm (sm_at w y x)) (zseq w)) (zseq h)).
Example C79_case : samples 5 5 (ht_refine 5 5 true ex_D 10 3 ex_st ex_sm) =
    Ret (flat_map (fun y => map (fun x => refined 5 5 true ex_D 10 3 ex_c y x) (zseq 5)) (zseq 5)) /\
  (* newly significant, both signs, and the refined sample *)
  existsb (fun v => v =? 3 * 2 ^ 9) (flat_map (fun y => map (fun x => refined 5 5 true ex_D 10 3 ex_c y x) (zseq 5)) (zseq 5)) = true /\
  existsb (fun v => v =? 2 ^ 31 + 3 * 2 ^ 9) (flat_map (fun y => map (fun x => refined 5 5 true ex_D 10 3 ex_c y x) (zseq 5)) (zseq 5)) = true /\
  refined 5 5 true ex_D 10 3 ex_c 2 2 = 2 ^ 31 + (2 * (2 * 5 + 1) + 1) * 2 ^ 9.
Proof. repeat split; vm_compute; reflexivity. Qed.

(** Without the clean border the claim is false: a cleanup segment that marks
    a sample of the padding significant (the state of column [w] is then set)
    makes its neighbour in the block significant, though no sample of the
    block is. *)
Theorem C79_padding_refuted : exists w h causal D p (c : cleaned p) st sm st' sm' y x,
  1 <= w /\ 1 <= h /\ 1 <= p <= 29 /\ mag_fits w h c /\
  (forall y x, 0 <= y < h -> 0 <= x < w -> st (st_at w y x) = Z.b2z (sig c y x)) /\ (forall i, sm i = 0) /\ (forall y x, sig c y x = false) /\
  ht_refine w h causal D p 2 st sm = Ret (st', sm') /\ 0 <= y < h /\ 0 <= x < w /\ sm' (sm_at w y x) <> refined w h causal D p 2 c y x.
Proof.
  set (st := fun i => if i =? st_at 5 0 5 then 1 else 0). set (sm := fun _ : Z => 0).
  destruct (ht_refine 5 5 false [255] 10 2 st sm) as [[st' sm']| |] eqn:E.
  2,3: exfalso; destruct (C79_refinement_is_safe 5 5 false [255] 10 2 st sm ltac:(lia) ltac:(lia)) as (a & b & X); congruence.
  exists 5, 5, false, [255], 10, (Cleaned (fun _ _ => false) (fun _ _ => 0) (fun _ _ => false)), st, sm, st', sm', 0, 4.
  split; [lia|]. split; [lia|]. split; [lia|]. split; [intros y x _ _ X; discriminate X|]. split; [|split; [reflexivity|split; [reflexivity|split; [exact E|]]]].
  - intros y x Hy Hx. unfold st. change (st_at 5 y x) with (adr 5 y x). change (st_at 5 0 5) with (adr 5 0 5). rewrite adr_eqb by lia. replace (x =? 5) with false by lia. rewrite andb_false_r. reflexivity.
  - split; [lia|]. split; [lia|].
    assert (X : samples 5 5 (ht_refine 5 5 false [255] 10 2 st sm) = Ret (flat_map (fun y => map (fun x => sm' (sm_at 5 y x)) (zseq 5)) (zseq 5))) by (rewrite E; reflexivity).
    assert (Y : (let* l := samples 5 5 (ht_refine 5 5 false [255] 10 2 st sm) in Ret (nth 4 l 0)) = Ret (2 ^ 31 + 3 * 2 ^ 9)) by (vm_compute; reflexivity).
    rewrite X in Y. cbn [bind] in Y. assert (Z1 : sm' (sm_at 5 0 4) = 2 ^ 31 + 3 * 2 ^ 9) by (injection Y as Y; exact Y). rewrite Z1.
    vm_compute. discriminate.
Qed.
Print Assumptions C79_padding_refuted.
