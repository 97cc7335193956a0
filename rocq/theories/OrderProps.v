(** The order of the packets of a tile (C59) and its replay on later frames
    (C60). *)
From Verif Require Import Base BaseLemmas PrecinctModel PrecinctSpec PrecinctProofs OrderModel OrderSpec OrderProofs OrderRun.

Lemma entry_ok_fits e : entry_ok e -> entry_fits e.
Proof. intros (? & ? & ? & ? & ? & ?). unfold entry_fits. lia. Qed.

(** C59: whatever the progression order and whatever POC entries precede it,
    the decoder takes the packets of a tile in the order of the nested loops
    of B.12 over all grid positions, each at its first occurrence, followed by
    what is left in the default order. *)
Theorem C59_order : forall h layers tx ty po poc,
  legal h -> fits h -> 1 <= layers <= 65535 ->
  0 <= tx < tiles_x h -> 0 <= ty < tiles_y h ->
  n_packets h layers tx ty < 2 ^ 32 ->
  0 <= po <= 5 -> Forall entry_ok poc ->
  exists t s,
    make_tile h layers (ty * tiles_x h + tx) = ret t /\
    traverse t po poc = ret s /\
    done s = first_times (flat_map (sequence h layers tx ty) (poc ++ [everything h layers po])).
Proof.
  intros h layers tx ty po poc Hleg Hfit Hlay Htx Hty Hcnt Hpo Hpoc.
  exists (tile_of h layers tx ty).
  destruct (traverse_exact h layers tx ty Hleg Hfit Hlay Htx Hty Hcnt po poc) as (s & E & _ & D).
  - apply Forall_impl with (2 := Hpoc). apply entry_ok_fits.
  - assumption.
  - exists s. split; [apply make_tile_exact; assumption|]. split; assumption.
Qed.
Print Assumptions C59_order.

(** Each packet of the tile is taken exactly once, and nothing else is. *)
Theorem C59_exactly_once : forall h layers tx ty po poc t s,
  legal h -> fits h -> 1 <= layers <= 65535 ->
  0 <= tx < tiles_x h -> 0 <= ty < tiles_y h ->
  n_packets h layers tx ty < 2 ^ 32 ->
  0 <= po <= 5 -> Forall entry_ok poc ->
  make_tile h layers (ty * tiles_x h + tx) = ret t -> traverse t po poc = ret s ->
  NoDup (done s) /\ (forall q, In q (done s) <-> is_packet h layers tx ty q) /\
  zlen (done s) = n_packets h layers tx ty.
Proof.
  intros h layers tx ty po poc t s Hleg Hfit Hlay Htx Hty Hcnt Hpo Hpoc Ht Hs.
  rewrite make_tile_exact in Ht by assumption. apply ret_inj in Ht. subst t.
  destruct (traverse_exact h layers tx ty Hleg Hfit Hlay Htx Hty Hcnt po poc) as (s' & E & G & D);
    [apply Forall_impl with (2 := Hpoc); apply entry_ok_fits|assumption|].
  rewrite E in Hs. apply ret_inj in Hs. subst s'.
  destruct G as (_ & _ & G3 & G4).
  assert (HI : forall q, In q (done s) <-> is_packet h layers tx ty q).
  { intros q. split.
    - intros Hq. rewrite Forall_forall in G4. auto.
    - intros Hq. rewrite D. unfold first_times. apply add_new_In. right.
      rewrite flat_map_app. apply in_or_app. right. cbn [flat_map]. rewrite app_nil_r.
      assert (exists k, In k (h_comps h) /\ 0 <= pk_r q <= c_NL k /\ 0 <= pk_c q < zlen (h_comps h)
                 /\ 0 <= pk_l q < layers) as (k & Hk & Hr & Hc & Hl).
      { destruct Hq as (Hl & k & Hc & Hk & Hr & _). exists k.
        split; [exact (nth_error_In _ _ Hk)|]. split; [assumption|]. split; [|assumption].
        assert (nth_error (h_comps h) (Z.to_nat (pk_c q)) <> None) as Hn by congruence.
        apply nth_error_Some in Hn. unfold zlen. lia. }
      destruct (comp_is_legal h Hleg k Hk) as (_ & _ & HNL & _).
      apply sequence_complete; try assumption; unfold entry_fits, everything;
        cbn [e_RS e_CS e_LYE e_RE e_CE e_P]; lia. }
  split; [assumption|]. split; [assumption|].
  rewrite <- (enum_len h layers tx ty) by assumption.
  unfold zlen. f_equal. apply Nat.le_antisymm.
  - apply NoDup_incl_length; [assumption|]. intros q Hq. apply enum_complete. apply HI. assumption.
  - apply NoDup_incl_length.
    + apply enum_NoDup.
    + intros q Hq. apply HI. apply enum_sound. assumption.
Qed.
Print Assumptions C59_exactly_once.

(** C60: a later frame that replays the recorded order takes the same packets
    in the same order, for at most 256 components and 65536 precincts in each
    resolution of a tile. *)
Theorem C60_replay : forall h layers tx ty po poc t s,
  legal h -> fits h -> 1 <= layers <= 65535 ->
  0 <= tx < tiles_x h -> 0 <= ty < tiles_y h ->
  n_packets h layers tx ty < 2 ^ 32 ->
  0 <= po <= 5 -> Forall entry_ok poc ->
  make_tile h layers (ty * tiles_x h + tx) = ret t -> traverse t po poc = ret s ->
  zlen (h_comps h) <= 256 ->
  (forall c r, In c (h_comps h) -> 0 <= r <= c_NL c -> n_precincts h c tx ty r <= 65536) ->
  replay t (cached s) = ret (done s).
Proof.
  intros h layers tx ty po poc t s Hleg Hfit Hlay Htx Hty Hcnt Hpo Hpoc Ht Hs H256 H65536.
  destruct (C59_exactly_once h layers tx ty po poc t s) as (HN & HI & HL); try assumption.
  rewrite make_tile_exact in Ht by assumption. apply ret_inj in Ht. subst t.
  destruct (traverse_exact h layers tx ty Hleg Hfit Hlay Htx Hty Hcnt po poc) as (s' & E & G & D);
    [apply Forall_impl with (2 := Hpoc); apply entry_ok_fits|assumption|].
  rewrite E in Hs. apply ret_inj in Hs. subst s'.
  destruct G as (_ & G2 & _ & G4).
  assert (Ec : cached s = done s).
  { rewrite G2. clear - G4 H256 H65536. induction G4 as [|q l Hq _ IH]; [reflexivity|].
    cbn [map]. rewrite IH. f_equal. unfold crp.
    destruct Hq as (_ & k & Hc & Hk & Hr & Hp).
    assert (nth_error (h_comps h) (Z.to_nat (pk_c q)) <> None) as Hn by congruence.
    apply nth_error_Some in Hn. unfold zlen in H256.
    pose proof (H65536 k (pk_r q) (nth_error_In _ _ Hk) Hr) as H1.
    rewrite !Z.mod_small by lia. destruct q; reflexivity. }
  rewrite Ec. unfold replay.
  assert (R : forall l d, done s = d ++ l -> each l (replay_one (tile_of h layers tx ty)) d = ret (d ++ l)).
  { induction l as [|q l IH]; intros d Ed; cbn [each]; [rewrite app_nil_r; reflexivity|].
    assert (Hq : is_packet h layers tx ty q).
    { apply HI. rewrite Ed. apply in_or_app. right. left. reflexivity. }
    destruct Hq as (Hl & k & Hc & Hk & Hr & Hp).
    assert (E1 : replay_one (tile_of h layers tx ty) q d = ret (d ++ [q])).
    { unfold replay_one. rewrite (comp_at_exact h layers tx ty (pk_c q) k Hc Hk), ret_bindx.
    rewrite res_at_exact, ret_bindx by lia.
    rewrite (access_ok h layers tx ty); try assumption;
      [|exact (nth_error_In _ _ Hk)].
    rewrite ret_bindx. rewrite num_packets_exact by assumption.
    assert (zlen d < n_packets h layers tx ty).
    { rewrite <- HL, Ed. unfold zlen. rewrite app_length. cbn [length]. lia. }
    rewrite (proj2 (Z.ltb_lt _ _)) by assumption. reflexivity. }
    rewrite E1, ret_bindx.
    rewrite IH; [rewrite <- app_assoc; reflexivity|]. rewrite Ed, <- app_assoc. reflexivity. }
  apply (R (done s) []). reflexivity.
Qed.
Print Assumptions C60_replay.

(** * Cases *)

(** Two components, the second halved vertically and with fewer levels; two
    tiles; an origin off the grid. *)
Definition field : header := {|
  h_size := (21, 17); h_origin := (3, 1); h_tsize := (12, 20); h_torigin := (1, 0);
  h_comps := [ {| c_sub := (1, 1); c_NL := 2; c_pp := [(2, 1); (2, 2); (3, 3)] |};
               {| c_sub := (1, 2); c_NL := 1; c_pp := [(1, 2); (2, 2)] |} ];
  h_irreversible := false |}.
Example field_legal : legal field /\ fits field.
Proof.
  split.
  - constructor; [constructor; cbn; lia..| |cbn; lia|vm_compute; discriminate].
    repeat constructor; cbn; lia.
  - intros c r Hc Hr. cbn [field h_comps In] in Hc.
    destruct Hc as [<-|[<-|[]]]; cbn [c_NL] in Hr.
    + assert (r = 0 \/ r = 1 \/ r = 2) as [->|[->| ->]] by lia; vm_compute; split; reflexivity.
    + assert (r = 0 \/ r = 1) as [->| ->] by lia; vm_compute; split; reflexivity.
Qed.
(** Second tile, two layers: 60 packets; the first layer of the coarse levels
    in RPCL, then everything in PCRL. *)
Definition opening : entry :=
  {| e_RS := 0; e_CS := 0; e_LYE := 1; e_RE := 2; e_CE := 2; e_P := 2 |}.
Example C59_case : n_packets field 2 1 0 = 60 /\ entry_ok opening /\
  (let? t := make_tile field 2 1 in
   let? s := traverse t 3 [opening] in
   let? d := replay t (cached s) in
   ret (zlen (done s), map (fun q => (pk_l q, pk_r q, pk_c q, pk_p q)) (firstn 12 (done s)),
        forallb (fun ab => packet_eqb (fst ab) (snd ab)) (combine d (done s))))
  = ret (60, [(0, 0, 1, 0); (0, 0, 0, 0); (0, 0, 1, 1); (0, 0, 1, 2); (0, 0, 0, 1); (0, 0, 1, 3);
              (0, 0, 0, 2); (0, 0, 1, 4); (0, 0, 1, 5); (0, 1, 0, 0); (0, 1, 1, 0); (0, 1, 0, 1)], true).
Proof.
  split; [vm_compute; reflexivity|]. split; [vm_compute; intuition discriminate|].
  vm_compute. reflexivity.
Qed.

(** * Where the claims fail *)

(** A header as the standard allows it, one pixel, but with a precinct size
    that does not fit in 32 bits when projected on the reference grid. *)
Definition tiny (NL sub : Z) : header := {|
  h_size := (1, 1); h_origin := (0, 0); h_tsize := (1, 1); h_torigin := (0, 0);
  h_comps := [ {| c_sub := (sub, sub); c_NL := NL;
                  c_pp := map (fun _ => (15, 15)) (zseq (NL + 1)) |} ];
  h_irreversible := false |}.
Lemma tiny_legal NL sub : NL = 16 \/ NL = 17 -> sub = 1 \/ sub = 2 -> legal (tiny NL sub).
Proof.
  intros [->| ->] [->| ->];
    (constructor; [constructor; cbn; lia..| |cbn; lia|vm_compute; discriminate]);
    repeat constructor; cbn; lia.
Qed.
(** The position orders then divide by zero (16 levels, subsampling 2) or
    shift by 32 (17 levels), while the layer orders work. *)
Theorem C59_projection_refuted : forall po, 2 <= po <= 5 ->
  (legal (tiny 16 2) /\ n_packets (tiny 16 2) 1 0 0 = 17 /\
   (let? t := make_tile (tiny 16 2) 1 0 in traverse t po []) = UB) /\
  (legal (tiny 17 1) /\ n_packets (tiny 17 1) 1 0 0 = 18 /\
   (let? t := make_tile (tiny 17 1) 1 0 in traverse t po []) = UB) /\
  (let? t := make_tile (tiny 17 1) 1 0 in let? s := traverse t 0 [] in ret (zlen (done s))) = ret 18.
Proof.
  intros po Hpo.
  split; [split; [apply tiny_legal; auto|]|split; [split; [apply tiny_legal; auto|]|]].
  - split; [vm_compute; reflexivity|].
    assert (po = 2 \/ po = 3 \/ po = 4 \/ po = 5) as [->|[->|[->| ->]]] by lia; vm_compute; reflexivity.
  - split; [vm_compute; reflexivity|].
    assert (po = 2 \/ po = 3 \/ po = 4 \/ po = 5) as [->|[->|[->| ->]]] by lia; vm_compute; reflexivity.
  - vm_compute. reflexivity.
Qed.
Print Assumptions C59_projection_refuted.

(** A.6.6: a CEpoc of 0 stands for all components.  The code takes it as
    "none": the entry is void and the packets come in the default order. *)
Definition flat_image : header := {|
  h_size := (8, 8); h_origin := (0, 0); h_tsize := (8, 8); h_torigin := (0, 0);
  h_comps := map (fun _ => {| c_sub := (1, 1); c_NL := 1; c_pp := [(15, 15); (15, 15)] |}) (zseq 3);
  h_irreversible := false |}.
Definition all_components (ce : Z) : entry :=
  {| e_RS := 0; e_CS := 0; e_LYE := 1; e_RE := 2; e_CE := ce; e_P := 4 |}.
Theorem C59_ce_zero_refuted :
  exists h t s, legal h /\ fits h /\ entry_ok (all_components 0) /\
    make_tile h 1 0 = ret t /\ traverse t 0 [all_components 0] = ret s /\
    done s <> first_times (flat_map (sequence h 1 0 0) [all_components 256; everything h 1 0]).
Proof.
  assert (L : legal flat_image).
  { constructor; [constructor; cbn; lia..| |vm_compute; split; discriminate|vm_compute; discriminate].
    apply Forall_forall. intros c Hc. apply in_map_iff in Hc. destruct Hc as (? & <- & _).
    repeat constructor; cbn; lia. }
  assert (F : fits flat_image).
  { intros c r Hc Hr. assert (c = {| c_sub := (1, 1); c_NL := 1; c_pp := [(15, 15); (15, 15)] |}) as ->.
    { apply in_map_iff in Hc. destruct Hc as (? & <- & _). reflexivity. }
    cbn [c_NL] in Hr. assert (r = 0 \/ r = 1) as [->| ->] by lia; vm_compute; split; reflexivity. }
  assert (O : entry_ok (all_components 0)) by (vm_compute; intuition discriminate).
  destruct (C59_order flat_image 1 0 0 0 [all_components 0] L F) as (t & s & E1 & E2 & D);
    
    [lia|vm_compute; split; [discriminate|reflexivity]|vm_compute; split; [discriminate|reflexivity]
    |vm_compute; reflexivity|lia|constructor; [exact O|constructor]|].
  change (make_tile flat_image 1 0 = ret t) in E1.
  exists flat_image, t, s. split; [exact L|]. split; [exact F|]. split; [exact O|].
  split; [exact E1|]. split; [exact E2|]. rewrite D. intros C.
  apply (f_equal (fun l => map pk_c (firstn 2 l))) in C. vm_compute in C. discriminate.
Qed.
Print Assumptions C59_ce_zero_refuted.

(** With 257 components the recorded order names component 0 in place of
    component 256: the replay takes packets of the wrong component and never
    takes those of the last one. *)
Definition wide (n : Z) : header := {|
  h_size := (1, 1); h_origin := (0, 0); h_tsize := (1, 1); h_torigin := (0, 0);
  h_comps := map (fun _ => {| c_sub := (1, 1); c_NL := 0; c_pp := [(15, 15)] |}) (zseq n);
  h_irreversible := false |}.
Theorem C60_many_components_refuted :
  exists h t s d q, legal h /\ fits h /\ make_tile h 1 0 = ret t /\ traverse t 0 [] = ret s /\
    replay t (cached s) = ret d /\ is_packet h 1 0 0 q /\ In q (done s) /\ ~ In q d /\
    zlen d = zlen (done s).
Proof.
  assert (L : legal (wide 257)).
  { constructor; [constructor; cbn; lia..| |vm_compute; split; discriminate|vm_compute; discriminate].
    apply Forall_forall. intros c Hc. apply in_map_iff in Hc. destruct Hc as (? & <- & _).
    repeat constructor; cbn; lia. }
  assert (F : fits (wide 257)).
  { intros c r Hc Hr. apply in_map_iff in Hc. destruct Hc as (? & <- & _).
    cbn [c_NL] in Hr. assert (r = 0) as -> by lia. vm_compute; split; reflexivity. }
  destruct (C59_order (wide 257) 1 0 0 0 [] L F) as (t & s & E1 & E2 & D);

    [lia|vm_compute; split; [discriminate|reflexivity]|vm_compute; split; [discriminate|reflexivity]
    |vm_compute; reflexivity|lia|constructor|].
  set (q := {| pk_l := 0; pk_r := 0; pk_c := 256; pk_p := 0 |}).
  assert (Hq : is_packet (wide 257) 1 0 0 q).
  { split; [cbn; lia|]. eexists. split; [cbn; lia|]. split; [vm_compute; reflexivity|].
    split; [cbn; lia|]. vm_compute. split; [discriminate|reflexivity]. }
  destruct (C59_exactly_once (wide 257) 1 0 0 0 [] t s) as (_ & HI & _);

    [exact L|exact F|lia|vm_compute; split; [discriminate|reflexivity]|vm_compute; split; [discriminate|reflexivity]
    |vm_compute; reflexivity|lia|constructor|exact E1|exact E2|].
  assert (Ec : (let? t := make_tile (wide 257) 1 0 in let? s := traverse t 0 [] in
                let? d := replay t (cached s) in
                ret (existsb (packet_eqb q) d, zlen d =? zlen (done s))) = ret (false, true))
    by (vm_compute; reflexivity).
  change (make_tile (wide 257) 1 0 = ret t) in E1.
  rewrite E1, ret_bindx, E2, ret_bindx in Ec.
  destruct (replay t (cached s)) as [[d|]| |] eqn:Er; [|discriminate..].
  apply ret_inj, pair_inj in Ec. destruct Ec as [Ec1 Ec2]. apply Z.eqb_eq in Ec2.
  exists (wide 257), t, s, d, q. split; [exact L|]. split; [exact F|].
  split; [exact E1|]. split; [exact E2|]. split; [exact Er|]. split; [exact Hq|]. split; [apply HI; assumption|].
  split; [|assumption]. intros Hin. apply existsb_In in Hin. congruence.
Qed.
Print Assumptions C60_many_components_refuted.
