(** C71, C72: the parameters of a tile-component and the quantisation of its
    subbands are those the standard assigns. *)
From Verif Require Import Base BaseLemmas MarkerModel MarkerSpec ParamModel ParamSpec ParamProofs.

(** C71: for every pair of a main header and a first tile-part header, the
    decoder takes the headers, and every component it sets up follows the coding
    style of the segment that rules it, has the rule's ROI shift, and the tile
    has the rule's order, layers, markers, colour transformation and order
    changes.  Missing: where [settled] fails, see the refutations below. *)
Theorem C71_precedence_partial main tile C :
  headers_legal main tile -> 0 <= C ->
  exists p d, tile_init main tile C fresh = ret p /\ zlen (t_comps p) = C
  /\ order_for main tile = Some d
  /\ o_prog (t_order p) = get_progression_order d /\ o_layers (t_order p) = get_number_of_layers d /\ o_mct (t_order p) = use_color_trafo d
  /\ o_SOP (t_order p) = is_use_SOP d /\ o_EPH (t_order p) = is_use_EPH d
  /\ t_poc p = poc_for main tile
  /\ forall c, 0 <= c < C -> exists x y, nth_error (t_comps p) (Z.to_nat c) = Some x /\ coding_for main tile c = Some y
     /\ (settled Ccoc c (all_of is_coc main) (all_of is_coc tile) (last_of is_cod tile) -> follows y (c_style x))
     /\ (roi_settled main tile c -> c_roi x = roi_for main tile c).
Proof.
  intros H HC. destruct (hl_cod _ _ H) as (mc & Ec & Lc). destruct (hl_qcd _ _ H) as (mq & Eq & Uq).
  pose proof (tile_is main tile C mc mq H Ec Eq) as T. cbv zeta in T.
  set (d := match last_of is_cod tile with Some c => c | None => mc end) in *.
  set (ts := style_of_coding (cod_says d)) in *.
  set (tq := match last_of is_qcd tile with Some x => _ | None => _ end) in *.
  eexists. exists d. split; [exact T|]. cbn [t_comps t_order t_poc order_of o_prog o_layers o_mct o_SOP o_EPH].
  split; [rewrite zlen_map, zseq_len; lia|].
  split; [unfold order_for; rewrite Ec; subst d; destruct (last_of is_cod tile); reflexivity|].
  do 6 (split; [reflexivity|]).
  intros c Hc. set (x := comp_of main tile ts tq c).
  assert (Hx : nth_error (map (comp_of main tile ts tq) (zseq C)) (Z.to_nat c) = Some x).
  { apply map_nth_error. replace c with (znth 0 (zseq C) c) at 2 by (apply zseq_nth; exact Hc).
    apply nth_error_nth'. pose proof (zseq_len C HC) as L. unfold zlen in L. lia. }
  assert (Hy : exists y, coding_for main tile c = Some y).
  { unfold coding_for. rewrite Ec. destruct (for_component Ccoc c (all_of is_coc tile)), (last_of is_cod tile), (for_component Ccoc c (all_of is_coc main)); eexists; reflexivity. }
  destruct Hy as (y & Hy). exists x, y. split; [exact Hx|]. split; [exact Hy|]. split.
  - intros S. subst x. cbn [comp_of c_style]. rewrite (picked _ _ _ _ _ _ S).
    unfold coding_for in Hy. rewrite Ec in Hy.
    destruct (for_component Ccoc c (all_of is_coc tile)) as [k|] eqn:E1.
    + apply Some_inj in Hy. subst y. apply style_follows.
      apply (hl_coc _ _ H). apply in_or_app. right. apply (for_in Ccoc c). exact E1.
    + cbn [option_map first_of] in Hy. destruct (last_of is_cod tile) as [k|] eqn:E2; cbn [option_map first_of] in Hy.
      * apply Some_inj in Hy. subst y ts d. apply style_follows. apply (hl_tcod _ _ H). exact E2.
      * destruct (for_component Ccoc c (all_of is_coc main)) as [k|] eqn:E3; cbn [option_map first_of] in Hy; apply Some_inj in Hy; subst y.
        -- apply style_follows. apply (hl_coc _ _ H). apply in_or_app. left. apply (for_in Ccoc c). exact E3.
        -- subst ts d. apply style_follows. exact Lc.
  - intros S. subst x. cbn [comp_of c_roi]. apply roi_picked. exact S.
Qed.
Print Assumptions C71_precedence_partial.

(** A header with 5 levels and precincts; a main COC for component 1; a tile
    COD and a tile COC. *)
Definition main1 : list seg :=
  [SCod (Cod 0 65537 [2; 4; 4; 0; 1]); SQcd (Qcd 64 [72; 80; 80; 88; 80; 80; 88]);
   SCoc (Coc 1 1 [1; 3; 4; 0; 1; 119; 136]); SRgn (Rgn 1 0 5)].
Definition tile1 : list seg := [SCod (Cod 6 33685761 [1; 4; 3; 8; 1]); SCoc (Coc 2 0 [0; 2; 2; 0; 1]); SQcc (Qcc 2 32 [72])].
Local Ltac all_in := cbn; repeat (apply Forall_cons; [unfold in_byte, in_word in *; lia|]); apply Forall_nil.
Local Ltac le_case := apply Z.leb_le; vm_compute; reflexivity.
Local Ltac legal_case := split; [all_in|]; split; [le_case|]; split; [le_case|]; split; [intros EE; first [discriminate EE|apply Z.ltb_lt; vm_compute; reflexivity]|le_case].
Fact legal1 : headers_legal main1 tile1.
Proof.
  constructor.
  - eexists. split; [reflexivity|]. legal_case.
  - intros c E. apply Some_inj in E. subst c. legal_case.
  - intros x [<-|[<-|[]]]; (split; [legal_case|le_case]).
  - eexists. split; [reflexivity|]. intros E. discriminate E.
  - intros q E. discriminate E.
  - intros x [<-|[]] E. discriminate E.
Qed.
(** The tile COD rules component 0, and component 1 although the main header has
    a COC for it; its own COC rules component 2.  The ROI shift of component 1 is
    the main header's. *)
Example C71_case :
  headers_legal main1 tile1
  /\ (forall c, settled Ccoc c (all_of is_coc main1) (all_of is_coc tile1) (last_of is_cod tile1))
  /\ (forall c, roi_settled main1 tile1 c)
  /\ map (fun c => option_map levels_in (coding_for main1 tile1 c)) [0; 1; 2] = [Some 1; Some 1; Some 0]
  /\ exists p, tile_init main1 tile1 3 fresh = ret p
     /\ map (fun x => (levels (c_style x), block (c_style x), c_roi x)) (t_comps p) = [(1, (64, 32), 0); (1, (64, 32), 5); (0, (16, 16), 0)].
Proof.
  split; [exact legal1|]. split; [intros c; right; right; split; discriminate|]. split; [intros c; right; right; reflexivity|].
  split; [reflexivity|]. eexists. split; vm_compute; reflexivity.
Qed.

(** Not in general.  A tile COD alone does not override the main header's COC: *)
Theorem C71_tile_cod_refuted :
  exists main tile p y, headers_legal main tile /\ tile_init main tile 2 fresh = ret p /\ coding_for main tile 1 = Some y
  /\ option_map (fun x => levels (c_style x)) (nth_error (t_comps p) 1) <> Some (levels_in y).
Proof.
  exists main1, [SCod (Cod 6 33685761 [2; 4; 3; 8; 1])]. eexists. eexists. split.
  - destruct legal1 as [H1 H2 H3 H4 _ _]. constructor; [exact H1| | |exact H4| |].
    + intros c E. apply Some_inj in E. subst c. legal_case.
    + intros x [<-|[]]. apply H3. left. reflexivity.
    + intros q E. discriminate E.
    + intros x [].
  - split; [vm_compute; reflexivity|]. split; [reflexivity|]. vm_compute. discriminate.
Qed.
Print Assumptions C71_tile_cod_refuted.
(** A tile COC for another component hides the main header's COC: *)
Theorem C71_other_coc_refuted :
  exists main tile p y, headers_legal main tile /\ tile_init main tile 3 fresh = ret p /\ coding_for main tile 1 = Some y
  /\ option_map (fun x => levels (c_style x)) (nth_error (t_comps p) 1) <> Some (levels_in y).
Proof.
  exists main1, [SCoc (Coc 2 0 [0; 2; 2; 0; 1])]. eexists. eexists. split.
  - destruct legal1 as [H1 H2 H3 H4 _ _]. constructor; [exact H1| | |exact H4| |].
    + intros c E. discriminate E.
    + intros x [<-|[<-|[]]]; apply H3; [left|right; left]; reflexivity.
    + intros q E. discriminate E.
    + intros x [].
  - split; [vm_compute; reflexivity|]. split; [reflexivity|]. vm_compute. discriminate.
Qed.
Print Assumptions C71_other_coc_refuted.
(** A tile RGN for another component hides the main header's RGN: *)
Theorem C71_other_rgn_refuted :
  exists main tile p, headers_legal main tile /\ tile_init main tile 3 fresh = ret p
  /\ option_map c_roi (nth_error (t_comps p) 1) <> Some (roi_for main tile 1).
Proof.
  exists main1, [SRgn (Rgn 2 0 7)]. eexists. split.
  - destruct legal1 as [H1 H2 H3 H4 _ _]. constructor; [exact H1| | |exact H4| |].
    + intros c E. discriminate E.
    + intros x [<-|[]]; apply H3; left; reflexivity.
    + intros q E. discriminate E.
    + intros x [].
  - split; [vm_compute; reflexivity|]. vm_compute. discriminate.
Qed.
Print Assumptions C71_other_rgn_refuted.
(** 32 levels, which a COD may ask for, are none in a COC: *)
Theorem C71_levels_refuted :
  exists x s, coding_legal (coc_says x) /\ levels_in (coc_says x) = 32
  /\ (exists d o, coding_legal (cod_says d) /\ SPcod d = SPcoc x /\ exists s', set_cod d = ret (o, s') /\ levels s' = 32)
  /\ (forall s0, set_coc x s0 0 = ret (s, 0)) /\ levels s = 0.
Proof.
  exists (Coc 1 0 [32; 4; 4; 0; 1]). eexists. split; [legal_case|]. split; [reflexivity|]. split.
  - exists (Cod 0 65536 [32; 4; 4; 0; 1]). eexists. split; [legal_case|]. split; [reflexivity|]. eexists. split; [vm_compute; reflexivity|reflexivity].
  - split; [intros; vm_compute; reflexivity|reflexivity].
Qed.
Print Assumptions C71_levels_refuted.
(** A COC of fewer than five bytes is read beyond its end. *)
Theorem C71_short_coc_refuted :
  exists main tile, (exists c, last_of is_cod main = Some c /\ coding_legal (cod_says c)) /\ parse_coc 5 [1; 0; 2] 3 = ret (Coc 1 0 [2])
  /\ In (SCoc (Coc 1 0 [2])) main /\ tile_init main tile 3 fresh = UB.
Proof.
  exists [SCod (Cod 0 65537 [2; 4; 4; 0; 1]); SQcd (Qcd 64 [72; 80; 80; 88; 80; 80; 88]); SCoc (Coc 1 0 [2])], [].
  split; [eexists; split; [reflexivity|legal_case]|]. split; [vm_compute; reflexivity|]. split; [cbn; tauto|vm_compute; reflexivity].
Qed.
Print Assumptions C71_short_coc_refuted.

(** C72: every subband of every component gets the exponent, mantissa and
    number of bit-planes that the standard derives from the quantisation segment
    that rules the component, and nothing beyond the values read from it is
    touched. *)
Theorem C72_subbands_partial main tile C :
  headers_legal main tile -> 0 <= C ->
  exists p, tile_init main tile C fresh = ret p
  /\ forall c, 0 <= c < C -> exists x q, nth_error (t_comps p) (Z.to_nat c) = Some x /\ quantisation_for main tile c = Some q
     /\ let n := levels (c_style x) in
        (settled Cqcc c (all_of is_qcc main) (all_of is_qcc tile) (last_of is_qcd tile) ->
         levels_kept main tile c n -> quant_legal q n (transf (c_style x)) ->
         forall r b, 0 <= r <= n -> is_band r b -> 1 <= exponent_in q n r b + guard_in q ->
           subband_quant x r b = Ret (exponent_in q n r b, mantissa_in q r b, exponent_in q n r b + guard_in q - 1)).
Proof.
  intros H HC. destruct (hl_cod _ _ H) as (mc & Ec & Lc). destruct (hl_qcd _ _ H) as (mq & Eq & Uq).
  pose proof (tile_is main tile C mc mq H Ec Eq) as T. cbv zeta in T.
  set (d := match last_of is_cod tile with Some c => c | None => mc end) in *.
  set (ts := style_of_coding (cod_says d)) in *.
  set (tq := match last_of is_qcd tile with Some x => _ | None => _ end) in *.
  assert (Ld : coding_legal (cod_says d)). { subst d. destruct (last_of is_cod tile) as [k|] eqn:E; [apply (hl_tcod _ _ H); exact E|exact Lc]. }
  eexists. split; [exact T|]. cbn [t_comps]. intros c Hc. set (x := comp_of main tile ts tq c).
  assert (Hx : nth_error (map (comp_of main tile ts tq) (zseq C)) (Z.to_nat c) = Some x).
  { apply map_nth_error. replace c with (znth 0 (zseq C) c) at 2 by (apply zseq_nth; exact Hc).
    apply nth_error_nth'. pose proof (zseq_len C HC) as L. unfold zlen in L. lia. }
  assert (Hq : exists q, quantisation_for main tile c = Some q).
  { unfold quantisation_for. rewrite Eq. destruct (for_component Cqcc c (all_of is_qcc tile)), (last_of is_qcd tile), (for_component Cqcc c (all_of is_qcc main)); eexists; reflexivity. }
  destruct Hq as (q & Hq). exists x, q. split; [exact Hx|]. split; [exact Hq|]. cbv zeta. intros S K L r b R B G.
  assert (N : 0 <= levels (c_style x) <= 32).
  { subst x. cbn [comp_of c_style]. destruct (for_component Ccoc c (pick is_coc main tile)) as [k|] eqn:E; [|apply levels_pos; exact Ld].
    apply levels_pos. apply (hl_coc _ _ H). apply pick_in. apply (for_in Ccoc c). exact E. }
  assert (Q : exists n', levels (c_style x) <= n' <= 32 /\ c_quant x = quant_of n' q).
  { subst x. cbn [comp_of c_quant c_style] in *. set (s := match for_component Ccoc c _ with Some x => _ | None => _ end) in *.
    rewrite (picked _ _ _ _ _ _ S). unfold quantisation_for in Hq. unfold levels_kept in K. rewrite Eq in Hq.
    destruct (for_component Cqcc c (all_of is_qcc tile)) as [k|] eqn:E1.
    - cbn [option_map first_of] in Hq. apply Some_inj in Hq. subst q. exists (levels s). split; [lia|reflexivity].
    - cbn [option_map first_of] in Hq, K. destruct (last_of is_qcd tile) as [k|] eqn:E2.
      + cbn [option_map first_of] in Hq. apply Some_inj in Hq. subst q tq.
        exists (levels_in (cod_says d)). split; [|reflexivity]. split; [|apply levels_pos; exact Ld].
        apply K. unfold order_for. rewrite Ec. subst d. destruct (last_of is_cod tile); reflexivity.
      + cbn [option_map first_of] in Hq.
        destruct (for_component Cqcc c (all_of is_qcc main)) as [k|] eqn:E3; cbn [option_map first_of] in Hq; apply Some_inj in Hq; subst q.
        * exists (levels s). split; [lia|reflexivity].
        * subst tq. exists (levels_in (cod_says mc)). split; [|reflexivity]. split; [|apply levels_pos; exact Lc]. apply K. exact Ec. }
  destruct Q as (n' & N' & Q).
  replace (subband_quant x r b) with (subband_quant (Component (c_style x) (quant_of n' q) 0 0) r b) by (unfold subband_quant; cbn [c_style c_quant]; rewrite Q; reflexivity).
  apply subband_is; try assumption; lia.
Qed.
Print Assumptions C72_subbands_partial.

(** Irreversible, two levels, a QCC with a mantissa for every subband in
    component 1, derived steps for the others. *)
Definition main2 : list seg :=
  [SCod (Cod 0 65537 [2; 4; 4; 0; 0]); SQcd (Qcd 33 [26624 + 17]); SQcc (Qcc 1 66 [20480; 22529; 22530; 24579; 26628; 26629; 28678])].
Example C72_case :
  headers_legal main2 [] /\ (forall c, settled Cqcc c (all_of is_qcc main2) (@nil qcc) (last_of is_qcd [])) /\ levels_kept main2 [] 0 2 /\ levels_kept main2 [] 1 2
  /\ exists q0 q1, quantisation_for main2 [] 0 = Some q0 /\ quantisation_for main2 [] 1 = Some q1 /\ quant_legal q0 2 0 /\ quant_legal q1 2 0
  /\ exists x0 x1 p, tile_init main2 [] 2 fresh = ret p /\ t_comps p = [x0; x1]
  /\ map (fun '(r, b) => subband_quant x0 r b) [(0, 0); (1, 1); (2, 3)] = [Ret (13, 17, 13); Ret (13, 17, 13); Ret (12, 17, 12)]
  /\ map (fun '(r, b) => subband_quant x1 r b) [(0, 0); (1, 1); (2, 3)] = [Ret (10, 0, 11); Ret (11, 1, 12); Ret (14, 6, 15)].
Proof.
  split.
  { constructor.
    - eexists. split; [reflexivity|legal_case].
    - intros c E. discriminate E.
    - intros x [].
    - eexists. split; [reflexivity|]. intros E. le_case.
    - intros q E. discriminate E.
    - intros x [<-|[]] E. discriminate E. }
  split; [intros c; right; right; split; reflexivity|].
  split; [intros d E; apply Some_inj in E; subst d; cbn; lia|]. split; [exact I|].
  eexists. eexists. split; [reflexivity|]. split; [reflexivity|].
  split. { split; [cbn; unfold in_byte; lia|]. split; [all_in|]. split; [le_case|]. split; [left; reflexivity|]. split; le_case. }
  split. { split; [cbn; unfold in_byte; lia|]. split; [all_in|]. split; [le_case|]. split; [right; reflexivity|]. le_case. }
  eexists. eexists. eexists. split; [vm_compute; reflexivity|]. split; [reflexivity|]. split; vm_compute; reflexivity.
Qed.

Definition plain_header (levels t : Z) (q : qcd) : list seg := [SCod (Cod 0 65537 [levels; 4; 4; 0; t]); SQcd q].
Lemma plain_legal n t q : 0 <= n <= 32 -> in_byte t -> usable (qcd_says q) -> headers_legal (plain_header n t q) [].
Proof.
  intros N T U. constructor.
  - eexists. split; [reflexivity|]. split; [all_in|]. split; [le_case|]. split; [unfold levels_in; change (znth 0 (bytes _) 0) with n; lia|]. split; [intros EE; discriminate EE|le_case].
  - intros c E. discriminate E.
  - intros x [].
  - eexists. split; [reflexivity|exact U].
  - intros x E. discriminate E.
  - intros x [].
Qed.
(** A QCD with too few values is read beyond its end. *)
Theorem C72_short_qcd_refuted :
  exists main p x, headers_legal main [] /\ tile_init main [] 1 fresh = ret p /\ t_comps p = [x] /\ levels (c_style x) = 2 /\ subband_quant x 2 1 = UB.
Proof.
  exists (plain_header 2 1 (Qcd 64 [72; 80; 80; 88])). eexists. eexists.
  split; [apply plain_legal; [lia|unfold in_byte; lia|intros E; discriminate E]|].
  split; [vm_compute; reflexivity|]. split; [reflexivity|]. split; reflexivity.
Qed.
Print Assumptions C72_short_qcd_refuted.
(** A QCD with values enough, but a tile COD with more levels than the main
    header's COD: the values for them have been dropped. *)
Theorem C72_more_levels_refuted :
  exists main tile p x q, headers_legal main tile /\ tile_init main tile 1 fresh = ret p /\ t_comps p = [x]
  /\ quantisation_for main tile 0 = Some q /\ quant_legal q (levels (c_style x)) (transf (c_style x)) /\ levels (c_style x) = 2 /\ subband_quant x 2 1 = UB.
Proof.
  exists (plain_header 1 1 (Qcd 64 [72; 80; 80; 88; 80; 80; 88])), [SCod (Cod 0 65537 [2; 4; 4; 0; 1])]. eexists. eexists. eexists. split.
  - destruct (plain_legal 1 1 (Qcd 64 [72; 80; 80; 88; 80; 80; 88])) as [H1 H2 H3 H4 H5 H6]; [lia|unfold in_byte; lia|intros E; discriminate E|].
    constructor; try assumption. intros c E. apply Some_inj in E. subst c. legal_case.
  - split; [vm_compute; reflexivity|]. split; [reflexivity|]. split; [reflexivity|]. split.
    { split; [cbn; unfold in_byte; lia|]. split; [all_in|]. split; [le_case|]. split; [reflexivity|]. le_case. }
    split; reflexivity.
Qed.
Print Assumptions C72_more_levels_refuted.
(** Derived steps with the reversible transformation, and no steps with the
    irreversible one, are read beyond their end. *)
Theorem C72_mismatch_refuted :
  exists p x p' x', tile_init (plain_header 1 1 (Qcd 33 [26624])) [] 1 fresh = ret p /\ t_comps p = [x] /\ subband_quant x 1 1 = UB
  /\ tile_init (plain_header 1 0 (Qcd 64 [72; 80; 80; 88])) [] 1 fresh = ret p' /\ t_comps p' = [x'] /\ subband_quant x' 0 0 = UB.
Proof.
  do 4 eexists. split; [vm_compute; reflexivity|]. split; [reflexivity|]. split; [reflexivity|].
  split; [vm_compute; reflexivity|]. split; [reflexivity|reflexivity].
Qed.
Print Assumptions C72_mismatch_refuted.
(** A derived exponent below 0 becomes a shift by more than 31. *)
Theorem C72_negative_refuted :
  exists p x, headers_legal (plain_header 5 0 (Qcd 33 [2048])) [] /\ tile_init (plain_header 5 0 (Qcd 33 [2048])) [] 1 fresh = ret p /\ t_comps p = [x]
  /\ exponent_in (Quantisation 33 [2048]) 5 5 1 < 0 /\ subband_quant x 5 1 = UB.
Proof.
  do 2 eexists. split; [apply plain_legal; [lia|unfold in_byte; lia|intros E; le_case]|].
  split; [vm_compute; reflexivity|]. split; [reflexivity|]. split; [reflexivity|]. reflexivity.
Qed.
Print Assumptions C72_negative_refuted.
(** Without guard bits, an exponent of 0 gives 255 bit-planes instead of none. *)
Theorem C72_no_planes_refuted :
  exists p x, headers_legal (plain_header 0 1 (Qcd 0 [0])) [] /\ tile_init (plain_header 0 1 (Qcd 0 [0])) [] 1 fresh = ret p /\ t_comps p = [x]
  /\ quant_legal (Quantisation 0 [0]) 0 1 /\ subband_quant x 0 0 = Ret (0, 0, 255).
Proof.
  do 2 eexists. split; [apply plain_legal; [lia|unfold in_byte; lia|intros E; discriminate E]|].
  split; [vm_compute; reflexivity|]. split; [reflexivity|].
  split. { split; [cbn; unfold in_byte; lia|]. split; [all_in|]. split; [le_case|]. split; [reflexivity|]. le_case. }
  reflexivity.
Qed.
Print Assumptions C72_no_planes_refuted.
