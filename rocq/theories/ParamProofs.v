(** Proofs for ParamProps.v *)
From Verif Require Import Base BaseLemmas MarkerModel MarkerSpec ParamModel ParamSpec.

Lemma ret_inj {A} (a b : A) : ret a = ret b -> a = b. Proof. unfold ret. congruence. Qed.
Lemma byte_nth l i : Forall in_byte l -> 0 <= i < zlen l -> 0 <= znth 0 l i < 256.
Proof. intros F H. apply (proj1 (Forall_forall _ _) F). apply znth_In. exact H. Qed.
Lemma odd_land v : (v &b 1 =? 0) = negb (Z.odd v).
Proof. rewrite land_1. rewrite Zodd_mod. destruct (Z.eqb_spec (v mod 2) 0), (Zeq_bool (v mod 2) 1) eqn:E; try reflexivity; [apply Zeq_bool_eq in E; lia|].
  apply Zeq_bool_neq in E. pose proof (Z.mod_pos_bound v 2). lia. Qed.
Lemma hi_nibble b : 0 <= b < 256 -> (b &b 240) >>b 4 = b / 16.
Proof.
  intros H. rewrite Z.shiftr_land. change (240 >>b 4) with 15. rewrite land_15, Z.shiftr_div_pow2 by lia. change (2 ^ 4) with 16. apply Z.mod_small. lia.
Qed.
Lemma sizes_are f : forall rs (g : Z -> Z * Z), (forall r, In r rs -> f r = ret (g r)) -> prec_sizes f rs = ret (map g rs).
Proof.
  induction rs as [|r rs IH]; intros g H; [reflexivity|].
  cbn [prec_sizes]. rewrite (H r (or_introl eq_refl)). cbn [bindx ret]. rewrite (IH g) by (intros; apply H; right; assumption). reflexivity.
Qed.

Lemma block_is l : Forall in_byte l -> 5 <= zlen l -> znth 0 l 1 + znth 0 l 2 <= 8 -> codeblock_size l = ret (2 ^ (znth 0 l 1 + 2), 2 ^ (znth 0 l 2 + 2)).
Proof.
  intros B L S. unfold codeblock_size, sp. rewrite !rd_in by lia. cbn [bind].
  pose proof (byte_nth l 1 B ltac:(lia)). pose proof (byte_nth l 2 B ltac:(lia)).
  replace (8 <? znth 0 l 1) with false by lia. replace (8 <? znth 0 l 2) with false by lia. replace (8 <? znth 0 l 1 + znth 0 l 2) with false by lia.
  cbn [orb]. rewrite !Z.shiftl_1_l. reflexivity.
Qed.
Lemma precinct_is x r : coding_legal x -> 0 <= r <= levels_in x -> precinct_size (negb (given x)) (bytes x) r = ret (precinct_in x r).
Proof.
  intros (B & L & _ & G & _) R. unfold precinct_size, precinct_in, sp. destruct (given x); cbn [negb]; [|reflexivity].
  specialize (G eq_refl). replace (zlen (bytes x) <=? 5 + r) with false by lia. rewrite rd_in by lia. cbn [bind].
  rewrite land_15, hi_nibble by (apply byte_nth; [assumption|lia]). reflexivity.
Qed.
Definition style_of_coding (x : coding) : style :=
  Style (levels_in x) (block_in x) (modes_in x) (transf_in x) (map (precinct_in x) (zseq (levels_in x + 1))).
Lemma levels_pos x : coding_legal x -> 0 <= levels_in x <= 32.
Proof. intros (B & L & V & _). pose proof (byte_nth _ 0 B ltac:(lia)). unfold levels_in in *. lia. Qed.
Lemma style_follows x : coding_legal x -> follows x (style_of_coding x).
Proof.
  intros L. pose proof (levels_pos x L). repeat split; cbn [precs style_of_coding].
  - rewrite zlen_map, zseq_len; lia.
  - intros r R. rewrite (znth_map 0) by (rewrite zseq_len; lia). rewrite zseq_nth by lia. reflexivity.
Qed.
Lemma cod_set c : coding_legal (cod_says c) ->
  set_cod c = ret (Order (is_use_SOP c) (is_use_EPH c) (get_progression_order c) (get_number_of_layers c) (use_color_trafo c), style_of_coding (cod_says c)).
Proof.
  intros L. pose proof (levels_pos _ L) as V. pose proof L as (B & Ln & _ & _ & S). change (bytes (cod_says c)) with (SPcod c) in *.
  unfold set_cod, get_dwt_levels, get_Cmodes, get_transformation, get_codeblock_size, sp. rewrite !rd_in by lia. cbn [bind].
  rewrite (block_is _ B Ln S). cbn [bindx ret]. unfold levels_in in V. change (bytes (cod_says c)) with (SPcod c) in V.
  rewrite (sizes_are _ _ (precinct_in (cod_says c))); [reflexivity|].
  intros r R. apply zseq_In in R. unfold get_precinct_size, is_maximum_precincts. rewrite odd_land.
  apply (precinct_is (cod_says c) r L). unfold levels_in. change (bytes (cod_says c)) with (SPcod c). lia.
Qed.
Lemma coc_set x s d : coding_legal (coc_says x) -> levels_in (coc_says x) <= 31 -> set_coc x s d = ret (style_of_coding (coc_says x), d).
Proof.
  intros L M. pose proof (levels_pos _ L) as V. pose proof L as (B & Ln & _ & _ & S). change (bytes (coc_says x)) with (SPcoc x) in *.
  unfold levels_in in V, M. change (bytes (coc_says x)) with (SPcoc x) in V, M.
  unfold set_coc, sp. rewrite !rd_in by lia. cbn [bind].
  assert (E : znth 0 (SPcoc x) 0 &b 128 = 0).
  { assert (T : forallb (fun v => v &b 128 =? 0) (zseq 32) = true) by (vm_compute; reflexivity).
    rewrite forallb_forall in T. specialize (T (znth 0 (SPcoc x) 0)). rewrite zseq_In in T. apply Z.eqb_eq. apply T. lia. }
  rewrite E. cbn [Z.eqb]. rewrite (block_is _ B Ln S). cbn [bindx ret].
  replace (znth 0 (SPcoc x) 0 &b 31) with (znth 0 (SPcoc x) 0) by (change 31 with (2 ^ 5 - 1); rewrite land_ones_mod by lia; rewrite Z.mod_small; [reflexivity|change (2 ^ 5) with 32; lia]).
  rewrite (sizes_are _ _ (precinct_in (coc_says x))); [reflexivity|].
  intros r R. apply zseq_In in R. rewrite odd_land.
  apply (precinct_is (coc_says x) r L). unfold levels_in. change (bytes (coc_says x)) with (SPcoc x). lia.
Qed.

Lemma coc_apply c d : forall l s, (forall x, In x l -> coding_legal (coc_says x) /\ levels_in (coc_says x) <= 31) ->
  apply_coc l c s d = ret (match for_component Ccoc c l with Some x => style_of_coding (coc_says x) | None => s end, d).
Proof.
  induction l as [|x l IH]; intros s H; [reflexivity|].
  cbn [apply_coc for_component]. destruct (H x (or_introl eq_refl)) as [Lx Mx].
  assert (H' : forall y, In y l -> coding_legal (coc_says y) /\ levels_in (coc_says y) <= 31) by (intros; apply H; right; assumption).
  destruct (Ccoc x =? c).
  - rewrite (coc_set x s d Lx Mx). cbn [bindx ret]. rewrite (IH _ H'). destruct (for_component Ccoc c l); reflexivity.
  - rewrite (IH _ H'). destruct (for_component Ccoc c l); reflexivity.
Qed.
Lemma rgn_apply c : forall l s, apply_rgn l c s = match for_component Crgn c l with Some x => SPrgn x | None => s end.
Proof.
  induction l as [|x l IH]; intros s; [reflexivity|]. cbn [apply_rgn for_component]. rewrite IH.
  destruct (for_component Crgn c l); [reflexivity|]. destruct (Crgn x =? c); reflexivity.
Qed.

(** ** Quantisation *)
Definition quant_of (n : Z) (q : quantisation) : quant :=
  if style_in q =? 1 then Quant 1 [(znth 0 (steps q) 0 >>b 11) mod 256] [znth 0 (steps q) 0 &b 2047] (head q >>b 5)
  else let ks := zseq (Z.min ((3 * n + 1) mod 256) (zlen (steps q) mod 256)) in
    Quant (style_in q) (map (fun k => (znth 0 (steps q) k >>b (if style_in q =? 0 then 3 else 11)) mod 256) ks)
      (if style_in q =? 2 then map (fun k => znth 0 (steps q) k &b 2047) ks else []) (head q >>b 5).
Lemma entries_are {A} (f : Z -> out A) : forall ks (g : Z -> A), (forall k, In k ks -> f k = Ret (g k)) -> entries f ks = Ret (map g ks).
Proof.
  induction ks as [|k ks IH]; intros g H; [reflexivity|].
  cbn [entries]. rewrite (H k (or_introl eq_refl)). cbn [bind]. rewrite (IH g) by (intros; apply H; right; assumption). reflexivity.
Qed.
Lemma style_mod st : quant_style st = st mod 32.
Proof. unfold quant_style. change 31 with (2 ^ 5 - 1). apply land_ones_mod. lia. Qed.
Lemma quant_set n q : usable q -> set_quant n (head q) (steps q) = Ret (quant_of n q).
Proof.
  intros U. unfold set_quant, quant_of, style_in in *. rewrite style_mod.
  destruct (Z.eqb_spec (head q mod 32) 1) as [E|E].
  - specialize (U E). unfold get_exponents, get_mantissas. rewrite style_mod, E. cbn [Z.eqb]. rewrite rd_in by lia. cbn [bind].
    reflexivity.
  - set (k := Z.min _ _).
    assert (K : k <= zlen (steps q)) by (subst k; pose proof (zlen_nonneg (steps q)); lia).
    rewrite (entries_are _ _ (fun k => (znth 0 (steps q) k >>b (if head q mod 32 =? 0 then 3 else 11)) mod 256)).
    2:{ intros j J. apply zseq_In in J. unfold get_exponents. rewrite style_mod. destruct (head q mod 32 =? 0); [rewrite rd_in by lia; reflexivity|].
        destruct (Z.eqb_spec (head q mod 32) 1); [contradiction|]. rewrite rd_in by lia. reflexivity. }
    cbn [bind]. destruct (head q mod 32 =? 2) eqn:E2; [|reflexivity].
    rewrite (entries_are _ _ (fun k => znth 0 (steps q) k &b 2047)); [reflexivity|].
    intros j J. apply zseq_In in J. unfold get_mantissas. rewrite style_mod. destruct (Z.eqb_spec (head q mod 32) 1); [contradiction|]. rewrite rd_in by lia. reflexivity.
Qed.
Lemma qcc_apply c n : forall l q, (forall x, In x l -> usable (qcc_says x)) ->
  apply_qcc l c n q = Ret (match for_component Cqcc c l with Some x => quant_of n (qcc_says x) | None => q end).
Proof.
  induction l as [|x l IH]; intros q H; [reflexivity|].
  cbn [apply_qcc for_component]. pose proof (H x (or_introl eq_refl)) as Ux.
  assert (H' : forall y, In y l -> usable (qcc_says y)) by (intros; apply H; right; assumption).
  destruct (Cqcc x =? c).
  - change (Sqcc x) with (head (qcc_says x)). change (SPqcc x) with (steps (qcc_says x)). rewrite (quant_set n _ Ux). cbn [bind]. rewrite (IH _ H'). destruct (for_component Cqcc c l); reflexivity.
  - rewrite (IH _ H'). destruct (for_component Cqcc c l); reflexivity.
Qed.

(** ** The tile *)
Definition pick {A} (f : seg -> option A) (main tile : list seg) : list A := match all_of f tile with [] => all_of f main | l => l end.
Lemma pick_in {A} (f : seg -> option A) main tile x : In x (pick f main tile) -> In x (all_of f main ++ all_of f tile).
Proof. unfold pick. rewrite in_app_iff. destruct (all_of f tile) eqn:E; intros H; [left|right]; assumption. Qed.
Definition comp_of (main tile : list seg) (ts : style) (tq : quant) (c : Z) : component :=
  let s := match for_component Ccoc c (pick is_coc main tile) with Some x => style_of_coding (coc_says x) | None => ts end in
  Component s (match for_component Cqcc c (pick is_qcc main tile) with Some x => quant_of (levels s) (qcc_says x) | None => tq end) 0
    (match for_component Crgn c (pick is_rgn main tile) with Some x => SPrgn x | None => 0 end).
Lemma comp_is main tile ts tq c : headers_legal main tile -> init_component main tile ts tq c (fresh c) = ret (comp_of main tile ts tq c).
Proof.
  intros H. unfold init_component. fold (pick is_coc main tile). fold (pick is_qcc main tile). fold (pick is_rgn main tile).
  rewrite coc_apply by (intros x X; apply (hl_coc _ _ H); apply pick_in; exact X). cbn [bindx ret fresh fst snd].
  rewrite qcc_apply by (intros x X; apply (hl_qcc _ _ H); apply pick_in; exact X). cbn [bind]. rewrite rgn_apply. reflexivity.
Qed.
Lemma comps_are main tile ts tq : headers_legal main tile -> forall cs, components main tile ts tq cs fresh = ret (map (comp_of main tile ts tq) cs).
Proof. intros H. induction cs as [|c cs IH]; [reflexivity|]. cbn [components]. rewrite comp_is by assumption. cbn [bindx ret]. rewrite IH. reflexivity. Qed.

Definition order_of (d : cod) : order := Order (is_use_SOP d) (is_use_EPH d) (get_progression_order d) (get_number_of_layers d) (use_color_trafo d).
Lemma tile_is main tile C mc mq : headers_legal main tile -> last_of is_cod main = Some mc -> last_of is_qcd main = Some mq ->
  let d := match last_of is_cod tile with Some c => c | None => mc end in
  let ts := style_of_coding (cod_says d) in
  let tq := match last_of is_qcd tile with Some x => quant_of (levels_in (cod_says d)) (qcd_says x) | None => quant_of (levels_in (cod_says mc)) (qcd_says mq) end in
  tile_init main tile C fresh = ret (TileP (order_of d) (map (comp_of main tile ts tq) (zseq C)) (poc_for main tile)).
Proof.
  intros H Ec Eq d ts tq. unfold tile_init. rewrite Ec, Eq.
  destruct (hl_cod _ _ H) as (mc' & Ec' & Lc). rewrite Ec in Ec'. apply Some_inj in Ec'. subst mc'.
  destruct (hl_qcd _ _ H) as (mq' & Eq' & Uq). rewrite Eq in Eq'. apply Some_inj in Eq'. subst mq'.
  rewrite (cod_set mc Lc). cbn [bindx ret].
  change (Sqcd mq) with (head (qcd_says mq)). change (SPqcd mq) with (steps (qcd_says mq)). rewrite (quant_set _ _ Uq). cbn [bind].
  assert (E : (match last_of is_cod tile with Some c => set_cod c | None => ret (order_of mc, style_of_coding (cod_says mc)) end)
              = ret (order_of d, style_of_coding (cod_says d))).
  { subst d. destruct (last_of is_cod tile) as [c|] eqn:T; [|reflexivity]. apply cod_set. apply (hl_tcod _ _ H). exact T. }
  fold (order_of mc). rewrite E. cbn [bindx ret].
  assert (E2 : (match last_of is_qcd tile with
                | Some x => set_quant (levels (style_of_coding (cod_says d))) (Sqcd x) (SPqcd x)
                | None => Ret (quant_of (levels (style_of_coding (cod_says mc))) (qcd_says mq)) end) = Ret tq).
  { subst tq. destruct (last_of is_qcd tile) as [x|] eqn:T; [|reflexivity]. apply (quant_set _ (qcd_says x)). apply (hl_tqcd _ _ H). exact T. }
  rewrite E2. cbn [bind]. rewrite comps_are by assumption. cbn [bindx ret].
  unfold poc_for. destruct (last_of is_poc tile); cbn [first_of]; reflexivity.
Qed.

(** The rule and the code's choice. *)
Lemma picked {A B} (num : A -> Z) (f : seg -> option A) c main tile (all : option B) :
  settled num c (all_of f main) (all_of f tile) all ->
  for_component num c (pick f main tile) =
  match for_component num c (all_of f tile) with Some x => Some x | None => match all with Some _ => None | None => for_component num c (all_of f main) end end.
Proof.
  intros S. unfold pick, settled in *. destruct (all_of f tile) as [|x l] eqn:E.
  - cbn [for_component] in *. destruct S as [S|[S|S]]; [rewrite S; destruct all; reflexivity|contradiction|].
    rewrite (proj1 S eq_refl). reflexivity.
  - destruct (for_component num c (x :: l)) eqn:F; [reflexivity|].
    destruct S as [S|[S|S]]; [rewrite S; destruct all; reflexivity|contradiction|].
    destruct all; [reflexivity|]. destruct S as [_ S]. discriminate (S eq_refl).
Qed.
Lemma roi_picked c main tile : roi_settled main tile c ->
  (match for_component Crgn c (pick is_rgn main tile) with Some x => SPrgn x | None => 0 end) = roi_for main tile c.
Proof.
  intros S. unfold roi_settled, roi_for, pick in *. destruct (all_of is_rgn tile) as [|x l] eqn:E; [reflexivity|].
  destruct (for_component Crgn c (x :: l)) eqn:F; [reflexivity|]. destruct S as [S|[S|S]]; [rewrite S; reflexivity|contradiction|discriminate].
Qed.
Lemma for_in {A} (num : A -> Z) c : forall l x, for_component num c l = Some x -> In x l.
Proof.
  induction l as [|y l IH]; intros x H; [discriminate|]. cbn [for_component] in H.
  destruct (for_component num c l) eqn:E; [apply Some_inj in H; subst; right; apply IH; reflexivity|].
  destruct (num y =? c); [apply Some_inj in H; subst; left; reflexivity|discriminate].
Qed.

(** ** Subbands *)
Lemma shift_div v k : 0 <= k -> v >>b k = v / 2 ^ k. Proof. apply Z.shiftr_div_pow2. Qed.
Lemma subband_is s q n' r b : levels s <= 32 -> (levels s <= n' \/ style_in q = 1) -> n' <= 32 -> quant_legal q (levels s) (transf s) -> is_band r b -> 0 <= r <= levels s ->
  1 <= exponent_in q (levels s) r b + guard_in q ->
  subband_quant (Component s (quant_of n' q) 0 0) r b = Ret (exponent_in q (levels s) r b, mantissa_in q r b, exponent_in q (levels s) r b + guard_in q - 1).
Proof.
  intros N N' N2 (Hh & F & Len & T & Cp) B R G. unfold subband_quant. cbn [c_style c_quant]. unfold is_band, exponent_in, mantissa_in, guard_in, band_number, level_of in *.
  set (n := levels s) in *.
  assert (IDX : (3 * (n - (if r =? 0 then n - r else n - r + 1)) + b) mod 256 = (if r =? 0 then 0 else 3 * (r - 1) + b)).
  { destruct (Z.eqb_spec r 0); [subst; replace (n - (n - 0)) with 0 by lia; reflexivity|]. rewrite Z.mod_small by lia. lia. }
  rewrite IDX. set (k := if r =? 0 then 0 else 3 * (r - 1) + b) in *.
  assert (K : 0 <= k <= 3 * n) by (subst k; destruct (Z.eqb_spec r 0); lia).
  assert (GD : guard (quant_of n' q) = head q / 32) by (unfold quant_of; destruct (style_in q =? 1); cbn [guard]; apply shift_div; lia).
  rewrite GD.
  assert (HB : 0 <= head q / 32 <= 7) by (unfold in_byte in Hh; lia).
  unfold quant_of in *. unfold style_in in *.
  destruct (Z.eqb_spec (head q mod 32) 0) as [S0|S0].
  - (* none *)
    destruct (Z.eqb_spec (transf s) 1) as [T1|T1]; [|lia].
    rewrite S0 in *. cbn [Z.eqb] in *. cbn [exps mants qstyle].
    set (m := Z.min ((3 * n' + 1) mod 256) (zlen (steps q) mod 256)).
    assert (M : 3 * n + 1 <= m). { subst m. rewrite Z.mod_small by lia. rewrite Z.mod_small by (pose proof (zlen_nonneg (steps q)); lia). lia. }
    rewrite rd_in by (rewrite zlen_map, zseq_len; lia). cbn [bind].
    rewrite (znth_map 0) by (rewrite zseq_len; lia). rewrite zseq_nth by lia.
    pose proof (byte_nth _ k F ltac:(lia)) as Bk. rewrite shift_div by lia. change (2 ^ 3) with 8.
    rewrite Z.mod_small by lia. cbn [andb negb]. rewrite Z.mod_small by lia. reflexivity.
  - destruct (Z.eqb_spec (transf s) 1) as [T1|T1]; [lia|]. cbn [negb andb].
    assert (W : forall j, 0 <= j < zlen (steps q) -> 0 <= znth 0 (steps q) j < 65536) by (intros j J; apply (proj1 (Forall_forall _ _) F); apply znth_In; exact J).
    assert (M11 : forall v, v &b 2047 = v mod 2048) by (intros v; change 2047 with (2 ^ 11 - 1); rewrite land_ones_mod by lia; reflexivity).
    destruct (Z.eqb_spec (head q mod 32) 1) as [S1|S1].
    + cbn [exps mants qstyle Z.eqb]. rewrite !rd_in by (change (zlen [_]) with 1; lia). cbn [bind]. change (znth 0 [?a] 0) with a.
      destruct Cp as [Cp1 Cp2]. specialize (W 0 ltac:(lia)). rewrite M11. unfold znth at 1 2. cbn [nth Z.to_nat].
      rewrite shift_div by lia. change (2 ^ 11) with 2048. rewrite (Z.mod_small (znth 0 (steps q) 0 / 2048)) by lia.
      set (e := znth 0 (steps q) 0 / 2048) in *. assert (0 <= e <= 31) by (subst e; lia).
      change (1 =? 1)%positive with true. cbv iota. cbn [bind].
      destruct (Z.eqb_spec r 0).
      * subst r. replace (n - 0) with n in * by lia. rewrite (Z.mod_small (e - n + n)) by lia. replace (31 <? e - n + n) with false by lia.
        rewrite (Z.mod_small (e - n + n + head q / 32 - 1)) by lia. reflexivity.
      * rewrite (Z.mod_small (e - n + (n - r + 1))) by lia. replace (31 <? e - n + (n - r + 1)) with false by lia.
        rewrite (Z.mod_small (e - n + (n - r + 1) + head q / 32 - 1)) by lia. reflexivity.
    + assert (S2 : head q mod 32 = 2) by lia. rewrite S2 in *. change (2 =? 0) with false in *. change (2 =? 1) with false in *. change (2 =? 2) with true in *. cbv iota in *. cbn [exps mants qstyle]. change (2 =? 1) with false. cbv iota.
      set (m := Z.min ((3 * n' + 1) mod 256) (zlen (steps q) mod 256)).
      assert (M : 3 * n + 1 <= m). { subst m. rewrite Z.mod_small by lia. rewrite Z.mod_small by (pose proof (zlen_nonneg (steps q)); lia). lia. }
      rewrite !rd_in by (rewrite zlen_map, zseq_len; lia). cbn [bind].
      rewrite !(znth_map 0) by (rewrite zseq_len; lia). rewrite !zseq_nth by lia. rewrite M11.
      specialize (W k ltac:(lia)). rewrite shift_div by lia. change (2 ^ 11) with 2048.
      rewrite (Z.mod_small (znth 0 (steps q) k / 2048)) by lia. replace (31 <? znth 0 (steps q) k / 2048) with false by lia.
      rewrite (Z.mod_small (znth 0 (steps q) k / 2048 + head q / 32 - 1)) by lia. reflexivity.
Qed.
