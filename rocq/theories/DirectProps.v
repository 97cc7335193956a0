(** C83: decoding straight into the caller's planes. *)
From Verif Require Import Base BaseLemmas PrecinctModel PrecinctSpec PrecinctProofs GeoModel MarkerModel ColorModel OutModel OutSpec OutProofs
  StripModel StripSpec StripProofs StripProps DirectModel DirectSpec DirectProofs.

Lemma In_range a b y : In y (range a b) -> a <= y < b.
Proof. unfold range. intros H. apply in_map_iff in H. destruct H as (i & <- & Hi). apply zseq_In in Hi. lia. Qed.

Section One.
  Variable raw : Z -> Z -> Z -> Z -> Z.
  Variable fin : Z -> Z -> Z.
  Variable mix : Z -> Z -> Z -> Z -> Z.
  Variable b : build.
  Variable prm : Z -> bool * Z.
  Variable size : Z -> Z.
  Variable descs : list desc.
  Variable s : siz.
  Variable r : Z.
  Variable tiles : Z -> tile_in.
  Variable cb_h : Z -> Z.
  Variable m0 : mem.
  Let n := Z.min (Csiz s) (zlen descs).
  Hypothesis L : image_legal s.
  Hypothesis Hr : 0 <= r <= 31.
  Hypothesis HC : Csiz s <= 16.
  Hypothesis Hx : cols_of_tiles s = 1.
  Hypothesis Hy : rows_of_tiles s = 1.
  Hypothesis Hcb : forall i, 0 <= cb_h i <= 1024.
  Hypothesis H0 : sub_y s 0 = 1.
  Hypothesis Hch : forall c c', 0 <= c < Csiz s -> 0 <= c' < Csiz s -> sub_y s c <= sub_y s c' -> (sub_y s c | sub_y s c').
  Hypothesis Hp : forall c, 0 <= c < n -> plane_ok s r c (size c) (desc_at descs c).
  Hypothesis Hfin : forall c k x, 0 <= c < n -> let d := desc_at descs c in
    finalize_sample (mkFP (downshift (prm c)) (rounding (downshift (prm c))) (d_dc d) (d_max d) (d_min d)) (raw 0 c k x) = Ret (fin c (raw 0 c k x)).
  Hypothesis Hfit : tile_fits s r (tiles 0).

  Let use (i : Z) : tile_in := as_decoded false (tiles i).
  Let V c k x := tv raw fin mix s tiles false 0 c k x.
  Let full := filled descs n (fun c => sub_y s c) (fun c => extent (lines s r c)) (fun c k x => as_stored (desc_at descs c) (V c k x)) m0.

  Lemma fits0 : forall i, 0 <= i < cols_of_tiles s * rows_of_tiles s -> tile_fits s r (as_decoded false (tiles i)).
  Proof.
    intros i Hi. replace i with 0 by nia. destruct Hfit as (A & B & C). split; [exact A|]. split; [exact B|]. intros M. apply C. cbn in M. rewrite andb_true_r in M. exact M.
  Qed.
  Lemma samp : sampling_ok s (fun i => as_decoded false (tiles i)).
  Proof. left. split; [exact H0|exact Hch]. Qed.
  Lemma one_lines c : tile_lines s r c 0 = lines s r c.
  Proof. rewrite (lines_edges s r L) by lia. rewrite (lines_ends s r L). rewrite Hy. reflexivity. Qed.
  Lemma one_columns c : tile_columns s r c 0 = columns s r c.
  Proof. rewrite (columns_edges s r L) by lia. rewrite (columns_ends s r L). rewrite Hx. reflexivity. Qed.
  Lemma th0 c : th s r 0 c = extent (lines s r c).
  Proof. unfold th. rewrite Z.div_0_l by lia. rewrite one_lines. reflexivity. Qed.
  Lemma tw0 c : tw s r 0 c = extent (columns s r c).
  Proof. unfold tw. rewrite Z.mod_0_l by lia. rewrite one_columns. reflexivity. Qed.
  Lemma ratio0 c : ratio s c = sub_y s c.
  Proof. unfold ratio. rewrite H0. apply Z.div_1_r. Qed.
  Lemma infos0 : tile_infos s r 1 tiles 0 = ret (sis s r 0).
  Proof.
    rewrite <- Hx. apply (infos_exact raw fin mix s r tiles cb_h false 0 L Hr fits0 Hcb (fun c _ => Z.divide_0_r _)). nia.
  Qed.
  Lemma info0 c : 0 <= c < Csiz s -> info (sis s r 0) c = SI (extent (columns s r c)) (extent (lines s r c)) (sub_y s c).
  Proof. intros Hc. rewrite (sis_at raw fin mix s r tiles cb_h false 0 fits0 Hcb (fun c _ => Z.divide_0_r _) 0 c Hc). rewrite th0, tw0. reflexivity. Qed.
  Lemma len0 : zlen (sis s r 0) = Csiz s.
  Proof. unfold sis. rewrite zlen_map, zseq_len; [reflexivity|]. pose proof (NC1 s L). lia. Qed.
  Lemma sizes0 c : 0 <= c < Csiz s -> 0 <= extent (columns s r c) /\ 0 <= extent (lines s r c) <= 2147483648.
  Proof.
    intros Hc. rewrite <- th0, <- tw0. apply (sizes_ok raw fin mix s r tiles cb_h false 0 L Hr fits0 Hcb (fun c _ => Z.divide_0_r _)); [nia|exact Hc].
  Qed.
  Lemma fit0 c : 0 <= c < n -> fit (desc_at descs c) (size c) /\ d_width (desc_at descs c) = extent (columns s r c) /\
    d_height (desc_at descs c) = extent (lines s r c) /\ d_yr (desc_at descs c) = sub_y s c.
  Proof.
    intros Hc. destruct (Hp c Hc). destruct (il_sub _ L c ltac:(lia)) as [_ Sy]. destruct (sizes0 c ltac:(lia)). unfold fit. repeat split; try assumption; lia.
  Qed.

  Lemma empty : full (fun _ => 0) m0.
  Proof.
    split; [|reflexivity]. intros c k x Hc Hk Hky. exfalso. destruct (il_sub _ L c ltac:(lia)) as [_ Sy]. nia.
  Qed.

  (** Rows through the callback. *)
  Lemma by_rows evs wid : (forall c, 0 <= c < n -> extent (columns s r c) <= wid c) ->
    map fst evs = range 0 (extent (lines s r 0)) -> Forall (tile_event raw fin mix s r tiles false 0 0) evs ->
    exists m, deliver size descs wid m0 evs = Ret m /\ full (fun _ => extent (lines s r 0)) m.
  Proof.
    intros Hw E F. pose proof (NC1 s L) as N1. destruct (sizes0 0 ltac:(lia)) as [_ Z0].
    destruct (deliver_exact size descs (Csiz s) wid V m0 ltac:(lia)) with (evs := evs) (a := 0) (b := extent (lines s r 0)) (m := m0) as (m & Em & Fm).
    - intros c Hc. destruct (fit0 c Hc) as (A & B & _). split; [exact A|]. rewrite B. apply Hw. exact Hc.
    - lia.
    - exact E.
    - rewrite Forall_forall in F. apply Forall_forall. intros e He. destruct (F e He) as [B1 B2]. split; [exact B1|]. fold n. intros c x Hc M G Hxx. destruct (fit0 c Hc) as (_ & A1 & A2 & A3). rewrite A1, A2, A3 in *.
      assert (He' : In (fst e) (map fst evs)) by (apply in_map; exact He). rewrite E in He'. apply In_range in He'.
      destruct (il_sub _ L c ltac:(lia)) as [_ Sy]. assert (0 <= fst e / sub_y s c) by (apply Z.div_pos; lia).
      rewrite (B2 c x ltac:(lia)); rewrite ?ratio0, ?th0, ?tw0; [rewrite Z.min_l by lia; reflexivity|nia|lia].
    - fold n. destruct empty as [A B]. split.
      + intros c k x Hc Hk Hky. cbv beta in *. exfalso. destruct (fit0 c Hc) as (_ & _ & _ & A3). destruct (il_sub _ L c ltac:(lia)) as [_ Sy]. rewrite A3 in Hky. nia.
      + reflexivity.
    - exists m. split; [exact Em|]. fold n in Fm. destruct Fm as [A B]. split.
      + intros c k x Hc Hk Hky Hxx. destruct (fit0 c Hc) as (_ & A1 & A2 & A3). apply A; try assumption; cbv beta; rewrite ?A2, ?A3; assumption.
      + intros c i Hno. apply B. intros k x Hc Hk Hky Hxx. destruct (fit0 c Hc) as (_ & A1 & A2 & A3). cbv beta in *. rewrite A2 in Hk. rewrite A3 in Hky. apply Hno; assumption.
  Qed.

  (** All rows of a plane start within the rows of the first component. *)
  Lemma all_rows c k : 0 <= c < Csiz s -> 0 <= k < extent (lines s r c) -> k * sub_y s c < extent (lines s r 0).
  Proof.
    intros Hc Hk. destruct (il_sub _ L c Hc) as [_ Sy]. pose proof (pow_r r Hr) as Pr.
    assert (E : forall t, ceil_div (ceil_div t (sub_y s c)) (2 ^ r) = ceil_div (ceil_div (ceil_div t (sub_y s 0)) (2 ^ r)) (sub_y s c)).
    { intros t. rewrite H0. rewrite !ceil_div_div by lia. f_equal. ring. }
    assert (E1 : fst (lines s r c) = ceil_div (fst (lines s r 0)) (sub_y s c)) by (cbn; apply E).
    assert (E2 : snd (lines s r c) = ceil_div (snd (lines s r 0)) (sub_y s c)) by (cbn; apply E).
    unfold extent in *. rewrite E1, E2 in Hk. clear - Hk Sy. generalize dependent (fst (lines s r 0)). generalize dependent (snd (lines s r 0)). intros p q Hk.
    unfold ceil_div in Hk. pose proof (Z.mul_div_le (- q) (sub_y s c) ltac:(lia)). pose proof (Z.mod_pos_bound (- p) (sub_y s c) ltac:(lia)). pose proof (Z.div_mod (- p) (sub_y s c) ltac:(lia)). nia.
  Qed.

  Definition holds (m : mem) : Prop :=
    (forall c u v, 0 <= c < n -> within (columns s r c) u -> within (lines s r c) v ->
       exists w, decoded raw fin mix s r tiles c u v w /\ m c (place_of s r c (desc_at descs c) u v) = Some (as_stored (desc_at descs c) w)) /\
    (forall c i, (forall u v, 0 <= c < n -> within (columns s r c) u -> within (lines s r c) v -> i <> place_of s r c (desc_at descs c) u v) -> m c i = m0 c i).
  Lemma full_holds m : full (fun _ => extent (lines s r 0)) m -> holds m.
  Proof.
    intros [A B]. split.
    - intros c u v Hc Hu Hv. exists (V c (v - fst (lines s r c)) (u - fst (columns s r c))). split.
      + exists 0, 0. rewrite one_columns, one_lines, Hx, Hy. split; [lia|]. split; [lia|]. split; [exact Hu|]. split; [exact Hv|].
        change (0 + 0 * 1) with 0. cbv zeta. unfold V, tv, as_decoded. cbn [t_mct]. rewrite andb_true_r. reflexivity.
      + unfold place_of. destruct (fit0 c Hc) as (_ & A1 & _). apply A; [exact Hc|unfold within, extent in *; lia|apply all_rows; [lia|unfold within, extent in *; lia]|rewrite A1; unfold within, extent in *; lia].
    - intros c i Hno. apply B. intros k x Hc Hk _ Hxx. destruct (fit0 c Hc) as (_ & A1 & _). rewrite A1 in Hxx.
      specialize (Hno (fst (columns s r c) + x) (fst (lines s r c) + k) Hc). unfold place_of in Hno.
      replace (fst (lines s r c) + k - fst (lines s r c)) with k in Hno by lia. replace (fst (columns s r c) + x - fst (columns s r c)) with x in Hno by lia.
      apply Hno; unfold within, extent in *; lia.
  Qed.

  Lemma tile_rows hi : 2147483648 <= hi -> exists evs, decode_line_based_stream raw fin mix s r 1 tiles cb_h false hi 0 0 = ret (sis s r 0, evs) /\
    map fst evs = range 0 (extent (lines s r 0)) /\ Forall (tile_event raw fin mix s r tiles false 0 0) evs.
  Proof.
    intros Hhi. pose proof (NC1 s L) as N1. destruct (sizes0 0 ltac:(lia)) as [_ Z0].
    destruct (tile_exact raw fin mix s r tiles cb_h false 0 hi L Hr HC fits0 Hcb samp ltac:(rewrite two32_val; lia) ltac:(lia) (fun c _ => Z.divide_0_r _) 0 ltac:(nia)) as (evs & E & A & B).
    rewrite Hx in E. exists evs. split; [exact E|]. split; [|exact B]. rewrite th0 in A. rewrite Z.min_l in A by lia. exact A.
  Qed.

  (** The tile kept between frames. *)
  Lemma kept_tile_exact : exists m, planar_tile raw fin mix b prm size descs 0 (sis s r 0) (t_mct (tiles 0)) (cb_h 0) m0 = ret m /\ holds m.
  Proof.
    pose proof (NC1 s L) as N1. unfold planar_tile. rewrite len0. destruct ((3 <=? Csiz s) && t_mct (tiles 0)) eqn:M.
    - destruct (tile_rows 4294967295 ltac:(lia)) as (evs & E & A & B). unfold decode_line_based_stream in E. rewrite infos0, ret_bindx, len0 in E.
      rewrite M in E. cbn [negb andb] in E. destruct (stream_tile raw fin mix 0 true (sis s r 0) (cb_h 0) 4294967295 0) as [[ev|]| |]; try discriminate E.
      assert (Ee : ev = evs) by (unfold ret in E; cbn in E; congruence). subst ev. cbn [bindx bind].
      destruct (by_rows evs (fun c => s_w (info (sis s r 0) c))) as (m & Em & Fm); [intros c Hc; rewrite info0 by lia; cbn [s_w]; lia|exact A|exact B|].
      rewrite Em. cbn [bind]. exists m. split; [reflexivity|]. apply full_holds. exact Fm.
    - destruct (strip_height_spec (sis s r 0) (cb_h 0) (Hcb 0)) as [Hh Hhd].
      { rewrite len0. intros c Hc. rewrite info0 by lia. cbn [s_yr]. apply (il_sub _ L c Hc). }
      destruct (sizes0 0 ltac:(lia)) as [_ Z0].
      assert (Hv : forall c k x, 0 <= c < n -> V c k x = fin c (raw 0 c k x)).
      { intros c k x Hc. unfold V, tv, as_decoded. cbn [t_mct]. rewrite andb_true_r. replace (t_mct (tiles 0) && (3 <=? Csiz s)) with false by (rewrite andb_comm; symmetry; exact M). reflexivity. }
      destruct (planar_exact raw fin b prm size descs 0 (sis s r 0) m0) with (h := strip_height (sis s r 0) (cb_h 0)) (fuel := (Z.to_nat (s_h (info (sis s r 0) 0)) + 1)%nat)
        (y0 := 0) (cur := fun _ : Z => 0) (m := m0) as (m & Em & Fm); rewrite ?len0; fold n.
      + lia.
      + intros c Hc. rewrite info0 by exact Hc. cbn [s_w s_h s_yr]. destruct (sizes0 c Hc). destruct (il_sub _ L c Hc). lia.
      + intros c Hc. rewrite info0 by lia. cbn [s_w s_h]. destruct (fit0 c Hc) as (A1 & A2 & A3 & _). split; [exact A1|]. split; [exact A2|]. split; [exact A3|]. intros k x. apply Hfin. exact Hc.
      + lia.
      + intros c Hc. apply Z.divide_trans with (max_yr (sis s r 0)); [|exact Hhd]. rewrite info0 by exact Hc. cbn [s_yr].
        destruct (max_yr_spec (sis s r 0)) as (M1 & M2 & M3). rewrite len0 in M2, M3. pose proof (M2 c Hc) as M4. rewrite info0 in M4 by exact Hc. cbn [s_yr] in M4.
        destruct M3 as [M3|(c' & Hc' & M3)]; [rewrite M3 in *; destruct (il_sub _ L c Hc); replace (sub_y s c) with 1 by lia; apply Z.divide_refl|].
        rewrite M3 in *. rewrite info0 in * by exact Hc'. cbn [s_yr] in *. apply Hch; assumption.
      + lia.
      + rewrite info0 by lia. cbn [s_h]. rewrite Nat2Z.inj_add, Z2Nat.id by lia. lia.
      + intros _. split; [intros; apply Z.divide_0_r|]. intros c Hc. rewrite len0 in Hc. destruct (il_sub _ L c Hc). unfold rho. cbn [andb]. rewrite info0 by exact Hc. cbn [s_yr s_h].
        rewrite Z.div_0_l by lia. destruct (sizes0 c Hc). lia.
      + rewrite info0 by lia. cbn [s_h]. rewrite Z.min_l by lia. split; [|reflexivity]. intros c k x Hc Hk Hky. exfalso. rewrite info0 in Hky by lia. cbn [s_yr] in Hky. destruct (il_sub _ L c ltac:(lia)) as [_ Sy]. nia.
      + exists m. split; [exact Em|]. apply full_holds. rewrite info0 in Fm by lia. cbn [s_h] in Fm. destruct Fm as [A B]. split.
        * intros c k x Hc Hk Hky Hxx. rewrite Hv by exact Hc. apply A; [rewrite len0; exact Hc|rewrite info0 by lia; exact Hk|rewrite info0 by lia; exact Hky|exact Hxx].
        * intros c i Hno. apply B. intros k x Hc Hk Hky Hxx. rewrite len0 in Hc. fold n in Hc. rewrite info0 in Hk, Hky by lia. apply (Hno k x); assumption.
  Qed.

  (** No tile kept: the rows come through the callback. *)
  Lemma fallback_exact hi maxr : r <= maxr -> 2147483648 <= hi -> exists evs,
    invoke_line_based_stream raw fin mix s r tiles cb_h false hi 0 maxr = ret (map (fun c => (out_w s r c, out_h s r c)) (zseq (Csiz s)), evs) /\
    map fst evs = range 0 (extent (lines s r 0)) /\ Forall (tile_event raw fin mix s r tiles false 0 0) evs.
  Proof.
    intros Hmax Hhi. pose proof (NC1 s L) as N1. unfold invoke_line_based_stream. replace (maxr <? r) with false by lia.
    rewrite (tiles_along_exact _ _ _ _ (il_x _ L)), (tiles_along_exact _ _ _ _ (il_y _ L)). rewrite !ret_bindx. fold (cols_of_tiles s) (rows_of_tiles s). rewrite Hx, Hy.
    change (65535 <? wrap32 (1 * 1)) with false. cbn match.
    rewrite (mapM_ok (out_size s r) (fun c => (out_w s r c, out_h s r c)) (zseq (Csiz s))) by (intros c Hc; apply out_size_exact; [assumption|assumption|apply zseq_In; assumption]).
    rewrite ret_bindx. change (1 =? 1) with true. cbn match. change (zseq 1) with [0]. cbn [foldx]. unfold one_column.
    destruct (tile_rows hi Hhi) as (evs & E & A & B).
    rewrite (geom_exact raw fin mix s r tiles cb_h false 0 L Hr fits0 Hcb (fun c _ => Z.divide_0_r _) 0 0 0) by lia. rewrite ret_bindx. rewrite E, !ret_bindx. cbn [fst snd app].
    exists evs. split; [|split; [exact A|exact B]]. apply ret_eq. f_equal.
    rewrite <- (map_id evs) at 2. apply map_ext_in. intros e He. assert (He' : In (fst e) (map fst evs)) by (apply in_map; exact He). rewrite A in He'. apply In_range in He'.
    destruct (sizes0 0 ltac:(lia)) as [_ Z0]. rewrite wrap32_small by (rewrite two32_val; lia). destruct e; reflexivity.
  Qed.

  Lemma direct_exact reuse skip hi lo maxr : r <= maxr -> (reuse = true \/ skip = false /\ lo = 0 /\ 2147483648 <= hi) ->
    exists m, invoke_line_based_direct raw fin mix b prm size descs s r tiles cb_h reuse skip hi lo maxr m0 =
      ret (map (fun c => (out_w s r c, out_h s r c)) (zseq (Csiz s)), m) /\ holds m.
  Proof.
    intros Hmax Hre. pose proof (NC1 s L) as N1. unfold invoke_line_based_direct. destruct reuse; cbn [negb].
    - replace (maxr <? r) with false by lia. rewrite (tiles_along_exact _ _ _ _ (il_x _ L)), (tiles_along_exact _ _ _ _ (il_y _ L)). rewrite !ret_bindx.
      fold (cols_of_tiles s) (rows_of_tiles s). rewrite Hx, Hy. cbn [Z.eqb Pos.eqb andb negb].
      rewrite (mapM_ok (out_size s r) (fun c => (out_w s r c, out_h s r c)) (zseq (Csiz s))) by (intros c Hc; apply out_size_exact; [assumption|assumption|apply zseq_In; assumption]).
      rewrite ret_bindx, infos0, ret_bindx. destruct kept_tile_exact as (m & E & Hm). rewrite E, ret_bindx. exists m. split; [reflexivity|exact Hm].
    - destruct Hre as [X|(-> & -> & Hhi)]; [discriminate X|]. destruct (fallback_exact hi maxr Hmax Hhi) as (evs & E & A & B). rewrite E, ret_bindx.
      rewrite (tiles_along_exact _ _ _ _ (il_x _ L)). rewrite ret_bindx. fold (cols_of_tiles s). rewrite Hx. rewrite infos0, ret_bindx. cbn [Z.eqb Pos.eqb].
      destruct (by_rows evs (fun c => s_w (info (sis s r 0) c))) as (m & Em & Fm); [intros c Hc; rewrite info0 by lia; cbn [s_w]; lia|exact A|exact B|].
      rewrite Em. cbn [bind]. exists m. split; [reflexivity|apply full_holds; exact Fm].
  Qed.
End One.

(** C83.  Whatever instructions the build uses, whether or not a tile is kept
    between frames and whether or not the tile uses the colour transform, the
    planes hold the samples of the image, each within the caller's bounds and
    narrowed, and nothing else in them has changed.  [fin] is what the row
    callback is given for a sample.  Missing: several tiles. *)
Theorem C83_planes_hold_image_partial : forall raw fin mix b (prm : Z -> bool * Z) size descs s r tiles cb_h reuse skip hi lo maxr m0,
  image_legal s -> cols_of_tiles s = 1 -> rows_of_tiles s = 1 -> Csiz s <= 16 -> 0 <= r <= 31 -> r <= maxr ->
  tile_fits s r (tiles 0) -> (forall i, 0 <= cb_h i <= 1024) -> sub_y s 0 = 1 ->
  (forall c c', 0 <= c < Csiz s -> 0 <= c' < Csiz s -> sub_y s c <= sub_y s c' -> (sub_y s c | sub_y s c')) ->
  (reuse = true \/ skip = false /\ lo = 0 /\ 2 ^ 31 <= hi) ->
  let d c := znth desc0 descs c in
  let has c := 0 <= c < Z.min (Csiz s) (zlen descs) in
  (forall c, has c -> plane_ok s r c (size c) (d c)) ->
  (forall c k x, has c -> let ds := if fst (prm c) then 0 else 13 - snd (prm c) in
     finalize_sample (mkFP ds (if ds <=? 0 then 0 else 2 ^ ds / 2) (d_dc (d c)) (d_max (d c)) (d_min (d c))) (raw 0 c k x) = Ret (fin c (raw 0 c k x))) ->
  exists sizes m, invoke_line_based_direct raw fin mix b prm size descs s r tiles cb_h reuse skip hi lo maxr m0 = ret (sizes, m) /\
    (forall c u v, has c -> within (columns s r c) u -> within (lines s r c) v ->
       exists w, decoded raw fin mix s r tiles c u v w /\ m c (place_of s r c (d c) u v) = Some (as_stored (d c) w)) /\
    (forall c i, (forall u v, has c -> within (columns s r c) u -> within (lines s r c) v -> i <> place_of s r c (d c) u v) -> m c i = m0 c i).
Proof.
  intros raw fin mix b prm size descs s r tiles cb_h reuse skip hi lo maxr m0 L Hx Hy HC Hr Hmax Hfit Hcb H0 Hch Hre d has Hp Hfin. change (2 ^ 31) with 2147483648 in Hre.
  assert (Hfin' : forall c k x, has c -> let ds := downshift (prm c) in
    finalize_sample (mkFP ds (rounding ds) (d_dc (d c)) (d_max (d c)) (d_min (d c))) (raw 0 c k x) = Ret (fin c (raw 0 c k x))).
  { intros c k x Hc. specialize (Hfin c k x Hc). cbv zeta in *. unfold rounding. fold (downshift (prm c)) in Hfin. rewrite Z.shiftl_1_l, Z.shiftr_div_pow2 by lia. exact Hfin. }
  destruct (direct_exact raw fin mix b prm size descs s r tiles cb_h m0 L Hr HC Hx Hy Hcb H0 Hch Hp Hfin' Hfit reuse skip hi lo maxr Hmax Hre) as (m & E & Hm).
  eexists _, m. split; [exact E|]. exact Hm.
Qed.
Print Assumptions C83_planes_hold_image_partial.

(** What the call leaves in the first [k] samples of plane [c]. *)
Definition plane_of (c k : Z) (x : ex (list (Z * Z) * mem)) : option (list (option Z)) :=
  match x with Ret (Some (_, m)) => Some (map (m c) (zseq k)) | _ => None end.
Definition c83_none : mem := fun _ _ => None.
Definition c83_tile (mct : bool) (n : nat) : tile_in := {| t_mct := mct; t_NL := repeat 5 n |}.

(** Two components, the second with half the rows, its plane with a gap
    between rows; values beyond both bounds, ten bits in bytes and in words. *)
Definition c83_siz : siz := Siz 0 18 3 0 0 18 3 0 0 2 [(9, 1, 1); (9, 9, 2)].
Definition c83_raw (t c k x : Z) : Z := (100 * c + 300 * k + 70 * x) mod 1400 - 700.
Definition c83_fin (c v : Z) : Z := Z.max 0 (Z.min 1023 (v + 512)).
Definition c83_descs : list desc := [Desc 18 18 3 1 512 1023 0 2 false; Desc 4 2 2 2 512 1023 0 0 true].
Example C83_case : let run b reuse := invoke_line_based_direct c83_raw c83_fin (fun _ a _ _ => a) b (fun _ => (true, 10)) (fun c => if c =? 0 then 54 else 8) c83_descs
    c83_siz 0 (fun _ => c83_tile false 2) (fun _ => 64) reuse false (2 ^ 32 - 1) 0 5 c83_none in
  image_legal c83_siz /\ cols_of_tiles c83_siz = 1 /\ rows_of_tiles c83_siz = 1 /\ tile_fits c83_siz 0 (c83_tile false 2) /\
  (forall c, 0 <= c < 2 -> plane_ok c83_siz 0 c (if c =? 0 then 54 else 8) (znth desc0 c83_descs c)) /\
  (forall c k x, 0 <= c < 2 -> let d := znth desc0 c83_descs c in
     finalize_sample (mkFP (downshift (true, 10)) (rounding (downshift (true, 10))) (d_dc d) (d_max d) (d_min d)) (c83_raw 0 c k x) = Ret (c83_fin c (c83_raw 0 c k x))) /\
  (forall b reuse, plane_of 1 8 (run b reuse) = Some [Some 0; Some 0; None; None; Some 212; Some 282; None; None] /\
     option_map (fun l => (znth None l 0, znth None l 17, znth None l 18, znth None l 53)) (plane_of 0 54 (run b reuse)) = Some (Some 0, Some 250, Some 28, Some 50)).
Proof.
  cbv zeta. split; [legal|]. split; [reflexivity|]. split; [reflexivity|]. split; [fits|]. split.
  { intros c Hc. assert (c = 0 \/ c = 1) as [->| ->] by lia; constructor; vm_compute; first [reflexivity|discriminate|split; discriminate]. }
  split.
  { intros c k x Hc. assert (R : -700 <= c83_raw 0 c k x < 700) by (unfold c83_raw; pose proof (Z.mod_pos_bound (100 * c + 300 * k + 70 * x) 1400 ltac:(lia)); lia).
    generalize dependent (c83_raw 0 c k x). intros v R. assert (E : (d_dc (znth desc0 c83_descs c), d_max (znth desc0 c83_descs c), d_min (znth desc0 c83_descs c)) = (512, 1023, 0)) by (assert (c = 0 \/ c = 1) as [->| ->] by lia; reflexivity).
    cbv zeta. injection E as -> -> ->. change (downshift (true, 10)) with 0. change (rounding 0) with 0. unfold finalize_sample, clamp, c83_fin, i32. cbn [f_ds f_rnd f_dc f_max f_min Z.ltb Z.compare bind]. change (2 ^ 31) with 2147483648.
    match goal with |- context [if ?q then Ret _ else UB] => replace q with true by lia end. cbn [bind]. f_equal.
    destruct (Z.ltb_spec 1023 (v + 512)); [change (1023 <? 0) with false; cbn match|destruct (Z.ltb_spec (v + 512) 0)]; lia. }
  intros [] []; split; vm_compute; reflexivity.
Qed.

(** Signed samples in a plane of bytes: -1 is kept as 0 in the columns the
    vector loop handles, and as 255 in those it leaves over. *)
Theorem C83_signed_refuted : let d := Desc 17 17 1 1 0 127 (-128) 0 false in
  let s := Siz 0 17 1 0 0 17 1 0 0 1 [(135, 1, 1)] in
  image_legal s /\ finalize_sample (mkFP 0 0 0 127 (-128)) (-1) = Ret (-1) /\
  forall b, b = Avx2 \/ b = Neon -> exists m,
    plane_of 0 17 (invoke_line_based_direct (fun _ _ _ _ => -1) (fun _ v => v) (fun _ a _ _ => a) b (fun _ => (true, 8)) (fun _ => 17) [d] s 0 (fun _ => c83_tile false 1) (fun _ => 64) true false (2 ^ 32 - 1) 0 5 c83_none) = Some m /\
    znth None m 0 = Some 0 /\ znth None m 16 = Some 255.
Proof.
  cbv zeta. split; [legal|]. split; [reflexivity|]. intros b [->| ->]; (eexists; split; [vm_compute; reflexivity|split; reflexivity]).
Qed.
Print Assumptions C83_signed_refuted.

(** A component of five bits with the shift of -3 that the receiver asks for
    (apps/rtp_recv/decode_helpers.cpp:485): eight columns are scaled and the
    ninth is not. *)
Theorem C83_shallow_refuted : let d := Desc 9 9 1 1 16 31 0 (-3) false in
  let s := Siz 0 9 1 0 0 9 1 0 0 1 [(4, 1, 1)] in
  image_legal s /\ exists m,
    plane_of 0 9 (invoke_line_based_direct (fun _ _ _ _ => 4) (fun _ v => v + 16) (fun _ a _ _ => a) Neon (fun _ => (true, 5)) (fun _ => 9) [d] s 0 (fun _ => c83_tile false 1) (fun _ => 64) true false (2 ^ 32 - 1) 0 5 c83_none) = Some m /\
    znth None m 7 = Some 160 /\ znth None m 8 = Some 20.
Proof. cbv zeta. split; [legal|]. eexists; split; [vm_compute; reflexivity|split; reflexivity]. Qed.
Print Assumptions C83_shallow_refuted.

(** With a tile kept between frames the row limit, and the request to leave
    out the colour transform, have no effect. *)
Theorem C83_requests_ignored_refuted :
  (let run reuse := plane_of 0 2 (invoke_line_based_direct (fun _ _ k _ => k) (fun _ v => v + 128) (fun _ a _ _ => a) Scalar (fun _ => (true, 8)) (fun _ => 2) [Desc 1 1 2 1 128 255 0 0 false]
      (Siz 0 1 2 0 0 1 2 0 0 1 [(7, 1, 1)]) 0 (fun _ => c83_tile false 1) (fun _ => 64) reuse false 1 0 5 c83_none) in
   run false = Some [Some 128; None] /\ run true = Some [Some 128; Some 129]) /\
  (let run reuse := plane_of 0 1 (invoke_line_based_direct (fun _ _ _ _ => 1) (fun _ v => v + 128) (fun _ a b c => a + b + c + 128) Scalar (fun _ => (true, 8)) (fun _ => 1) (repeat (Desc 1 1 1 1 128 255 0 0 false) 3)
      (Siz 0 1 1 0 0 1 1 0 0 3 (repeat (7, 1, 1) 3)) 0 (fun _ => c83_tile true 3) (fun _ => 64) reuse true (2 ^ 32 - 1) 0 5 c83_none) in
   run false = Some [Some 129] /\ run true = Some [Some 131]).
Proof. split; split; vm_compute; reflexivity. Qed.
Print Assumptions C83_requests_ignored_refuted.

(** A plane of one row for a component of two: with a tile kept the second row
    is written past the end, without one it is left out. *)
Theorem C83_height_ignored_refuted :
  let run reuse := invoke_line_based_direct (fun _ _ k _ => k) (fun _ v => v + 128) (fun _ a _ _ => a) Scalar (fun _ => (true, 8)) (fun _ => 1) [Desc 1 1 1 1 128 255 0 0 false]
      (Siz 0 1 2 0 0 1 2 0 0 1 [(7, 1, 1)]) 0 (fun _ => c83_tile false 1) (fun _ => 64) reuse false (2 ^ 32 - 1) 0 5 c83_none in
  plane_of 0 1 (run false) = Some [Some 128] /\ run true = UB.
Proof. split; vm_compute; reflexivity. Qed.
Print Assumptions C83_height_ignored_refuted.

(** At half resolution, an image that starts at column 1: the width the call
    itself reports is one more than the component has, and a plane made for it
    has the row read past its end. *)
Theorem C83_reported_width_refuted : let s := Siz 0 2 2 1 0 2 2 0 0 1 [(7, 1, 1)] in
  image_legal s /\ extent (columns s 1 0) = 0 /\ out_size s 1 0 = ret (1, 1) /\
  invoke_line_based_direct (fun _ _ _ _ => 0) (fun _ v => v + 128) (fun _ a _ _ => a) Scalar (fun _ => (true, 8)) (fun _ => 1) [Desc 1 1 1 1 128 255 0 0 false]
      s 1 (fun _ => c83_tile false 1) (fun _ => 64) true false (2 ^ 32 - 1) 0 5 c83_none = UB.
Proof. cbv zeta. split; [legal|]. split; [reflexivity|]. split; vm_compute; reflexivity. Qed.
Print Assumptions C83_reported_width_refuted.
