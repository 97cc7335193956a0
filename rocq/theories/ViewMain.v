From Coq Require Import Sorted.
From Verif Require Import Base BaseLemmas PrecinctModel PrecinctSpec PrecinctProofs
  ViewModel ViewSpec ViewProofs.

Lemma in_concat_map {A B} (f : A -> list B) l k :
  In k (concat (map f l)) <-> exists a, In a l /\ In k (f a).
Proof. rewrite <- flat_map_concat_map. apply in_flat_map. Qed.

Lemma range_In lo hi i : In i (range lo hi) <-> lo <= i < hi.
Proof.
  unfold range. rewrite in_map_iff. split.
  - intros (j & <- & Hj). apply zseq_In in Hj. lia.
  - intros H. exists (i - lo). split; [lia|]. apply zseq_In. lia.
Qed.

(** * Exact arithmetic of the window resolution *)

Definition plo (irr : bool) (k A pp p0 : Z) : Z :=
  Z.max 0 (sub_sat (A / 2 ^ k) (margin irr k) / 2 ^ pp - p0 / 2 ^ pp).
Definition phi (irr : bool) (k B pp p0 n : Z) : Z :=
  Z.min n (ceil_div (ceil_div B (2 ^ k) + margin irr k) (2 ^ pp) - p0 / 2 ^ pp).

Lemma margin_bound irr k : 0 <= margin irr k <= 8.
Proof. unfold margin. destruct (k =? 0), irr; lia. Qed.

Lemma precinct_range_exact irr N r A B pp p0 n :
  0 <= N - r <= 31 -> 0 <= pp <= 15 -> 0 <= A -> 0 <= B <= 2 ^ 31 ->
  precinct_range irr N r A B pp p0 n =
  ret (plo irr (N - r) A pp p0, phi irr (N - r) B pp p0 n).
Proof.
  intros Hk Hp HA HB. unfold precinct_range.
  pose proof (pow2_bounds _ Hk) as Hk2. pose proof (pow2_15 _ Hp) as Hp2.
  change (2 ^ 31) with 2147483648 in *.
  rewrite shl1_exact by lia. rewrite ret_bindx.
  rewrite udiv_exact by lia. rewrite ret_bindx.
  rewrite cdiv_exact by (rewrite ?two32_val; lia). rewrite ret_bindx.
  cbv zeta. rewrite shl1_exact by lia. rewrite ret_bindx.
  rewrite !udiv_exact by lia. rewrite !ret_bindx.
  pose proof (margin_bound irr (N - r)).
  pose proof (ceil_nonneg B (2 ^ (N - r)) ltac:(lia) ltac:(lia)).
  pose proof (ceil_le_self B (2 ^ (N - r)) ltac:(lia) ltac:(lia)).
  rewrite wrap32_small by (rewrite two32_val; lia).
  rewrite cdiv_exact by (rewrite ?two32_val; lia). rewrite ret_bindx. reflexivity.
Qed.

Section Resolve.
  Variable h : header.
  Hypothesis Hleg : legal h.
  Hypothesis Hcnt : countable h.
  Let x := index_of_header h.
  Let irr := h_irreversible h.

  Definition xlo c tx r A := plo (h_irreversible h) (c_NL c - r) A (ppx c r) (fst (x_span h c tx r)).
  Definition xhi c tx r B := phi (h_irreversible h) (c_NL c - r) B (ppx c r) (fst (x_span h c tx r))
                             (cells (x_span h c tx r) (ppx c r)).
  Definition ylo c ty r A := plo (h_irreversible h) (c_NL c - r) A (ppy c r) (fst (y_span h c ty r)).
  Definition yhi c ty r B := phi (h_irreversible h) (c_NL c - r) B (ppy c r) (fst (y_span h c ty r))
                             (cells (y_span h c ty r) (ppy c r)).

  Definition res_keys c tx ty i ax ay bx by_ r : list key :=
    concat (map (fun py => map (fun px => at_cell h c tx ty i r px py)
                             (range (xlo c tx r ax) (xhi c tx r bx)))
              (range (ylo c ty r ay) (yhi c ty r by_))).

  Definition comp_keys tx ty d ax ay bx by_ i : list key :=
    match nth_error (h_comps h) (Z.to_nat i) with
    | None => []
    | Some c =>
        let tax := ceil_div ax (fst (c_sub c)) in
        let tay := ceil_div ay (snd (c_sub c)) in
        let tbx := ceil_div bx (fst (c_sub c)) in
        let tby := ceil_div by_ (snd (c_sub c)) in
        if (tbx <=? tax) || (tby <=? tay) then []
        else concat (map (res_keys c tx ty i tax tay tbx tby) (zseq (top_res c d + 1)))
    end.

  Definition x_tile tx := tile_span (fst (h_size h)) (fst (h_origin h)) (fst (h_tsize h)) (fst (h_torigin h)) tx.
  Definition y_tile ty := tile_span (snd (h_size h)) (snd (h_origin h)) (snd (h_tsize h)) (snd (h_torigin h)) ty.

  Definition tile_keys cs d Ax Ay Bx By ty tx : list key :=
    let ax := Z.max Ax (fst (x_tile tx)) in
    let ay := Z.max Ay (fst (y_tile ty)) in
    let bx := Z.min Bx (snd (x_tile tx)) in
    let by_ := Z.min By (snd (y_tile ty)) in
    if (bx <=? ax) || (by_ <=? ay) then []
    else concat (map (comp_keys tx ty d ax ay bx by_) cs).

  Definition all_keys cs d Ax Ay Bx By c0 c1 r0 r1 : list key :=
    concat (map (fun ty => concat (map (tile_keys cs d Ax Ay Bx By ty) (range c0 c1)))
              (range r0 r1)).

  Lemma n_precincts_small c tx ty r : In c (h_comps h) ->
    0 <= tx < tiles_x h -> 0 <= ty < tiles_y h -> 0 <= r <= c_NL c ->
    0 <= n_precincts h c tx ty r < two32.
  Proof.
    intros Hin Htx Hty Hr. pose proof (comp_is_legal h Hleg c Hin) as Hcl.
    pose proof (Hcnt tx ty c Htx Hty Hin) as Hfit.
    fold (offset h c tx ty (c_NL c + 1)) in Hfit. change (2 ^ 32) with two32 in Hfit.
    pose proof (offset_mono h c tx ty (r + 1) (c_NL c + 1) Hcl ltac:(lia) ltac:(lia)) as Hm.
    rewrite offset_succ in Hm by lia.
    pose proof (offset_mono h c tx ty 0 r Hcl ltac:(lia) ltac:(lia)) as Hm0.
    change (offset h c tx ty 0) with 0 in Hm0.
    pose proof (n_precincts_nonneg h c tx ty r Hcl Hr). lia.
  Qed.

  Lemma keys_of_resolution_exact c tx ty i ax ay bx by_ r :
    In c (h_comps h) -> 0 <= tx < tiles_x h -> 0 <= ty < tiles_y h -> 0 <= r <= c_NL c ->
    0 <= ax -> 0 <= ay -> 0 <= bx <= 2 ^ 31 -> 0 <= by_ <= 2 ^ 31 ->
    keys_of_resolution x (ty * tiles_x h + tx) i (tc_of h tx ty c) ax ay bx by_ r =
    ret (res_keys c tx ty i ax ay bx by_ r).
  Proof.
    intros Hin Htx Hty Hr Hax Hay Hbx Hby.
    pose proof (comp_is_legal h Hleg c Hin) as Hcl.
    assert (HN : 0 <= c_NL c <= 31) by apply Hcl.
    destruct (nth_pp c r Hcl Hr) as (_ & Hpx & Hpy).
    unfold keys_of_resolution. change (hdr x) with h. cbv zeta.
    rewrite row_exact by lia. rewrite ret_bindx.
    cbn [row_of npw nph log2PPx log2PPy respos0_x respos0_y NL tc_of].
    rewrite precinct_range_exact by lia. rewrite ret_bindx.
    rewrite precinct_range_exact by lia. rewrite ret_bindx.
    f_equal. rewrite flat_map_concat_map. unfold res_keys.
    f_equal. apply map_ext_in. intros py Hy. apply map_ext_in. intros px Hx.
    unfold at_cell. f_equal.
    apply range_In in Hx, Hy.
    pose proof (n_precincts_small c tx ty r Hin Htx Hty Hr) as Hn.
    unfold n_precincts in Hn.
    set (W := cells (x_span h c tx r) (ppx c r)) in *.
    set (H := cells (y_span h c ty r) (ppy c r)) in *.
    assert (0 <= px < W) by (unfold xlo, xhi, plo, phi in Hx; fold W in Hx; lia).
    assert (0 <= py < H) by (unfold ylo, yhi, plo, phi in Hy; fold H in Hy; lia).
    apply wrap32_small. nia.
  Qed.

  Lemma keys_of_component_exact tx ty d ax ay bx by_ i :
    0 <= i -> 0 <= d -> 0 <= tx < tiles_x h -> 0 <= ty < tiles_y h ->
    0 <= ax <= 2 ^ 31 -> 0 <= ay <= 2 ^ 31 -> 0 <= bx <= 2 ^ 31 -> 0 <= by_ <= 2 ^ 31 ->
    keys_of_component x d (ty * tiles_x h + tx) ax ay bx by_ i =
    ret (comp_keys tx ty d ax ay bx by_ i).
  Proof.
    intros Hi Hd Htx Hty Hax Hay Hbx Hby.
    unfold keys_of_component, comp_keys, num_components, subsampling, num_components.
    change (hdr x) with h.
    destruct (nth_error (h_comps h) (Z.to_nat i)) as [c|] eqn:Ec.
    2: { apply nth_error_None in Ec.
         rewrite (proj2 (Z.leb_le (zlen (h_comps h)) i)) by (unfold zlen; lia). reflexivity. }
    destruct (comp_index h _ _ Ec) as [Hin Hlt].
    rewrite (proj2 (Z.leb_gt (zlen (h_comps h)) i)) by lia.
    rewrite ret_bindx.
    pose proof (comp_is_legal h Hleg c Hin) as Hcl.
    assert (HN : 0 <= c_NL c <= 31) by apply Hcl.
    assert (Hsx : 1 <= fst (c_sub c) <= 255) by apply Hcl.
    assert (Hsy : 1 <= snd (c_sub c) <= 255) by apply Hcl.
    destruct (c_sub c) as [subx suby]. cbn [fst snd] in *.
    change (2 ^ 31) with 2147483648 in *.
    rewrite !cdiv_exact by (rewrite ?two32_val; lia). rewrite !ret_bindx.
    cbv zeta.
    destruct ((ceil_div bx subx <=? ceil_div ax subx) || (ceil_div by_ suby <=? ceil_div ay suby));
      [reflexivity|].
    unfold x; rewrite (tile_component_exact h Hleg tx ty i c) by assumption. rewrite ret_bindx.
    cbn [NL tc_of].
    replace (if c_NL c <=? d then 0 else c_NL c - d) with (top_res c d)
      by (unfold top_res; destruct (Z.leb_spec (c_NL c) d); lia).
    rewrite (mapM_ok _ (res_keys c tx ty i (ceil_div ax subx) (ceil_div ay suby)
                          (ceil_div bx subx) (ceil_div by_ suby))).
    { rewrite ret_bindx. reflexivity. }
    intros r Hr. apply zseq_In in Hr. unfold top_res in Hr.
    pose proof (ceil_nonneg ax subx). pose proof (ceil_nonneg ay suby).
    pose proof (ceil_nonneg bx subx). pose proof (ceil_nonneg by_ suby).
    pose proof (ceil_le_self bx subx). pose proof (ceil_le_self by_ suby).
    apply keys_of_resolution_exact; try assumption; change (2 ^ 31) with 2147483648; lia.
  Qed.

  Lemma keys_of_tile_exact cs d Ax Ay Bx By ty tx :
    Forall (fun c => 0 <= c) cs -> 0 <= d ->
    0 <= tx < tiles_x h -> 0 <= ty < tiles_y h ->
    0 <= Ax <= fst (h_size h) -> 0 <= Ay <= snd (h_size h) ->
    0 <= Bx <= fst (h_size h) -> 0 <= By <= snd (h_size h) ->
    keys_of_tile x cs d Ax Ay Bx By ty tx = ret (tile_keys cs d Ax Ay Bx By ty tx).
  Proof.
    intros Hcs Hd Htx Hty HAx HAy HBx HBy.
    unfold keys_of_tile. change (hdr x) with h. change (num_tiles_x x) with (tiles_x h).
    cbv zeta.
    rewrite (tile_lo_exact _ _ _ _ tx (lg_x h Hleg) Htx).
    rewrite (tile_lo_exact _ _ _ _ ty (lg_y h Hleg) Hty).
    rewrite (tile_hi_exact _ _ _ _ tx (lg_x h Hleg) Htx).
    rewrite (tile_hi_exact _ _ _ _ ty (lg_y h Hleg) Hty).
    unfold tile_keys. cbv zeta. fold (x_tile tx) (y_tile ty).
    pose proof (tile_span_ok _ _ _ _ tx (lg_x h Hleg) Htx) as Hx.
    pose proof (tile_span_ok _ _ _ _ ty (lg_y h Hleg) Hty) as Hy.
    cbv zeta in Hx, Hy. fold (x_tile tx) in Hx. fold (y_tile ty) in Hy.
    pose proof (n_tiles_small h Hleg) as (Ht1 & Ht2 & Ht3).
    rewrite (wrap32_small (ty * tiles_x h + tx)) by (rewrite two32_val; nia).
    rewrite (Z.mod_small (ty * tiles_x h + tx)) by nia.
    destruct (lg_x h Hleg) as [X1 X2 _ _]. destruct (lg_y h Hleg) as [Y1 Y2 _ _].
    match goal with |- (if ?b then _ else _) = _ => destruct b eqn:Eb end; [reflexivity|].
    apply orb_false_iff in Eb as [E1 E2].
    rewrite (mapM_ok _ (comp_keys tx ty d (Z.max Ax (fst (x_tile tx))) (Z.max Ay (fst (y_tile ty)))
                          (Z.min Bx (snd (x_tile tx))) (Z.min By (snd (y_tile ty))))).
    { rewrite ret_bindx. reflexivity. }
    intros i Hi. rewrite Forall_forall in Hcs.
    apply keys_of_component_exact; try assumption; auto; lia.
  Qed.

  Definition comps_of (w : window) : list Z :=
    match comps w with [] => zseq (zlen (h_comps h)) | l => l end.

  (** What the resolution returns, tile and region bounds left as they are. *)
  Lemma resolve_exact w : window_ok w ->
    exists d, pick_discard_level x w = ret d /\ 0 <= d <= 31 /\
    let Ax := region_lo (ox w) (2 ^ d) (fst (h_origin h)) (fst (h_size h)) in
    let Ay := region_lo (oy w) (2 ^ d) (snd (h_origin h)) (snd (h_size h)) in
    let Bx := region_hi (no_region w) (ox w) (sx w) (2 ^ d) (fst (h_origin h)) (fst (h_size h)) in
    let By := region_hi (no_region w) (oy w) (sy w) (2 ^ d) (snd (h_origin h)) (snd (h_size h)) in
    0 <= Ax <= fst (h_size h) /\ 0 <= Ay <= snd (h_size h) /\
    0 <= Bx <= fst (h_size h) /\ 0 <= By <= snd (h_size h) /\
    resolve_view_window x w =
    ret (if (Bx <=? Ax) || (By <=? Ay) then [] else
         all_keys (comps_of w) d Ax Ay Bx By
           (sub_sat Ax (fst (h_torigin h)) / fst (h_tsize h))
           (Z.min (tiles_x h)
              (wrap32 (wrap32 (Bx - fst (h_torigin h)) + (fst (h_tsize h) - 1)) / fst (h_tsize h)))
           (sub_sat Ay (snd (h_torigin h)) / snd (h_tsize h))
           (Z.min (tiles_y h)
              (wrap32 (wrap32 (By - snd (h_torigin h)) + (snd (h_tsize h) - 1)) / snd (h_tsize h)))).
  Proof.
    intros Hw. destruct (max_NL_most h Hleg) as [Hm Hb].
    destruct (pick_spec h Hleg w Hw _ Hm) as (d & Ed & Hd & _).
    exists d. fold x in Ed, Hm, Hb, Hd. split; [exact Ed|]. split; [lia|]. intros Ax Ay Bx By.
    destruct (lg_x h Hleg) as [X1 X2 X3 _]. destruct (lg_y h Hleg) as [Y1 Y2 Y3 _].
    assert (W : forall v, 0 <= wrap32 v) by (intros v; apply Z.mod_pos_bound; reflexivity).
    assert (HAx : 0 <= Ax <= fst (h_size h)).
    { unfold Ax, region_lo. pose proof (W (wrap32 (ox w * 2 ^ d) + fst (h_origin h))). lia. }
    assert (HAy : 0 <= Ay <= snd (h_size h)).
    { unfold Ay, region_lo. pose proof (W (wrap32 (oy w * 2 ^ d) + snd (h_origin h))). lia. }
    assert (HBx : 0 <= Bx <= fst (h_size h)).
    { unfold Bx, region_hi. destruct (no_region w); [lia|].
      match goal with |- context [wrap32 ?v] => pose proof (W v) end. lia. }
    assert (HBy : 0 <= By <= snd (h_size h)).
    { unfold By, region_hi. destruct (no_region w); [lia|].
      match goal with |- context [wrap32 ?v] => pose proof (W v) end. lia. }
    split; [exact HAx|]. split; [exact HAy|]. split; [exact HBx|]. split; [exact HBy|].
    pose proof (n_tiles_small h Hleg) as (Ht1 & Ht2 & Ht3).
    pose proof (lg_ncomps h Hleg) as Hnc.
    unfold resolve_view_window. rewrite Ed.
    unfold x at 1 2. rewrite (num_tiles_exact h Hleg). unfold num_components.
    change (hdr x) with h. change (hdr (index_of_header h)) with h.
    rewrite (proj2 (Z.eqb_neq (zlen (h_comps h)) 0)) by lia.
    rewrite (proj2 (Z.eqb_neq (tiles_x h * tiles_y h) 0)) by nia. cbn [orb].
    cbv zeta. rewrite ret_bindx, shl1_exact by lia. rewrite ret_bindx.
    fold (no_region w). fold Ax Ay Bx By.
    destruct ((Bx <=? Ax) || (By <=? Ay)); [reflexivity|].
    change (num_tiles_x x) with (tiles_x h). change (num_tiles_y x) with (tiles_y h).
    unfold tile_first, tile_last, cdiv.
    rewrite !udiv_exact by lia. rewrite !ret_bindx.
    rewrite (proj2 (Z.eqb_neq (fst (h_tsize h)) 0)) by lia.
    rewrite (proj2 (Z.eqb_neq (snd (h_tsize h)) 0)) by lia. rewrite !ret_bindx.
    fold (comps_of w).
    set (c0 := sub_sat Ax _ / _). set (r0 := sub_sat Ay _ / _).
    set (c1 := Z.min (tiles_x h) _). set (r1 := Z.min (tiles_y h) _).
    assert (Hc0 : 0 <= c0).
    { apply Z.div_pos; [|lia]. unfold sub_sat. destruct (fst (h_torigin h) <? Ax) eqn:E; lia. }
    assert (Hr0 : 0 <= r0).
    { apply Z.div_pos; [|lia]. unfold sub_sat. destruct (snd (h_torigin h) <? Ay) eqn:E; lia. }
    assert (Hcs : Forall (fun c => 0 <= c) (comps_of w)).
    { unfold comps_of. destruct Hw as [_ _ _ _ _ _ Hc].
      destruct (comps w) as [|a l]; [|eapply Forall_impl; [|exact Hc]; cbv beta; lia].
      apply Forall_forall. intros i Hi. apply zseq_In in Hi. lia. }
    rewrite (mapM_ok _ (fun ty => concat (map (tile_keys (comps_of w) d Ax Ay Bx By ty) (range c0 c1)))).
    { rewrite ret_bindx. reflexivity. }
    intros ty Hty. apply range_In in Hty.
    rewrite (mapM_ok _ (tile_keys (comps_of w) d Ax Ay Bx By ty)).
    { rewrite ret_bindx. reflexivity. }
    intros tx Htx. apply range_In in Htx.
    apply keys_of_tile_exact; try assumption; lia.
  Qed.
End Resolve.

(** * Order and absence of duplicates *)

Lemma sorted_concat_map {A B} (f : A -> list B) (Q : A -> A -> Prop) (R : B -> B -> Prop) l :
  StronglySorted Q l ->
  (forall a, In a l -> StronglySorted R (f a)) ->
  (forall a b y z, In a l -> In b l -> Q a b -> In y (f a) -> In z (f b) -> R y z) ->
  StronglySorted R (concat (map f l)).
Proof.
  induction 1 as [|a l Hs IH Hf]; intros Hl Hq; cbn [map concat]; [constructor|].
  assert (IH' : StronglySorted R (concat (map f l))).
  { apply IH; intros; [apply Hl; right; assumption|].
    eapply (Hq a0 b); eauto; right; assumption. }
  clear IH. pose proof (Hl a (or_introl eq_refl)) as Ha.
  assert (Hx : forall y, In y (f a) -> Forall (R y) (concat (map f l))).
  { intros y Hy. apply Forall_forall. intros z Hz. apply in_concat_map in Hz as (b & Hb & Hz).
    rewrite Forall_forall in Hf.
    eapply (Hq a b); eauto; [left; reflexivity|right; assumption]. }
  revert Ha Hx. generalize (f a) as ys. induction ys as [|y ys IHy]; intros Ha Hx;
    cbn [app]; [assumption|].
  inversion Ha; subst. constructor.
  - apply IHy; [assumption|]. intros; apply Hx; right; assumption.
  - apply Forall_app. split; [assumption|]. apply Hx. left; reflexivity.
Qed.

Lemma sorted_map_of {A B} (f : A -> B) (Q : A -> A -> Prop) (R : B -> B -> Prop) l :
  StronglySorted Q l -> (forall a b, In a l -> In b l -> Q a b -> R (f a) (f b)) ->
  StronglySorted R (map f l).
Proof.
  induction 1 as [|a l Hs IH Hf]; intros Hq; cbn [map]; constructor.
  - apply IH. intros. apply Hq; try (right; assumption); assumption.
  - apply Forall_map. apply Forall_forall. intros b Hb. rewrite Forall_forall in Hf.
    apply Hq; [left; reflexivity|right; assumption|auto].
Qed.

Lemma seq_sorted a n : StronglySorted Z.lt (map Z.of_nat (seq a n)).
Proof.
  revert a. induction n as [|n IH]; intros a; cbn [seq map]; constructor; [apply IH|].
  apply Forall_map. apply Forall_forall. intros b Hb. apply in_seq in Hb. lia.
Qed.

Lemma zseq_sorted n : StronglySorted Z.lt (zseq n).
Proof. apply seq_sorted. Qed.

Lemma range_sorted lo hi : StronglySorted Z.lt (range lo hi).
Proof.
  unfold range. apply (sorted_map_of _ Z.lt); [apply zseq_sorted|]. intros; lia.
Qed.

Lemma sorted_lt_nodup l : StronglySorted key_lt l -> NoDup l.
Proof.
  induction 1 as [|k l Hs IH Hf]; constructor; [|assumption].
  intros Hk. rewrite Forall_forall in Hf. specialize (Hf k Hk).
  unfold key_lt in Hf. lia.
Qed.

Section Keys.
  Variable h : header.
  Hypothesis Hleg : legal h.
  Hypothesis Hcnt : countable h.
  Let x := index_of_header h.

  Lemma in_res_keys c tx ty i ax ay bx by_ r k :
    In k (res_keys h c tx ty i ax ay bx by_ r) <->
    exists px py, k = at_cell h c tx ty i r px py /\
      xlo h c tx r ax <= px < xhi h c tx r bx /\
      ylo h c ty r ay <= py < yhi h c ty r by_.
  Proof.
    unfold res_keys. rewrite in_concat_map. split.
    - intros (py & Hy & Hk). apply range_In in Hy.
      apply in_map_iff in Hk as (px & <- & Hx). apply range_In in Hx.
      exists px, py. auto.
    - intros (px & py & -> & Hx & Hy). exists py. split; [apply range_In; exact Hy|].
      apply (in_map (fun px => at_cell h c tx ty i r px py)). apply range_In. exact Hx.
  Qed.

  Lemma xrange c tx r A B px : xlo h c tx r A <= px < xhi h c tx r B ->
    0 <= px < cells (x_span h c tx r) (ppx c r).
  Proof. unfold xlo, xhi, plo, phi. lia. Qed.
  Lemma yrange c ty r A B py : ylo h c ty r A <= py < yhi h c ty r B ->
    0 <= py < cells (y_span h c ty r) (ppy c r).
  Proof. unfold ylo, yhi, plo, phi. lia. Qed.

  Lemma in_comp_keys tx ty d ax ay bx by_ i k :
    In k (comp_keys h tx ty d ax ay bx by_ i) <->
    exists c r, nth_error (h_comps h) (Z.to_nat i) = Some c /\
      ceil_div ax (fst (c_sub c)) < ceil_div bx (fst (c_sub c)) /\
      ceil_div ay (snd (c_sub c)) < ceil_div by_ (snd (c_sub c)) /\
      0 <= r <= top_res c d /\
      In k (res_keys h c tx ty i (ceil_div ax (fst (c_sub c))) (ceil_div ay (snd (c_sub c)))
              (ceil_div bx (fst (c_sub c))) (ceil_div by_ (snd (c_sub c))) r).
  Proof.
    unfold comp_keys. destruct (nth_error (h_comps h) (Z.to_nat i)) as [c|].
    2: { split; [intros []|]. intros (c & r & E & _). discriminate. }
    cbv zeta.
    destruct (Z.leb_spec (ceil_div bx (fst (c_sub c))) (ceil_div ax (fst (c_sub c))));
      destruct (Z.leb_spec (ceil_div by_ (snd (c_sub c))) (ceil_div ay (snd (c_sub c))));
      cbn [orb].
    1-3: split; [intros []|]; intros (c' & r & E & ? & ? & _); injection E as <-; lia.
    rewrite in_concat_map. split.
    - intros (r & Hr & Hk). apply zseq_In in Hr. exists c, r. conj; lia.
    - intros (c' & r & E & _ & _ & Hr & Hk). injection E as <-. exists r.
      split; [apply zseq_In; lia|exact Hk].
  Qed.

  Lemma in_tile_keys cs d Ax Ay Bx By ty tx k :
    In k (tile_keys h cs d Ax Ay Bx By ty tx) <->
    let ax := Z.max Ax (fst (x_tile h tx)) in
    let ay := Z.max Ay (fst (y_tile h ty)) in
    let bx := Z.min Bx (snd (x_tile h tx)) in
    let by_ := Z.min By (snd (y_tile h ty)) in
    ax < bx /\ ay < by_ /\
    exists i, In i cs /\ In k (comp_keys h tx ty d ax ay bx by_ i).
  Proof.
    unfold tile_keys. cbv zeta.
    destruct (Z.leb_spec (Z.min Bx (snd (x_tile h tx))) (Z.max Ax (fst (x_tile h tx))));
      destruct (Z.leb_spec (Z.min By (snd (y_tile h ty))) (Z.max Ay (fst (y_tile h ty))));
      cbn [orb].
    1-3: split; [intros []|]; intros (? & ? & _); lia.
    rewrite in_concat_map. intuition lia.
  Qed.

  Lemma in_all_keys cs d Ax Ay Bx By c0 c1 r0 r1 k :
    In k (all_keys h cs d Ax Ay Bx By c0 c1 r0 r1) <->
    exists tx ty, c0 <= tx < c1 /\ r0 <= ty < r1 /\
      In k (tile_keys h cs d Ax Ay Bx By ty tx).
  Proof.
    unfold all_keys. rewrite in_concat_map. split.
    - intros (ty & Hty & Hk). apply range_In in Hty.
      apply in_concat_map in Hk as (tx & Htx & Hk). apply range_In in Htx.
      exists tx, ty. auto.
    - intros (tx & ty & Htx & Hty & Hk). exists ty. split; [apply range_In; exact Hty|].
      apply in_concat_map. exists tx. split; [apply range_In; exact Htx|exact Hk].
  Qed.

  Lemma res_key_fields c tx ty i ax ay bx by_ r k :
    In k (res_keys h c tx ty i ax ay bx by_ r) ->
    k_t k = ty * tiles_x h + tx /\ k_c k = i /\ k_r k = r.
  Proof. intros Hk. apply in_res_keys in Hk as (px & py & -> & _). auto. Qed.

  Lemma comp_key_fields tx ty d ax ay bx by_ i k :
    In k (comp_keys h tx ty d ax ay bx by_ i) ->
    k_t k = ty * tiles_x h + tx /\ k_c k = i.
  Proof.
    intros Hk. apply in_comp_keys in Hk as (c & r & _ & _ & _ & _ & Hk).
    apply res_key_fields in Hk. tauto.
  Qed.

  Lemma tile_key_t cs d Ax Ay Bx By ty tx k :
    In k (tile_keys h cs d Ax Ay Bx By ty tx) -> k_t k = ty * tiles_x h + tx.
  Proof.
    intros Hk. apply in_tile_keys in Hk as (_ & _ & i & _ & Hk).
    apply comp_key_fields in Hk. tauto.
  Qed.

  Lemma key_named tx ty d ax ay bx by_ i k : 0 <= d -> 0 <= i ->
    0 <= tx < tiles_x h -> 0 <= ty < tiles_y h ->
    In k (comp_keys h tx ty d ax ay bx by_ i) -> names_precinct h k.
  Proof.
    intros Hd Hi Htx Hty Hk. apply in_comp_keys in Hk as (c & r & Hc & _ & _ & Hr & Hk).
    apply in_res_keys in Hk as (px & py & -> & Hx & Hy).
    apply xrange in Hx. apply yrange in Hy.
    destruct (comp_index h _ _ Hc) as [Hin _].
    destruct (comp_is_legal h Hleg c Hin) as (_ & _ & HN & _).
    exists tx, ty, c. unfold at_cell. cbn [k_t k_c k_r k_p]. unfold top_res in Hr.
    unfold n_precincts. conj; try lia; nia.
  Qed.

  Lemma res_keys_sorted c tx ty i ax ay bx by_ r :
    StronglySorted key_lt (res_keys h c tx ty i ax ay bx by_ r).
  Proof.
    unfold res_keys. apply (sorted_concat_map _ Z.lt).
    - apply range_sorted.
    - intros py _. apply (sorted_map_of _ Z.lt); [apply range_sorted|].
      intros a b _ _ Hab. unfold key_lt, at_cell. cbn [k_t k_c k_r k_p]. lia.
    - intros py py' y z _ _ Hlt Hy Hz.
      apply in_map_iff in Hy as (px & <- & Hx). apply in_map_iff in Hz as (px' & <- & Hx').
      apply range_In in Hx, Hx'. apply xrange in Hx, Hx'.
      unfold key_lt, at_cell. cbn [k_t k_c k_r k_p]. nia.
  Qed.

  Lemma comp_keys_sorted tx ty d ax ay bx by_ i :
    StronglySorted key_lt (comp_keys h tx ty d ax ay bx by_ i).
  Proof.
    unfold comp_keys. destruct (nth_error _ _) as [c|]; [|constructor]. cbv zeta.
    destruct (_ || _); [constructor|].
    apply (sorted_concat_map _ Z.lt); [apply zseq_sorted|intros; apply res_keys_sorted|].
    intros a b y z _ _ Hab Hy Hz. apply res_key_fields in Hy, Hz.
    unfold key_lt. lia.
  Qed.

  Lemma all_keys_sorted cs d Ax Ay Bx By c0 c1 r0 r1 :
    StronglySorted Z.lt cs -> 0 <= c0 -> c1 <= tiles_x h ->
    StronglySorted key_lt (all_keys h cs d Ax Ay Bx By c0 c1 r0 r1).
  Proof.
    intros Hcs Hc0 Hc1. unfold all_keys. apply (sorted_concat_map _ Z.lt).
    - apply range_sorted.
    - intros ty _. apply (sorted_concat_map _ Z.lt); [apply range_sorted| |].
      + intros tx _. unfold tile_keys. cbv zeta. destruct (_ || _); [constructor|].
        apply (sorted_concat_map _ Z.lt); [exact Hcs|intros; apply comp_keys_sorted|].
        intros a b y z _ _ Hab Hy Hz. apply comp_key_fields in Hy, Hz.
        unfold key_lt. lia.
      + intros a b y z _ _ Hab Hy Hz. apply tile_key_t in Hy, Hz. unfold key_lt. lia.
    - intros a b y z _ _ Hab Hy Hz.
      apply in_concat_map in Hy as (tx & Htx & Hy). apply in_concat_map in Hz as (tx' & Htx' & Hz).
      apply range_In in Htx, Htx'. apply tile_key_t in Hy, Hz. unfold key_lt. nia.
  Qed.

  Section Window.
    Variable w : window.
    Hypothesis Hw : window_ok w.

    Lemma comps_of_nonneg i : In i (comps_of h w) -> 0 <= i.
    Proof.
      unfold comps_of. destruct Hw as [_ _ _ _ _ _ Hc]. rewrite Forall_forall in Hc.
      destruct (comps w) as [|a l]; intros Hi.
      - apply zseq_In in Hi. lia.
      - specialize (Hc i Hi). lia.
    Qed.

    Lemma comps_of_selects i : 0 <= i < zlen (h_comps h) ->
      (In i (comps_of h w) <-> selects w i).
    Proof.
      intros Hi. unfold comps_of, selects. destruct (comps w) as [|a l].
      - rewrite zseq_In. split; [left; reflexivity|intros; exact Hi].
      - split; [right; assumption|]. intros [E|]; [discriminate|assumption].
    Qed.

    Lemma resolve_valid : exists ks, resolve_view_window x w = ret ks /\
      Forall (names_precinct h) ks.
    Proof.
      destruct (resolve_exact h Hleg Hcnt w Hw) as (d & _ & Hd & HH).
      cbv zeta in HH. destruct HH as (HAx & HAy & HBx & HBy & E).
      eexists. split; [exact E|].
      destruct (_ || _); [constructor|].
      apply Forall_forall. intros k Hk.
      apply in_all_keys in Hk as (tx & ty & Htx & Hty & Hk).
      apply in_tile_keys in Hk as (_ & _ & i & Hi & Hk).
      destruct (lg_x h Hleg) as [X1 X2 X3 _]. destruct (lg_y h Hleg) as [Y1 Y2 Y3 _].
      apply key_named in Hk; [exact Hk|lia|apply comps_of_nonneg; exact Hi| |].
      - match type of Htx with ?a <= _ < _ => assert (0 <= a) end;
          [apply Z.div_pos; [unfold sub_sat; destruct (_ <? _) eqn:Eb; lia|lia]|lia].
      - match type of Hty with ?a <= _ < _ => assert (0 <= a) end;
          [apply Z.div_pos; [unfold sub_sat; destruct (_ <? _) eqn:Eb; lia|lia]|lia].
    Qed.

    Lemma resolve_sorted : StronglySorted Z.lt (comps w) ->
      exists ks, resolve_view_window x w = ret ks /\ StronglySorted key_lt ks /\ NoDup ks.
    Proof.
      intros Hc. destruct (resolve_exact h Hleg Hcnt w Hw) as (d & _ & Hd & HH).
      cbv zeta in HH. destruct HH as (HAx & HAy & HBx & HBy & E).
      eexists. split; [exact E|].
      match goal with |- StronglySorted key_lt ?l /\ _ =>
        assert (S : StronglySorted key_lt l) end.
      { destruct (_ || _); [constructor|].
        destruct (lg_x h Hleg) as [X1 X2 X3 _].
        apply all_keys_sorted.
        - unfold comps_of. destruct (comps w); [apply zseq_sorted|exact Hc].
        - apply Z.div_pos; [unfold sub_sat; destruct (_ <? _) eqn:Eb; lia|lia].
        - apply Z.le_min_l. }
      split; [exact S|apply sorted_lt_nodup; exact S].
    Qed.
  End Window.
End Keys.

(** * Whole-image requests, and coverage *)

Lemma tile_first_exact A torigin tsize i size :
  1 <= tsize -> 0 <= A -> 0 <= torigin -> A < torigin + (i + 1) * tsize -> A <= size -> 0 <= i ->
  sub_sat A torigin / tsize <= i.
Proof.
  intros Ht HA Ho Hi _ Hi0. unfold sub_sat.
  destruct (Z.ltb_spec torigin A).
  - assert ((A - torigin) / tsize < i + 1) by (apply floor_lt; lia). lia.
  - rewrite Z.div_0_l by lia. lia.
Qed.

Lemma tile_last_exact B torigin tsize size :
  1 <= tsize <= 2 ^ 31 -> 0 <= torigin <= B -> B <= size -> size <= 2 ^ 31 ->
  wrap32 (wrap32 (B - torigin) + (tsize - 1)) / tsize = ceil_div (B - torigin) tsize.
Proof.
  intros Ht Ho HB Hs. change (2 ^ 31) with 2147483648 in *.
  rewrite (wrap32_small (B - torigin)) by (rewrite two32_val; lia).
  rewrite wrap32_small by (rewrite two32_val; lia).
  unfold ceil_div. nia.
Qed.

Lemma cells_empty ab pp : snd ab <= fst ab -> cells ab pp = 0.
Proof. intros H. unfold cells. rewrite (proj2 (Z.ltb_ge _ _)) by lia. reflexivity. Qed.

Lemma cells_pos_nonempty ab pp q : 0 <= q < cells ab pp -> fst ab < snd ab.
Proof. unfold cells. destruct (Z.ltb_spec (fst ab) (snd ab)); lia. Qed.

Lemma sub_sat_max a m : 0 <= a -> 0 <= m -> sub_sat a m = Z.max 0 (a - m).
Proof. intros. unfold sub_sat. destruct (Z.ltb_spec m a); lia. Qed.

(** A position between the widened bounds has its cell in the range. *)
Lemma cell_in_range irr k A B pp ab n :
  0 <= k -> 0 <= pp -> 0 <= A -> 0 <= fst ab -> fst ab <= n < snd ab ->
  A / 2 ^ k - margin irr k <= n < ceil_div B (2 ^ k) + margin irr k ->
  let q := n / 2 ^ pp - fst ab / 2 ^ pp in
  in_cell ab pp q n /\
  plo irr k A pp (fst ab) <= q < phi irr k B pp (fst ab) (cells ab pp).
Proof.
  intros Hk Hp HA H0 Hn Hb q.
  pose proof (Z.pow_pos_nonneg 2 pp ltac:(lia) Hp) as HP.
  pose proof (Z.pow_pos_nonneg 2 k ltac:(lia) Hk) as HK.
  pose proof (margin_bound irr k) as Hm.
  assert (Hc : in_cell ab pp q n) by (split; [exact Hn|unfold q; lia]).
  split; [exact Hc|]. pose proof (in_cell_range _ _ _ _ Hp Hc) as Hq.
  assert (0 <= A / 2 ^ k) by (apply Z.div_pos; lia).
  unfold plo, phi. rewrite sub_sat_max by lia. split.
  - assert (Z.max 0 (A / 2 ^ k - margin irr k) / 2 ^ pp <= n / 2 ^ pp)
      by (apply Z.div_le_mono; lia).
    unfold q in *. lia.
  - assert (n / 2 ^ pp < ceil_div (ceil_div B (2 ^ k) + margin irr k) (2 ^ pp)).
    { apply ceil_lt; [lia|]. pose proof (Z.mul_div_le n (2 ^ pp) HP). lia. }
    unfold q in *. lia.
Qed.

Lemma wants_bound L u k m : 0 <= L -> wants L u k m ->
  Z.abs (2 ^ Z.of_nat k * m - u) <= L * (2 ^ Z.of_nat k - 1).
Proof.
  intros HL. induction 1 as [|k m n Hk IH Hn].
  - rewrite Nat2Z.inj_0. change (2 ^ 0) with 1. lia.
  - rewrite Nat2Z.inj_succ, Z.pow_succ_r by lia.
    pose proof (Z.pow_pos_nonneg 2 (Z.of_nat k) ltac:(lia) ltac:(lia)) as HP.
    set (P := 2 ^ Z.of_nat k) in *. clearbody P.
    replace (2 * P * n - u) with (P * (2 * n - m) + (P * m - u)) by ring.
    assert (Z.abs (P * (2 * n - m)) <= P * L).
    { rewrite Z.abs_mul, (Z.abs_eq P) by lia. apply Z.mul_le_mono_nonneg_l; lia. }
    lia.
Qed.

Lemma needed_bound L u top r n : 1 <= L -> 0 <= r <= top -> needed L u top r n ->
  Z.abs (2 ^ (top - r) * n - u) < 2 * L * 2 ^ (top - r).
Proof.
  intros HL Hr. unfold needed.
  pose proof (Z.pow_pos_nonneg 2 (top - r) ltac:(lia) ltac:(lia)) as HP.
  destruct (Z.eqb_spec r 0) as [->|Hne].
  - intros Hw. apply wants_bound in Hw; [|lia].
    replace (top - 0) with (Z.of_nat (Z.to_nat top)) in * by lia. nia.
  - intros (m & Hw & Hn). apply wants_bound in Hw; [|lia].
    replace (Z.of_nat (Z.to_nat (top - r))) with (top - r) in Hw by lia.
    set (P := 2 ^ (top - r)) in *. clearbody P.
    replace (P * n - u) with (P * (n - m) + (P * m - u)) by ring.
    assert (Z.abs (P * (n - m)) <= P * L).
    { rewrite Z.abs_mul, (Z.abs_eq P) by lia. apply Z.mul_le_mono_nonneg_l; lia. }
    lia.
Qed.

(** The widened bounds hold every position that is read. *)
Lemma needed_in_bounds irr N top r A B s n :
  0 <= r <= top -> top <= N -> (r < N \/ N = 0) -> 0 <= A ->
  A <= s < B -> needed (reach irr) (s / 2 ^ (N - top)) top r n ->
  A / 2 ^ (N - r) - margin irr (N - r) <= n < ceil_div B (2 ^ (N - r)) + margin irr (N - r).
Proof.
  intros Hr Ht HN HA Hs Hn.
  destruct HN as [HrN| ->].
  2: { assert (r = 0) by lia. assert (top = 0) by lia. subst.
       unfold needed in Hn. cbn [Z.eqb Z.to_nat] in Hn. inversion Hn; subst.
       change (0 - 0) with 0. change (2 ^ 0) with 1. rewrite !Z.div_1_r.
       unfold margin, ceil_div. cbn [Z.eqb]. rewrite Z.div_1_r. lia. }
  assert (HL : 1 <= reach irr) by (unfold reach; destruct irr; lia).
  apply needed_bound in Hn; [|exact HL|exact Hr].
  assert (Em : margin irr (N - r) = 2 * reach irr).
  { unfold margin, reach. rewrite (proj2 (Z.eqb_neq (N - r) 0)) by lia. reflexivity. }
  rewrite Em. set (L := reach irr) in *. clearbody L.
  replace (N - r) with ((N - top) + (top - r)) by lia.
  rewrite Z.pow_add_r by lia.
  pose proof (Z.pow_pos_nonneg 2 (N - top) ltac:(lia) ltac:(lia)) as HD.
  pose proof (Z.pow_pos_nonneg 2 (top - r) ltac:(lia) ltac:(lia)) as HP.
  set (D := 2 ^ (N - top)) in *. set (P := 2 ^ (top - r)) in *. clearbody D P.
  set (u := s / D) in *.
  assert (Hlo : A / (D * P) * P <= u).
  { apply floor_ge; [lia|].
    pose proof (proj1 (floor_ge A (D * P) _ ltac:(nia)) (Z.le_refl _)). nia. }
  assert (Hhi : u < ceil_div B (D * P) * P).
  { apply floor_lt; [lia|].
    pose proof (proj1 (ceil_le B (D * P) _ ltac:(nia)) (Z.le_refl _)). nia. }
  set (a := A / (D * P)) in *. set (b := ceil_div B (D * P)) in *.
  clearbody a b u. split; nia.
Qed.

(** Everything about one axis of a sample inside the asked region. *)
Lemma axis_cover size origin tsize torigin i sub s ab :
  axis_legal size origin tsize torigin -> 0 <= i < tiles size torigin tsize ->
  1 <= sub -> 0 <= fst ab -> 0 <= snd ab ->
  sample_in sub s ab (tile_span size origin tsize torigin i) ->
  let A := Z.min (fst ab) size in
  let B := Z.min (snd ab) size in
  let t := tile_span size origin tsize torigin i in
  let a := Z.max A (fst t) in
  let b := Z.min B (snd t) in
  0 <= A < B /\ B <= size /\ 0 <= torigin <= B /\ a < b /\
  sub_sat A torigin / tsize <= i < Z.min (tiles size torigin tsize) (ceil_div (B - torigin) tsize) /\
  ceil_div a sub <= s < ceil_div b sub /\ 0 <= ceil_div a sub.
Proof.
  intros Hl Hi Hsub H0 H1 [Hr Ht] A B t a b.
  pose proof (tile_span_ok _ _ _ _ i Hl Hi) as Hs. cbv zeta in Hs. fold t in Hs, Ht.
  destruct Hl as [L1 L2 L3 L4].
  assert (TX : torigin + i * tsize <= s * sub < torigin + (i + 1) * tsize).
  { clear - Ht. unfold t, tile_span in Ht. cbn [fst snd] in Ht. lia. }
  clearbody t.
  assert (LX : A <= s * sub < B) by (unfold A, B; lia).
  assert (CX : a <= s * sub < b) by (unfold a, b; lia).
  assert (HA : 0 <= A) by (unfold A; lia).
  assert (HB : B <= size) by (unfold B; lia).
  assert (Ha : 0 <= a) by (unfold a; lia).
  assert (HT : torigin + i * tsize < B) by lia.
  assert (0 <= i * tsize) by (apply Z.mul_nonneg_nonneg; lia).
  clearbody A B a b. clear Hr Ht Hs.
  split; [lia|]. split; [lia|]. split; [lia|]. split; [lia|]. split; [split|split; [split|]].
  - apply (tile_first_exact _ _ _ _ size); lia.
  - apply Z.min_glb_lt; [lia|]. apply ceil_lt; lia.
  - apply ceil_le; lia.
  - apply ceil_lt; lia.
  - apply ceil_nonneg; lia.
Qed.

(** One axis of a request for the whole image: every precinct column of every
    tile is in range. *)
Lemma axis_whole irr size origin tsize torigin i sub k pp q :
  axis_legal size origin tsize torigin -> 0 <= i < tiles size torigin tsize ->
  1 <= sub -> 0 <= k -> 0 <= pp ->
  let t := tile_span size origin tsize torigin i in
  let ab := res_span k (comp_span sub t) in
  0 <= q < cells ab pp ->
  Z.max origin (fst t) = fst t /\ Z.min size (snd t) = snd t /\ fst t < snd t /\
  ceil_div (fst t) sub < ceil_div (snd t) sub /\
  plo irr k (ceil_div (fst t) sub) pp (fst ab) <= q
  < phi irr k (ceil_div (snd t) sub) pp (fst ab) (cells ab pp).
Proof.
  intros Hl Hi Hsub Hk Hpp t ab Hq.
  pose proof (tile_span_ok _ _ _ _ i Hl Hi) as Hs. cbv zeta in Hs. fold t in Hs.
  split; [lia|]. split; [lia|]. split; [lia|].
  pose proof (cells_pos_nonempty ab pp q Hq) as Hne.
  pose proof (Z.pow_pos_nonneg 2 k ltac:(lia) Hk) as HK.
  pose proof (Z.pow_pos_nonneg 2 pp ltac:(lia) Hpp) as HP.
  assert (Ea : fst ab = ceil_div (ceil_div (fst t) sub) (2 ^ k)) by reflexivity.
  assert (Eb : snd ab = ceil_div (ceil_div (snd t) sub) (2 ^ k)) by reflexivity.
  assert (Ht : 0 <= fst t) by lia.
  clearbody t ab. clear Hl Hi Hs.
  pose proof (ceil_nonneg (fst t) sub ltac:(lia) Ht) as Ha0.
  set (a := ceil_div (fst t) sub) in *. set (b := ceil_div (snd t) sub) in *.
  clearbody a b. clear Ht. split.
  { destruct (Z.ltb_spec a b); [assumption|].
    pose proof (ceil_mono b a (2 ^ k) HK ltac:(lia)). lia. }
  unfold plo, phi. pose proof (margin_bound irr k) as Hmg.
  pose proof (Z.div_pos a (2 ^ k) Ha0 HK) as Had.
  rewrite sub_sat_max by lia.
  assert (En : cells ab pp = ceil_div (snd ab) (2 ^ pp) - fst ab / 2 ^ pp).
  { unfold cells. rewrite (proj2 (Z.ltb_lt _ _) Hne). reflexivity. }
  pose proof (floor_le_ceil a (2 ^ k) HK) as Hfc.
  pose proof (ceil_nonneg a (2 ^ k) HK Ha0) as Hc0.
  assert (Z.max 0 (a / 2 ^ k - margin irr k) / 2 ^ pp <= fst ab / 2 ^ pp).
  { apply Z.div_le_mono; [lia|]. rewrite Ea. lia. }
  pose proof (ceil_mono (snd ab) (ceil_div b (2 ^ k) + margin irr k) (2 ^ pp) HP ltac:(lia)).
  lia.
Qed.

(** One axis, the other way round: a column in range holds a position close to
    a sample of the region. *)
Lemma axis_excess irr k A B pp p0 q n :
  0 <= k -> 0 <= pp -> 0 <= A < B -> 0 <= p0 ->
  plo irr k A pp p0 <= q < phi irr k B pp p0 n ->
  exists u s, u / 2 ^ pp = p0 / 2 ^ pp + q /\ A <= s < B /\
    Z.abs (u - s / 2 ^ k) <= margin irr k.
Proof.
  intros Hk Hp HAB H0 Hq.
  pose proof (Z.pow_pos_nonneg 2 pp ltac:(lia) Hp) as HP.
  pose proof (Z.pow_pos_nonneg 2 k ltac:(lia) Hk) as HK.
  pose proof (margin_bound irr k) as Hm.
  assert (HA : 0 <= A / 2 ^ k) by (apply Z.div_pos; lia).
  unfold plo, phi in Hq. rewrite sub_sat_max in Hq by lia.
  set (m := margin irr k) in *. clearbody m.
  set (lo := Z.max 0 (A / 2 ^ k - m)) in *.
  set (hi := ceil_div B (2 ^ k) + m) in *.
  set (P := p0 / 2 ^ pp + q).
  assert (Hlo : lo < (P + 1) * 2 ^ pp).
  { assert (lo / 2 ^ pp <= P) by (unfold P; lia).
    pose proof (Z.mul_succ_div_gt lo (2 ^ pp) HP). nia. }
  assert (Hhi : P * 2 ^ pp < hi).
  { assert (HPc : P < ceil_div hi (2 ^ pp)) by (unfold P; lia).
    destruct (Z.ltb_spec (P * 2 ^ pp) hi) as [|Hge]; [assumption|].
    pose proof (ceil_le hi (2 ^ pp) P HP). lia. }
  assert (HcB : ceil_div B (2 ^ k) = (B - 1) / 2 ^ k + 1).
  { apply Z.le_antisymm.
    - apply ceil_le; [exact HK|]. pose proof (Z.mul_succ_div_gt (B - 1) (2 ^ k) HK). nia.
    - enough ((B - 1) / 2 ^ k < ceil_div B (2 ^ k)) by lia.
      apply ceil_lt; [exact HK|]. pose proof (Z.mul_div_le (B - 1) (2 ^ k) HK). lia. }
  assert (HAB2 : A / 2 ^ k <= (B - 1) / 2 ^ k) by (apply Z.div_le_mono; lia).
  set (u := Z.max lo (P * 2 ^ pp)).
  assert (Hu : A / 2 ^ k - m <= u <= (B - 1) / 2 ^ k + m) by (unfold u, lo, hi in *; lia).
  assert (HuP : u / 2 ^ pp = P).
  { symmetry. apply (Z.div_unique_pos u (2 ^ pp) P (u - 2 ^ pp * P)); unfold u; lia. }
  clearbody u. clear Hq Hlo Hhi. exists u.
  destruct (Z.leb_spec u (A / 2 ^ k)) as [H1|H1].
  { exists A. split; [exact HuP|]. split; [lia|]. rewrite Z.abs_le. lia. }
  destruct (Z.leb_spec ((B - 1) / 2 ^ k) u) as [H2|H2].
  { exists (B - 1). split; [exact HuP|]. split; [lia|]. rewrite Z.abs_le. lia. }
  exists (u * 2 ^ k). split; [exact HuP|]. split.
  - pose proof (Z.mul_succ_div_gt A (2 ^ k) HK). pose proof (Z.mul_div_le (B - 1) (2 ^ k) HK). nia.
  - rewrite Z.div_mul by lia. rewrite Z.sub_diag. cbn. lia.
Qed.

Section Cover.
  Variable h : header.
  Hypothesis Hleg : legal h.
  Hypothesis Hcnt : countable h.
  Let x := index_of_header h.
  Variable w : window.
  Hypothesis Hw : window_ok w.
  Variable d : Z.
  Hypothesis Hd : pick_discard_level x w = ret d.

  Lemma d_bound : 0 <= d <= 31.
  Proof.
    destruct (resolve_exact h Hleg Hcnt w Hw) as (d' & E & B & _).
    fold x in E. rewrite Hd in E. apply ret_inj in E. lia.
  Qed.

  Lemma region_exact o s origin size :
    0 <= o -> 0 <= s -> 0 <= origin <= size -> size <= 2 ^ 31 ->
    let ab := asked_span (no_region w) o s d origin size in
    u32 (fst ab) -> u32 (snd ab) ->
    region_lo o (2 ^ d) origin size = Z.min (fst ab) size /\
    region_hi (no_region w) o s (2 ^ d) origin size = Z.min (snd ab) size.
  Proof.
    intros Ho Hs Horg Hsz ab. unfold ab, asked_span, region_lo, region_hi, u32. cbn [fst snd].
    change (2 ^ 32) with two32. intros H1 H2. pose proof d_bound as Hdb.
    pose proof (Z.pow_pos_nonneg 2 d ltac:(lia) ltac:(lia)) as HP.
    split.
    - rewrite (wrap32_small (o * 2 ^ d)) by nia. rewrite wrap32_small by lia. reflexivity.
    - destruct (no_region w); [reflexivity|].
      rewrite (wrap32_small (o + s)) by nia.
      rewrite (wrap32_small ((o + s) * 2 ^ d)) by nia.
      rewrite wrap32_small by lia. reflexivity.
  Qed.

  Lemma keys_bounds ks Ax Ay Bx By :
    resolve_view_window x w = ret ks ->
    region_lo (ox w) (2 ^ d) (fst (h_origin h)) (fst (h_size h)) = Ax ->
    region_lo (oy w) (2 ^ d) (snd (h_origin h)) (snd (h_size h)) = Ay ->
    region_hi (no_region w) (ox w) (sx w) (2 ^ d) (fst (h_origin h)) (fst (h_size h)) = Bx ->
    region_hi (no_region w) (oy w) (sy w) (2 ^ d) (snd (h_origin h)) (snd (h_size h)) = By ->
    Ax < Bx -> Ay < By -> Bx <= fst (h_size h) -> By <= snd (h_size h) ->
    0 <= fst (h_torigin h) <= Bx -> 0 <= snd (h_torigin h) <= By ->
    ks = all_keys h (comps_of h w) d Ax Ay Bx By
           (sub_sat Ax (fst (h_torigin h)) / fst (h_tsize h))
           (Z.min (tiles_x h) (ceil_div (Bx - fst (h_torigin h)) (fst (h_tsize h))))
           (sub_sat Ay (snd (h_torigin h)) / snd (h_tsize h))
           (Z.min (tiles_y h) (ceil_div (By - snd (h_torigin h)) (snd (h_tsize h)))).
  Proof.
    intros Hks RAx RAy RBx RBy L1 L2 L3 L4 L5 L6.
    destruct (resolve_exact h Hleg Hcnt w Hw) as (d' & Ed & _ & HH).
    fold x in Ed. rewrite Hd in Ed. apply ret_inj in Ed. subst d'. cbv zeta in HH.
    destruct HH as (_ & _ & _ & _ & E).
    fold x in E. rewrite Hks in E. apply ret_inj in E.
    rewrite RAx, RBx, RAy, RBy in E. clear RAx RBx RAy RBy Hks.
    destruct (lg_x h Hleg) as [_ X2 X3 _]. destruct (lg_y h Hleg) as [_ Y2 Y3 _].
    rewrite (tile_last_exact Bx _ _ (fst (h_size h))) in E by (clear E; lia).
    rewrite (tile_last_exact By _ _ (snd (h_size h))) in E by (clear E; lia).
    rewrite (proj2 (Z.leb_gt Bx Ax)), (proj2 (Z.leb_gt By Ay)) in E by (clear E; lia).
    exact E.
  Qed.

  Lemma covered ks tx ty i c sx_ sy_ r nx ny :
    resolve_view_window x w = ret ks ->
    u32 (fst (asked_x h w d)) -> u32 (snd (asked_x h w d)) ->
    u32 (fst (asked_y h w d)) -> u32 (snd (asked_y h w d)) ->
    0 <= tx < tiles_x h -> 0 <= ty < tiles_y h ->
    0 <= i -> nth_error (h_comps h) (Z.to_nat i) = Some c -> selects w i ->
    sample_in (fst (c_sub c)) sx_ (asked_x h w d) (x_tile h tx) ->
    sample_in (snd (c_sub c)) sy_ (asked_y h w d) (y_tile h ty) ->
    0 <= r <= top_res c d -> (r < c_NL c \/ c_NL c = 0) ->
    needed (reach (h_irreversible h)) (sx_ / 2 ^ (c_NL c - top_res c d)) (top_res c d) r nx ->
    needed (reach (h_irreversible h)) (sy_ / 2 ^ (c_NL c - top_res c d)) (top_res c d) r ny ->
    fst (x_span h c tx r) <= nx < snd (x_span h c tx r) ->
    fst (y_span h c ty r) <= ny < snd (y_span h c ty r) ->
    exists qx qy, in_cell (x_span h c tx r) (ppx c r) qx nx /\
      in_cell (y_span h c ty r) (ppy c r) qy ny /\
      In (at_cell h c tx ty i r qx qy) ks.
  Proof.
    intros Hks Ux1 Ux2 Uy1 Uy2 Htx Hty Hi Hc Hsel Hsx Hsy Hr HrN Hnx Hny Hx Hy.
    destruct (comp_index h _ _ Hc) as [Hin Hlt].
    pose proof (comp_is_legal h Hleg c Hin) as Hcl.
    assert (HN : 0 <= c_NL c <= 31) by apply Hcl.
    assert (Hsubx : 1 <= fst (c_sub c)) by apply Hcl.
    assert (Hsuby : 1 <= snd (c_sub c)).
    { destruct Hcl as (_ & Hs & _). clear - Hs. lia. }
    assert (Htop : top_res c d <= c_NL c).
    { pose proof d_bound as Hdb. clear - Hdb HN. unfold top_res. lia. }
    assert (HrNL : 0 <= r <= c_NL c) by (clear - Hr Htop; lia).
    destruct (nth_pp c r Hcl HrNL) as (_ & Hpx & Hpy).
    destruct (axis_cover _ _ _ _ tx _ sx_ (asked_x h w d) (lg_x h Hleg) Htx Hsubx
                (proj1 Ux1) (proj1 Ux2) Hsx) as (AX1 & AX2 & AX3 & AX4 & AX5 & AX6 & AX7).
    destruct (axis_cover _ _ _ _ ty _ sy_ (asked_y h w d) (lg_y h Hleg) Hty Hsuby
                (proj1 Uy1) (proj1 Uy2) Hsy) as (AY1 & AY2 & AY3 & AY4 & AY5 & AY6 & AY7).
    fold (x_tile h tx) in *. fold (y_tile h ty) in *.
    assert (RX := region_exact (ox w) (sx w) (fst (h_origin h)) (fst (h_size h))).
    assert (RY := region_exact (oy w) (sy w) (snd (h_origin h)) (snd (h_size h))).
    cbv zeta in RX, RY. fold (asked_x h w d) in RX. fold (asked_y h w d) in RY.
    destruct RX as [RAx RBx]; [apply Hw|apply Hw| | |exact Ux1|exact Ux2|].
    1-2: destruct (lg_x h Hleg) as [L1 L2 _ _]; clear - L1 L2; lia.
    destruct RY as [RAy RBy]; [apply Hw|apply Hw| | |exact Uy1|exact Uy2|].
    1-2: destruct (lg_y h Hleg) as [L1 L2 _ _]; clear - L1 L2; lia.
    rewrite (keys_bounds ks _ _ _ _ Hks RAx RAy RBx RBy (proj2 AX1) (proj2 AY1) AX2 AY2 AX3 AY3).
    clear RAx RAy RBx RBy Hks.
    pose proof (needed_in_bounds _ _ _ _ _ _ _ _ Hr Htop HrN AX7 AX6 Hnx) as BX.
    pose proof (needed_in_bounds _ _ _ _ _ _ _ _ Hr Htop HrN AY7 AY6 Hny) as BY.
    destruct (x_span_ok h Hleg c tx r Hin Htx HrNL) as [[SX _] _].
    destruct (y_span_ok h Hleg c ty r Hin Hty HrNL) as [[SY _] _].
    assert (Hk : 0 <= c_NL c - r) by (clear - HrNL; lia).
    destruct (cell_in_range _ _ _ _ (ppx c r) (x_span h c tx r) nx Hk (proj1 Hpx) AX7 SX Hx BX)
      as [QX QX2].
    destruct (cell_in_range _ _ _ _ (ppy c r) (y_span h c ty r) ny Hk (proj1 Hpy) AY7 SY Hy BY)
      as [QY QY2].
    exists (nx / 2 ^ ppx c r - fst (x_span h c tx r) / 2 ^ ppx c r),
           (ny / 2 ^ ppy c r - fst (y_span h c ty r) / 2 ^ ppy c r).
    split; [exact QX|]. split; [exact QY|].
    apply in_all_keys. exists tx, ty. split; [exact AX5|]. split; [exact AY5|].
    apply in_tile_keys. cbv zeta. split; [exact AX4|]. split; [exact AY4|].
    exists i. split.
    { apply comps_of_selects; [|exact Hsel]. clear - Hi Hlt. lia. }
    apply in_comp_keys. exists c, r. split; [exact Hc|].
    split; [clear - AX6; lia|]. split; [clear - AY6; lia|].
    split; [exact Hr|]. apply in_res_keys. eexists _, _. split; [reflexivity|].
    split; assumption.
  Qed.

  (** A request for the whole image. *)
  Lemma whole_iff ks k :
    resolve_view_window x w = ret ks -> no_region w = true -> ox w = 0 -> oy w = 0 ->
    (In k ks <->
     names_precinct h k /\ selects w (k_c k) /\
     exists c, nth_error (h_comps h) (Z.to_nat (k_c k)) = Some c /\ k_r k <= top_res c d).
  Proof.
    intros Hks Hnr Hox Hoy. pose proof d_bound as Hdb.
    destruct (lg_x h Hleg) as [X1 X2 X3 X4]. destruct (lg_y h Hleg) as [Y1 Y2 Y3 Y4].
    assert (R0 : forall origin size, 0 <= origin < size -> size <= 2 ^ 31 ->
              region_lo 0 (2 ^ d) origin size = origin).
    { clear. intros origin size H1 H2. unfold region_lo. rewrite Z.mul_0_l.
      change (wrap32 0) with 0. change (2 ^ 31) with 2147483648 in H2.
      rewrite Z.add_0_l, wrap32_small by (rewrite two32_val; lia). lia. }
    assert (R1 : forall o s origin size, region_hi (no_region w) o s (2 ^ d) origin size = size).
    { intros. unfold region_hi. rewrite Hnr. apply Z.min_id. }
    rewrite (keys_bounds ks (fst (h_origin h)) (snd (h_origin h)) (fst (h_size h)) (snd (h_size h)) Hks);
      [|rewrite Hox; apply R0; lia|rewrite Hoy; apply R0; lia|apply R1|apply R1|lia..].
    clear R0 R1.
    fold (tiles (fst (h_size h)) (fst (h_torigin h)) (fst (h_tsize h))).
    fold (tiles (snd (h_size h)) (snd (h_torigin h)) (snd (h_tsize h))).
    fold (tiles_x h) (tiles_y h). rewrite !Z.min_id.
    assert (F0 : forall o t s, 0 <= t <= o -> 1 <= s -> o < t + s -> sub_sat o t / s = 0).
    { clear. intros o t s A1 A2 A3. rewrite sub_sat_max by lia. apply Z.div_small. lia. }
    rewrite !F0 by lia. clear X1 X2 X3 X4 Y1 Y2 Y3 Y4 F0. rewrite in_all_keys.
    split.
    - intros (tx & ty & Htx & Hty & Hk).
      apply in_tile_keys in Hk. cbv zeta in Hk. destruct Hk as (_ & _ & i & Hi & Hk).
      pose proof (comps_of_nonneg h w Hw i Hi) as Hi0.
      pose proof (key_named h Hleg tx ty d _ _ _ _ i k (proj1 Hdb) Hi0 Htx Hty Hk) as Hnm.
      pose proof (comp_key_fields h _ _ _ _ _ _ _ _ _ Hk) as [_ Hkc].
      apply in_comp_keys in Hk as (c & r & Hc & _ & _ & Hr & Hk).
      apply res_key_fields in Hk as (_ & _ & Hkr).
      destruct (comp_index h _ _ Hc) as [_ Hlt].
      split; [exact Hnm|]. rewrite Hkc. split.
      { refine (proj2 (comps_of_selects h w i _) _) || refine (proj1 (comps_of_selects h w i _) _);
          [clear - Hi0 Hlt; lia|exact Hi]. }
      exists c. split; [exact Hc|]. rewrite Hkr. exact (proj2 Hr).
    - intros ((tx & ty & c & Htx & Hty & Hkt & Hkc & Hc & Hr & Hp) & Hsel & c' & Hc' & Htop).
      rewrite Hc in Hc'. apply Some_inj in Hc'. subst c'.
      destruct (comp_index h _ _ Hc) as [Hin Hlt].
      pose proof (comp_is_legal h Hleg c Hin) as Hcl.
      assert (HN : 0 <= c_NL c <= 31) by apply Hcl.
      assert (Hsubx : 1 <= fst (c_sub c)) by apply Hcl.
      assert (Hsuby : 1 <= snd (c_sub c)).
      { destruct Hcl as (_ & Hs & _). clear - Hs. lia. }
      destruct (nth_pp c (k_r k) Hcl Hr) as (_ & [Hpx _] & [Hpy _]).
      assert (Hk0 : 0 <= c_NL c - k_r k) by (clear - Hr; lia).
      unfold n_precincts in Hp.
      set (W := cells (x_span h c tx (k_r k)) (ppx c (k_r k))) in *.
      set (H := cells (y_span h c ty (k_r k)) (ppy c (k_r k))) in *.
      pose proof (cells_nonneg (x_span h c tx (k_r k)) (ppx c (k_r k)) Hpx) as HW0.
      pose proof (cells_nonneg (y_span h c ty (k_r k)) (ppy c (k_r k)) Hpy) as HH0.
      fold W in HW0. fold H in HH0.
      assert (HW : 0 < W) by (clear - HW0 HH0 Hp; nia).
      assert (Hpxr : 0 <= k_p k mod W < W) by (apply Z.mod_pos_bound; exact HW).
      assert (Hpyr : 0 <= k_p k / W < H).
      { clear - Hp HW. split; [apply Z.div_pos; lia|apply Z.div_lt_upper_bound; lia]. }
      destruct (axis_whole (h_irreversible h) _ _ _ _ tx _ _ _ _ (lg_x h Hleg) Htx Hsubx Hk0 Hpx Hpxr)
        as (T1 & T2 & T3 & T4 & T5).
      destruct (axis_whole (h_irreversible h) _ _ _ _ ty _ _ _ _ (lg_y h Hleg) Hty Hsuby Hk0 Hpy Hpyr)
        as (U1 & U2 & U3 & U4 & U5).
      fold (x_tile h tx) in T1, T2, T3, T4, T5. fold (y_tile h ty) in U1, U2, U3, U4, U5.
      exists tx, ty. split; [exact Htx|]. split; [exact Hty|].
      apply in_tile_keys. cbv zeta. rewrite T1, T2, U1, U2.
      split; [exact T3|]. split; [exact U3|].
      exists (k_c k). split; [apply comps_of_selects; [clear - Hkc Hlt; lia|exact Hsel]|].
      apply in_comp_keys. exists c, (k_r k).
      split; [exact Hc|]. split; [exact T4|]. split; [exact U4|].
      split; [split; [exact (proj1 Hr)|exact Htop]|].
      apply in_res_keys. exists (k_p k mod W), (k_p k / W). split.
      { unfold at_cell. fold W. destruct k as [kt kc kr kp]. cbn [k_t k_c k_r k_p] in *.
        rewrite Hkt. f_equal. rewrite Z.mul_comm. apply Z.div_mod. clear - HW. lia. }
      split; [exact T5|exact U5].
  Qed.

  (** Nothing far from the region is listed. *)
  Lemma no_excess ks k :
    resolve_view_window x w = ret ks ->
    u32 (fst (asked_x h w d)) -> u32 (snd (asked_x h w d)) ->
    u32 (fst (asked_y h w d)) -> u32 (snd (asked_y h w d)) -> In k ks ->
    exists tx ty i c r qx qy nx ny sx_ sy_,
      0 <= tx < tiles_x h /\ 0 <= ty < tiles_y h /\
      nth_error (h_comps h) (Z.to_nat i) = Some c /\ selects w i /\
      0 <= r <= top_res c d /\ k = at_cell h c tx ty i r qx qy /\
      nx / 2 ^ ppx c r = fst (x_span h c tx r) / 2 ^ ppx c r + qx /\
      ny / 2 ^ ppy c r = fst (y_span h c ty r) / 2 ^ ppy c r + qy /\
      sample_in (fst (c_sub c)) sx_ (asked_x h w d) (x_tile h tx) /\
      sample_in (snd (c_sub c)) sy_ (asked_y h w d) (y_tile h ty) /\
      Z.abs (nx - sx_ / 2 ^ (c_NL c - r)) <= margin (h_irreversible h) (c_NL c - r) /\
      Z.abs (ny - sy_ / 2 ^ (c_NL c - r)) <= margin (h_irreversible h) (c_NL c - r).
  Proof.
    intros Hks Ux1 Ux2 Uy1 Uy2 Hin. pose proof d_bound as Hdb.
    assert (RX := region_exact (ox w) (sx w) (fst (h_origin h)) (fst (h_size h))).
    assert (RY := region_exact (oy w) (sy w) (snd (h_origin h)) (snd (h_size h))).
    cbv zeta in RX, RY. fold (asked_x h w d) in RX. fold (asked_y h w d) in RY.
    destruct RX as [RAx RBx]; [apply Hw|apply Hw| | |exact Ux1|exact Ux2|].
    1-2: destruct (lg_x h Hleg) as [L1 L2 _ _]; clear - L1 L2; lia.
    destruct RY as [RAy RBy]; [apply Hw|apply Hw| | |exact Uy1|exact Uy2|].
    1-2: destruct (lg_y h Hleg) as [L1 L2 _ _]; clear - L1 L2; lia.
    destruct (resolve_exact h Hleg Hcnt w Hw) as (d' & Ed & _ & HH).
    fold x in Ed. rewrite Hd in Ed. apply ret_inj in Ed. subst d'. cbv zeta in HH.
    destruct HH as (_ & _ & _ & _ & E). fold x in E. rewrite Hks in E. apply ret_inj in E.
    rewrite RAx, RBx, RAy, RBy in E. clear RAx RBx RAy RBy Hks.
    subst ks. destruct (_ || _); [destruct Hin|].
    apply in_all_keys in Hin as (tx & ty & Htx & Hty & Hk).
    assert (Htx' : 0 <= tx < tiles_x h).
    { destruct (lg_x h Hleg) as [X1 X2 X3 _]. split.
      - refine (Z.le_trans _ _ _ _ (proj1 Htx)). clear - X3. apply Z.div_pos; [|lia].
        unfold sub_sat. destruct (_ <? _) eqn:Eb; lia.
      - refine (Z.lt_le_trans _ _ _ (proj2 Htx) _). apply Z.le_min_l. }
    assert (Hty' : 0 <= ty < tiles_y h).
    { destruct (lg_y h Hleg) as [X1 X2 X3 _]. split.
      - refine (Z.le_trans _ _ _ _ (proj1 Hty)). clear - X3. apply Z.div_pos; [|lia].
        unfold sub_sat. destruct (_ <? _) eqn:Eb; lia.
      - refine (Z.lt_le_trans _ _ _ (proj2 Hty) _). apply Z.le_min_l. }
    clear Htx Hty.
    pose proof (tile_span_ok _ _ _ _ tx (lg_x h Hleg) Htx') as Hxt.
    pose proof (tile_span_ok _ _ _ _ ty (lg_y h Hleg) Hty') as Hyt.
    cbv zeta in Hxt, Hyt. fold (x_tile h tx) in Hxt. fold (y_tile h ty) in Hyt.
    apply in_tile_keys in Hk. cbv zeta in Hk. destruct Hk as (_ & _ & i & Hi & Hk).
    pose proof (comps_of_nonneg h w Hw i Hi) as Hi0.
    apply in_comp_keys in Hk as (c & r & Hc & Lx & Ly & Hr & Hk).
    destruct (comp_index h _ _ Hc) as [Hinc Hlt].
    pose proof (comp_is_legal h Hleg c Hinc) as Hcl.
    assert (HN : 0 <= c_NL c <= 31) by apply Hcl.
    assert (Hsubx : 1 <= fst (c_sub c)) by apply Hcl.
    assert (Hsuby : 1 <= snd (c_sub c)).
    { destruct Hcl as (_ & Hs & _). clear - Hs. lia. }
    assert (HrNL : 0 <= r <= c_NL c) by (clear - Hr Hdb HN; unfold top_res in Hr; lia).
    destruct (nth_pp c r Hcl HrNL) as (_ & [Hpx _] & [Hpy _]).
    destruct (x_span_ok h Hleg c tx r Hinc Htx' HrNL) as [[SX _] _].
    destruct (y_span_ok h Hleg c ty r Hinc Hty' HrNL) as [[SY _] _].
    assert (Hk0 : 0 <= c_NL c - r) by (clear - HrNL; lia).
    apply in_res_keys in Hk as (qx & qy & -> & Qx & Qy).
    assert (AX : 0 <= ceil_div (Z.max (Z.min (fst (asked_x h w d)) (fst (h_size h))) (fst (x_tile h tx)))
                        (fst (c_sub c))) by (apply ceil_nonneg; clear - Hsubx Hxt; lia).
    assert (AY : 0 <= ceil_div (Z.max (Z.min (fst (asked_y h w d)) (snd (h_size h))) (fst (y_tile h ty)))
                        (snd (c_sub c))) by (apply ceil_nonneg; clear - Hsuby Hyt; lia).
    destruct (axis_excess _ _ _ _ _ _ _ _ Hk0 Hpx (conj AX Lx) SX Qx) as (nx & sx_ & X1 & X2 & X3).
    destruct (axis_excess _ _ _ _ _ _ _ _ Hk0 Hpy (conj AY Ly) SY Qy) as (ny & sy_ & Y1 & Y2 & Y3).
    assert (Box : forall sub a b tl s size, 1 <= sub -> snd tl <= size ->
       ceil_div (Z.max (Z.min a size) (fst tl)) sub <= s < ceil_div (Z.min (Z.min b size) (snd tl)) sub ->
       sample_in sub s (a, b) tl).
    { clear. intros sub a b tl s size Hs Ht [H1 H2]. unfold sample_in. cbn [fst snd].
      assert (G1 : Z.max (Z.min a size) (fst tl) <= s * sub).
      { destruct (Z.leb_spec (Z.max (Z.min a size) (fst tl)) (s * sub)) as [|G]; [assumption|].
        pose proof (ceil_lt (Z.max (Z.min a size) (fst tl)) sub s ltac:(lia)). lia. }
      assert (G2 : s * sub < Z.min (Z.min b size) (snd tl)).
      { destruct (Z.ltb_spec (s * sub) (Z.min (Z.min b size) (snd tl))) as [|G]; [assumption|].
        pose proof (ceil_le (Z.min (Z.min b size) (snd tl)) sub s ltac:(lia)). lia. }
      lia. }
    exists tx, ty, i, c, r, qx, qy, nx, ny, sx_, sy_.
    split; [exact Htx'|]. split; [exact Hty'|]. split; [exact Hc|].
    split. { apply (comps_of_selects h w i); [clear - Hi0 Hlt; lia|exact Hi]. }
    split; [exact Hr|]. split; [reflexivity|]. split; [exact X1|]. split; [exact Y1|].
    split; [rewrite (surjective_pairing (asked_x h w d)); apply (Box _ _ _ _ _ (fst (h_size h)));
            [exact Hsubx|apply Hxt|exact X2]|].
    split; [rewrite (surjective_pairing (asked_y h w d)); apply (Box _ _ _ _ _ (snd (h_size h)));
            [exact Hsuby|apply Hyt|exact Y2]|].
    split; [exact X3|exact Y3].
  Qed.
End Cover.
