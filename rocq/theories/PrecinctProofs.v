From Verif Require Import Base BaseLemmas PrecinctModel PrecinctSpec.

(** * The exception monad *)

Lemma ret_bindx {A B} (a : A) (f : A -> ex B) : bindx (ret a) f = f a.
Proof. reflexivity. Qed.

Lemma mapM_ok {A B} (f : A -> ex B) (g : A -> B) l :
  (forall a, In a l -> f a = ret (g a)) -> mapM f l = ret (map g l).
Proof.
  induction l as [|a l IH]; intros H; cbn [mapM map]; [reflexivity|].
  rewrite H by (left; reflexivity). cbn [bindx].
  rewrite ret_bindx, IH by (intros; apply H; right; assumption). reflexivity.
Qed.

Lemma mapM_ext {A B} (f g : A -> ex B) l :
  (forall a, In a l -> f a = g a) -> mapM f l = mapM g l.
Proof.
  induction l as [|a l IH]; intros H; cbn [mapM]; [reflexivity|].
  rewrite H by (left; reflexivity). rewrite IH by (intros; apply H; right; assumption).
  reflexivity.
Qed.

Lemma ret_inj {A} (a b : A) : ret a = ret b -> a = b.
Proof. unfold ret. congruence. Qed.

(** * Ceiling division *)

Lemma ceil_le a b q : 0 < b -> (ceil_div a b <= q <-> a <= q * b).
Proof. intros. unfold ceil_div. split; intros; nia. Qed.

Lemma floor_ge a b q : 0 < b -> (q <= a / b <-> q * b <= a).
Proof. intros. split; intros; nia. Qed.

Lemma ceil_lt a b q : 0 < b -> (q < ceil_div a b <-> q * b < a).
Proof. intros. pose proof (ceil_le a b q H). lia. Qed.

Lemma floor_lt a b q : 0 < b -> (a / b < q <-> a < q * b).
Proof. intros. pose proof (floor_ge a b q H). lia. Qed.

Lemma ceil_mono a a' b : 0 < b -> a <= a' -> ceil_div a b <= ceil_div a' b.
Proof.
  intros. apply ceil_le; [assumption|].
  pose proof (proj1 (ceil_le a' b (ceil_div a' b) H) ltac:(lia)). lia.
Qed.

Lemma ceil_nonneg a b : 0 < b -> 0 <= a -> 0 <= ceil_div a b.
Proof. intros. unfold ceil_div. nia. Qed.

Lemma ceil_le_self a b : 0 < b -> 0 <= a -> ceil_div a b <= a.
Proof. intros. apply ceil_le; nia. Qed.

Lemma ceil_pos a b : 0 < b -> 0 < a -> 0 < ceil_div a b.
Proof. intros. apply ceil_lt; lia. Qed.

Lemma ceil_ceil a b c : 0 < b -> 0 < c ->
  ceil_div (ceil_div a b) c = ceil_div a (b * c).
Proof.
  intros Hb Hc. apply Z.le_antisymm.
  - apply ceil_le; [lia|]. apply ceil_le; [lia|].
    pose proof (proj1 (ceil_le a (b * c) _ ltac:(nia)) (Z.le_refl _)). nia.
  - apply ceil_le; [nia|].
    pose proof (proj1 (ceil_le (ceil_div a b) c _ Hc) (Z.le_refl _)).
    pose proof (proj1 (ceil_le a b _ Hb) (Z.le_refl _)). nia.
Qed.

Lemma floor_le_ceil a b : 0 < b -> a / b <= ceil_div a b.
Proof. intros. unfold ceil_div. nia. Qed.

Lemma cdiv_exact a b : 0 <= a -> 1 <= b -> a + (b - 1) < two32 ->
  cdiv a b = ret (ceil_div a b).
Proof.
  intros. unfold cdiv. rewrite (proj2 (Z.eqb_neq b 0)) by lia.
  rewrite wrap32_small by lia. f_equal. unfold ceil_div. nia.
Qed.

Lemma udiv_exact a b : 1 <= b -> udiv a b = ret (a / b).
Proof. intros. unfold udiv. rewrite (proj2 (Z.eqb_neq b 0)) by lia. reflexivity. Qed.

Lemma shl1_exact n : 0 <= n <= 31 -> shl1 n = ret (2 ^ n).
Proof.
  intros. unfold shl1.
  rewrite (proj2 (Z.leb_le 0 n)), (proj2 (Z.ltb_lt n 32)) by lia. reflexivity.
Qed.

Lemma two32_val : two32 = 4294967296. Proof. reflexivity. Qed.
Lemma two64_val : two64 = 18446744073709551616. Proof. reflexivity. Qed.

Lemma pow2_bounds n : 0 <= n <= 31 -> 1 <= 2 ^ n <= 2 ^ 31.
Proof.
  intros. split.
  - change 1 with (2 ^ 0). apply Z.pow_le_mono_r; lia.
  - apply Z.pow_le_mono_r; lia.
Qed.

Lemma pow2_15 n : 0 <= n <= 15 -> 1 <= 2 ^ n <= 32768.
Proof.
  intros. split.
  - change 1 with (2 ^ 0). apply Z.pow_le_mono_r; lia.
  - change 32768 with (2 ^ 15). apply Z.pow_le_mono_r; lia.
Qed.

(** * Intervals *)

Definition span_ok (ab : Z * Z) : Prop := 0 <= fst ab <= snd ab /\ snd ab <= 2 ^ 31.

Lemma tiles_bound size origin tsize torigin i :
  axis_legal size origin tsize torigin -> 0 <= i < tiles size torigin tsize ->
  torigin + i * tsize < size.
Proof.
  intros [? ? ? ?] [H1 H2]. unfold tiles in H2. apply ceil_lt in H2; lia.
Qed.

Lemma tiles_pos size origin tsize torigin :
  axis_legal size origin tsize torigin -> 1 <= tiles size torigin tsize <= 2 ^ 31.
Proof.
  intros [? ? ? ?]. unfold tiles. split.
  - pose proof (ceil_pos (size - torigin) tsize). lia.
  - apply ceil_le; nia.
Qed.

Lemma tile_span_ok size origin tsize torigin i :
  axis_legal size origin tsize torigin -> 0 <= i < tiles size torigin tsize ->
  let ab := tile_span size origin tsize torigin i in
  0 <= fst ab < snd ab /\ snd ab <= 2 ^ 31 /\ snd ab <= size /\ origin <= fst ab.
Proof.
  intros Hl Hi. pose proof (tiles_bound _ _ _ _ _ Hl Hi). destruct Hl.
  unfold tile_span. cbn [fst snd].
  assert (i = 0 \/ 1 <= i) as [->|] by lia; [lia|nia].
Qed.

Lemma tile_lo_exact size origin tsize torigin i :
  axis_legal size origin tsize torigin -> 0 <= i < tiles size torigin tsize ->
  tile_lo torigin tsize origin i = fst (tile_span size origin tsize torigin i).
Proof.
  intros Hl Hi. pose proof (tiles_bound _ _ _ _ _ Hl Hi). destruct Hl.
  unfold tile_lo, tile_span. cbn [fst].
  rewrite (wrap32_small (i * tsize)) by (rewrite two32_val; nia).
  rewrite wrap32_small by (rewrite two32_val; nia). reflexivity.
Qed.

Lemma tile_hi_exact size origin tsize torigin i :
  axis_legal size origin tsize torigin -> 0 <= i < tiles size torigin tsize ->
  tile_hi torigin tsize size i = snd (tile_span size origin tsize torigin i).
Proof.
  intros Hl Hi. pose proof (tiles_bound _ _ _ _ _ Hl Hi). destruct Hl.
  change (2 ^ 31) with 2147483648 in *.
  unfold tile_hi, tile_span. cbn [snd].
  assert (0 <= (i + 1) * tsize < 4294967296) by nia.
  rewrite (wrap32_small ((i + 1) * tsize)) by (rewrite two32_val; nia).
  rewrite wrap32_small by (rewrite two32_val; nia). reflexivity.
Qed.

Lemma tiles_along_exact size origin tsize torigin :
  axis_legal size origin tsize torigin ->
  tiles_along size torigin tsize = ret (tiles size torigin tsize).
Proof.
  intros []. unfold tiles_along, tiles.
  rewrite wrap32_small by (rewrite two32_val; lia).
  apply cdiv_exact; rewrite ?two32_val; lia.
Qed.

Lemma comp_span_ok sub ab : 1 <= sub -> span_ok ab -> span_ok (comp_span sub ab).
Proof.
  intros Hs [H1 H2]. unfold span_ok, comp_span. cbn [fst snd].
  pose proof (ceil_nonneg (fst ab) sub). pose proof (ceil_mono (fst ab) (snd ab) sub).
  pose proof (ceil_le_self (snd ab) sub). lia.
Qed.

Lemma res_span_ok k ab : 0 <= k -> span_ok ab -> span_ok (res_span k ab).
Proof.
  intros Hk H. apply (comp_span_ok (2 ^ k)); [|assumption].
  change 1 with (2 ^ 0). apply Z.pow_le_mono_r; lia.
Qed.

Lemma cells_nonneg ab pp : 0 <= pp -> 0 <= cells ab pp.
Proof.
  intros Hp. unfold cells. destruct (Z.ltb_spec (fst ab) (snd ab)); [|lia].
  pose proof (Z.pow_pos_nonneg 2 pp ltac:(lia) Hp).
  pose proof (floor_le_ceil (fst ab) (2 ^ pp)).
  pose proof (ceil_mono (fst ab) (snd ab) (2 ^ pp)). lia.
Qed.

Lemma cells_bound ab pp : 0 <= pp -> span_ok ab -> cells ab pp <= 2 ^ 31.
Proof.
  intros Hp [H1 H2]. unfold cells. destruct (Z.ltb_spec (fst ab) (snd ab)); [|lia].
  pose proof (Z.pow_pos_nonneg 2 pp ltac:(lia) Hp).
  pose proof (ceil_le_self (snd ab) (2 ^ pp)).
  assert (0 <= fst ab / 2 ^ pp) by (apply Z.div_pos; lia). lia.
Qed.

(** Cell number [q] holds a position exactly when [q] is below the count. *)
Lemma cells_iff ab pp q : 0 <= pp ->
  ((exists n, in_cell ab pp q n) <-> 0 <= q < cells ab pp).
Proof.
  intros Hp. unfold in_cell, cells. destruct ab as [a b]. cbn [fst snd].
  pose proof (Z.pow_pos_nonneg 2 pp ltac:(lia) Hp) as HP.
  set (P := 2 ^ pp) in *. clearbody P. split.
  - intros (n & [H1 H2] & H3). rewrite (proj2 (Z.ltb_lt a b)) by lia.
    assert (a / P <= n / P) by (apply Z.div_le_mono; lia).
    assert (n / P < ceil_div b P) by (apply ceil_lt; [lia|]; nia). lia.
  - destruct (Z.ltb_spec a b) as [Hab|]; [|lia]. intros Hq.
    exists (Z.max a ((a / P + q) * P)).
    assert (Hlt : a / P + q < ceil_div b P) by lia.
    apply ceil_lt in Hlt; [|lia].
    split; [lia|].
    destruct (Z.max_spec a ((a / P + q) * P)) as [[? ->]|[? ->]].
    + rewrite Z.div_mul by lia. reflexivity.
    + assert (a / P + q <= a / P) by (apply floor_ge; lia).
      assert (q = 0) by lia. subst q. lia.
Qed.

Lemma in_cell_range ab pp q n : 0 <= pp -> in_cell ab pp q n -> 0 <= q < cells ab pp.
Proof. intros Hp H. apply cells_iff; [assumption|]. exists n. exact H. Qed.

Lemma axis_exact t0 t1 k pp : 0 <= k <= 31 -> 0 <= pp <= 15 -> span_ok (t0, t1) ->
  axis t0 t1 (2 ^ k) pp =
  ret (fst (res_span k (t0, t1)), cells (res_span k (t0, t1)) pp).
Proof.
  intros Hk Hp Hs. unfold axis.
  pose proof (pow2_bounds k Hk) as Hk2. pose proof (pow2_15 pp Hp) as Hp2.
  pose proof (res_span_ok k (t0, t1) ltac:(lia) Hs) as [Hr1 Hr2].
  destruct Hs as [Hs1 Hs2]. cbn [fst snd] in *.
  change (2 ^ 31) with 2147483648 in *.
  rewrite !cdiv_exact by (rewrite ?two32_val; lia).
  rewrite !ret_bindx, shl1_exact by lia. rewrite ret_bindx.
  unfold res_span in *. cbn [fst snd] in *.
  rewrite cdiv_exact by (rewrite ?two32_val; lia). rewrite ret_bindx.
  rewrite udiv_exact by lia. rewrite ret_bindx.
  unfold cells. cbn [fst snd].
  f_equal. f_equal. f_equal.
  destruct (Z.ltb_spec (ceil_div t0 (2 ^ k)) (ceil_div t1 (2 ^ k))); [|reflexivity].
  apply wrap32_small. rewrite two32_val.
  pose proof (cells_nonneg (ceil_div t0 (2 ^ k), ceil_div t1 (2 ^ k)) pp ltac:(lia)).
  pose proof (cells_bound (ceil_div t0 (2 ^ k), ceil_div t1 (2 ^ k)) pp ltac:(lia)
                (conj Hr1 Hr2)).
  unfold cells in *. cbn [fst snd] in *.
  rewrite (proj2 (Z.ltb_lt _ _)) in * by assumption.
  change (2 ^ 31) with 2147483648 in *. lia.
Qed.

(** * What [build] returns *)

Definition row_of (h : header) (c : comp) (tx ty r cum : Z) : resinfo :=
  {| npw := cells (x_span h c tx r) (ppx c r);
     nph := cells (y_span h c ty r) (ppy c r);
     s_offset := cum; log2PPx := ppx c r; log2PPy := ppy c r;
     respos0_x := fst (x_span h c tx r); respos0_y := fst (y_span h c ty r) |}.

Fixpoint rows_of (h : header) (c : comp) (tx ty : Z) (rs : list Z) (cum : Z)
  : list resinfo :=
  match rs with
  | [] => []
  | r :: more =>
      row_of h c tx ty r cum ::
      rows_of h c tx ty more (cum + n_precincts h c tx ty r)
  end.

Definition tc_of (h : header) (tx ty : Z) (c : comp) : tcinfo :=
  {| NL := c_NL c; rows := rows_of h c tx ty (zseq (c_NL c + 1)) 0;
     total := sumf (n_precincts h c tx ty) (zseq (c_NL c + 1)) |}.

Definition index_of_header (h : header) : index :=
  {| num_tiles_x := tiles_x h; num_tiles_y := tiles_y h; hdr := h;
     tcs := concat (concat (map (fun ty =>
              map (fun tx => map (tc_of h tx ty) (h_comps h)) (zseq (tiles_x h)))
              (zseq (tiles_y h)))) |}.

Lemma nth_pp c r : comp_legal c -> 0 <= r <= c_NL c ->
  nth_error (c_pp c) (Z.to_nat r) = Some (ppx c r, ppy c r) /\
  0 <= ppx c r <= 15 /\ 0 <= ppy c r <= 15.
Proof.
  intros (_ & _ & HN & Hl & Hf) Hr. unfold ppx, ppy.
  assert (Hlt : (Z.to_nat r < length (c_pp c))%nat) by (unfold zlen in Hl; lia).
  rewrite (nth_error_nth' _ (0, 0) Hlt).
  rewrite Forall_forall in Hf.
  pose proof (Hf _ (nth_In _ (0, 0) Hlt)) as Hp.
  destruct (nth (Z.to_nat r) (c_pp c) (0, 0)). cbn [fst snd] in *. auto.
Qed.

Lemma sumf_nonneg {A} (f : A -> Z) l : (forall a, In a l -> 0 <= f a) -> 0 <= sumf f l.
Proof.
  induction l as [|a l IH]; intros H; cbn [sumf fold_right]; [lia|].
  pose proof (H a (or_introl eq_refl)).
  assert (0 <= sumf f l) by (apply IH; intros; apply H; right; assumption).
  unfold sumf in *. lia.
Qed.

Lemma n_precincts_nonneg h c tx ty r : comp_legal c -> 0 <= r <= c_NL c ->
  0 <= n_precincts h c tx ty r.
Proof.
  intros Hc Hr. destruct (nth_pp c r Hc Hr) as (_ & Hx & Hy).
  unfold n_precincts. apply Z.mul_nonneg_nonneg; apply cells_nonneg; lia.
Qed.

Section Build.
  Variable h : header.
  Hypothesis Hleg : legal h.

  Lemma x_comp_ok c tx : In c (h_comps h) -> 0 <= tx < tiles_x h ->
    span_ok (comp_span (fst (c_sub c)) (tile_span (fst (h_size h)) (fst (h_origin h))
               (fst (h_tsize h)) (fst (h_torigin h)) tx)).
  Proof.
    intros Hc Ht. pose proof (lg_comps h Hleg) as Hf. rewrite Forall_forall in Hf.
    destruct (Hf c Hc) as (Hs & _). apply comp_span_ok; [lia|].
    destruct (tile_span_ok _ _ _ _ tx (lg_x h Hleg) Ht) as (? & ? & ? & ?).
    split; lia.
  Qed.

  Lemma y_comp_ok c ty : In c (h_comps h) -> 0 <= ty < tiles_y h ->
    span_ok (comp_span (snd (c_sub c)) (tile_span (snd (h_size h)) (snd (h_origin h))
               (snd (h_tsize h)) (snd (h_torigin h)) ty)).
  Proof.
    intros Hc Ht. pose proof (lg_comps h Hleg) as Hf. rewrite Forall_forall in Hf.
    destruct (Hf c Hc) as (_ & Hs & _). apply comp_span_ok; [lia|].
    destruct (tile_span_ok _ _ _ _ ty (lg_y h Hleg) Ht) as (? & ? & ? & ?).
    split; lia.
  Qed.

  Lemma comp_is_legal c : In c (h_comps h) -> comp_legal c.
  Proof.
    intros Hc. pose proof (lg_comps h Hleg) as Hf. rewrite Forall_forall in Hf.
    exact (Hf c Hc).
  Qed.

  Lemma x_span_ok c tx r : In c (h_comps h) -> 0 <= tx < tiles_x h ->
    0 <= r <= c_NL c -> span_ok (x_span h c tx r).
  Proof.
    intros Hc Ht Hr. apply res_span_ok; [|apply x_comp_ok; assumption]. lia.
  Qed.

  Lemma y_span_ok c ty r : In c (h_comps h) -> 0 <= ty < tiles_y h ->
    0 <= r <= c_NL c -> span_ok (y_span h c ty r).
  Proof.
    intros Hc Ht Hr. apply res_span_ok; [|apply y_comp_ok; assumption]. lia.
  Qed.

  Lemma resolutions_exact c tx ty rs cum :
    In c (h_comps h) -> 0 <= tx < tiles_x h -> 0 <= ty < tiles_y h ->
    Forall (fun r => 0 <= r <= c_NL c) rs -> 0 <= cum ->
    cum + sumf (n_precincts h c tx ty) rs < two32 ->
    let x := comp_span (fst (c_sub c)) (tile_span (fst (h_size h)) (fst (h_origin h))
               (fst (h_tsize h)) (fst (h_torigin h)) tx) in
    let y := comp_span (snd (c_sub c)) (tile_span (snd (h_size h)) (snd (h_origin h))
               (snd (h_tsize h)) (snd (h_torigin h)) ty) in
    resolutions c (fst x) (fst y) (snd x) (snd y) rs cum =
    ret (rows_of h c tx ty rs cum, cum + sumf (n_precincts h c tx ty) rs).
  Proof.
    intros Hc Htx Hty Hrs Hcum Hfit x y.
    pose proof (x_comp_ok c tx Hc Htx) as Hx. pose proof (y_comp_ok c ty Hc Hty) as Hy.
    pose proof (comp_is_legal c Hc) as Hcl.
    fold x in Hx. fold y in Hy.
    revert cum Hcum Hfit. induction rs as [|r rs IH]; intros cum Hcum Hfit.
    - cbn [resolutions rows_of sumf fold_right]. rewrite Z.add_0_r. reflexivity.
    - inversion Hrs as [|? ? Hr Hrs']; subst.
      assert (HN : 0 <= c_NL c <= 31) by apply Hcl.
      cbn [resolutions rows_of].
      rewrite shl1_exact by lia. rewrite ret_bindx.
      destruct (nth_pp c r Hcl Hr) as (Hnth & Hpx & Hpy).
      unfold precinct_size. rewrite Hnth, ret_bindx.
      rewrite axis_exact by (try lia; destruct x; exact Hx). rewrite ret_bindx.
      rewrite axis_exact by (try lia; destruct y; exact Hy). rewrite ret_bindx.
      change (sumf (n_precincts h c tx ty) (r :: rs))
        with (n_precincts h c tx ty r + sumf (n_precincts h c tx ty) rs) in *.
      assert (Hxs : res_span (c_NL c - r) (fst x, snd x) = x_span h c tx r)
        by (unfold x_span; fold x; destruct x; reflexivity).
      assert (Hys : res_span (c_NL c - r) (fst y, snd y) = y_span h c ty r)
        by (unfold y_span; fold y; destruct y; reflexivity).
      rewrite Hxs, Hys.
      fold (n_precincts h c tx ty r).
      pose proof (n_precincts_nonneg h c tx ty r Hcl Hr) as Hn.
      assert (Hs : 0 <= sumf (n_precincts h c tx ty) rs).
      { apply sumf_nonneg. intros a Ha. rewrite Forall_forall in Hrs'.
        apply n_precincts_nonneg; auto. }
      rewrite (wrap32_small (n_precincts h c tx ty r)) by lia.
      rewrite (wrap32_small (cum + _)) by lia.
      rewrite IH by (try assumption; lia).
      rewrite ret_bindx. unfold row_of. rewrite <- Z.add_assoc. reflexivity.
  Qed.

  Hypothesis Hcnt : countable h.

  Lemma build_tc_exact c tx ty :
    In c (h_comps h) -> 0 <= tx < tiles_x h -> 0 <= ty < tiles_y h ->
    build_tile_component c
      (tile_lo (fst (h_torigin h)) (fst (h_tsize h)) (fst (h_origin h)) tx)
      (tile_lo (snd (h_torigin h)) (snd (h_tsize h)) (snd (h_origin h)) ty)
      (tile_hi (fst (h_torigin h)) (fst (h_tsize h)) (fst (h_size h)) tx)
      (tile_hi (snd (h_torigin h)) (snd (h_tsize h)) (snd (h_size h)) ty)
    = ret (tc_of h tx ty c).
  Proof.
    intros Hc Htx Hty.
    rewrite (tile_lo_exact _ _ _ _ tx (lg_x h Hleg) Htx).
    rewrite (tile_lo_exact _ _ _ _ ty (lg_y h Hleg) Hty).
    rewrite (tile_hi_exact _ _ _ _ tx (lg_x h Hleg) Htx).
    rewrite (tile_hi_exact _ _ _ _ ty (lg_y h Hleg) Hty).
    pose proof (tile_span_ok _ _ _ _ tx (lg_x h Hleg) Htx) as Hx.
    pose proof (tile_span_ok _ _ _ _ ty (lg_y h Hleg) Hty) as Hy.
    pose proof (comp_is_legal c Hc) as (Hsx & Hsy & HN & Hl & Hf).
    cbv zeta in Hx, Hy. unfold build_tile_component.
    change (2 ^ 31) with 2147483648 in *.
    rewrite !cdiv_exact by (rewrite ?two32_val; lia). rewrite !ret_bindx.
    pose proof (resolutions_exact c tx ty (zseq (c_NL c + 1)) 0 Hc Htx Hty) as HR.
    cbv zeta in HR. unfold comp_span in HR. cbn [fst snd] in HR.
    rewrite HR.
    - rewrite ret_bindx. rewrite Z.add_0_l. reflexivity.
    - apply Forall_forall. intros r Hr. apply zseq_In in Hr. lia.
    - lia.
    - rewrite Z.add_0_l. apply Hcnt; assumption.
  Qed.

  Lemma n_tiles_small : 1 <= tiles_x h /\ 1 <= tiles_y h /\ tiles_x h * tiles_y h <= 65535.
  Proof.
    pose proof (tiles_pos _ _ _ _ (lg_x h Hleg)).
    pose proof (tiles_pos _ _ _ _ (lg_y h Hleg)).
    pose proof (lg_tiles h Hleg). unfold tiles_x, tiles_y in *. lia.
  Qed.

  Lemma build_exact : build h = ret (index_of_header h).
  Proof.
    unfold build.
    rewrite (tiles_along_exact _ _ _ _ (lg_x h Hleg)), ret_bindx.
    rewrite (tiles_along_exact _ _ _ _ (lg_y h Hleg)), ret_bindx.
    pose proof n_tiles_small as (H1 & H2 & H3).
    fold (tiles_x h) (tiles_y h).
    rewrite (proj2 (Z.leb_gt two32 (tiles_x h * tiles_y h))) by (rewrite two32_val; lia).
    rewrite (mapM_ok _ (fun ty => map (fun tx => map (tc_of h tx ty) (h_comps h))
                                    (zseq (tiles_x h)))).
    - rewrite ret_bindx. reflexivity.
    - intros ty Hty. apply zseq_In in Hty. apply mapM_ok.
      intros tx Htx. apply zseq_In in Htx. apply mapM_ok.
      intros c Hc. apply build_tc_exact; assumption.
  Qed.
End Build.

(** * Looking things up in the index *)

Lemma nth_error_concat {A} (l : list (list A)) m i j :
  Forall (fun x => length x = m) l -> (j < m)%nat -> (i < length l)%nat ->
  nth_error (concat l) (i * m + j) = nth_error (nth i l []) j.
Proof.
  intros Hf Hj. revert i. induction Hf as [|x l Hx Hf IH]; intros i Hi;
    cbn [length] in Hi; [lia|].
  cbn [concat]. destruct i as [|i].
  - cbn [nth]. rewrite nth_error_app1 by (cbn; lia). f_equal.
  - cbn [nth]. rewrite nth_error_app2 by (cbn; lia).
    replace (S i * m + j - length x)%nat with (i * m + j)%nat by (cbn; lia).
    apply IH. lia.
Qed.

Lemma concat_length_uniform {A} (l : list (list A)) m :
  Forall (fun x => length x = m) l -> length (concat l) = (length l * m)%nat.
Proof.
  induction 1 as [|x l Hx _ IH]; [reflexivity|].
  cbn [concat length]. rewrite app_length, IH, Hx. reflexivity.
Qed.

Lemma nth_map_zseq {A} (f : Z -> A) d n i : 0 <= i < n ->
  nth (Z.to_nat i) (map f (zseq n)) d = f i.
Proof.
  intros Hi. rewrite (nth_indep _ d (f 0)).
  - rewrite map_nth. f_equal. apply (zseq_nth n i Hi).
  - rewrite map_length. pose proof (zseq_len n). unfold zlen in H. lia.
Qed.

Definition offset (h : header) (c : comp) (tx ty r : Z) : Z :=
  sumf (n_precincts h c tx ty) (zseq r).

Lemma rows_of_nth h c tx ty rs cum n r :
  nth_error rs n = Some r ->
  nth_error (rows_of h c tx ty rs cum) n =
  Some (row_of h c tx ty r (cum + sumf (n_precincts h c tx ty) (firstn n rs))).
Proof.
  revert cum n. induction rs as [|a rs IH]; intros cum n Hn; destruct n as [|n];
    cbn [nth_error] in Hn; try discriminate.
  - injection Hn as ->. cbn [rows_of nth_error firstn sumf fold_right].
    rewrite Z.add_0_r. reflexivity.
  - cbn [rows_of nth_error firstn]. rewrite (IH _ _ Hn).
    change (sumf (n_precincts h c tx ty) (a :: firstn n rs))
      with (n_precincts h c tx ty a + sumf (n_precincts h c tx ty) (firstn n rs)).
    rewrite Z.add_assoc. reflexivity.
Qed.

Lemma zseq_firstn r n : 0 <= r <= n -> firstn (Z.to_nat r) (zseq n) = zseq r.
Proof.
  intros H. unfold zseq. rewrite firstn_map. f_equal.
  replace (Z.to_nat n) with (Z.to_nat r + (Z.to_nat n - Z.to_nat r))%nat by lia.
  rewrite seq_app, firstn_app, seq_length, Nat.sub_diag, firstn_O, app_nil_r.
  apply firstn_all2. rewrite seq_length. lia.
Qed.

Lemma zseq_nth_error n r : 0 <= r < n -> nth_error (zseq n) (Z.to_nat r) = Some r.
Proof.
  intros H. pose proof (zseq_nth n r H) as E. unfold znth in E.
  rewrite (nth_error_nth' _ 0); [rewrite E; reflexivity|].
  pose proof (zseq_len n ltac:(lia)) as L. unfold zlen in L. lia.
Qed.

Lemma row_exact h c tx ty r : 0 <= r <= c_NL c ->
  row (tc_of h tx ty c) r = ret (row_of h c tx ty r (offset h c tx ty r)).
Proof.
  intros Hr. unfold row, tc_of. cbn [rows].
  rewrite (rows_of_nth _ _ _ _ _ _ _ r) by (apply zseq_nth_error; lia).
  rewrite zseq_firstn by lia. reflexivity.
Qed.

Lemma sumf_app {A} (f : A -> Z) a b : sumf f (a ++ b) = sumf f a + sumf f b.
Proof.
  induction a as [|x a IH]; cbn [app]; [reflexivity|].
  unfold sumf in *. cbn [fold_right]. lia.
Qed.

Lemma offset_succ h c tx ty r : 0 <= r ->
  offset h c tx ty (r + 1) = offset h c tx ty r + n_precincts h c tx ty r.
Proof.
  intros Hr. unfold offset. rewrite zseq_snoc by lia. rewrite sumf_app.
  unfold sumf at 2. cbn [fold_right]. lia.
Qed.

Lemma offset_mono h c tx ty r r' : comp_legal c -> 0 <= r <= r' -> r' <= c_NL c + 1 ->
  offset h c tx ty r <= offset h c tx ty r'.
Proof.
  intros Hc Hr. replace r' with (r + (r' - r)) by lia.
  assert (Hd : 0 <= r' - r) by lia. revert Hd. generalize (r' - r) as d.
  apply (natlike_ind (fun d => r + d <= c_NL c + 1 ->
    offset h c tx ty r <= offset h c tx ty (r + d))).
  - rewrite Z.add_0_r. lia.
  - intros d Hd IH Hb. replace (r + Z.succ d) with ((r + d) + 1) by lia.
    rewrite offset_succ by lia.
    pose proof (n_precincts_nonneg h c tx ty (r + d) Hc ltac:(lia)). lia.
Qed.

Section Lookup.
  Variable h : header.
  Hypothesis Hleg : legal h.
  Hypothesis Hcnt : countable h.
  Let x := index_of_header h.

  Lemma num_tiles_exact : num_tiles x = tiles_x h * tiles_y h.
  Proof.
    pose proof (n_tiles_small h Hleg). unfold num_tiles, x, index_of_header.
    cbn [num_tiles_x num_tiles_y]. apply wrap32_small. rewrite two32_val. nia.
  Qed.

  Lemma tile_component_exact tx ty i c :
    0 <= tx < tiles_x h -> 0 <= ty < tiles_y h ->
    0 <= i -> nth_error (h_comps h) (Z.to_nat i) = Some c ->
    tile_component x (ty * tiles_x h + tx) i = ret (tc_of h tx ty c).
  Proof.
    intros Htx Hty Hi Hc. unfold tile_component. rewrite num_tiles_exact.
    assert (Hlt : (Z.to_nat i < length (h_comps h))%nat).
    { apply nth_error_Some. congruence. }
    unfold num_components, zlen. change (hdr x) with h.
    rewrite (proj2 (Z.leb_gt (tiles_x h * tiles_y h) (ty * tiles_x h + tx))) by nia.
    rewrite (proj2 (Z.leb_gt (Z.of_nat (length (h_comps h))) i)) by lia.
    cbn [orb]. change (tcs x) with (concat (concat (map (fun ty =>
              map (fun tx => map (tc_of h tx ty) (h_comps h)) (zseq (tiles_x h)))
              (zseq (tiles_y h))))).
    set (m := length (h_comps h)) in *.
    set (f := fun ty0 => map (fun tx0 => map (tc_of h tx0 ty0) (h_comps h)) (zseq (tiles_x h))).
    assert (Hnx : length (zseq (tiles_x h)) = Z.to_nat (tiles_x h)).
    { pose proof (zseq_len (tiles_x h) ltac:(lia)) as L. unfold zlen in L. lia. }
    assert (Hny : length (zseq (tiles_y h)) = Z.to_nat (tiles_y h)).
    { pose proof (zseq_len (tiles_y h) ltac:(lia)) as L. unfold zlen in L. lia. }
    assert (U1 : Forall (fun y => length y = Z.to_nat (tiles_x h)) (map f (zseq (tiles_y h)))).
    { apply Forall_map. apply Forall_forall. intros a _. unfold f.
      rewrite map_length. exact Hnx. }
    assert (U2 : Forall (fun y => length y = m) (concat (map f (zseq (tiles_y h))))).
    { apply Forall_concat. apply Forall_map. apply Forall_forall. intros a _.
      unfold f. apply Forall_map. apply Forall_forall. intros b _.
      rewrite map_length. reflexivity. }
    replace (Z.to_nat ((ty * tiles_x h + tx) * Z.of_nat m + i))
      with (Z.to_nat (ty * tiles_x h + tx) * m + Z.to_nat i)%nat by nia.
    rewrite (nth_error_concat _ m).
    2: exact U2. 2: lia.
    2: { rewrite (concat_length_uniform _ _ U1), map_length, Hny. nia. }
    assert (E : nth_error (concat (map f (zseq (tiles_y h)))) (Z.to_nat (ty * tiles_x h + tx))
                = Some (map (tc_of h tx ty) (h_comps h))).
    { replace (Z.to_nat (ty * tiles_x h + tx))
        with (Z.to_nat ty * Z.to_nat (tiles_x h) + Z.to_nat tx)%nat by nia.
      rewrite (nth_error_concat _ _ _ _ U1).
      2: lia. 2: { rewrite map_length, Hny. lia. }
      rewrite nth_map_zseq by lia. unfold f.
      rewrite nth_error_map, zseq_nth_error by lia. reflexivity. }
    rewrite (nth_error_nth _ _ [] E), nth_error_map, Hc. reflexivity.
  Qed.

  Lemma comp_index k c : nth_error (h_comps h) k = Some c ->
    In c (h_comps h) /\ Z.of_nat k < zlen (h_comps h).
  Proof.
    intros H. split; [exact (nth_error_In _ _ H)|].
    assert (k < length (h_comps h))%nat by (apply nth_error_Some; congruence).
    unfold zlen. lia.
  Qed.

  (** The sequence number and the identifier of an existing precinct. *)
  Lemma id_exact k tx ty c :
    0 <= tx < tiles_x h -> 0 <= ty < tiles_y h ->
    k_t k = ty * tiles_x h + tx -> 0 <= k_c k ->
    nth_error (h_comps h) (Z.to_nat (k_c k)) = Some c ->
    0 <= k_r k <= c_NL c -> 0 <= k_p k < n_precincts h c tx ty (k_r k) ->
    let s := offset h c tx ty (k_r k) + k_p k in
    0 <= s < two32 /\ seq_no x k = ret s /\
    id_of x k = ret (k_t k + (k_c k + s * zlen (h_comps h)) * (tiles_x h * tiles_y h)).
  Proof.
    intros Htx Hty Hkt Hkc Hc Hr Hp s.
    destruct (comp_index _ _ Hc) as [Hin Hlt].
    pose proof (comp_is_legal h Hleg c Hin) as Hcl.
    pose proof (Hcnt tx ty c Htx Hty Hin) as Hfit.
    fold (offset h c tx ty (c_NL c + 1)) in Hfit.
    pose proof (offset_mono h c tx ty (k_r k + 1) (c_NL c + 1) Hcl ltac:(lia) ltac:(lia)) as Hm.
    rewrite offset_succ in Hm by lia.
    pose proof (offset_mono h c tx ty 0 (k_r k) Hcl ltac:(lia) ltac:(lia)) as Hm0.
    change (offset h c tx ty 0) with 0 in Hm0.
    change (2 ^ 32) with two32 in Hfit.
    assert (Hs : 0 <= s < two32) by (unfold s; lia).
    split; [exact Hs|].
    assert (Hseq : seq_no x k = ret s).
    { unfold seq_no. rewrite Hkt.
      rewrite (tile_component_exact tx ty (k_c k) c) by assumption.
      rewrite ret_bindx. cbn [NL tc_of].
      rewrite (proj2 (Z.ltb_ge (c_NL c) (k_r k))) by lia.
      rewrite row_exact by lia. rewrite ret_bindx.
      cbn [npw nph s_offset row_of]. fold (n_precincts h c tx ty (k_r k)).
      rewrite (wrap32_small (n_precincts h c tx ty (k_r k))) by lia.
      rewrite (proj2 (Z.leb_gt _ _)) by apply Hp.
      rewrite wrap32_small by exact Hs. reflexivity. }
    split; [exact Hseq|].
    unfold id_of. rewrite Hseq, ret_bindx. f_equal.
    rewrite num_tiles_exact. unfold num_components. change (hdr x) with h.
    pose proof (n_tiles_small h Hleg) as (Ht1 & Ht2 & Ht3).
    pose proof (lg_ncomps h Hleg) as Hnc.
    assert (Hc16 : 0 <= k_c k < 16384) by lia.
    rewrite two32_val in Hs.
    assert (B1 : 0 <= k_c k + s * zlen (h_comps h) < 16384 * 4294967296) by nia.
    assert (B2 : 0 <= (k_c k + s * zlen (h_comps h)) * (tiles_x h * tiles_y h)
                 < 16384 * 4294967296 * 65535 + 1) by nia.
    assert (B3 : 0 <= k_t k < 65536) by nia.
    rewrite (wrap64_small ((_ + _) * _)) by (rewrite two64_val; lia).
    rewrite wrap64_small by (rewrite two64_val; lia). reflexivity.
  Qed.

  (** Keys the index accepts name existing precincts. *)
  Lemma id_some k i : 0 <= k_t k -> 0 <= k_c k -> 0 <= k_r k -> 0 <= k_p k ->
    id_of x k = ret i -> names_precinct h k.
  Proof.
    intros Ht0 Hc0 Hr0 Hp0 Hid. unfold id_of, seq_no in Hid.
    destruct (Z.ltb_spec (k_t k) (num_tiles x)) as [Ht|Ht].
    2: { unfold tile_component in Hid. rewrite (proj2 (Z.leb_le _ _)) in Hid by assumption.
         discriminate. }
    destruct (Z.ltb_spec (k_c k) (num_components x)) as [Hc|Hc].
    2: { unfold tile_component in Hid.
         rewrite (proj2 (Z.leb_le _ _) Hc), orb_true_r in Hid. discriminate. }
    rewrite num_tiles_exact in Ht. unfold num_components in Hc. change (hdr x) with h in Hc.
    pose proof (n_tiles_small h Hleg) as (Ht1 & Ht2 & Ht3).
    assert (Ex : exists c, nth_error (h_comps h) (Z.to_nat (k_c k)) = Some c).
    { destruct (nth_error (h_comps h) (Z.to_nat (k_c k))) as [c|] eqn:E; [eauto|].
      apply nth_error_None in E. unfold zlen in Hc. lia. }
    destruct Ex as [c Ec].
    set (tx := k_t k mod tiles_x h). set (ty := k_t k / tiles_x h).
    assert (Htx : 0 <= tx < tiles_x h) by (apply Z.mod_pos_bound; lia).
    assert (Hty : 0 <= ty < tiles_y h).
    { split; [apply Z.div_pos; lia|]. apply Z.div_lt_upper_bound; lia. }
    assert (Hkt : k_t k = ty * tiles_x h + tx).
    { unfold tx, ty. pose proof (Z.div_mod (k_t k) (tiles_x h)). lia. }
    rewrite Hkt, (tile_component_exact tx ty (k_c k) c) in Hid by assumption.
    rewrite ret_bindx in Hid. cbn [NL tc_of] in Hid.
    destruct (Z.ltb_spec (c_NL c) (k_r k)) as [|Hr]; [discriminate|].
    rewrite row_exact in Hid by lia. rewrite ret_bindx in Hid.
    cbn [npw nph s_offset row_of] in Hid. fold (n_precincts h c tx ty (k_r k)) in Hid.
    destruct (comp_index _ _ Ec) as [Hin Hlt].
    pose proof (comp_is_legal h Hleg c Hin) as Hcl.
    pose proof (Hcnt tx ty c Htx Hty Hin) as Hfit.
    fold (offset h c tx ty (c_NL c + 1)) in Hfit.
    pose proof (offset_mono h c tx ty (k_r k + 1) (c_NL c + 1) Hcl ltac:(lia) ltac:(lia)) as Hm.
    rewrite offset_succ in Hm by lia.
    pose proof (offset_mono h c tx ty 0 (k_r k) Hcl ltac:(lia) ltac:(lia)) as Hm0.
    change (offset h c tx ty 0) with 0 in Hm0.
    pose proof (n_precincts_nonneg h c tx ty (k_r k) Hcl ltac:(lia)).
    rewrite (wrap32_small (n_precincts _ _ _ _ _)) in Hid
      by (change (2 ^ 32) with two32 in Hfit; lia).
    destruct (Z.leb_spec (n_precincts h c tx ty (k_r k)) (k_p k)); [discriminate|].
    exists tx, ty, c. conj; lia.
  Qed.
End Lookup.

Section Inverse.
  Variable h : header.
  Hypothesis Hleg : legal h.
  Hypothesis Hcnt : countable h.
  Let x := index_of_header h.

  Lemma find_res_hit tx ty c t i s r a n :
    In c (h_comps h) -> 0 <= tx < tiles_x h -> 0 <= ty < tiles_y h ->
    (Z.of_nat a <= r < Z.of_nat a + Z.of_nat n) ->
    Z.of_nat a + Z.of_nat n <= c_NL c + 1 ->
    offset h c tx ty r <= s < offset h c tx ty r + n_precincts h c tx ty r ->
    find_res (tc_of h tx ty c) t i s (map Z.of_nat (seq a n)) =
    ret (Some {| k_t := t; k_c := i; k_r := r; k_p := s - offset h c tx ty r |}).
  Proof.
    intros Hin Htx Hty. pose proof (comp_is_legal h Hleg c Hin) as Hcl.
    pose proof (Hcnt tx ty c Htx Hty Hin) as Hfit.
    fold (offset h c tx ty (c_NL c + 1)) in Hfit. change (2 ^ 32) with two32 in Hfit.
    revert a. induction n as [|n IH]; intros a Hr Hb Hs; [lia|].
    cbn [seq map find_res]. rewrite row_exact by lia. rewrite ret_bindx.
    cbn [npw nph s_offset row_of]. fold (n_precincts h c tx ty (Z.of_nat a)).
    pose proof (n_precincts_nonneg h c tx ty (Z.of_nat a) Hcl ltac:(lia)) as Hn.
    pose proof (offset_mono h c tx ty 0 (Z.of_nat a) Hcl ltac:(lia) ltac:(lia)) as Hm0.
    change (offset h c tx ty 0) with 0 in Hm0.
    pose proof (offset_mono h c tx ty (Z.of_nat a + 1) (c_NL c + 1) Hcl ltac:(lia) ltac:(lia)) as Hm.
    rewrite offset_succ in Hm by lia.
    rewrite (wrap32_small (n_precincts _ _ _ _ _)) by lia.
    rewrite (wrap32_small (offset _ _ _ _ _ + _)) by lia.
    assert (r = Z.of_nat a \/ Z.of_nat a + 1 <= r) as [->|Hgt] by lia.
    - rewrite (proj2 (Z.leb_le _ _)), (proj2 (Z.ltb_lt _ _)) by lia.
      cbn [andb]. rewrite wrap32_small by lia. reflexivity.
    - pose proof (offset_mono h c tx ty (Z.of_nat a + 1) r Hcl ltac:(lia) ltac:(lia)) as Hm2.
      rewrite offset_succ in Hm2 by lia.
      rewrite (proj2 (Z.ltb_ge s _)) by lia. rewrite andb_false_r.
      apply IH; try lia.
  Qed.

  Lemma decompose_id k i : names_precinct h k -> id_of x k = ret i ->
    decompose x i = ret (Some k).
  Proof.
    intros (tx & ty & c & Htx & Hty & Hkt & Hkc & Hc & Hr & Hp) Hid.
    destruct (id_exact h Hleg Hcnt k tx ty c Htx Hty Hkt Hkc Hc Hr Hp) as (Hs & _ & Hid2).
    fold x in Hid2. rewrite Hid in Hid2. apply ret_inj in Hid2.
    set (s := offset h c tx ty (k_r k) + k_p k) in *.
    pose proof (n_tiles_small h Hleg) as (Ht1 & Ht2 & Ht3).
    pose proof (lg_ncomps h Hleg) as Hnc.
    destruct (comp_index h _ _ Hc) as [Hin Hlt].
    unfold decompose. cbv zeta. unfold x. rewrite (num_tiles_exact h Hleg).
    unfold num_components. change (hdr (index_of_header h)) with h.
    set (nT := tiles_x h * tiles_y h) in *. set (nC := zlen (h_comps h)) in *.
    assert (Hkt2 : 0 <= k_t k < nT) by (unfold nT; nia).
    rewrite (proj2 (Z.eqb_neq nT 0)), (proj2 (Z.eqb_neq nC 0)) by lia. cbn [orb].
    assert (E1 : i mod nT = k_t k).
    { rewrite Hid2, Z.mod_add by lia. apply Z.mod_small. lia. }
    assert (E2 : i / nT = k_c k + s * nC).
    { rewrite Hid2, Z.div_add by lia. rewrite Z.div_small by lia. lia. }
    rewrite E1, E2.
    rewrite Z.mod_add, Z.div_add by lia.
    rewrite (Z.mod_small (k_c k) nC), (Z.div_small (k_c k) nC) by lia.
    rewrite Z.add_0_l, (wrap32_small s) by exact Hs.
    rewrite (Z.mod_small (k_t k) 65536), (Z.mod_small (k_c k) 65536) by lia.
    rewrite Hkt at 1. rewrite (tile_component_exact h Hleg tx ty (k_c k) c) by assumption.
    rewrite ret_bindx. cbn [NL tc_of]. unfold zseq.
    rewrite (find_res_hit tx ty c (k_t k) (k_c k) s (k_r k)); try assumption; try lia.
    replace (s - offset h c tx ty (k_r k)) with (k_p k) by (unfold s; lia).
    destruct k; reflexivity.
  Qed.

  Lemma names_id k : names_precinct h k -> exists i, id_of x k = ret i /\ 0 <= i < two64.
  Proof.
    intros (tx & ty & c & Htx & Hty & Hkt & Hkc & Hc & Hr & Hp).
    destruct (id_exact h Hleg Hcnt k tx ty c Htx Hty Hkt Hkc Hc Hr Hp) as (Hs & Hsq & Hid2).
    fold x in Hid2, Hsq. eexists. split; [exact Hid2|].
    unfold id_of in Hid2. rewrite Hsq, ret_bindx in Hid2. apply ret_inj in Hid2.
    rewrite <- Hid2. apply Z.mod_pos_bound. reflexivity.
  Qed.

  Lemma ids_distinct k k' i : names_precinct h k -> names_precinct h k' ->
    id_of x k = ret i -> id_of x k' = ret i -> k = k'.
  Proof.
    intros Hk Hk' Hi Hi'. pose proof (decompose_id k i Hk Hi) as E.
    rewrite (decompose_id k' i Hk' Hi') in E.
    apply ret_inj, Some_inj in E. congruence.
  Qed.

  (** [find_res] only returns a matching precinct. *)
  Lemma find_res_sound tx ty c t i s rs k :
    In c (h_comps h) -> 0 <= tx < tiles_x h -> 0 <= ty < tiles_y h ->
    Forall (fun r => 0 <= r <= c_NL c) rs ->
    find_res (tc_of h tx ty c) t i s rs = ret (Some k) ->
    k_t k = t /\ k_c k = i /\ 0 <= k_r k <= c_NL c /\
    0 <= k_p k < n_precincts h c tx ty (k_r k) /\
    s = offset h c tx ty (k_r k) + k_p k.
  Proof.
    intros Hin Htx Hty Hrs. pose proof (comp_is_legal h Hleg c Hin) as Hcl.
    pose proof (Hcnt tx ty c Htx Hty Hin) as Hfit.
    fold (offset h c tx ty (c_NL c + 1)) in Hfit. change (2 ^ 32) with two32 in Hfit.
    induction Hrs as [|r rs Hr _ IH]; cbn [find_res]; [intros E; discriminate|].
    rewrite row_exact by lia. rewrite ret_bindx.
    cbn [npw nph s_offset row_of]. fold (n_precincts h c tx ty r).
    pose proof (n_precincts_nonneg h c tx ty r Hcl ltac:(lia)) as Hn.
    pose proof (offset_mono h c tx ty 0 r Hcl ltac:(lia) ltac:(lia)) as Hm0.
    change (offset h c tx ty 0) with 0 in Hm0.
    pose proof (offset_mono h c tx ty (r + 1) (c_NL c + 1) Hcl ltac:(lia) ltac:(lia)) as Hm.
    rewrite offset_succ in Hm by lia.
    rewrite (wrap32_small (n_precincts _ _ _ _ _)) by lia.
    rewrite (wrap32_small (offset _ _ _ _ _ + _)) by lia.
    destruct (Z.leb_spec (offset h c tx ty r) s);
      destruct (Z.ltb_spec s (offset h c tx ty r + n_precincts h c tx ty r));
      cbn [andb]; try exact IH.
    intros E. apply ret_inj, Some_inj in E. subst k. cbn [k_t k_c k_r k_p].
    rewrite wrap32_small by lia. conj; lia.
  Qed.

  Lemma id_decompose i k :
    0 <= i < tiles_x h * tiles_y h * zlen (h_comps h) * 2 ^ 32 ->
    decompose x i = ret (Some k) -> names_precinct h k /\ id_of x k = ret i.
  Proof.
    intros Hi. pose proof (n_tiles_small h Hleg) as (Ht1 & Ht2 & Ht3).
    pose proof (lg_ncomps h Hleg) as Hnc.
    unfold decompose. cbv zeta. unfold x. rewrite (num_tiles_exact h Hleg).
    unfold num_components. change (hdr (index_of_header h)) with h.
    change (2 ^ 32) with two32 in *.
    set (nT := tiles_x h * tiles_y h) in *. set (nC := zlen (h_comps h)) in *.
    rewrite (proj2 (Z.eqb_neq nT 0)), (proj2 (Z.eqb_neq nC 0)) by lia. cbn [orb].
    assert (Hmt : 0 <= i mod nT < nT) by (apply Z.mod_pos_bound; lia).
    rewrite (Z.mod_small (i mod nT) 65536) by lia.
    set (t := i mod nT) in *. set (q := i / nT).
    assert (Ei : i = nT * q + t) by (apply Z.div_mod; lia).
    assert (Hq : 0 <= q < nC * two32).
    { unfold q. split; [apply Z.div_pos; lia|]. apply Z.div_lt_upper_bound; lia. }
    assert (Hmc : 0 <= q mod nC < nC) by (apply Z.mod_pos_bound; lia).
    rewrite (Z.mod_small (q mod nC) 65536) by lia.
    set (c := q mod nC) in *. set (s := q / nC).
    assert (Eq : q = nC * s + c) by (apply Z.div_mod; lia).
    assert (Hs : 0 <= s < two32).
    { unfold s. split; [apply Z.div_pos; lia|]. apply Z.div_lt_upper_bound; lia. }
    rewrite (wrap32_small s) by exact Hs.
    assert (Ex : exists cc, nth_error (h_comps h) (Z.to_nat c) = Some cc).
    { destruct (nth_error (h_comps h) (Z.to_nat c)) as [cc|] eqn:E; [eauto|].
      apply nth_error_None in E. unfold nC, zlen in Hmc. lia. }
    destruct Ex as [cc Ec]. destruct (comp_index h _ _ Ec) as [Hin Hlt].
    set (tx := t mod tiles_x h). set (ty := t / tiles_x h).
    assert (Htx : 0 <= tx < tiles_x h) by (apply Z.mod_pos_bound; lia).
    assert (Hty : 0 <= ty < tiles_y h).
    { split; [apply Z.div_pos; lia|]. apply Z.div_lt_upper_bound; unfold nT in *; lia. }
    assert (Hkt : t = ty * tiles_x h + tx).
    { unfold tx, ty. pose proof (Z.div_mod t (tiles_x h)). lia. }
    assert (Etc : tile_component x t c = ret (tc_of h tx ty cc)).
    { rewrite Hkt. apply tile_component_exact; try assumption; lia. }
    unfold x in Etc. rewrite Etc, ret_bindx. intros E. cbn [NL tc_of] in E.
    apply find_res_sound in E; try assumption.
    2: { apply Forall_forall. intros r Hr. apply zseq_In in Hr. lia. }
    destruct E as (E1 & E2 & E3 & E4 & E5).
    assert (Hc' : nth_error (h_comps h) (Z.to_nat (k_c k)) = Some cc) by (rewrite E2; exact Ec).
    split.
    - exists tx, ty, cc. rewrite E1, E2. conj; lia.
    - destruct (id_exact h Hleg Hcnt k tx ty cc Htx Hty ltac:(lia) ltac:(lia) Hc' E3 E4)
        as (_ & _ & ->).
      fold nT nC. f_equal. rewrite <- E5, E1, E2. lia.
  Qed.

  (** Sequence numbers leave no gap. *)
  Lemma offset_dense c tx ty n s : comp_legal c -> 0 <= n <= c_NL c + 1 ->
    0 <= s < offset h c tx ty n ->
    exists r, 0 <= r < n /\
      offset h c tx ty r <= s < offset h c tx ty r + n_precincts h c tx ty r.
  Proof.
    intros Hcl [Hn0 Hn]. revert Hn. pattern n. apply natlike_ind; [| |exact Hn0].
    - intros _ Hs. change (offset h c tx ty 0) with 0 in Hs. lia.
    - intros m Hm IH Hb Hs. replace (Z.succ m) with (m + 1) in * by lia.
      rewrite offset_succ in Hs by lia.
      destruct (Z.ltb_spec s (offset h c tx ty m)) as [Hlt|Hge].
      + destruct (IH ltac:(lia) ltac:(lia)) as (r & Hr & Hrs). exists r. split; [lia|exact Hrs].
      + exists m. split; lia.
  Qed.

  Lemma seq_dense tx ty i c s :
    0 <= tx < tiles_x h -> 0 <= ty < tiles_y h -> 0 <= i ->
    nth_error (h_comps h) (Z.to_nat i) = Some c ->
    0 <= s < sumf (n_precincts h c tx ty) (zseq (c_NL c + 1)) ->
    exists r p, let k := {| k_t := ty * tiles_x h + tx; k_c := i; k_r := r; k_p := p |} in
      names_precinct h k /\ seq_no x k = ret s.
  Proof.
    intros Htx Hty Hi Hc Hs. destruct (comp_index h _ _ Hc) as [Hin Hlt].
    pose proof (comp_is_legal h Hleg c Hin) as Hcl.
    assert (HN : 0 <= c_NL c <= 31) by apply Hcl.
    destruct (offset_dense c tx ty (c_NL c + 1) s Hcl ltac:(lia) Hs) as (r & Hr & Hrs).
    exists r, (s - offset h c tx ty r). intros k.
    assert (Hp : 0 <= k_p k < n_precincts h c tx ty (k_r k)) by (cbn; lia).
    assert (Hrr : 0 <= k_r k <= c_NL c) by (cbn; lia).
    split.
    - exists tx, ty, c. conj; (reflexivity || lia).
    - destruct (id_exact h Hleg Hcnt k tx ty c Htx Hty eq_refl Hi Hc Hrr Hp) as (_ & E & _).
      unfold x. rewrite E. f_equal. cbn [k k_r k_p]. lia.
  Qed.
End Inverse.
