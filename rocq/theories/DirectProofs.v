(** Lemmas for DirectProps.v: rows written one after the other fill a plane. *)
From Verif Require Import Base BaseLemmas PrecinctModel PrecinctSpec PrecinctProofs GeoModel MarkerModel ColorModel OutModel OutSpec OutProofs
  StripModel StripSpec StripProofs StripProps DirectModel DirectSpec.

(** ** One sample *)
Lemma s32_id v : -2147483648 <= v < 2147483648 -> s32 v = v.
Proof. intros H. unfold s32. rewrite Z.mod_small by lia. lia. Qed.
Lemma i32_ret v w : i32 v = Ret w -> w = v /\ -2147483648 <= v < 2147483648.
Proof.
  unfold i32. destruct ((- 2 ^ 31 <=? v) && (v <? 2 ^ 31)) eqn:E; [|discriminate]. intros [= <-]. split; [reflexivity|].
  apply andb_true_iff in E. change (2 ^ 31) with 2147483648 in E. lia.
Qed.
Lemma bind_ret {A B} (x : out A) (f : A -> out B) v : bind x f = Ret v -> exists a, x = Ret a /\ f a = Ret v.
Proof. destruct x as [a| |]; cbn; intros H; try discriminate. exists a. split; [reflexivity|exact H]. Qed.
Lemma shift_div v k : 0 <= k -> Z.shiftr v k = v / 2 ^ k.
Proof. apply Z.shiftr_div_pow2. Qed.

Section Cell.
  Variable d : desc.
  Variables ds v w : Z.
  Hypothesis Hb : 0 <= d_min d <= d_max d.
  Hypothesis Hs : 0 <= d_shift d.
  Hypothesis Hf : if d_16 d then d_max d <= 65535 else d_max d / 2 ^ d_shift d <= 255.

  Lemma stored_range z : d_min d <= z <= d_max d -> d_16 d = false -> 0 <= z / 2 ^ d_shift d <= 255.
  Proof.
    intros Hz E. rewrite E in Hf. assert (P : 0 < 2 ^ d_shift d) by (apply Z.pow_pos_nonneg; lia). split; [apply Z.div_pos; lia|].
    etransitivity; [|exact Hf]. apply Z.div_le_mono; lia.
  Qed.
  Lemma stored_in z : d_min d <= z <= d_max d -> as_stored d z = if d_16 d then z else z / 2 ^ d_shift d.
  Proof. intros Hz. unfold as_stored. rewrite Z.min_l, Z.max_r by lia. reflexivity. Qed.
  Lemma narrow_in z : d_min d <= z <= d_max d -> narrow d z = as_stored d z.
  Proof.
    intros Hz. rewrite (stored_in z Hz). unfold narrow. case_eq (d_16 d); intros E.
    - apply Z.mod_small. rewrite E in Hf. lia.
    - pose proof (stored_range z Hz E) as R. destruct (Z.ltb_spec 0 (d_shift d)) as [P|P].
      + rewrite (shift_div z _ Hs). apply Z.mod_small. lia.
      + assert (E0 : d_shift d = 0) by lia. rewrite E0 in *. change (2 ^ 0) with 1 in *. rewrite Z.div_1_r in *. apply Z.mod_small. lia.
  Qed.
  Lemma narrow_clamped z : narrow d (clamped d z) = as_stored d z.
  Proof.
    assert (C : clamped d z = Z.max (d_min d) (Z.min z (d_max d))) by (unfold clamped; destruct (Z.ltb_spec z (d_min d)); cbv zeta; [destruct (Z.ltb_spec (d_max d) (d_min d))|destruct (Z.ltb_spec (d_max d) z)]; lia).
    rewrite C, narrow_in by lia. unfold as_stored. f_equal. rewrite Z.min_l, Z.max_r by lia. reflexivity.
  Qed.

  Hypothesis Hfin : finalize_sample (mkFP ds (rounding ds) (d_dc d) (d_max d) (d_min d)) v = Ret w.
  Lemma lanes : s32 (lane_fin ds (rounding ds) v + d_dc d) = lane_fin ds (rounding ds) v + d_dc d /\
    w = Z.max (d_min d) (Z.min (lane_fin ds (rounding ds) v + d_dc d) (d_max d)).
  Proof.
    unfold finalize_sample in Hfin. cbn [f_ds f_rnd f_dc f_max f_min] in Hfin. apply bind_ret in Hfin. destruct Hfin as (a & Ea & Ec).
    assert (La : lane_fin ds (rounding ds) v = a).
    { unfold lane_fin. destruct (Z.ltb_spec ds 0) as [N|N].
      - replace (0 <? ds) with false by lia. unfold rounding in Ea. replace (ds <=? 0) with true in Ea by lia. rewrite Z.add_0_r in Ea.
        apply bind_ret in Ea. destruct Ea as (x & E1 & E2). apply i32_ret in E1, E2. destruct E1 as [-> _], E2 as [-> R]. apply s32_id. exact R.
      - destruct (0 <? ds); [|injection Ea as ->; reflexivity]. apply bind_ret in Ea. destruct Ea as (x & E1 & E2). apply i32_ret in E1. destruct E1 as [-> R].
        rewrite s32_id by exact R. injection E2 as ->. reflexivity. }
    rewrite La. unfold clamp in Ec. cbn [f_dc f_max f_min] in Ec. apply bind_ret in Ec. destruct Ec as (x & E1 & E2). apply i32_ret in E1. destruct E1 as [-> R].
    split; [apply s32_id; exact R|]. injection E2 as <-. destruct (Z.ltb_spec (d_max d) (a + d_dc d)); [destruct (Z.ltb_spec (d_max d) (d_min d))|destruct (Z.ltb_spec (a + d_dc d) (d_min d))]; lia.
  Qed.
  Lemma cell_exact b x : cell b d ds (rounding ds) x v = Ret (as_stored d w).
  Proof.
    destruct lanes as [L1 L2]. assert (Hw : d_min d <= w <= d_max d) by lia.
    assert (S : scalar d ds (rounding ds) v = Ret (as_stored d w)) by (unfold scalar; rewrite Hfin; cbn [bind]; rewrite (narrow_in w Hw); reflexivity).
    assert (E1 : Z.max (Z.min (s32 (lane_fin ds (rounding ds) v + d_dc d)) (d_max d)) (d_min d) = w) by (rewrite L1; lia).
    assert (E2 : Z.min (Z.max (s32 (lane_fin ds (rounding ds) v + d_dc d)) (d_min d)) (d_max d) = w) by (rewrite L1; lia).
    unfold cell. destruct b.
    - exact S.
    - case_eq (d_16 d); intros E; cbn [negb andb]; [exact S|]. destruct ((0 <=? ds) && (x <? d_width d / 16 * 16)); [|exact S].
      f_equal. unfold avx8. rewrite E2. rewrite (stored_in w Hw), E. pose proof (stored_range w Hw E) as R.
      assert (Q : (if 0 <? d_shift d then Z.shiftr w (d_shift d) else w) = w / 2 ^ d_shift d).
      { destruct (Z.ltb_spec 0 (d_shift d)); [apply shift_div; lia|]. replace (d_shift d) with 0 by lia. rewrite Z.div_1_r. reflexivity. }
      rewrite Q. replace (sat 0 65535 (w / 2 ^ d_shift d)) with (w / 2 ^ d_shift d) by (unfold sat; lia). replace (w / 2 ^ d_shift d <? 32768) with true by lia. unfold sat. lia.
    - case_eq (d_16 d); intros E.
      + destruct (x <? d_width d / 16 * 16); [|exact S]. f_equal. unfold neon16. rewrite E1, (stored_in w Hw), E. rewrite E in Hf. unfold sat. lia.
      + destruct (x <? d_width d / 8 * 8); [|exact S]. f_equal. unfold neon8. rewrite E1, (stored_in w Hw), E. pose proof (stored_range w Hw E) as R.
        replace (0 <=? d_shift d) with true by lia. rewrite (shift_div w _ Hs). unfold sat. lia.
  Qed.
End Cell.

(** ** Filling planes *)
Section Fill.
  Variable size : Z -> Z.
  Variable descs : list desc.
  Variable n : Z.
  Variables yr h : Z -> Z.
  Variable S : Z -> Z -> Z -> Z.     (* plane, row, column *)
  Variable m0 : mem.
  Let w c := d_width (desc_at descs c).
  Let st c := d_stride (desc_at descs c).
  Hypothesis Hn : 0 <= n.
  Hypothesis Hok : forall c, 0 <= c < n -> 1 <= yr c /\ 0 <= w c <= st c /\ h c * st c <= size c.

  (** The rows of plane [c] that start above row [Y c] of component 0 are
      there and nothing else has changed. *)
  Definition filled (Y : Z -> Z) (m : mem) : Prop :=
    (forall c k x, 0 <= c < n -> 0 <= k < h c -> k * yr c < Y c -> 0 <= x < w c -> m c (k * st c + x) = Some (S c k x)) /\
    (forall c i, (forall k x, 0 <= c < n -> 0 <= k < h c -> k * yr c < Y c -> 0 <= x < w c -> i <> k * st c + x) -> m c i = m0 c i).
  Lemma filled_ext Y Y' m : (forall c, 0 <= c < n -> Y c = Y' c) -> filled Y m -> filled Y' m.
  Proof.
    intros E [A B]. split.
    - intros c k x Hc Hk Hy Hx. apply A; try assumption. rewrite (E c Hc). exact Hy.
    - intros c i H. apply B. intros k x Hc Hk Hy Hx. apply H; try assumption. rewrite <- (E c Hc). exact Hy.
  Qed.

  Lemma row_written c cy f m : 0 <= c < n -> 0 <= cy < h c -> (forall x, 0 <= x < w c -> f x = Ret (S c cy x)) ->
    exists m', write_row size descs c cy f m = Ret m' /\
      forall c' i, m' c' i = if (c' =? c) && (cy * st c <=? i) && (i <? cy * st c + w c) then Some (S c cy (i - cy * st c)) else m c' i.
  Proof.
    intros Hc Hcy Hf. destruct (Hok c Hc) as (_ & Hw & Hsz).
    destruct (foldo_inv (fun m x => let* v := f x in store size m c (cy * st c + x) v)
      (fun j m' => forall c' i, m' c' i = if (c' =? c) && (cy * st c <=? i) && (i <? cy * st c + j) then Some (S c cy (i - cy * st c)) else m c' i) (w c) m) as (m' & E & A).
    - lia.
    - intros c' i. replace ((c' =? c) && (cy * st c <=? i) && (i <? cy * st c + 0)) with false by lia. reflexivity.
    - intros j a Hj A. rewrite (Hf j Hj). cbn [bind]. unfold store. assert (B : 0 <= cy * st c + j < size c) by nia.
      replace ((0 <=? cy * st c + j) && (cy * st c + j <? size c)) with true by lia. eexists. split; [reflexivity|]. intros c' i.
      destruct (Z.eq_dec c' c) as [->|N].
      + rewrite upd_same. destruct (Z.eq_dec i (cy * st c + j)) as [->|M].
        * rewrite upd_same. replace ((c =? c) && (cy * st c <=? cy * st c + j) && (cy * st c + j <? cy * st c + (j + 1))) with true by lia. do 2 f_equal. lia.
        * rewrite upd_other by exact M. rewrite A. replace (i <? cy * st c + (j + 1)) with (i <? cy * st c + j) by lia. reflexivity.
      + rewrite upd_other by exact N. rewrite A. replace (c' =? c) with false by lia. reflexivity.
    - exists m'. split; [exact E|exact A].
  Qed.

  Lemma places k x k' x' s W : 0 <= W <= s -> 0 <= x < W -> 0 <= x' < W -> k * s + x = k' * s + x' -> k = k' /\ x = x'.
  Proof. intros Hs Hx Hx' E. assert (k = k') by nia. subst k'. lia. Qed.

  (** One plane at row [y] of component 0. *)
  Lemma plane_step Y y c f m : 0 <= c < n -> 0 <= y -> Y c = y -> filled Y m ->
    (y mod yr c = 0 -> y / yr c < h c -> forall x, 0 <= x < w c -> f x = Ret (S c (y / yr c) x)) ->
    exists m', (if negb (y mod yr c =? 0) then Ret m else if h c <=? y / yr c then Ret m else write_row size descs c (y / yr c) f m) = Ret m' /\
      filled (upd Y c (y + 1)) m'.
  Proof.
    intros Hc Hy HY [A B] Hf. destruct (Hok c Hc) as (Hyr & Hw & Hsz).
    assert (Same : (forall k, 0 <= k < h c -> k * yr c = y -> False) -> filled (upd Y c (y + 1)) m).
    { intros No. split.
      - intros c' k x Hc' Hk Hky Hx. apply A; try assumption. destruct (Z.eq_dec c' c) as [->|N]; [|rewrite upd_other in Hky by exact N; exact Hky].
        rewrite upd_same in Hky. rewrite HY. pose proof (No k Hk). lia.
      - intros c' i H. apply B. intros k x Hc' Hk Hky Hx. apply H; try assumption. destruct (Z.eq_dec c' c) as [->|N]; [rewrite upd_same; lia|rewrite upd_other by exact N; exact Hky]. }
    destruct (Z.eqb_spec (y mod yr c) 0) as [M|M]; cbn [negb].
    2:{ exists m. split; [reflexivity|]. apply Same. intros k Hk E. apply M. rewrite <- E. apply Z.mod_mul. lia. }
    destruct (Z.leb_spec (h c) (y / yr c)) as [G|G].
    { exists m. split; [reflexivity|]. apply Same. intros k Hk E. rewrite <- E, Z.div_mul in G by lia. lia. }
    assert (P : 0 <= y / yr c) by (apply Z.div_pos; lia). pose proof (Z.div_mod y (yr c) ltac:(lia)) as D. rewrite M in D. set (q := y / yr c) in *.
    destruct (row_written c q f m Hc ltac:(lia) (Hf M G)) as (m' & E & W). exists m'. split; [exact E|]. split.
    - intros c' k x Hc' Hk Hky Hx. rewrite W. destruct (Z.eq_dec c' c) as [->|N].
      + rewrite Z.eqb_refl. cbn [andb]. rewrite upd_same in Hky. destruct (Z.eq_dec k q) as [->|K].
        * replace ((q * st c <=? q * st c + x) && (q * st c + x <? q * st c + w c)) with true by lia. do 2 f_equal. lia.
        * assert (k < q) by nia. replace (q * st c <=? k * st c + x) with false by nia. cbn [andb]. apply A; try assumption. rewrite HY. nia.
      + replace (c' =? c) with false by lia. cbn [andb]. apply A; try assumption. rewrite upd_other in Hky by exact N. exact Hky.
    - intros c' i H. rewrite W. destruct ((c' =? c) && (q * st c <=? i) && (i <? q * st c + w c)) eqn:T.
      + exfalso. rewrite !andb_true_iff in T. destruct T as [[T1 T2] T3]. assert (c' = c) by lia. subst c'. apply (H q (i - q * st c)); try lia. rewrite upd_same. lia.
      + apply B. intros k x Hc' Hk Hky Hx. apply H; try assumption. destruct (Z.eq_dec c' c) as [->|N]; [rewrite upd_same; lia|rewrite upd_other by exact N; exact Hky].
  Qed.

  (** All planes at row [y]. *)
  Lemma planes_step y (g : mem -> Z -> out mem) (f : Z -> Z -> out Z) m : 0 <= y -> filled (fun _ => y) m ->
    (forall m c, 0 <= c < n -> g m c = if negb (y mod yr c =? 0) then Ret m else if h c <=? y / yr c then Ret m else write_row size descs c (y / yr c) (f c) m) ->
    (forall c, 0 <= c < n -> y mod yr c = 0 -> y / yr c < h c -> forall x, 0 <= x < w c -> f c x = Ret (S c (y / yr c) x)) ->
    exists m', foldo g m (zseq n) = Ret m' /\ filled (fun _ => y + 1) m'.
  Proof.
    intros Hy F Hg Hf. destruct (foldo_inv g (fun j => filled (fun c => if c <? j then y + 1 else y)) n m) as (m' & E & F').
    - exact Hn.
    - eapply filled_ext; [|exact F]. intros c Hc. cbn. replace (c <? 0) with false by lia. reflexivity.
    - intros j a Hj Fa. rewrite (Hg a j Hj). destruct (plane_step (fun c => if c <? j then y + 1 else y) y j (f j) a Hj Hy) as (a' & E' & Fa').
      + cbn. replace (j <? j) with false by lia. reflexivity.
      + exact Fa.
      + apply Hf. exact Hj.
      + exists a'. split; [exact E'|]. eapply filled_ext; [|exact Fa']. intros c Hc. destruct (Z.eq_dec c j) as [->|N].
        * rewrite upd_same. replace (j <? j + 1) with true by lia. reflexivity.
        * rewrite upd_other by exact N. replace (c <? j + 1) with (c <? j) by lia. reflexivity.
    - exists m'. split; [exact E|]. eapply filled_ext; [|exact F']. intros c Hc. cbn. replace (c <? n) with true by lia. reflexivity.
  Qed.
End Fill.

Lemma range_cons a b : a < b -> range a b = a :: range (a + 1) b.
Proof. intros H. rewrite (range_app a (a + 1) b) by lia. unfold range at 1. replace (a + 1 - a) with 1 by lia. change (map (fun i => a + i) (zseq 1)) with [a + 0]. rewrite Z.add_0_r. reflexivity. Qed.

(** What a descriptor must satisfy, without the image. *)
Definition fit (d : desc) (n : Z) : Prop :=
  1 <= d_yr d /\ 0 <= d_width d <= d_stride d /\ d_height d * d_stride d <= n /\
  0 <= d_min d <= d_max d /\ 0 <= d_shift d /\ (if d_16 d then d_max d <= 65535 else d_max d / 2 ^ d_shift d <= 255).

(** ** Through the callback *)
Section Deliver.
  Variable size : Z -> Z.
  Variable descs : list desc.
  Variable NC : Z.
  Variable wid : Z -> Z.
  Variable V : Z -> Z -> Z -> Z.
  Variable m0 : mem.
  Let n := Z.min NC (zlen descs).
  Hypothesis HNC : 0 <= NC.
  Hypothesis Hfit : forall c, 0 <= c < n -> fit (desc_at descs c) (size c) /\ d_width (desc_at descs c) <= wid c.
  Let full := filled descs n (fun c => d_yr (desc_at descs c)) (fun c => d_height (desc_at descs c)) (fun c k x => as_stored (desc_at descs c) (V c k x)) m0.
  Definition carries (e : event) : Prop := zlen (snd e) = NC /\
    forall c x, 0 <= c < n -> fst e mod d_yr (desc_at descs c) = 0 -> fst e / d_yr (desc_at descs c) < d_height (desc_at descs c) ->
      0 <= x < d_width (desc_at descs c) -> znth blank (snd e) c x = V c (fst e / d_yr (desc_at descs c)) x.
  Lemma deliver_exact evs : forall a b m, 0 <= a <= b -> map fst evs = range a b -> Forall carries evs -> full (fun _ => a) m ->
    exists m', deliver size descs wid m evs = Ret m' /\ full (fun _ => b) m'.
  Proof.
    assert (Hn : 0 <= n) by (pose proof (zlen_nonneg descs); unfold n; lia).
    induction evs as [|e evs IH]; intros a b m Hab E F Fm.
    - exists m. split; [reflexivity|]. destruct (Z.eq_dec a b) as [->|N]; [exact Fm|]. rewrite range_cons in E by lia. discriminate E.
    - destruct (Z.eq_dec a b) as [->|N]; [rewrite range_nil in E by lia; discriminate E|]. rewrite range_cons in E by lia. cbn [map] in E. injection E as E1 E2.
      apply Forall_cons_iff in F. destruct F as [[F1 F2] F3]. unfold deliver. cbn [foldo]. rewrite F1. fold n.
      destruct (planes_step size descs n (fun c => d_yr (desc_at descs c)) (fun c => d_height (desc_at descs c)) (fun c k x => as_stored (desc_at descs c) (V c k x)) m0) with
        (y := a) (g := give size descs wid e) (m := m)
        (f := fun c x => if x <? wid c then Ret (narrow (desc_at descs c) (clamped (desc_at descs c) (znth blank (snd e) c x))) else UB) as (m1 & Em & Fm1).
      + exact Hn.
      + intros c Hc. destruct (Hfit c Hc) as [(A1 & A2 & A3 & _) _]. repeat split; try assumption; lia.
      + lia.
      + exact Fm.
      + intros m1 c Hc. destruct (Hfit c Hc) as [(A1 & _) _]. unfold give. replace (d_yr (desc_at descs c) =? 0) with false by lia. rewrite E1. reflexivity.
      + intros c Hc M G x Hx. destruct (Hfit c Hc) as [(_ & _ & _ & A4 & A5 & A6) W]. cbv beta in *. replace (x <? wid c) with true by lia.
        rewrite narrow_clamped by assumption. do 2 f_equal. rewrite <- E1 in M, G |- *. apply F2; assumption.
      + rewrite Em. cbn [bind]. apply (IH (a + 1) b m1); [lia|exact E2|exact F3|exact Fm1].
  Qed.
End Deliver.

(** ** Straight from the strips *)
Section Planar.
  Variable raw : Z -> Z -> Z -> Z -> Z.
  Variable fin : Z -> Z -> Z.
  Variable b : build.
  Variable prm : Z -> bool * Z.
  Variable size : Z -> Z.
  Variable descs : list desc.
  Variable t : Z.
  Variable ci : list sinfo.
  Variable m0 : mem.
  Let n := Z.min (zlen ci) (zlen descs).
  Hypothesis HN : 1 <= zlen ci <= 16.
  Hypothesis Hci : forall c, 0 <= c < zlen ci -> 0 <= s_w (info ci c) /\ 0 <= s_h (info ci c) <= 2147483648 /\ 1 <= s_yr (info ci c) <= 255.
  Hypothesis Hd : forall c, 0 <= c < n -> let d := desc_at descs c in
    fit d (size c) /\ d_width d = s_w (info ci c) /\ d_height d = s_h (info ci c) /\
    forall k x, finalize_sample (mkFP (downshift (prm c)) (rounding (downshift (prm c))) (d_dc d) (d_max d) (d_min d)) (raw t c k x) = Ret (fin c (raw t c k x)).
  Variable h : Z.
  Hypothesis Hh : 1 <= h <= 1000000.
  Hypothesis Hdiv : forall c, 0 <= c < zlen ci -> (s_yr (info ci c) | h).
  Let H := s_h (info ci 0).
  Let full := filled descs n (fun c => s_yr (info ci c)) (fun c => s_h (info ci c)) (fun c k x => as_stored (desc_at descs c) (fin c (raw t c k x))) m0.
  Let zmix (c v0 v1 v2 : Z) : Z := 0.
  Lemma Hdiv' c : 0 <= c < zlen ci -> (rho false ci c | h) /\ (rho false ci c | 0).
  Proof. intros Hc. split; [apply (Hdiv c Hc)|apply Z.divide_0_r]. Qed.

  Lemma strip_put y0 y1 bufs m : loaded false ci y0 y1 bufs -> 0 <= y0 <= y1 -> (forall c, 0 <= c < zlen ci -> (s_yr (info ci c) | y0)) -> full (fun _ => y0) m ->
    exists m', foldo (fun m y => foldo (put raw b prm size descs t ci bufs y0 y) m (zseq n)) m (range y0 y1) = Ret m' /\ full (fun _ => y1) m'.
  Proof.
    intros Ld Hy Hy0 F. assert (Hn : 0 <= n) by (pose proof (zlen_nonneg descs); unfold n; lia). unfold range. rewrite foldo_map.
    destruct (foldo_inv (fun m i => foldo (put raw b prm size descs t ci bufs y0 (y0 + i)) m (zseq n)) (fun i => full (fun _ => y0 + i)) (y1 - y0) m) as (m' & E & F').
    - lia.
    - rewrite Z.add_0_r. exact F.
    - intros i a Hi Fa. set (y := y0 + i) in *. replace (y0 + (i + 1)) with (y + 1) by (unfold y; lia).
      destruct (planes_step size descs n (fun c => s_yr (info ci c)) (fun c => s_h (info ci c)) (fun c k x => as_stored (desc_at descs c) (fin c (raw t c k x))) m0) with
        (y := y) (g := put raw b prm size descs t ci bufs y0 y) (m := a)
        (f := fun c x => if x <? s_w (info ci c) then cell b (desc_at descs c) (downshift (prm c)) (rounding (downshift (prm c))) x (raw t c (y / s_yr (info ci c)) x) else UB) as (m1 & Em & Fm1).
      + exact Hn.
      + intros c Hc. destruct (Hd c Hc) as ((A1 & A2 & A3 & _) & _ & A5 & _). cbv zeta in *. destruct (Hci c ltac:(lia)) as (_ & _ & B). rewrite A5 in A3. repeat split; try assumption; lia.
      + lia.
      + exact Fa.
      + intros m1 c Hc. unfold put. destruct (Hci c ltac:(lia)) as (_ & Hs & Hyr). replace (s_yr (info ci c) =? 0) with false by lia.
        destruct (Z.eqb_spec (y mod s_yr (info ci c)) 0) as [M|M]; cbn [negb]; [|reflexivity].
        destruct (Z.leb_spec (s_h (info ci c)) (y / s_yr (info ci c))) as [G|G]; [reflexivity|].
        apply Z.mod_divide in M; [|lia].
        pose proof (scratch_exact raw fin zmix false ci HN Hci h 0 Hh Hdiv' y0 y1 bufs y c Ld ltac:(lia) ltac:(lia) ltac:(lia) (Hy0 c ltac:(lia)) M G) as SE.
        change (rho false ci c) with (s_yr (info ci c)) in SE. rewrite SE. reflexivity.
      + intros c Hc M G x Hx. destruct (Hd c Hc) as ((_ & _ & _ & A4 & A5 & A6) & W & _ & Hfin). cbv beta zeta in *. replace (x <? s_w (info ci c)) with true by lia.
        apply (cell_exact (desc_at descs c) (downshift (prm c)) _ _ A4 A5 A6). apply Hfin.
      + exists m1. split; [exact Em|exact Fm1].
    - exists m'. split; [exact E|]. replace (y0 + (y1 - y0)) with y1 in F' by lia. exact F'.
  Qed.

  Lemma planar_exact : forall fuel y0 cur m, 0 <= y0 -> Z.max 0 (H - y0) < Z.of_nat fuel ->
    (y0 < H -> (forall c, 0 <= c < zlen ci -> (s_yr (info ci c) | y0)) /\ at_strip false ci y0 cur) ->
    full (fun _ => Z.min y0 H) m ->
    exists m', planar_strips raw b prm size descs t ci fuel h H y0 cur m = ret m' /\ full (fun _ => H) m'.
  Proof.
    induction fuel as [|fuel IH]; intros y0 cur m Hy Hf Hst F; [lia|]. cbn [planar_strips]. destruct (Z.leb_spec H y0) as [G|G].
    - exists m. split; [reflexivity|]. rewrite Z.min_r in F by lia. exact F.
    - destruct (Hst G) as [Hd0 Hc]. pose proof (proj1 (proj2 (Hci 0 ltac:(lia)))) as Hs0. fold H in Hs0. rewrite wrap32_small by (rewrite two32_val; lia).
      set (y1 := Z.min (y0 + h) H).
      destruct (fetch_exact raw fin zmix false ci HN Hci ltac:(discriminate) h H 0 Hdiv' ltac:(unfold H in *; lia) y0 y1 cur (fun _ => []) ltac:(lia) ltac:(lia) Hc) as (cur' & bufs & E & Ld & Hc').
      rewrite E, ret_bindx. rewrite Z.min_l in F by lia. destruct (strip_put y0 y1 bufs m Ld ltac:(lia) Hd0 F) as (m1 & E1 & F1).
      fold n. fold (range y0 y1). rewrite E1. cbn [bind]. apply IH; [lia|lia| |exact F1].
      intros G2. assert (Ey : y1 = y0 + h) by lia. split.
      + intros c Hcc. apply Z.divide_add_r; [apply (Hd0 c Hcc)|apply (Hdiv c Hcc)].
      + intros c Hcc. rewrite (Hc' c Hcc). destruct (Hci c Hcc) as (_ & _ & R). change (rho false ci c) with (s_yr (info ci c)). destruct (Hd0 c Hcc) as [p Hp]. destruct (Hdiv c Hcc) as [q Hq].
        unfold rows_wanted. change (rho false ci c) with (s_yr (info ci c)). rewrite Ey. rewrite Hp, Hq. replace (p * s_yr (info ci c) + q * s_yr (info ci c)) with ((p + q) * s_yr (info ci c)) by lia.
        rewrite !Z.div_mul by lia. unfold ceil_div. replace (- ((p + q) * s_yr (info ci c))) with (- (p + q) * s_yr (info ci c)) by lia. rewrite Z.div_mul by lia. assert (0 <= q) by nia. lia.
  Qed.
End Planar.
