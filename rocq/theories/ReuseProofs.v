(** Proofs for ReuseProps.v *)
From Verif Require Import Base BaseLemmas MarkerModel MarkerSpec ParamModel ParamSpec ParamProofs ReuseModel ReuseSpec.

(** ** The hash *)
Definition fnv_p := 1099511628211.
Definition fnv_q := 14886173955864302971.
Fact fnv_inverse : (fnv_p * fnv_q) mod two64 = 1. Proof. vm_compute. reflexivity. Qed.
Lemma mul_inj x y : 0 <= x < two64 -> 0 <= y < two64 -> wrap64 (x * fnv_p) = wrap64 (y * fnv_p) -> x = y.
Proof.
  intros X Y E. unfold wrap64 in E.
  assert (R : forall v, 0 <= v < two64 -> (v * fnv_p) mod two64 * fnv_q mod two64 = v).
  { intros v V. rewrite Z.mul_mod_idemp_l by (vm_compute; discriminate). rewrite <- Z.mul_assoc, <- Z.mul_mod_idemp_r by (vm_compute; discriminate).
    rewrite fnv_inverse, Z.mul_1_r. apply Z.mod_small. exact V. }
  rewrite <- (R x X), <- (R y Y), E. reflexivity.
Qed.
Lemma lxor_range h b : 0 <= h < two64 -> 0 <= b < 256 -> 0 <= Z.lxor h b < two64.
Proof.
  intros H B. split; [apply Z.lxor_nonneg; lia|].
  destruct (Z.eq_dec (Z.lxor h b) 0) as [->|N]; [reflexivity|].
  assert (P : 0 <= Z.lxor h b) by (apply Z.lxor_nonneg; lia).
  apply Z.log2_lt_pow2; [lia|]. eapply Z.le_lt_trans; [apply Z.log2_lxor; lia|].
  apply Z.max_lub_lt.
  - destruct (Z.eq_dec h 0) as [->|]; [reflexivity|]. apply Z.log2_lt_pow2; [lia|apply H].
  - destruct (Z.eq_dec b 0) as [->|]; [reflexivity|]. apply Z.log2_lt_pow2; [lia|]. change (2 ^ 64) with 18446744073709551616. lia.
Qed.
Lemma step_range h b : 0 <= fnv_step h b < two64. Proof. unfold fnv_step, wrap64. apply Z.mod_pos_bound. reflexivity. Qed.
Lemma lxor_l a b c : Z.lxor a b = Z.lxor a c -> b = c.
Proof. intros E. apply (f_equal (Z.lxor a)) in E. rewrite <- !Z.lxor_assoc, !Z.lxor_nilpotent, !Z.lxor_0_l in E. exact E. Qed.
Lemma step_inj h h' b b' : 0 <= h < two64 -> 0 <= h' < two64 -> 0 <= b < 256 -> 0 <= b' < 256 -> fnv_step h b = fnv_step h' b' -> Z.lxor h b = Z.lxor h' b'.
Proof. intros. apply mul_inj; [apply lxor_range; assumption|apply lxor_range; assumption|]. assumption. Qed.
Lemma fnv_inj : forall l h h', Forall byte_ok l -> 0 <= h < two64 -> 0 <= h' < two64 -> fnv h l = fnv h' l -> h = h'.
Proof.
  induction l as [|b l IH]; intros h h' B H H' E; [exact E|].
  inversion B; subst. unfold fnv in E. cbn [fold_left] in E. apply IH in E; [|assumption|apply step_range|apply step_range].
  apply step_inj in E; try assumption. rewrite !(Z.lxor_comm _ b) in E. apply lxor_l in E. exact E.
Qed.
Lemma fnv_one pre b b' post h : bytes_ok pre -> byte_ok b -> byte_ok b' -> bytes_ok post -> b <> b' -> 0 <= h < two64 ->
  fnv h (pre ++ b :: post) <> fnv h (pre ++ b' :: post).
Proof.
  intros P B B' Q N H E. unfold fnv in E. rewrite !fold_left_app in E. cbn [fold_left] in E.
  assert (R : 0 <= fold_left fnv_step pre h < two64).
  { clear - H. revert h H. induction pre as [|x pre IH]; intros h H; [exact H|]. cbn [fold_left]. apply IH. apply step_range. }
  apply fnv_inj in E; [|assumption|apply step_range|apply step_range].
  apply step_inj in E; try assumption. apply lxor_l in E. contradiction.
Qed.

(** ** Words *)
Lemma radix m a b a' b' : 0 <= b < m -> 0 <= b' < m -> a * m + b = a' * m + b' -> a = a' /\ b = b'.
Proof.
  intros B B' E. assert (D : a = a'). { apply (f_equal (fun v => v / m)) in E. rewrite !Z.div_add_l in E by lia. rewrite !Z.div_small in E by lia. lia. }
  subst. split; lia.
Qed.
Lemma lor_step x k a j m : 0 <= j -> 0 <= m -> k = m + j -> 0 <= a < 2 ^ m -> Z.lor (x <<b k) (a <<b j) = (x * 2 ^ m + a) <<b j.
Proof. intros J M -> A. rewrite <- (lor_shift_add x a m M A), Z.shiftl_lor, Z.shiftl_shiftl by assumption. reflexivity. Qed.
Lemma lor_last x k a : 0 <= k -> 0 <= a < 2 ^ k -> Z.lor (x <<b k) a = x * 2 ^ k + a.
Proof. intros. apply lor_shift_add; assumption. Qed.
Lemma pair_word_inj a b a' b' : in_dword b -> in_dword b' -> pair_word (a, b) = pair_word (a', b') -> (a, b) = (a', b').
Proof.
  intros B B' E. unfold pair_word in E. cbn [fst snd] in E. unfold in_dword in *. rewrite !lor_last in E by (try lia; change (2 ^ 32) with 4294967296; lia).
  apply radix in E; [destruct E as [-> ->]; reflexivity| |]; change (2 ^ 32) with 4294967296; lia.
Qed.
Definition comp_ok (c : Z * Z * Z) : Prop := in_byte (fst (fst c)) /\ 1 <= snd (fst c) < 256 /\ 1 <= snd c < 256.
Lemma comp_word_inj c c' : comp_ok c -> comp_ok c' -> comp_word c = comp_word c' -> (get_bitdepth c, snd (fst c), snd c) = (get_bitdepth c', snd (fst c'), snd c').
Proof.
  assert (R : forall sg xr yr, 1 <= xr < 256 -> 1 <= yr < 256 ->
    comp_word (sg, xr, yr) = ((get_bitdepth (sg, xr, yr) * 2 ^ 8 + (if is_signed (sg, xr, yr) then 1 else 0)) * 2 ^ 32 + xr) * 2 ^ 16 + yr).
  { intros sg xr yr X Y. unfold comp_word.
    rewrite (lor_step _ 56 _ 48 8) by (try lia; destruct (is_signed _); change (2 ^ 8) with 256; change (2 ^ 16) with 65536; lia).
    rewrite (lor_step _ 48 _ 16 32) by (try lia; change (2 ^ 32) with 4294967296; lia).
    rewrite lor_last by (try lia; change (2 ^ 16) with 65536; lia). reflexivity. }
  destruct c as [[sg xr] yr], c' as [[sg' xr'] yr']. intros (_ & X & Y) (_ & X' & Y') E. cbn [fst snd] in *.
  rewrite !R in E by assumption.
  apply radix in E; [|change (2 ^ 16) with 65536; lia|change (2 ^ 16) with 65536; lia]. destruct E as [E ->].
  apply radix in E; [|change (2 ^ 32) with 4294967296; lia|change (2 ^ 32) with 4294967296; lia]. destruct E as [E ->].
  assert (SG : forall b : bool, 0 <= (if b then 1 else 0) < 2 ^ 8) by (intros []; change (2 ^ 8) with 256; lia).
  apply radix in E; [|apply SG|apply SG]. destruct E as [-> _]. reflexivity.
Qed.
Lemma comp_words_inj : forall l l', Forall comp_ok l -> Forall comp_ok l' -> map comp_word l = map comp_word l' ->
  map (fun c : Z * Z * Z => (get_bitdepth c, snd (fst c), snd c)) l = map (fun c : Z * Z * Z => (get_bitdepth c, snd (fst c), snd c)) l'.
Proof.
  induction l as [|c l IH]; intros [|c' l'] F F' E; try discriminate; [reflexivity|].
  cbn [map] in *. inversion F; subst. inversion F'; subst. pose proof (f_equal (hd 0) E) as E1. pose proof (f_equal (@tl Z) E) as E2. cbn [hd tl] in E1, E2.
  f_equal; [apply comp_word_inj; assumption|apply IH; assumption].
Qed.
Lemma app_split {A} (a b a' b' : list A) : length a = length a' -> a ++ b = a' ++ b' -> a = a' /\ b = b'.
Proof.
  revert a'. induction a as [|x a IH]; intros [|x' a'] L E; try discriminate; [split; [reflexivity|exact E]|].
  pose proof (f_equal (hd x) E) as E1. pose proof (f_equal (@tl A) E) as E2. cbn [hd tl app] in E1, E2. subst.
  destruct (IH a') as [-> ->]; [cbn in L; lia|exact E2|]. split; reflexivity.
Qed.
Lemma cons_split {A} (x y : A) l m : x :: l = y :: m -> x = y /\ l = m.
Proof. intros E. split; [exact (f_equal (hd x) E)|exact (f_equal (@tl A) E)]. Qed.
Lemma siz_words_inj x y u v : sizes_ok x -> sizes_ok y -> siz_words x ++ u = siz_words y ++ v -> geometry x = geometry y /\ u = v.
Proof.
  intros X Y E. destruct (so_fields _ X) as (_ & ? & ? & ? & ? & ? & ? & ? & ?). destruct (so_fields _ Y) as (_ & ? & ? & ? & ? & ? & ? & ? & ?).
  destruct (so_count _ X) as [_ LX]. destruct (so_count _ Y) as [_ LY].
  unfold siz_words in E. cbn [app] in E.
  apply cons_split in E. destruct E as [E1 E]. apply cons_split in E. destruct E as [E2 E]. apply cons_split in E. destruct E as [E3 E].
  apply cons_split in E. destruct E as [E4 E]. apply cons_split in E. destruct E as [E5 E].
  apply pair_word_inj in E1; try assumption. apply pair_word_inj in E2; try assumption. apply pair_word_inj in E3; try assumption. apply pair_word_inj in E4; try assumption.
  apply app_split in E; [|rewrite !map_length; unfold zlen in *; lia]. destruct E as [E ->].
  apply comp_words_inj in E; [|apply (so_comps _ X)|apply (so_comps _ Y)].
  split; [|reflexivity]. unfold geometry. rewrite E, E2, E3, E4, E5. apply pair_inj in E1. destruct E1 as [-> ->]. reflexivity.
Qed.

(** ** COD *)
Definition cod_fields (c : cod) : Z :=
  ((((levels_in (cod_says c) * 2 ^ 8 + get_progression_order c) * 2 ^ 16 + get_number_of_layers c) * 2 ^ 8 + use_color_trafo c) * 2 ^ 8 + modes_in (cod_says c)) * 2 ^ 16 + transf_in (cod_says c).
Lemma sg_ranges c : in_dword (SGcod c) -> 0 <= get_progression_order c < 256 /\ 0 <= get_number_of_layers c < 65536 /\ 0 <= use_color_trafo c < 256.
Proof.
  intros S. unfold get_progression_order, get_number_of_layers, use_color_trafo. split; [apply Z.mod_pos_bound; lia|].
  change 65535 with (2 ^ 16 - 1). change 255 with (2 ^ 8 - 1). rewrite !land_ones_mod by lia. split; apply Z.mod_pos_bound; reflexivity.
Qed.
Lemma cod_words_are c : coding_legal (cod_says c) -> in_dword (SGcod c) ->
  cod_words c = ret (cod_fields c :: pair_word (block_in (cod_says c)) :: map pair_word (map (precinct_in (cod_says c)) (zseq (levels_in (cod_says c) + 1)))).
Proof.
  intros L SG. pose proof (levels_pos _ L) as V. pose proof L as (B & Ln & _ & _ & S). change (bytes (cod_says c)) with (SPcod c) in *.
  unfold cod_words, get_dwt_levels, get_Cmodes, get_transformation, get_codeblock_size, sp. rewrite !rd_in by lia. cbn [bind].
  rewrite (block_is _ B Ln S). cbn [bindx ret]. unfold levels_in in V. change (bytes (cod_says c)) with (SPcod c) in V.
  rewrite (sizes_are _ _ (precinct_in (cod_says c))).
  2:{ intros r R. apply zseq_In in R. unfold get_precinct_size, is_maximum_precincts. rewrite odd_land.
      apply (precinct_is (cod_says c) r L). unfold levels_in. change (bytes (cod_says c)) with (SPcod c). lia. }
  cbn [bindx ret]. unfold cod_fields. destruct (sg_ranges c SG) as (P & N & M).
  pose proof (byte_nth _ 3 B ltac:(lia)) as B3. pose proof (byte_nth _ 4 B ltac:(lia)) as B4.
  rewrite (lor_step _ 56 _ 48 8) by (try lia; change (2 ^ 8) with 256; change (2 ^ 16) with 65536; lia).
  rewrite (lor_step _ 48 _ 32 16) by (try lia; change (2 ^ 8) with 256; change (2 ^ 16) with 65536; lia).
  rewrite (lor_step _ 32 _ 24 8) by (try lia; change (2 ^ 8) with 256; change (2 ^ 16) with 65536; lia).
  rewrite (lor_step _ 24 _ 16 8) by (try lia; change (2 ^ 8) with 256; change (2 ^ 16) with 65536; lia).
  rewrite (lor_last _ 16) by (try lia; change (2 ^ 16) with 65536; lia). reflexivity.
Qed.
Lemma cod_words_inj c c' u v w w' : coding_legal (cod_says c) -> coding_legal (cod_says c') -> in_dword (SGcod c) -> in_dword (SGcod c') ->
  cod_words c = ret w -> cod_words c' = ret w' -> w ++ u = w' ++ v ->
  style_of_coding (cod_says c) = style_of_coding (cod_says c') /\ get_number_of_layers c = get_number_of_layers c' /\ u = v.
Proof.
  intros L L' SG SG' W W' E. rewrite cod_words_are in W by assumption. rewrite cod_words_are in W' by assumption. apply ret_inj in W, W'. subst w w'.
  cbn [app] in E. apply cons_split in E. destruct E as [E1 E]. apply cons_split in E. destruct E as [E2 E].
  destruct (sg_ranges c SG) as (P & N & M). destruct (sg_ranges c' SG') as (P' & N' & M').
  assert (R : forall x, coding_legal x -> 0 <= modes_in x < 256 /\ 0 <= transf_in x < 256) by (intros x (B & Ln & _); split; apply byte_nth; try assumption; lia).
  destruct (R _ L) as [R1 R2]. destruct (R _ L') as [R1' R2']. unfold cod_fields in E1.
  apply radix in E1; [|change (2 ^ 16) with 65536; lia|change (2 ^ 16) with 65536; lia]. destruct E1 as [E1 Et].
  apply radix in E1; [|change (2 ^ 8) with 256; change (2 ^ 16) with 65536; lia|change (2 ^ 8) with 256; change (2 ^ 16) with 65536; lia]. destruct E1 as [E1 Em].
  apply radix in E1; [|change (2 ^ 8) with 256; change (2 ^ 16) with 65536; lia|change (2 ^ 8) with 256; change (2 ^ 16) with 65536; lia]. destruct E1 as [E1 Ec].
  apply radix in E1; [|change (2 ^ 16) with 65536; lia|change (2 ^ 16) with 65536; lia]. destruct E1 as [E1 En].
  apply radix in E1; [|change (2 ^ 8) with 256; change (2 ^ 16) with 65536; lia|change (2 ^ 8) with 256; change (2 ^ 16) with 65536; lia]. destruct E1 as [El Ep].
  assert (Eb : block_in (cod_says c) = block_in (cod_says c')).
  { unfold block_in in *. apply pair_word_inj in E2; [exact E2| |].
    - destruct L as (B & Ln & _ & _ & S). pose proof (byte_nth _ 1 B ltac:(lia)). pose proof (byte_nth _ 2 B ltac:(lia)). split; [apply Z.pow_nonneg; lia|].
      apply Z.le_lt_trans with (2 ^ 10); [apply Z.pow_le_mono_r; lia|reflexivity].
    - destruct L' as (B & Ln & _ & _ & S). pose proof (byte_nth _ 1 B ltac:(lia)). pose proof (byte_nth _ 2 B ltac:(lia)). split; [apply Z.pow_nonneg; lia|].
      apply Z.le_lt_trans with (2 ^ 10); [apply Z.pow_le_mono_r; lia|reflexivity]. }
  apply app_split in E; [|rewrite !map_length, El; reflexivity]. destruct E as [E ->].
  split; [|split; [exact En|reflexivity]]. unfold style_of_coding. rewrite El, Eb, Em, Et. f_equal.
  assert (G : forall x r, coding_legal x -> 0 <= r <= levels_in x -> in_dword (snd (precinct_in x r))).
  { intros x r (B & Ln & _ & G & _) Hr. unfold precinct_in, in_dword. destruct (given x); cbn [snd]; [|lia]. specialize (G eq_refl).
    assert (D : 0 <= levels_in x) by (unfold levels_in; apply byte_nth; [assumption|lia]). pose proof (byte_nth _ (5 + r) B ltac:(lia)). lia. }
  pose proof (levels_pos _ L) as Vp.
  rewrite El in E. assert (G1 : forall r, In r (zseq (levels_in (cod_says c') + 1)) -> in_dword (snd (precinct_in (cod_says c) r)) /\ in_dword (snd (precinct_in (cod_says c') r))).
  { intros r Hr. apply zseq_In in Hr. split; apply G; try assumption; lia. }
  revert E G1. generalize (zseq (levels_in (cod_says c') + 1)). clear. induction l as [|r l IH]; intros E G1; [reflexivity|].
  cbn [map] in *. apply cons_split in E. destruct E as [E1 E]. f_equal; [|apply IH; [exact E|intros; apply G1; right; assumption]].
  destruct (G1 r (or_introl eq_refl)) as [A B]. destruct (precinct_in (cod_says c) r), (precinct_in (cod_says c') r). apply pair_word_inj; assumption.
Qed.

(** ** QCD *)
Definition steps_legal (q : qcd) : Prop := in_byte (Sqcd q) /\ zlen (SPqcd q) <= 255 /\ Forall (if quant_style (Sqcd q) =? 0 then in_byte else in_word) (SPqcd q).
Lemma guard_div v : get_number_of_guardbits v = v / 32. Proof. unfold get_number_of_guardbits. rewrite Z.shiftr_div_pow2 by lia. reflexivity. Qed.
Lemma qcd_words_ex q : steps_legal q -> exists w, qcd_words q = Ret w.
Proof.
  intros (H & L & F). unfold qcd_words. pose proof (zlen_nonneg (SPqcd q)). rewrite Z.mod_small by lia.
  destruct (Z.ltb_spec 0 (zlen (SPqcd q))); [|eexists; reflexivity].
  unfold get_exponents, get_mantissas. rewrite rd_in by lia. destruct (quant_style (Sqcd q) =? 0) eqn:E0; cbn [bind].
  - destruct (quant_style (Sqcd q) =? 1); cbn [bind]; eexists; reflexivity.
  - destruct (quant_style (Sqcd q) =? 1); cbn [bind]; eexists; reflexivity.
Qed.
Lemma first_value q : steps_legal q -> 0 < zlen (SPqcd q) -> exists e m, get_exponents (Sqcd q) (SPqcd q) 0 = Ret e /\ get_mantissas (Sqcd q) (SPqcd q) 0 = Ret m
  /\ 0 <= e < 256 /\ 0 <= m < 2048 /\ znth 0 (SPqcd q) 0 = (if quant_style (Sqcd q) =? 0 then m else e * 2048 + m).
Proof.
  intros (H & L & F) P. set (v := znth 0 (SPqcd q) 0).
  assert (V : if quant_style (Sqcd q) =? 0 then in_byte v else in_word v).
  { assert (T : (if quant_style (Sqcd q) =? 0 then in_byte else in_word) v) by (apply (proj1 (Forall_forall _ _) F); apply znth_In; lia).
    destruct (quant_style (Sqcd q) =? 0); exact T. }
  assert (M11 : v &b 2047 = v mod 2048) by (change 2047 with (2 ^ 11 - 1); rewrite land_ones_mod by lia; reflexivity).
  unfold get_exponents, get_mantissas. rewrite rd_in by lia. fold v. cbn [bind]. rewrite M11, !Z.shiftr_div_pow2 by lia. change (2 ^ 11) with 2048. change (2 ^ 3) with 8.
  unfold in_byte, in_word in V.
  destruct (Z.eqb_spec (quant_style (Sqcd q)) 0) as [E0|E0].
  - rewrite E0. cbn [Z.eqb]. do 2 eexists. split; [reflexivity|]. split; [reflexivity|]. lia.
  - destruct (quant_style (Sqcd q) =? 1); do 2 eexists; (split; [reflexivity|]); (split; [reflexivity|]); rewrite (Z.mod_small (v / 2048)) by lia; lia.
Qed.
Lemma qcd_words_inj q q' w w' u v : steps_legal q -> steps_legal q' -> tl (SPqcd q) = tl (SPqcd q') -> qcd_words q = Ret w -> qcd_words q' = Ret w' ->
  w ++ u = w' ++ v -> q = q' /\ u = v.
Proof.
  intros S S' T W W' E.
  assert (X : forall q w, steps_legal q -> qcd_words q = Ret w ->
    exists r, w = ((Sqcd q mod 32 * 2 ^ 8 + Sqcd q / 32) * 2 ^ 8 + zlen (SPqcd q)) :: r
    /\ (if 0 <? zlen (SPqcd q) then exists e m, r = [e * 65536 + m] /\ 0 <= e < 256 /\ 0 <= m < 2048 /\ znth 0 (SPqcd q) 0 = (if Sqcd q mod 32 =? 0 then m else e * 2048 + m) else r = [])).
  { clear. intros q w S W. pose proof S as (H & L & F). unfold qcd_words in W. pose proof (zlen_nonneg (SPqcd q)). rewrite (Z.mod_small (zlen (SPqcd q))) in W by lia.
    rewrite style_mod, guard_div in W. unfold in_byte in H.
    rewrite (lor_step _ 16 _ 8 8) in W by (try lia; change (2 ^ 8) with 256; change (2 ^ 16) with 65536; lia). rewrite lor_last in W by (try lia; change (2 ^ 8) with 256; change (2 ^ 16) with 65536; lia).
    destruct (Z.ltb_spec 0 (zlen (SPqcd q))).
    - destruct (first_value q S ltac:(lia)) as (e & m & E1 & E2 & Re & Rm & V). rewrite E1, E2 in W. cbn [bind] in W. apply Ret_inj in W. subst w.
      eexists. split; [reflexivity|]. rewrite style_mod in V. exists e, m. split; [|tauto]. rewrite lor_last by (try lia; change (2 ^ 16) with 65536; lia). reflexivity.
    - apply Ret_inj in W. subst w. eexists. split; reflexivity. }
  destruct (X q w S W) as (r & -> & Rr). destruct (X q' w' S' W') as (r' & -> & Rr'). clear X W W'.
  destruct S as (H & L & F). destruct S' as (H' & L' & F'). unfold in_byte in H, H'. pose proof (zlen_nonneg (SPqcd q)). pose proof (zlen_nonneg (SPqcd q')).
  cbn [app] in E. apply cons_split in E. destruct E as [E1 E].
  apply radix in E1; [|change (2 ^ 8) with 256; change (2 ^ 16) with 65536; lia|change (2 ^ 8) with 256; change (2 ^ 16) with 65536; lia]. destruct E1 as [E1 El].
  apply radix in E1; [|change (2 ^ 8) with 256; change (2 ^ 16) with 65536; lia|change (2 ^ 8) with 256; change (2 ^ 16) with 65536; lia]. destruct E1 as [Es Eg].
  assert (ES : Sqcd q = Sqcd q') by lia.
  rewrite El in Rr. destruct (Z.ltb_spec 0 (zlen (SPqcd q'))).
  - destruct Rr as (e & m & -> & Re & Rm & V). destruct Rr' as (e' & m' & -> & Re' & Rm' & V').
    cbn [app] in E. apply cons_split in E. destruct E as [E ->].
    apply radix in E; [|lia|lia]. destruct E as [-> ->]. rewrite Es in V. rewrite <- V' in V.
    split; [|reflexivity]. destruct q as [s l], q' as [s' l']. cbn [Sqcd SPqcd] in *. subst s'. f_equal.
    destruct l as [|x l]; [change (zlen (@nil Z)) with 0 in El; lia|]. destruct l' as [|x' l']; [change (zlen (@nil Z)) with 0 in El; rewrite zlen_cons in El; pose proof (zlen_nonneg l); lia|].
    cbn [tl] in T. unfold znth in V. cbn in V. subst. reflexivity.
  - subst r r'. split; [|exact E]. destruct q as [s l], q' as [s' l']. cbn [Sqcd SPqcd] in *. subst s'. f_equal.
    assert (zlen l' = 0) by lia. assert (zlen l = 0) by lia. rewrite (zlen_0 l), (zlen_0 l') by assumption. reflexivity.
Qed.

(** ** Frames *)
Lemma same_wanted f g w : frame_legal f -> frame_legal g -> alike f g -> words (f_main f) = ret w -> words (f_main g) = ret w -> wanted f = wanted g /\ wanted f <> None.
Proof.
  intros F G (AC & AQ & AT & AS) Wf Wg.
  destruct (fl_siz _ F) as (x & Ex & Ox & _). destruct (fl_siz _ G) as (y & Ey & Oy & _).
  pose proof (fl_headers _ F) as HF. pose proof (fl_headers _ G) as HG.
  destruct (hl_cod _ _ HF) as (c & Ec & Lc). destruct (hl_cod _ _ HG) as (c' & Ec' & Lc').
  destruct (hl_qcd _ _ HF) as (q & Eq & Uq). destruct (hl_qcd _ _ HG) as (q' & Eq' & Uq').
  unfold words in Wf, Wg. rewrite Ex, Ec, Eq in Wf. rewrite Ey, Ec', Eq' in Wg.
  pose proof (cod_words_are c Lc (fl_sg _ F c Ec)) as CW. pose proof (cod_words_are c' Lc' (fl_sg _ G c' Ec')) as CW'.
  rewrite CW in Wf. rewrite CW' in Wg. cbn [bindx ret] in Wf, Wg.
  destruct (qcd_words_ex q (fl_steps _ F q Eq)) as (qw & QW). destruct (qcd_words_ex q' (fl_steps _ G q' Eq')) as (qw' & QW').
  rewrite QW in Wf. rewrite QW' in Wg. cbn [bind] in Wf, Wg. apply ret_inj in Wf, Wg. subst w.
  apply siz_words_inj in Wg; [|assumption|assumption]. destruct Wg as [Egeo E].
  eapply cod_words_inj in E; [|exact Lc'|exact Lc|exact (fl_sg _ G c' Ec')|exact (fl_sg _ F c Ec)|exact CW'|exact CW]. destruct E as (Est & Ela & E).
  eapply qcd_words_inj in E; [|exact (fl_steps _ G q' Eq')|exact (fl_steps _ F q Eq)|symmetry; apply (AS q q' Eq Eq')|exact QW'|exact QW]. destruct E as [Eqq _]. subst q'.
  unfold wanted. rewrite Ex, Ey.
  assert (EC : Csiz x = Csiz y) by (unfold geometry in Egeo; inversion Egeo; reflexivity). rewrite EC.
  rewrite (tile_is _ _ (Csiz y) c q HF Ec Eq). rewrite (tile_is _ _ (Csiz y) c' q HG Ec' Eq'). split; [|unfold ret; discriminate]. rewrite Egeo, AT.
  assert (ED : get_number_of_layers (match last_of is_cod (f_tile g) with Some k => k | None => c end) = get_number_of_layers (match last_of is_cod (f_tile g) with Some k => k | None => c' end))
    by (destruct (last_of is_cod (f_tile g)); [reflexivity|symmetry; exact Ela]).
  cbv zeta. unfold ret. cbn [t_order t_comps order_of o_layers]. rewrite ED. f_equal. f_equal. rewrite !map_map. apply map_ext. intros k. cbn [comp_of c_style c_quant].
  unfold pick. rewrite AC, AQ.
  assert (ES : style_of_coding (cod_says (match last_of is_cod (f_tile g) with Some k => k | None => c end)) = style_of_coding (cod_says (match last_of is_cod (f_tile g) with Some k => k | None => c' end)))
    by (destruct (last_of is_cod (f_tile g)); [reflexivity|symmetry; exact Est]).
  rewrite ES. assert (EL : levels_in (cod_says c) = levels_in (cod_says c')) by (apply (f_equal levels) in Est; symmetry; exact Est). rewrite EL.
  replace (levels_in (cod_says (match last_of is_cod (f_tile g) with Some k => k | None => c end))) with (levels_in (cod_says (match last_of is_cod (f_tile g) with Some k => k | None => c' end))); [reflexivity|].
  destruct (last_of is_cod (f_tile g)); [reflexivity|symmetry; exact EL].
Qed.

(** ** The cache *)
(** The tree was built from a frame of the past whose fingerprint is the one kept. *)
Definition cache_ok (past : list frame) (st : cache) : Prop :=
  match tree st with None => True | Some g => In g past /\ exists w, words (f_main g) = ret w /\ print st = hash w end.
Definition printed (f g : frame) : Prop := exists v w, words (f_main f) = ret v /\ words (f_main g) = ret w /\ hash v = hash w.
Lemma reuse_ok past st f st' r : cache_ok past st -> f_end f <> RowsThrow -> reuse st f = Ret (st', r) ->
  cache_ok (f :: past) st' /\ (forall g, r = Used g -> In g (f :: past) /\ printed f g).
Proof.
  intros OK NR E. unfold reuse in E. destruct (last_of is_siz (f_main f)) as [x|]; [|discriminate].
  destruct (get_number_of_tiles x) as [[nx ny]| |]; cbn [bind] in E; try discriminate.
  destruct (negb ((nx =? 1) && (ny =? 1))).
  { apply Ret_inj in E. apply pair_inj in E. destruct E as [<- <-]. split; [exact I|]. intros g H. destruct (f_end f); discriminate. }
  destruct (words (f_main f)) as [[ws|]| |] eqn:W; cbn [bind] in E; try discriminate.
  2:{ apply Ret_inj in E. apply pair_inj in E. destruct E as [<- <-]. split; [|intros g H; discriminate].
      unfold cache_ok in *. destruct (tree st) as [t|]; [|exact I]. destruct OK as [A B]. split; [right; exact A|exact B]. }
  unfold cache_ok in *. destruct (tree st) as [t|] eqn:ET.
  - destruct OK as (InT & w & Wt & Pt). destruct (Z.eqb_spec (print st) (hash ws)) as [Hit|Miss].
    + destruct (f_end f); try discriminate; try contradiction; apply Ret_inj in E; apply pair_inj in E; destruct E as [<- <-]; cbn [tree print cache0].
      * split; [|intros g H; discriminate]. split; [right; exact InT|]. exists w. split; assumption.
      * split; [exact I|intros g H; discriminate].
      * split; [split; [right; exact InT|exists w; split; [exact Wt|congruence]]|].
        intros g H. inversion H; subst g. split; [right; exact InT|]. exists ws, w. split; [exact W|]. split; [exact Wt|congruence].
    + destruct (f_end f); try discriminate; try contradiction; apply Ret_inj in E; apply pair_inj in E; destruct E as [<- <-]; cbn [tree print cache0].
      * split; [exact I|intros g H; discriminate].
      * split; [exact I|intros g H; discriminate].
      * split; [split; [left; reflexivity|exists ws; split; [exact W|reflexivity]]|].
        intros g H. inversion H; subst g. split; [left; reflexivity|]. exists ws, ws. split; [exact W|]. split; [exact W|reflexivity].
  - destruct (f_end f); try discriminate; try contradiction; apply Ret_inj in E; apply pair_inj in E; destruct E as [<- <-]; cbn [tree print cache0].
    + split; [exact I|intros g H; discriminate].
    + split; [exact I|intros g H; discriminate].
    + split; [split; [left; reflexivity|exists ws; split; [exact W|reflexivity]]|].
      intros g H. inversion H; subst g. split; [left; reflexivity|]. exists ws, ws. split; [exact W|]. split; [exact W|reflexivity].
Qed.
Lemma reuse_all_ok : forall fs past st st' rs, cache_ok past st -> Forall (fun f => f_end f <> RowsThrow) fs -> reuse_all st fs = Ret (st', rs) ->
  Forall2 (fun f r => forall g, r = Used g -> In g (rev fs ++ past) /\ printed f g) fs rs.
Proof.
  induction fs as [|f fs IH]; intros past st st' rs OK NR E; cbn [reuse_all] in E.
  - apply Ret_inj in E. apply pair_inj in E. destruct E as [_ <-]. constructor.
  - destruct (reuse st f) as [[st1 r]| |] eqn:R; cbn [bind] in E; try discriminate.
    destruct (reuse_all st1 fs) as [[st2 rs']| |] eqn:RS; cbn [bind] in E; try discriminate.
    apply Ret_inj in E. apply pair_inj in E. destruct E as [<- <-]. inversion NR as [|? ? N1 N2]; subst.
    destruct (reuse_ok past st f st1 r OK N1 R) as [OK1 U].
    specialize (IH (f :: past) st1 st2 rs' OK1 N2 RS). constructor.
    + intros g H. destruct (U g H) as [A B]. split; [|exact B]. cbn [rev]. rewrite <- app_assoc. apply in_or_app. right. cbn [app]. destruct A; [left|right]; assumption.
    + cbn [rev]. clear - IH. revert IH. rewrite <- app_assoc. cbn [app]. intros IH. exact IH.
Qed.

Lemma words_ex f : frame_legal f -> exists w, words (f_main f) = ret w.
Proof.
  intros F. destruct (fl_siz _ F) as (x & Ex & _). pose proof (fl_headers _ F) as HF.
  destruct (hl_cod _ _ HF) as (c & Ec & Lc). destruct (hl_qcd _ _ HF) as (q & Eq & Uq).
  unfold words. rewrite Ex, Ec, Eq, (cod_words_are c Lc (fl_sg _ F c Ec)). cbn [bindx ret].
  destruct (qcd_words_ex q (fl_steps _ F q Eq)) as (qw & ->). cbn [bind]. eexists. reflexivity.
Qed.
Lemma reuse_ret st f : frame_legal f -> f_end f <> NoParts ->
  exists st' r, reuse st f = Ret (st', r) /\ (f_end f = Done -> one_tile f -> exists g, r = Used g) /\ (f_end f = Done -> r <> Threw).
Proof.
  intros F N. destruct (fl_siz _ F) as (x & Ex & O & TX & TY). unfold reuse. rewrite Ex.
  assert (T : exists nx ny, get_number_of_tiles x = Ret (nx, ny)).
  { unfold get_number_of_tiles, ceil_int. replace (XTsiz x =? 0) with false by lia. replace (YTsiz x =? 0) with false by lia. cbn [bind]. do 2 eexists. reflexivity. }
  destruct T as (nx & ny & T). rewrite T. cbn [bind].
  destruct (negb ((nx =? 1) && (ny =? 1))) eqn:B.
  - do 2 eexists. split; [reflexivity|]. split.
    + intros _ (y & Ey & Ty). rewrite Ex in Ey. apply Some_inj in Ey. subst y. rewrite T in Ty. apply Ret_inj in Ty. apply pair_inj in Ty. destruct Ty as [-> ->]. discriminate.
    + intros ->. discriminate.
  - destruct (words_ex f F) as (w & W). rewrite W. cbn [bind ret].
    destruct (f_end f) eqn:EE; try contradiction; do 2 eexists; (split; [reflexivity|]); (split; [intros D; try discriminate D|intros D; discriminate]); intros _; eexists; reflexivity.
Qed.
Lemma reuse_all_ret : forall fs st, Forall frame_legal fs -> Forall (fun f => f_end f <> NoParts) fs ->
  exists st' rs, reuse_all st fs = Ret (st', rs) /\ Forall2 (fun f r => (f_end f = Done -> one_tile f -> exists g, r = Used g) /\ (f_end f = Done -> r <> Threw)) fs rs.
Proof.
  induction fs as [|f fs IH]; intros st F N; [do 2 eexists; split; [reflexivity|constructor]|].
  inversion F as [|? ? F1 F2]; subst. inversion N as [|? ? N1 N2]; subst. cbn [reuse_all].
  destruct (reuse_ret st f F1 N1) as (st1 & r & E & P). rewrite E. cbn [bind].
  destruct (IH st1 F2 N2) as (st2 & rs & E2 & P2). rewrite E2. cbn [bind]. do 2 eexists. split; [reflexivity|]. constructor; assumption.
Qed.
Lemma bytes8_ok v : bytes_ok (bytes8 v).
Proof. unfold bytes8. apply Forall_forall. intros b H. apply in_map_iff in H. destruct H as (i & <- & _). apply Z.mod_pos_bound. lia. Qed.
Lemma flat_ok ws : bytes_ok (flat_map bytes8 ws).
Proof. induction ws as [|w ws IH]; [constructor|]. cbn [flat_map]. apply Forall_app. split; [apply bytes8_ok|exact IH]. Qed.
