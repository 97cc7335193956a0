From Verif Require Import Base BaseLemmas Assoc Text TextProofs CacheModel CacheSpec.
From Coq Require Import Permutation.

Lemma ckey_eq c i : bin_ok c i -> ckey c i = c * 2 ^ 56 + i.
Proof.
  intros [Hc Hi]. unfold ckey. rewrite Z.shiftl_mul_pow2 by lia.
  unfold wrap64, two64. rewrite Z.mod_small by lia. apply lor_mul_add; lia.
Qed.
Lemma ckey_inj c i c' i' : bin_ok c i -> bin_ok c' i' -> ckey c i = ckey c' i' -> c = c' /\ i = i'.
Proof. intros H H'. rewrite !ckey_eq by assumption. unfold bin_ok in *. lia. Qed.
Lemma key_class_ckey c i : bin_ok c i -> key_class (ckey c i) = c.
Proof.
  intros H. rewrite ckey_eq by assumption. unfold key_class, bin_ok in *. rewrite Z.shiftr_div_pow2 by lia.
  rewrite Z.div_add_l by lia. rewrite Z.div_small by lia. lia.
Qed.
Lemma key_id_ckey c i : bin_ok c i -> key_id (ckey c i) = i.
Proof.
  intros H. rewrite ckey_eq by assumption. unfold key_id, bin_ok in *. change 0xFFFFFFFFFFFFFF with (2 ^ 56 - 1).
  rewrite land_ones_mod by lia. rewrite Z.add_comm, Z_mod_plus_full. apply Z.mod_small. lia.
Qed.

(** ** C10 *)
Definition state (m : cmodel) (c i : Z) : Z * bool := (received_bytes m c i, has m c i).
Lemma state_eq m c i : state m c i = let e := cget_or_new m (ckey c i) in (ce_bytes e, ce_complete e).
Proof. unfold state, received_bytes, has, cget_or_new. now destruct (cget m (ckey c i)) as [e |]. Qed.

Definition here c i c' i' := (c' =? c) && (i' =? i).
Lemma here_key c i c' i' : bin_ok c i -> bin_ok c' i' -> (ckey c' i' =? ckey c i) = here c i c' i'.
Proof.
  intros H H'. unfold here. destruct (Z.eqb_spec (ckey c' i') (ckey c i)) as [E | N].
  - apply ckey_inj in E as [-> ->]; auto. lia.
  - destruct (Z.eqb_spec c' c), (Z.eqb_spec i' i); try reflexivity. subst. congruence.
Qed.

Lemma state_exec m s c i : stmt_ok s -> bin_ok c i ->
  state (exec m s) c i =
  match s with
  | Have c' i' => if here c i c' i' then (fst (state m c i), true) else state m c i
  | HavePart c' i' b => if here c i c' i' && negb (snd (state m c i)) then (Z.max (fst (state m c i)) b, false) else state m c i
  | Drop c' i' => if here c i c' i' then (0, false) else state m c i
  | DropAll => (0, false)
  end.
Proof.
  intros Hs Hb. rewrite !state_eq. cbv zeta. unfold exec.
  destruct s as [c' i' | c' i' b | c' i' |]; cbn [stmt_ok] in Hs.
  - unfold mark, cget_or_new, cget. rewrite aget_aput by apply zeqb_reflect. rewrite here_key by auto.
    destruct (here c i c' i') eqn:E; [| reflexivity]. cbn [ce_bytes ce_complete fst].
    assert (ckey c' i' = ckey c i) as -> by (apply Z.eqb_eq; now rewrite here_key). reflexivity.
  - destruct Hs as [Hs Hbb]. unfold mark_partial, cget_or_new, cget. rewrite aget_aput by apply zeqb_reflect.
    rewrite here_key by auto. destruct (here c i c' i') eqn:E; [| reflexivity]. cbn [andb].
    assert (ckey c' i' = ckey c i) as -> by (apply Z.eqb_eq; now rewrite here_key).
    set (e := match aget Z.eqb m (ckey c i) with Some e => e | None => fresh end). cbn [fst snd].
    destruct (ce_complete e) eqn:Ec; cbn [negb andb]; [now rewrite Ec |].
    destruct (Z.ltb_spec (ce_bytes e) b); cbn [ce_bytes ce_complete]; [| rewrite Ec]; f_equal; lia.
  - unfold unmark, cget_or_new, cget. rewrite aget_adel by apply zeqb_reflect. rewrite here_key by auto.
    destruct (here c i c' i'); reflexivity.
  - reflexivity.
Qed.

Lemma exec_all_bytes c i : forall h m, Forall stmt_ok h -> bin_ok c i ->
  received_bytes (exec_all m h) c i = stated_bytes c i (has m c i) (received_bytes m c i) h.
Proof.
  intros h. induction h as [| s h IH]; intros m Hh Hb; cbn [exec_all fold_left stated_bytes]; [reflexivity |].
  inversion_clear Hh as [| ? ? Hs Hh']. fold (exec_all (exec m s) h). rewrite IH by assumption.
  pose proof (state_exec m s c i Hs Hb) as E. unfold state in E. cbn [fst snd] in E.
  destruct s as [c' i' | c' i' b | c' i' |]; unfold here in E.
  - destruct ((c' =? c) && (i' =? i)); apply pair_inj in E as [-> ->]; [now rewrite orb_true_r | now rewrite orb_false_r].
  - destruct (has m c i); cbn [negb] in *; rewrite ?andb_true_r, ?andb_false_r in *.
    + apply pair_inj in E as [-> ->]. reflexivity.
    + destruct ((c' =? c) && (i' =? i)); apply pair_inj in E as [-> ->]; reflexivity.
  - destruct ((c' =? c) && (i' =? i)); apply pair_inj in E as [-> ->]; reflexivity.
  - apply pair_inj in E as [-> ->]; reflexivity.
Qed.

Lemma exec_all_has c i : forall h m, Forall stmt_ok h -> bin_ok c i ->
  (has (exec_all m h) c i = true <->
   (exists h1 h2, h = h1 ++ Have c i :: h2 /\ Forall (fun s => ~ drops c i s) h2)
   \/ (has m c i = true /\ Forall (fun s => ~ drops c i s) h)).
Proof.
  intros h. induction h as [| s h IH]; intros m Hh Hb; cbn [exec_all fold_left].
  - split; [intros E; right; split; auto |]. intros [[h1 [h2 [E _]]] | [E _]]; [destruct h1; discriminate E | exact E].
  - inversion_clear Hh as [| ? ? Hs Hh']. fold (exec_all (exec m s) h). rewrite IH by assumption.
    pose proof (state_exec m s c i Hs Hb) as E. unfold state in E. apply (f_equal snd) in E. cbn [snd] in E.
    assert (Dr : drops c i s <-> match s with Drop c' i' => here c i c' i' = true | DropAll => True | _ => False end).
    { unfold drops, here. destruct s; (split; [intros [D | D]; try discriminate D; try (injection D as -> ->; lia); exact I |]);
        intros D; auto; try easy. left. f_equal; lia. }
    split.
    + intros [[h1 [h2 [-> F]]] | [G F]].
      * left. exists (s :: h1), h2. auto.
      * rewrite G in E. symmetry in E.
        destruct s as [c' i' | c' i' b | c' i' |].
        -- destruct (here c i c' i') eqn:Hh.
           ++ left. exists [], h. unfold here in Hh. replace c' with c by lia. replace i' with i by lia. auto.
           ++ right. split; [exact E |]. constructor; [| assumption]. rewrite Dr. auto.
        -- destruct (here c i c' i' && negb (has m c i)); [discriminate E |]. right. split; [exact E |].
           constructor; [| assumption]. rewrite Dr. auto.
        -- destruct (here c i c' i'); [discriminate E |]. right. split; [exact E |].
           constructor; [| assumption]. rewrite Dr. congruence.
        -- discriminate E.
    + intros [[h1 [h2 [Eq F]]] | [G F]].
      * destruct h1 as [| s' h1]; cbn [app] in Eq; injection Eq as -> ->.
        -- right. split; [| assumption]. rewrite E. unfold here. rewrite !Z.eqb_refl. reflexivity.
        -- left. exists h1, h2. auto.
      * right. inversion_clear F as [| ? ? Fs Fh]. rewrite Dr in Fs. split; [| assumption]. rewrite E, G.
        destruct s as [c' i' | c' i' b | c' i' |]; cbn [snd negb andb].
        -- now destruct (here c i c' i').
        -- now rewrite andb_false_r.
        -- destruct (here c i c' i'); [congruence | reflexivity].
        -- tauto.
Qed.

(** ** The text form *)
Lemma index_of_app c a b : Forall (fun x => x <> c) a -> index_of c (a ++ c :: b) = Some (zlen a).
Proof.
  induction a as [| x a IH]; intros F; cbn [app index_of].
  - now rewrite Z.eqb_refl.
  - inversion_clear F as [| ? ? Hx Fa]. destruct (Z.eqb_spec x c); [congruence |]. rewrite IH by assumption.
    cbn [option_map]. now rewrite zlen_cons.
Qed.
Lemma index_of_none c a : Forall (fun x => x <> c) a -> index_of c a = None.
Proof.
  induction a as [| x a IH]; intros F; cbn [index_of]; [reflexivity |].
  inversion_clear F as [| ? ? Hx Fa]. destruct (Z.eqb_spec x c); [congruence |]. now rewrite IH.
Qed.
Lemma digits_avoid c l : Forall (fun x => is_digit x = true) l -> is_digit c = false -> Forall (fun x => x <> c) l.
Proof. intros F N. eapply Forall_impl; [| exact F]. cbv beta. congruence. Qed.

Lemma char_at_app a x b : char_at (a ++ x :: b) (zlen a) = x.
Proof. unfold char_at. rewrite znth_app_r by lia. replace (zlen a - zlen a) with 0 by lia. reflexivity. Qed.

Definition ends (rest : list Z) : Prop := rest = [] \/ exists r, rest = 44 :: r.
Lemma ends_stops rest : ends rest -> stops is_digit rest.
Proof. intros [-> | [r ->]]; [exact I | reflexivity]. Qed.

Definition op_of (drop : bool) (part : option Z) (cls : Z) (m : cmodel) (id : Z) : cmodel :=
  exec m (meaning1 drop part cls id).

Lemma range_ops_all (op : cmodel -> Z -> cmodel) : forall n fuel m id end_id budget,
  end_id = id + Z.of_nat n - 1 -> 0 <= id -> end_id < 2 ^ 56 -> Z.of_nat n <= budget -> (n < fuel)%nat ->
  range_ops fuel op m id end_id budget
  = Ret (fold_left op (map (fun k => id + k) (zseq (Z.of_nat n))) m, budget - Z.of_nat n, false).
Proof.
  induction n as [| n IH]; intros fuel m id end_id budget E H0 H1 Hb Hf; (destruct fuel as [| fuel]; [lia |]); cbn [range_ops].
  - destruct (Z.leb_spec id end_id); [lia |]. rewrite zseq_0 by lia. cbn [map fold_left]. do 3 f_equal. lia.
  - destruct (Z.leb_spec id end_id); [| lia]. destruct (Z.eqb_spec budget 0); [lia |].
    unfold wrap64, two64. rewrite Z.mod_small by lia. rewrite (IH fuel) by lia.
    rewrite (zseq_cons (Z.of_nat (S n))) by lia. cbn [map fold_left]. rewrite map_map.
    replace (Z.of_nat (S n) - 1) with (Z.of_nat n) by lia. rewrite Z.add_0_r.
    do 3 f_equal; [| lia]. f_equal. apply map_ext. intros k. lia.
Qed.

Lemma fold_exec_map op' (f : Z -> stmt) l m : (forall m k, op' m k = exec m (f k)) ->
  fold_left op' l m = exec_all m (map f l).
Proof. intros H. revert m. induction l as [| x l IH]; intros m; cbn; [reflexivity |]. rewrite H. apply IH. Qed.

Lemma range_ops_ext op op' fuel : (forall m k, op m k = op' m k) -> forall m id e b,
  range_ops fuel op m id e b = range_ops fuel op' m id e b.
Proof.
  intros H. induction fuel as [| f IH]; intros m id e b; cbn [range_ops]; [reflexivity |].
  destruct (id <=? e); [| reflexivity]. destruct (b =? 0); [reflexivity |]. now rewrite H, IH.
Qed.

Lemma range_ops_stops (op : cmodel -> Z -> cmodel) : forall n fuel m id end_id,
  id + Z.of_nat n <= end_id -> 0 <= id -> end_id < 2 ^ 56 -> (n < fuel)%nat ->
  range_ops fuel op m id end_id (Z.of_nat n)
  = Ret (fold_left op (map (fun k => id + k) (zseq (Z.of_nat n))) m, 0, true).
Proof.
  induction n as [| n IH]; intros fuel m id end_id E H0 H1 Hf; (destruct fuel as [| fuel]; [lia |]); cbn [range_ops].
  - destruct (Z.leb_spec id end_id); [reflexivity | lia].
  - destruct (Z.leb_spec id end_id); [| lia]. destruct (Z.eqb_spec (Z.of_nat (S n)) 0); [lia |].
    unfold wrap64, two64. rewrite Z.mod_small by lia.
    rewrite (zseq_cons (Z.of_nat (S n))) by lia.
    replace (Z.of_nat (S n) - 1) with (Z.of_nat n) by lia. rewrite (IH fuel) by lia.
    cbn [map fold_left]. rewrite map_map, Z.add_0_r.
    do 4 f_equal. apply map_ext. intros k. lia.
Qed.

Lemma firstn_seq_le : forall k n a, (k <= n)%nat -> firstn k (seq a n) = seq a k.
Proof.
  induction k as [| k IH]; intros [| n] a H; try reflexivity; [lia |].
  cbn [seq firstn]. f_equal. apply IH. lia.
Qed.

Lemma letter_len long cls : zlen (letter long cls) = if long then 2 else 1.
Proof. unfold letter. destruct long, (cls =? 0); try reflexivity. destruct (cls =? 2); reflexivity. Qed.

Lemma prefix_letter long cls d q len : cls = 0 \/ cls = 2 \/ (cls = 8 /\ long = false) -> is_digit d = true -> 2 <= len ->
  prefix_to_class (letter long cls ++ d :: q) len = Some (cls, d :: q, len - zlen (letter long cls)).
Proof.
  intros Hc Hd Hl. unfold prefix_to_class. unfold is_digit in Hd.
  destruct (Z.leb_spec 2 len); [| lia]. destruct (Z.ltb_spec 0 len); [| lia].
  assert (d <> 109 /\ d <> 116 /\ d <> 112) as [N1 [N2 N3]] by lia.
  apply Z.eqb_neq in N1, N2, N3.
  destruct Hc as [-> | [-> | [-> ->]]]; try destruct long; try reflexivity;
    change (letter false 2 ++ d :: q) with (72 :: d :: q);
    match goal with |- context [char_at (?x :: d :: q) 0] =>
      change (char_at (x :: d :: q) 0) with x; change (char_at (x :: d :: q) 1) with d end;
    rewrite ?N1, ?N2, ?N3; reflexivity.
Qed.

Lemma colon_text p rest : part_ok p -> ends rest ->
  let t := match p with Some b => 58 :: dec b | None => [] end in
  stops is_digit (t ++ rest).
Proof. intros _ E. cbv zeta. destruct p; [reflexivity | now apply ends_stops]. Qed.

(** One token, wherever the string goes on after it. *)
Lemma apply_token_text t rest m budget : tstmt_ok t -> ends rest -> 0 <= budget ->
  apply_token m budget (text t ++ rest) (zlen (text t))
  = Ret (if bins_named t <=? budget then (exec_all m (meaning t), budget - bins_named t, false)
         else (exec_all m (firstn (Z.to_nat budget) (meaning t)), 0, true)).
Proof.
  intros Hok He Hb. unfold apply_token.
  assert (Ln : forall q : list Z, zskip 1 (45 :: q) = q) by reflexivity.
  destruct t as [d p | d long cls lo hi p].
  - (* main header *)
    cbn [text meaning bins_named] in *.
    set (colon := match p with Some b => 58 :: dec b | None => [] end).
    assert (E : (let sub := (0 <? zlen ((if d then [45] else []) ++ [72; 109] ++ colon)) &&
                            (char_at (((if d then [45] else []) ++ [72; 109] ++ colon) ++ rest) 0 =? 45) in
                 (sub, if sub then (zskip 1 (((if d then [45] else []) ++ [72; 109] ++ colon) ++ rest),
                                    zlen ((if d then [45] else []) ++ [72; 109] ++ colon) - 1)
                       else (((if d then [45] else []) ++ [72; 109] ++ colon) ++ rest,
                             zlen ((if d then [45] else []) ++ [72; 109] ++ colon))))
                = (d, (72 :: 109 :: colon ++ rest, 2 + zlen colon))).
    { pose proof (zlen_nonneg colon). destruct d; cbn [app]; cbv zeta; rewrite !zlen_cons.
      - change (char_at (45 :: 72 :: 109 :: colon ++ rest) 0) with 45. rewrite Z.eqb_refl.
        destruct (Z.ltb_spec 0 (1 + (1 + (1 + zlen colon)))); [| lia]. cbn [andb]. rewrite Ln. do 2 f_equal. lia.
      - change (char_at (72 :: 109 :: colon ++ rest) 0) with 72. change (72 =? 45) with false. rewrite andb_false_r.
        do 2 f_equal. lia. }
    cbv zeta in E |- *. apply pair_inj in E as [E1 E2]. rewrite E2, E1.
    assert (P : prefix_to_class (72 :: 109 :: colon ++ rest) (2 + zlen colon) = Some (6, colon ++ rest, zlen colon)).
    { unfold prefix_to_class. pose proof (zlen_nonneg colon). destruct (Z.leb_spec 2 (2 + zlen colon)); [| lia].
      change (char_at (72 :: 109 :: colon ++ rest) 0) with 72. change (char_at (72 :: 109 :: colon ++ rest) 1) with 109.
      cbn [Z.eqb Pos.eqb andb]. change (zskip 2 (72 :: 109 :: colon ++ rest)) with (colon ++ rest). do 2 f_equal. lia. }
    rewrite P. change (6 =? 6) with true. rewrite (proj2 (Z.leb_le 0 budget) Hb). cbn iota. rewrite Z.sub_0_r. do 3 f_equal.
    rewrite ztake_app by reflexivity. cbn [exec_all fold_left]. unfold meaning1.
    destruct d; [reflexivity |]. subst colon. destruct p as [b |]; [| reflexivity].
    change (index_of 58 (58 :: dec b)) with (Some 0). cbv iota beta.
    change (zskip (0 + 1) ((58 :: dec b) ++ rest)) with (dec b ++ rest).
    cbn [tstmt_ok part_ok] in Hok. rewrite strtoull_dec by (unfold two64; auto using ends_stops). reflexivity.
  - (* bins *)
    cbn [tstmt_ok] in Hok. destruct Hok as [Hc [Hlo [Hhi Hp]]]. cbn [bins_named] in *.
    destruct (dec_spec lo ltac:(lia)) as [Dlo [Nlo _]].
    set (colon := match p with Some b => 58 :: dec b | None => [] end).
    set (dash := if hi =? lo then [] else 45 :: dec hi).
    assert (Tx : text (TBins d long cls lo hi p) = (if d then [45] else []) ++ letter long cls ++ dec lo ++ dash ++ colon) by reflexivity.
    rewrite Tx. set (body := dec lo ++ dash ++ colon).
    assert (Ll : 1 <= zlen (letter long cls)) by (rewrite letter_len; destruct long; lia).
    assert (Lb : 1 <= zlen body).
    { unfold body. rewrite zlen_app. destruct (dec lo) as [| c0 l0]; [congruence |]. rewrite zlen_cons.
      pose proof (zlen_nonneg l0). pose proof (zlen_nonneg (dash ++ colon)). lia. }
    assert (C0 : forall q, char_at (letter long cls ++ q) 0 <> 45).
    { intros q. unfold letter. destruct long, (cls =? 0); try (cbn; lia). destruct (cls =? 2); cbn; lia. }
    assert (E : (let sub := (0 <? zlen ((if d then [45] else []) ++ letter long cls ++ body)) &&
                            (char_at (((if d then [45] else []) ++ letter long cls ++ body) ++ rest) 0 =? 45) in
                 (sub, if sub then (zskip 1 (((if d then [45] else []) ++ letter long cls ++ body) ++ rest),
                                    zlen ((if d then [45] else []) ++ letter long cls ++ body) - 1)
                       else (((if d then [45] else []) ++ letter long cls ++ body) ++ rest,
                             zlen ((if d then [45] else []) ++ letter long cls ++ body))))
                = (d, (letter long cls ++ body ++ rest, zlen (letter long cls) + zlen body))).
    { destruct d; cbn [app]; cbv zeta; rewrite ?zlen_cons, !zlen_app, <- ?app_assoc.
      - change (char_at (45 :: letter long cls ++ body ++ rest) 0) with 45. rewrite Z.eqb_refl.
        destruct (Z.ltb_spec 0 (1 + (zlen (letter long cls) + zlen body))); [| lia]. cbn [andb]. rewrite Ln. do 2 f_equal. lia.
      - destruct (Z.eqb_spec (char_at (letter long cls ++ body ++ rest) 0) 45) as [C | _]; [now apply C0 in C |].
        rewrite andb_false_r. reflexivity. }
    cbv zeta in E |- *. apply pair_inj in E as [E1 E2]. rewrite E2, E1. clear E1 E2.
    assert (P : prefix_to_class (letter long cls ++ body ++ rest) (zlen (letter long cls) + zlen body) = Some (cls, body ++ rest, zlen body)).
    { unfold body. destruct (dec lo) as [| c0 l0]; [congruence |]. cbn [app]. rewrite prefix_letter; auto.
      - do 2 f_equal. rewrite !zlen_cons. lia.
      - now inversion Dlo.
      - rewrite zlen_cons. pose proof (zlen_nonneg (l0 ++ dash ++ colon)). lia. }
    rewrite P. clear P. replace (cls =? 6) with false by lia. destruct (Z.leb_spec (zlen body) 0); [lia |].
    assert (Sc : stops is_digit (colon ++ rest)) by (unfold colon; destruct p; [reflexivity | now apply ends_stops]).
    assert (Sd : stops is_digit (dash ++ colon ++ rest)) by (unfold dash; destruct (hi =? lo); [exact Sc | reflexivity]).
    assert (S1 : strtoull (body ++ rest) = (lo, zlen (dec lo))).
    { unfold body. rewrite <- !app_assoc. apply strtoull_dec; [unfold two64; lia | assumption]. }
    rewrite S1. assert (1 <= zlen (dec lo)).
    { destruct (dec lo); [congruence | rewrite zlen_cons; pose proof (zlen_nonneg l); lia]. }
    destruct (Z.eqb_spec (zlen (dec lo)) 0); [lia |].
    assert (R : (if (zlen (dec lo) <? zlen body) && (char_at (body ++ rest) (zlen (dec lo)) =? 45) then
                   let '(e, n2) := strtoull (zskip (zlen (dec lo) + 1) (body ++ rest)) in
                   (e, zlen (dec lo) + 1 + n2, (n2 =? 0) || (e <? lo))
                 else (lo, zlen (dec lo), false)) = (hi, zlen (dec lo ++ dash), false)).
    { unfold body. rewrite <- !app_assoc. unfold dash. destruct (Z.eqb_spec hi lo) as [-> | N].
      - cbn [app]. rewrite app_nil_r.
        assert (F : (zlen (dec lo) <? zlen (dec lo ++ colon)) && (char_at (dec lo ++ colon ++ rest) (zlen (dec lo)) =? 45) = false).
        { unfold colon. destruct p as [b |]; [rewrite <- app_comm_cons, char_at_app; apply andb_false_r |].
          rewrite app_nil_r, Z.ltb_irrefl. reflexivity. }
        rewrite F. reflexivity.
      - rewrite <- !app_comm_cons, char_at_app, Z.eqb_refl.
        replace (zskip (zlen (dec lo) + 1) (dec lo ++ 45 :: dec hi ++ colon ++ rest)) with (dec hi ++ colon ++ rest).
        2: { rewrite Z.add_comm, <- zskip_zskip by lia. now rewrite (zskip_app (zlen (dec lo))). }
        rewrite strtoull_dec by (unfold two64; auto; lia).
        destruct (dec_spec hi ltac:(lia)) as [_ [Nhi _]].
        assert (1 <= zlen (dec hi)) by (destruct (dec hi); [congruence | rewrite zlen_cons; pose proof (zlen_nonneg l); lia]).
        rewrite !zlen_app, zlen_cons, zlen_app. pose proof (zlen_nonneg colon).
        destruct (Z.ltb_spec (zlen (dec lo)) (zlen (dec lo) + (1 + (zlen (dec hi) + zlen colon)))); [| lia]. cbn [andb].
        destruct (Z.eqb_spec (zlen (dec hi)) 0); [lia |]. destruct (Z.ltb_spec hi lo); [lia |]. cbn [orb].
        f_equal. f_equal. rewrite ?zlen_app, ?zlen_cons. lia. }
    rewrite R. clear R. cbn iota.
    assert (Pt : (zlen (dec lo ++ dash) <? zlen body) && (char_at (body ++ rest) (zlen (dec lo ++ dash)) =? 58)
                 = match p with Some _ => true | None => false end).
    { assert (Eb : body ++ rest = (dec lo ++ dash) ++ colon ++ rest) by (unfold body; now rewrite <- !app_assoc).
      rewrite Eb. unfold body. rewrite (app_assoc (dec lo) dash colon). unfold colon. destruct p as [b |].
      - rewrite <- app_comm_cons, char_at_app, Z.eqb_refl. rewrite (zlen_app (dec lo ++ dash)), zlen_cons.
        pose proof (zlen_nonneg (dec b)). destruct (Z.ltb_spec (zlen (dec lo ++ dash)) (zlen (dec lo ++ dash) + (1 + zlen (dec b)))); [reflexivity | lia].
      - rewrite app_nil_r, Z.ltb_irrefl. reflexivity. }
    rewrite Pt.
    assert (Bt : match p with Some b => fst (strtoull (zskip (zlen (dec lo ++ dash) + 1) (body ++ rest))) = b | None => True end).
    { destruct p as [b |]; [| exact I]. cbn [part_ok] in Hp.       assert (Eb : body ++ rest = (dec lo ++ dash) ++ colon ++ rest) by (unfold body; now rewrite <- !app_assoc).
      rewrite Eb. unfold colon. rewrite <- app_comm_cons.
      rewrite Z.add_comm, <- zskip_zskip by (pose proof (zlen_nonneg (dec lo ++ dash)); lia).
      rewrite zskip_app by reflexivity. change (zskip 1 (58 :: dec b ++ rest)) with (dec b ++ rest).
      rewrite strtoull_dec by (unfold two64; auto using ends_stops). reflexivity. }
    rewrite (range_ops_ext _ (op_of d p cls)).
    + cbn [meaning]. destruct (Z.leb_spec (hi - lo + 1) budget).
      * rewrite (range_ops_all _ (Z.to_nat (hi - lo + 1))) by lia.
        rewrite Z2Nat.id by lia. do 3 f_equal.
        unfold op_of. rewrite (fold_exec_map _ (fun k => meaning1 d p cls k)) by reflexivity.
        f_equal. now rewrite map_map.
      * rewrite <- (Z2Nat.id budget) at 2 by lia.
        rewrite (range_ops_stops _ (Z.to_nat budget)) by lia. do 3 f_equal.
        unfold op_of. rewrite (fold_exec_map _ (fun k => meaning1 d p cls k)) by reflexivity.
        f_equal. rewrite map_map, firstn_map. f_equal.
        unfold zseq. rewrite firstn_map, firstn_seq_le by lia. do 2 f_equal. lia.
    + intros m' k. unfold op_of, meaning1. destruct d; [reflexivity |]. destruct p as [b |]; [| reflexivity].
      cbn [exec]. now rewrite Bt.
Qed.

Lemma text_no_comma t : tstmt_ok t -> Forall (fun x => x <> 44) (text t).
Proof.
  intros H. assert (Dg : forall n, 0 <= n -> Forall (fun x => x <> 44) (dec n)).
  { intros n Hn. apply digits_avoid; [apply dec_spec; assumption | reflexivity]. }
  assert (Mn : forall d : bool, Forall (fun x => x <> 44) (if d then [45] else [])) by (intros []; repeat constructor; lia).
  assert (Cl : forall p, part_ok p -> Forall (fun x => x <> 44) (match p with Some b => 58 :: dec b | None => [] end)).
  { intros [b |] Hp; [| constructor]. constructor; [lia |]. apply Dg. cbn in Hp. lia. }
  destruct t as [d p | d long cls lo hi p]; cbn [text tstmt_ok] in *.
  - apply Forall_app. split; [auto |]. apply Forall_app. split; [repeat constructor; lia | auto].
  - destruct H as [Hc [Hlo [Hhi Hp]]]. apply Forall_app. split; [auto |]. apply Forall_app. split.
    { unfold letter. destruct long, (cls =? 0); [| | | destruct (cls =? 2)]; repeat constructor; lia. }
    apply Forall_app. split; [apply Dg; lia |]. apply Forall_app. split; [| auto].
    destruct (hi =? lo); [constructor |]. constructor; [lia | apply Dg; lia].
Qed.
Lemma text_nonempty t : tstmt_ok t -> 1 <= zlen (text t).
Proof.
  intros H. destruct t as [d p | d long cls lo hi p]; cbn [text]; rewrite zlen_app.
  - pose proof (zlen_nonneg (if d then [45] else [])). cbn [app]. rewrite zlen_cons.
    pose proof (zlen_nonneg (109 :: match p with Some b => 58 :: dec b | None => [] end)). lia.
  - pose proof (zlen_nonneg (if d then [45] else [])). rewrite zlen_app.
    assert (1 <= zlen (letter long cls)) by (rewrite letter_len; destruct long; lia).
    pose proof (zlen_nonneg (dec lo ++ (if hi =? lo then [] else 45 :: dec hi) ++ match p with Some b => 58 :: dec b | None => [] end)). lia.
Qed.

Lemma exec_all_app m a b : exec_all m (a ++ b) = exec_all (exec_all m a) b.
Proof. unfold exec_all. apply fold_left_app. Qed.

Lemma bins_named_nonneg t : tstmt_ok t -> 0 <= bins_named t.
Proof. destruct t as [d p | d long cls lo hi p]; cbn [bins_named tstmt_ok]; lia. Qed.

Lemma apply_loop_text : forall ts fuel m budget, Forall tstmt_ok ts -> 0 <= budget ->
  (length (join (map text ts)) < fuel)%nat ->
  apply_loop fuel (join (map text ts)) budget m = Ret (exec_all m (within budget ts)).
Proof.
  induction ts as [| t ts IH]; intros fuel m budget Hok Hb Hf; (destruct fuel as [| fuel]; [lia |]).
  - reflexivity.
  - inversion_clear Hok as [| ? ? Ht Hts]. cbn [apply_loop within].
    pose proof (text_nonempty t Ht) as Hne. pose proof (bins_named_nonneg t Ht) as Hn.
    destruct ts as [| t' ts].
    + cbn [map join] in *. destruct (Z.eqb_spec (zlen (text t)) 0); [lia |].
      assert (TL : token_len (text t) = zlen (text t)).
      { unfold token_len. rewrite index_of_none by now apply text_no_comma. reflexivity. }
      rewrite TL. rewrite <- (app_nil_r (text t)) at 1.
      rewrite apply_token_text; [| assumption | now left | lia].
      destruct (bins_named t <=? budget); cbn [bind]; [| reflexivity].
      cbn [within]. rewrite app_nil_r. destruct fuel as [| fuel]; [unfold zlen in Hne; lia |].
      rewrite (zskip_all _ (text t)) by lia. reflexivity.
    + set (ts' := t' :: ts) in *. change (join (map text (t :: ts'))) with (text t ++ 44 :: join (map text ts')) in *.
      rewrite zlen_app, zlen_cons. pose proof (zlen_nonneg (join (map text ts'))).
      destruct (Z.eqb_spec (zlen (text t) + (1 + zlen (join (map text ts')))) 0); [lia |].
      assert (TL : token_len (text t ++ 44 :: join (map text ts')) = zlen (text t)).
      { unfold token_len. rewrite index_of_app by now apply text_no_comma. reflexivity. }
      rewrite TL. rewrite apply_token_text; [| assumption | right; eauto | lia].
      destruct (Z.leb_spec (bins_named t) budget); cbn [bind]; [| reflexivity].
      rewrite Z.add_comm, <- zskip_zskip by lia. rewrite zskip_app by reflexivity.
      change (zskip 1 (44 :: join (map text ts'))) with (join (map text ts')).
      rewrite IH; [| assumption | lia | rewrite app_length in Hf; cbn [length] in Hf; lia].
      now rewrite exec_all_app.
Qed.

Theorem apply_text_limit ts m : Forall tstmt_ok ts ->
  apply m (join (map text ts)) = Ret (exec_all m (within 4194304 ts)).
Proof. intros H1. unfold apply. apply apply_loop_text; [assumption | discriminate | lia]. Qed.

Lemma within_all : forall ts budget, Forall tstmt_ok ts -> sumZ (map bins_named ts) <= budget ->
  within budget ts = concat (map meaning ts).
Proof.
  induction ts as [| t ts IH]; intros budget Hok Hb; [reflexivity |].
  inversion_clear Hok as [| ? ? Ht Hts]. cbn [within map concat].
  assert (Hn : 0 <= sumZ (map bins_named ts)).
  { clear -Hts. induction Hts as [| t ts Ht Hts IH]; cbn [map sumZ fold_right]; [lia |].
    fold (sumZ (map bins_named ts)). pose proof (bins_named_nonneg t Ht). lia. }
  cbn [map sumZ fold_right] in Hb. fold (sumZ (map bins_named ts)) in Hb.
  destruct (Z.leb_spec (bins_named t) budget); [| lia]. f_equal. apply IH; [assumption | lia].
Qed.

Theorem apply_text ts m : Forall tstmt_ok ts -> sumZ (map bins_named ts) <= 4194304 ->
  apply m (join (map text ts)) = Ret (exec_all m (concat (map meaning ts))).
Proof. intros H1 H2. now rewrite apply_text_limit, within_all. Qed.

(** ** C11 *)
(** Serialisable contents. *)
Definition entry_ok (kv : Z * centry) : Prop :=
  exists c i, fst kv = ckey c i /\ bin_ok c i /\ (c = 0 \/ c = 2 \/ c = 8 \/ (c = 6 /\ i = 0))
              /\ 0 <= ce_bytes (snd kv) < 2 ^ 64.

(** The elementary statement each entry stands for. *)
Definition entry_stmt (kv : Z * centry) : list stmt :=
  let c := key_class (fst kv) in let i := key_id (fst kv) in
  if ce_complete (snd kv) then [Have c i]
  else if 0 <? ce_bytes (snd kv) then [HavePart c i (ce_bytes (snd kv))] else [].
Definition group_stmts (g : cgroup) : list stmt :=
  map (Have (g_cls g)) (g_complete g) ++ map (fun p => HavePart (g_cls g) (fst p) (snd p)) (g_partial g).

Lemma groups_add_perm gs c i e : Permutation (concat (map group_stmts (groups_add gs c i e)))
  (concat (map group_stmts gs) ++ (if ce_complete e then [Have c i] else if 0 <? ce_bytes e then [HavePart c i (ce_bytes e)] else [])).
Proof.
  set (x := if ce_complete e then _ else _).
  assert (G : forall g, g_cls g = c -> Permutation (group_stmts (group_add g i e)) (group_stmts g ++ x)).
  { intros g Hg. unfold group_add, group_stmts, x. destruct (ce_complete e); [| destruct (0 <? ce_bytes e)]; cbn [g_cls g_complete g_partial].
    - rewrite map_app, Hg. cbn [map]. rewrite <- !app_assoc. apply Permutation_app_head. apply Permutation_app_comm.
    - rewrite map_app, Hg. cbn [map fst snd]. now rewrite app_assoc.
    - now rewrite app_nil_r. }
  induction gs as [| g gs IH]; cbn [groups_add map concat].
  - rewrite app_nil_r. rewrite G by reflexivity. reflexivity.
  - destruct (Z.eqb_spec (g_cls g) c) as [E | N]; cbn [map concat].
    + rewrite G by assumption. rewrite <- !app_assoc. apply Permutation_app_head. apply Permutation_app_comm.
    + rewrite IH. now rewrite app_assoc.
Qed.
Lemma group_all_perm l : Permutation (concat (map group_stmts (group_all l))) (concat (map entry_stmt l)).
Proof.
  unfold group_all.
  enough (G : forall l gs, Permutation (concat (map group_stmts (fold_left (fun gs kv => groups_add gs (key_class (fst kv)) (key_id (fst kv)) (snd kv)) l gs)))
              (concat (map group_stmts gs) ++ concat (map entry_stmt l))) by (rewrite (G l []); reflexivity).
  clear l. induction l as [| kv l IH]; intros gs; cbn [fold_left map concat]; [now rewrite app_nil_r |].
  rewrite IH, groups_add_perm. now rewrite <- app_assoc.
Qed.

(** Every group holds only bins of its class that came from entries. *)
Definition group_ok (g : cgroup) : Prop :=
  (g_cls g = 0 \/ g_cls g = 2 \/ g_cls g = 8 \/ g_cls g = 6) /\
  Forall (fun i => 0 <= i < 2 ^ 56 /\ (g_cls g = 6 -> i = 0)) (g_complete g) /\
  Forall (fun p => (0 <= fst p < 2 ^ 56 /\ (g_cls g = 6 -> fst p = 0)) /\ 0 <= snd p < 2 ^ 64) (g_partial g).
Lemma group_all_ok l : Forall entry_ok l -> Forall group_ok (group_all l).
Proof.
  unfold group_all.
  enough (G : forall l gs, Forall entry_ok l -> Forall group_ok gs ->
     Forall group_ok (fold_left (fun gs kv => groups_add gs (key_class (fst kv)) (key_id (fst kv)) (snd kv)) l gs)).
  { intros H. apply G; [assumption | constructor]. }
  clear l. induction l as [| [k e] l IH]; intros gs Hl Hg; cbn [fold_left]; [assumption |].
  inversion_clear Hl as [| ? ? He Hl']. apply IH; [assumption |]. cbn [fst snd].
  destruct He as [c [i [E [Hb [Hc Hby]]]]]. cbn [fst snd] in *. subst k.
  rewrite key_class_ckey, key_id_ckey by assumption. clear IH Hl'.
  assert (A : forall g, group_ok g -> g_cls g = c -> group_ok (group_add g i e)).
  { intros g [G1 [G2 G3]] Eg. unfold group_add, group_ok. unfold bin_ok in Hb.
    destruct (ce_complete e); [| destruct (0 <? ce_bytes e); [| now split]]; cbn [g_cls g_complete g_partial].
    - split; [assumption |]. split; [| assumption]. apply Forall_app. split; [assumption |]. constructor; [| constructor]. lia.
    - split; [assumption |]. split; [assumption |]. apply Forall_app. split; [assumption |]. constructor; [| constructor]. cbn [fst snd]. lia. }
  induction gs as [| g gs IH]; cbn [groups_add].
  - constructor; [| constructor]. apply A; [| reflexivity]. unfold group_ok. cbn. split; [lia | split; constructor].
  - inversion_clear Hg as [| ? ? Hg1 Hg2]. destruct (Z.eqb_spec (g_cls g) c); constructor; auto.
Qed.

(** Sorting permutes. *)
Lemma insert_perm {A} (key : A -> Z) x l : Permutation (insert key x l) (x :: l).
Proof.
  induction l as [| y l IH]; cbn [insert]; [reflexivity |]. destruct (key x <=? key y); [reflexivity |].
  rewrite IH. apply perm_swap.
Qed.
Lemma sort_perm {A} (key : A -> Z) l : Permutation (sort key l) l.
Proof. induction l as [| x l IH]; cbn [sort fold_right]; [reflexivity |]. fold (sort key l). rewrite insert_perm. now rewrite IH. Qed.

(** Runs cover exactly the ids. *)
Definition expand (r : Z * Z) : list Z := map (fun k => fst r + k) (zseq (snd r - fst r + 1)).
Lemma expand_one x : expand (x, x) = [x].
Proof.
  unfold expand. cbn [fst snd]. replace (x - x + 1) with 1 by lia. change (zseq 1) with [0]. cbn [map].
  now rewrite Z.add_0_r.
Qed.
Lemma runs_from_spec l : forall s e, s <= e -> Forall (fun i => 0 <= i < 2 ^ 56) (s :: e :: l) ->
  concat (map expand (runs_from s e l)) = expand (s, e) ++ l
  /\ Forall (fun r => 0 <= fst r <= snd r /\ snd r < 2 ^ 56) (runs_from s e l).
Proof.
  induction l as [| x l IH]; intros s e Hse F; cbn [runs_from].
  - cbn [map concat]. split; [reflexivity |]. constructor; [| constructor]. cbn [fst snd].
    inversion_clear F as [| ? ? F1 F']. inversion_clear F' as [| ? ? F2 _]. lia.
  - inversion_clear F as [| ? ? F1 F']. inversion_clear F' as [| ? ? F2 F'']. inversion_clear F'' as [| ? ? F3 F4].
    unfold wrap64, two64. rewrite Z.mod_small by lia. destruct (Z.eqb_spec x (e + 1)) as [-> | N].
    + destruct (IH s (e + 1)) as [E Fo]; [lia | repeat constructor; auto; lia |]. split; [| assumption].
      rewrite E. unfold expand. cbn [fst snd].
      replace (e + 1 - s + 1) with (e - s + 1 + 1) by lia. rewrite zseq_snoc by lia.
      rewrite map_app, <- app_assoc. cbn [map app]. f_equal. f_equal. lia.
    + destruct (IH x x) as [E Fo]; [lia | repeat constructor; auto; lia |]. cbn [map concat]. split.
      * now rewrite E, expand_one.
      * constructor; [cbn [fst snd]; lia | assumption].
Qed.
Lemma runs_spec l : Forall (fun i => 0 <= i < 2 ^ 56) l ->
  concat (map expand (runs l)) = l /\ Forall (fun r => 0 <= fst r <= snd r /\ snd r < 2 ^ 56) (runs l).
Proof.
  intros F. destruct l as [| x l]; cbn [runs]; [split; [reflexivity | constructor] |].
  inversion_clear F as [| ? ? F1 F2]. destruct (runs_from_spec l x x) as [E Fo]; [lia | repeat constructor; auto; lia |].
  split; [| assumption]. now rewrite E, expand_one.
Qed.

(** The textual statements of a group. *)
Definition group_tstmts (g : cgroup) : list tstmt :=
  let ids := sort (fun x => x) (g_complete g) in
  let ps := sort fst (g_partial g) in
  if g_cls g =? 6 then
    (match ids with [] => [] | _ => [TMain false None] end) ++ map (fun p => TMain false (Some (snd p))) ps
  else map (fun r => TBins false false (g_cls g) (fst r) (snd r) None) (runs ids)
       ++ map (fun p => TBins false false (g_cls g) (fst p) (fst p) (Some (snd p))) ps.

Lemma sort_Forall {A} (key : A -> Z) P l : Forall P l -> Forall P (sort key l).
Proof. intros F. rewrite Forall_forall in *. intros x Hx. apply F. eapply Permutation_in; [apply sort_perm | exact Hx]. Qed.

Lemma group_tokens_text g : group_ok g -> group_tokens g = map text (group_tstmts g) /\ Forall tstmt_ok (group_tstmts g).
Proof.
  intros [Hc [Hi Hp]]. unfold group_tokens, group_tstmts.
  apply (sort_Forall (fun x => x)) in Hi. apply (sort_Forall fst) in Hp.
  set (ids := sort (fun x => x) (g_complete g)) in *. set (ps := sort fst (g_partial g)) in *.
  destruct (Z.eqb_spec (g_cls g) 6) as [E6 | N6].
  - rewrite E6. cbn [class_prefix Z.eqb Pos.eqb]. change (class_prefix 6) with (Some [72; 109]). cbn iota. split.
    + rewrite map_app, map_map. f_equal. destruct ids; reflexivity.
    + apply Forall_app. split; [destruct ids; repeat constructor |]. apply Forall_map.
      eapply Forall_impl; [| exact Hp]. intros p Hpp. exact (proj2 Hpp).
  - assert (Hcp : class_prefix (g_cls g) = Some (letter false (g_cls g))).
    { destruct Hc as [-> | [-> | [-> | Hc]]]; [reflexivity | reflexivity | reflexivity | lia]. }
    rewrite Hcp.
    destruct (runs_spec ids) as [_ Rf].
    { eapply Forall_impl; [| exact Hi]. cbv beta. tauto. }
    split.
    + rewrite map_app, !map_map. f_equal.
      * apply map_ext. intros r. unfold run_token. cbn [text]. rewrite app_nil_r. reflexivity.
      * apply map_ext. intros p. unfold partial_token. cbn [text]. rewrite Z.eqb_refl. reflexivity.
    + apply Forall_app. split; apply Forall_map.
      * eapply Forall_impl; [| exact Rf]. intros r Hr. cbv beta in Hr. cbn [tstmt_ok part_ok]. repeat split; try lia; intuition lia.
      * eapply Forall_impl; [| exact Hp]. intros p Hr. cbv beta in Hr. cbn [tstmt_ok part_ok]. repeat split; try lia; intuition lia.
Qed.

Lemma concat_map_single {A B} (f : A -> B) l : concat (map (fun x => [f x]) l) = map f l.
Proof. induction l as [| x l IH]; cbn; [reflexivity | now rewrite IH]. Qed.
Lemma concat_map_map {A B} (f : A -> B) (l : list (list A)) : concat (map (map f) l) = map f (concat l).
Proof. induction l as [| x l IH]; cbn; [reflexivity | now rewrite IH, map_app]. Qed.

(** What they say is what the group holds (the main header bin has at most one entry). *)
Lemma group_meaning_perm g : group_ok g -> (g_cls g = 6 -> (length (g_complete g) <= 1)%nat) ->
  Permutation (concat (map meaning (group_tstmts g))) (group_stmts g).
Proof.
  intros [Hc [Hi Hp]] H6. unfold group_tstmts, group_stmts.
  pose proof (sort_perm (fun x => x) (g_complete g)) as P1. pose proof (sort_perm fst (g_partial g)) as P2.
  assert (Hi' : Forall (fun i => 0 <= i < 2 ^ 56 /\ (g_cls g = 6 -> i = 0)) (sort (fun x => x) (g_complete g))) by now apply sort_Forall.
  assert (Hp' : Forall (fun p => (0 <= fst p < 2 ^ 56 /\ (g_cls g = 6 -> fst p = 0)) /\ 0 <= snd p < 2 ^ 64) (sort fst (g_partial g))) by now apply sort_Forall.
  set (ids := sort (fun x => x) (g_complete g)) in *. set (ps := sort fst (g_partial g)) in *.
  rewrite <- (Permutation_map (Have (g_cls g)) P1), <- (Permutation_map _ P2).
  destruct (Z.eqb_spec (g_cls g) 6) as [E6 | N6].
  - rewrite map_app, concat_app, map_map. specialize (H6 E6).
    apply Permutation_length in P1. rewrite E6 in *. apply Permutation_app.
    + destruct ids as [| x [| y ids]]; cbn [map concat meaning app length] in *; [reflexivity | | lia].
      inversion_clear Hi' as [| ? ? [_ Hx] _]. rewrite Hx by reflexivity. reflexivity.
    + cbn [meaning]. rewrite concat_map_single. erewrite map_ext_in; [reflexivity |].
      intros p Hin. rewrite Forall_forall in Hp'. destruct (Hp' p Hin) as [[_ Hz] _]. rewrite Hz by reflexivity. reflexivity.
  - rewrite map_app, concat_app, !map_map. apply Permutation_app.
    + destruct (runs_spec ids) as [Er _]; [eapply Forall_impl; [| exact Hi']; cbv beta; tauto |].
      rewrite <- Er at 2. cbn [meaning meaning1]. rewrite <- concat_map_map, map_map. unfold expand.
      match goal with |- Permutation (concat ?A) (concat ?B) => replace B with A; [reflexivity |] end.
      apply map_ext. intros r. now rewrite map_map.
    + match goal with |- Permutation _ (map ?f ?l) => rewrite <- (concat_map_single f l) end.
      match goal with |- Permutation (concat ?A) (concat ?B) => replace B with A; [reflexivity |] end.
      apply map_ext. intros p. cbn [meaning meaning1]. replace (fst p - fst p + 1) with 1 by lia.
      change (zseq 1) with [0]. cbn [map]. now rewrite Z.add_0_r.
Qed.

(** Executing statements about pairwise different bins, in any order. *)
Definition stmt_bin (s : stmt) : Z := match s with Have c i | HavePart c i _ | Drop c i => ckey c i | DropAll => -1 end.
Definition stmt_entry (s : stmt) : option centry :=
  match s with
  | Have _ _ => Some {| ce_bytes := 0; ce_complete := true |}
  | HavePart _ _ b => Some {| ce_bytes := b; ce_complete := false |}
  | _ => None
  end.
Definition adds (s : stmt) : Prop := match s with Have _ _ => True | HavePart _ _ b => 0 < b | _ => False end.
Lemma exec_distinct h : forall m, NoDup (map stmt_bin h) -> Forall adds h -> (forall s, In s h -> cget m (stmt_bin s) = None) ->
  forall k, cget (exec_all m h) k =
    match find (fun s => stmt_bin s =? k) h with Some s => stmt_entry s | None => cget m k end.
Proof.
  induction h as [| s h IH]; intros m ND Ad Fr k; cbn [exec_all fold_left find]; [reflexivity |].
  inversion_clear ND as [| ? ? Nin ND']. inversion_clear Ad as [| ? ? As Ad']. fold (exec_all (exec m s) h).
  assert (G : forall k', cget (exec m s) k' = if stmt_bin s =? k' then stmt_entry s else cget m k').
  { intros k'. pose proof (Fr s (or_introl eq_refl)) as F0. destruct s as [c i | c i b | c i |]; cbn [adds] in As; try tauto;
      cbn [exec stmt_bin stmt_entry] in *.
    - unfold mark, cget. rewrite aget_aput by apply zeqb_reflect. unfold cget_or_new, cget in *. rewrite F0. reflexivity.
    - unfold mark_partial, cget. rewrite aget_aput by apply zeqb_reflect. unfold cget_or_new, cget in *. rewrite F0.
      cbn [fresh ce_complete ce_bytes negb andb]. destruct (Z.ltb_spec 0 b); [reflexivity | lia]. }
  rewrite IH; [| assumption | assumption |].
  - destruct (find (fun s' => stmt_bin s' =? k) h) as [s' |] eqn:F.
    + destruct (Z.eqb_spec (stmt_bin s) k) as [E | N]; [| reflexivity].
      apply find_some in F as [Fi Fe]. apply Z.eqb_eq in Fe. exfalso. apply Nin. rewrite E, <- Fe. now apply in_map.
    + rewrite G. now destruct (stmt_bin s =? k).
  - intros s' Hs'. rewrite G. destruct (Z.eqb_spec (stmt_bin s) (stmt_bin s')) as [E | N]; [| apply Fr; now right].
    exfalso. apply Nin. rewrite E. now apply in_map.
Qed.

Lemma find_unique h k s : NoDup (map stmt_bin h) -> In s h -> stmt_bin s = k -> find (fun s => stmt_bin s =? k) h = Some s.
Proof.
  intros ND I E. destruct (find (fun s => stmt_bin s =? k) h) as [s' |] eqn:F.
  - apply find_some in F as [Fi Fe]. apply Z.eqb_eq in Fe. f_equal. rewrite <- Fe in E. clear Fe k.
    induction h as [| x h IH]; [easy |]. inversion_clear ND as [| ? ? Nin ND'].
    destruct I as [-> | I], Fi as [-> | Fi]; auto.
    + exfalso. apply Nin. rewrite E. now apply in_map.
    + exfalso. apply Nin. rewrite <- E. now apply in_map.
  - pose proof (find_none _ _ F s I) as N. cbn in N. lia.
Qed.

Lemma entry_stmts_bins l : Forall entry_ok l -> NoDup (map fst l) ->
  NoDup (map stmt_bin (concat (map entry_stmt l))) /\
  (forall s, In s (concat (map entry_stmt l)) -> adds s /\ exists e, In (stmt_bin s, e) l /\
      stmt_entry s = Some (if ce_complete e then {| ce_bytes := 0; ce_complete := true |} else e)) /\
  (forall k e, In (k, e) l -> ce_complete e = true \/ 0 < ce_bytes e ->
      exists s, In s (concat (map entry_stmt l)) /\ stmt_bin s = k).
Proof.
  induction l as [| [k e] l IH]; intros F ND; cbn [map concat].
  - split; [constructor | split; easy].
  - inversion_clear F as [| ? ? Fe Fl]. cbn [map fst] in ND. inversion_clear ND as [| ? ? Nk ND'].
    destruct (IH Fl ND') as [I1 [I2 I3]]. destruct Fe as [c [i [Ek [Hb [Hc Hby]]]]]. cbn [fst snd] in *.
    assert (Es : forall s, In s (entry_stmt (k, e)) -> adds s /\ stmt_bin s = k /\
              stmt_entry s = Some (if ce_complete e then {| ce_bytes := 0; ce_complete := true |} else e)).
    { intros s. unfold entry_stmt. cbn [fst snd]. rewrite Ek, key_class_ckey, key_id_ckey by assumption.
      destruct (ce_complete e) eqn:Ec.
      - intros [<- | []]. split; [exact I | split; reflexivity].
      - destruct (Z.ltb_spec 0 (ce_bytes e)); [| intros []]. intros [<- | []]. split; [assumption | split; [reflexivity |]].
        cbn [stmt_entry]. f_equal. destruct e as [eb ec]. cbn in *. now subst ec. }
    assert (Le : (length (entry_stmt (k, e)) <= 1)%nat).
    { unfold entry_stmt. cbn [fst snd]. destruct (ce_complete e); [auto |]. destruct (0 <? ce_bytes e); cbn; lia. }
    split; [| split].
    + rewrite map_app. destruct (entry_stmt (k, e)) as [| s [| s' r]]; cbn [length] in Le; [exact I1 | | lia].
      cbn [map app]. constructor; [| exact I1].
      destruct (Es s (or_introl eq_refl)) as [_ [Eb _]]. rewrite Eb. intros Hin. apply in_map_iff in Hin as [s' [E' Hin]].
      destruct (I2 s' Hin) as [_ [e' [He' _]]]. rewrite E' in He'. apply Nk. now apply (in_map fst) in He'.
    + intros s Hin. apply in_app_or in Hin as [Hin | Hin].
      * destruct (Es s Hin) as [A [B C]]. split; [assumption |]. exists e. rewrite B. split; [now left | assumption].
      * destruct (I2 s Hin) as [A [e' [He' E']]]. split; [assumption |]. exists e'. split; [now right | assumption].
    + intros k' e' [[= <- <-] | Hin] Hor.
      * assert (exists s, In s (entry_stmt (k, e))) as [s Hs].
        { unfold entry_stmt. cbn [fst snd]. destruct (ce_complete e) eqn:Ec; [eexists; now left |].
          destruct (Z.ltb_spec 0 (ce_bytes e)); [eexists; now left |]. exfalso. destruct Hor; [congruence | lia]. }
        exists s. split; [apply in_or_app; now left | now apply Es].
      * destruct (I3 k' e' Hin Hor) as [s [Hs Es']]. exists s. split; [apply in_or_app; now right | assumption].
Qed.

Lemma format_join l : forall out, fold_left add_token l out =
  match l with [] => out | _ => (if zlen out =? 0 then [] else out ++ [44]) ++ join l end
  \/ Exists (fun t => t = []) l.
Proof.
  induction l as [| t l IH]; intros out; cbn [fold_left]; [now left |].
  destruct (Z.eq_dec (zlen t) 0) as [Zt | Nt]; [right; constructor; now apply zlen_0 |].
  destruct (IH (add_token out t)) as [E | E]; [| right; now apply Exists_cons_tl].
  left. rewrite E. destruct l as [| t' l]; [reflexivity |].
  change (join (t :: t' :: l)) with (t ++ 44 :: join (t' :: l)).
  assert (zlen (add_token out t) <> 0).
  { unfold add_token. rewrite zlen_app. pose proof (zlen_nonneg t).
    pose proof (zlen_nonneg (if zlen out =? 0 then [] else out ++ [44])). lia. }
  destruct (Z.eqb_spec (zlen (add_token out t)) 0); [lia |]. unfold add_token. rewrite <- !app_assoc. reflexivity.
Qed.

Lemma NoDup_app_inv {A} (a b : list A) : NoDup (a ++ b) -> NoDup a /\ NoDup b.
Proof.
  induction a as [| x a IH]; cbn [app]; intros H; [split; [constructor | assumption] |].
  inversion_clear H as [| ? ? N H']. destruct (IH H') as [Ha Hb]. split; [| assumption].
  constructor; [| assumption]. intros I. apply N. apply in_or_app. now left.
Qed.
Lemma group_all_main l : Forall entry_ok l -> NoDup (map fst l) ->
  Forall (fun g => g_cls g = 6 -> (length (g_complete g) <= 1)%nat) (group_all l).
Proof.
  intros F ND. destruct (entry_stmts_bins l F ND) as [ND' _].
  pose proof (group_all_ok l F) as Gok.
  assert (ND2 : NoDup (map stmt_bin (concat (map group_stmts (group_all l))))).
  { eapply Permutation_NoDup; [| exact ND']. apply Permutation_map. symmetry. apply group_all_perm. }
  revert ND2 Gok. induction (group_all l) as [| g gs IH]; intros ND2 Gok; constructor; inversion_clear Gok as [| ? ? Hg Hgs].
  - intros E6. cbn [map concat] in ND2. rewrite map_app in ND2. apply NoDup_app_inv in ND2 as [ND2 _].
    unfold group_stmts in ND2. rewrite map_app in ND2. apply NoDup_app_inv in ND2 as [ND2 _]. rewrite map_map in ND2.
    destruct Hg as [_ [Hi _]]. destruct (g_complete g) as [| a [| b r]]; cbn [length]; try lia. exfalso.
    inversion_clear Hi as [| ? ? [_ Ha] Hi']. inversion_clear Hi' as [| ? ? [_ Hb] _].
    cbn [map] in ND2. inversion_clear ND2 as [| ? ? Nin _]. apply Nin. left. cbn [stmt_bin]. now rewrite (Ha E6), (Hb E6).
  - apply IH; [| assumption]. cbn [map concat] in ND2. rewrite map_app in ND2. now apply NoDup_app_inv in ND2 as [_ ND2].
Qed.

Lemma bins_named_meaning t : tstmt_ok t -> bins_named t <= zlen (meaning t).
Proof.
  destruct t as [d p | d long cls lo hi p]; cbn [bins_named meaning tstmt_ok]; intros H.
  - unfold zlen. cbn. lia.
  - rewrite zlen_map, zseq_len; lia.
Qed.

Theorem format_parse l : NoDup (map fst l) -> Forall entry_ok l -> zlen l <= 4194304 ->
  exists m, parse (format l) = Ret m /\
    forall k, cget m k = match cget l k with
                         | Some e => if ce_complete e then Some {| ce_bytes := 0; ce_complete := true |}
                                     else if 0 <? ce_bytes e then Some e else None
                         | None => None
                         end.
Proof.
  intros ND F Hlen. pose proof (group_all_ok l F) as Gok. pose proof (group_all_main l F ND) as Gm.
  set (ts := concat (map group_tstmts (group_all l))).
  assert (Tok : Forall tstmt_ok ts /\ concat (map group_tokens (group_all l)) = map text ts
                /\ Permutation (concat (map meaning ts)) (concat (map group_stmts (group_all l)))).
  { unfold ts. clear ts. induction (group_all l) as [| g gs IH]; cbn [map concat].
    - split; [constructor | split; reflexivity].
    - inversion_clear Gok as [| ? ? Hg Hgs]. inversion_clear Gm as [| ? ? Mg Mgs]. destruct (IH Hgs Mgs) as [I1 [I2 I3]].
      destruct (group_tokens_text g Hg) as [E Fo]. split; [apply Forall_app; auto |]. split.
      + rewrite map_app. now f_equal.
      + rewrite map_app, concat_app. apply Permutation_app; [now apply group_meaning_perm | assumption]. }
  destruct Tok as [T1 [T2 T3]].
  rewrite group_all_perm in T3.
  destruct (entry_stmts_bins l F ND) as [B1 [B2 B3]].
  assert (Fj : format l = join (map text ts)).
  { unfold format. rewrite T2. destruct (format_join (map text ts) []) as [E | E].
    - rewrite E. destruct (map text ts); reflexivity.
    - exfalso. apply Exists_exists in E as [t [It E]]. apply in_map_iff in It as [x [Ex Ix]].
      rewrite Forall_forall in T1. pose proof (text_nonempty x (T1 x Ix)). rewrite Ex, E in H. now cbn in H. }
  exists (exec_all [] (concat (map meaning ts))). split.
  - unfold parse. rewrite Fj. apply apply_text; [assumption |].
    assert (L1 : sumZ (map bins_named ts) <= zlen (concat (map meaning ts))).
    { clear -T1. induction T1 as [| t ts Ht Hts IH]; cbn [map sumZ fold_right concat]; [unfold zlen; cbn; lia |].
      rewrite zlen_app. pose proof (bins_named_meaning t Ht). fold (sumZ (map bins_named ts)). lia. }
    assert (L2 : zlen (concat (map meaning ts)) <= zlen l).
    { unfold zlen. apply Permutation_length in T3. rewrite T3. clear. induction l as [| kv l IH]; cbn [map concat length]; [lia |].
      rewrite app_length. assert (length (entry_stmt kv) <= 1)%nat; [| lia].
      unfold entry_stmt. destruct (ce_complete (snd kv)); [auto |]. destruct (0 <? ce_bytes (snd kv)); cbn; lia. }
    lia.
  - intros k. set (h := concat (map meaning ts)) in *.
    assert (NDh : NoDup (map stmt_bin h)) by (eapply Permutation_NoDup; [apply Permutation_map; symmetry; exact T3 | exact B1]).
    rewrite exec_distinct.
    + destruct (find (fun s => stmt_bin s =? k) h) as [s |] eqn:Fs.
      * apply find_some in Fs as [Fi Fe]. apply Z.eqb_eq in Fe.
        destruct (B2 s) as [As [e [He Ee]]]; [eapply Permutation_in; eauto |]. rewrite Fe in He.
        unfold cget at 1. rewrite (aget_NoDup Z.eqb zeqb_reflect l k e ND He). rewrite Ee.
        destruct (ce_complete e) eqn:Ec; [reflexivity |].
        assert (0 < ce_bytes e); [| destruct (Z.ltb_spec 0 (ce_bytes e)); [reflexivity | lia]].
        destruct s as [c i | c i b | c i |]; cbn [stmt_entry adds] in *; try discriminate Ee.
        -- injection Ee as <-. discriminate Ec.
        -- injection Ee as <-. exact As.
      * unfold cget at 2. destruct (aget Z.eqb l k) as [e |] eqn:Ek; [| reflexivity].
        apply (aget_In Z.eqb zeqb_reflect) in Ek.
        destruct (ce_complete e) eqn:Ec; [| destruct (Z.ltb_spec 0 (ce_bytes e)) as [Hb |]; [| reflexivity]]; exfalso.
        -- destruct (B3 k e Ek (or_introl Ec)) as [s [Is Es]].
           pose proof (find_none _ _ Fs s (Permutation_in _ (Permutation_sym T3) Is)) as N. cbn in N. lia.
        -- destruct (B3 k e Ek (or_intror Hb)) as [s [Is Es]].
           pose proof (find_none _ _ Fs s (Permutation_in _ (Permutation_sym T3) Is)) as N. cbn in N. lia.
    + exact NDh.
    + apply Forall_forall. intros s Hs. apply B2. eapply Permutation_in; eauto.
    + reflexivity.
Qed.

Theorem text_round_trip l : NoDup (map fst l) -> Forall entry_ok l -> zlen l <= 4194304 ->
  exists m, parse (format l) = Ret m /\
    forall c i, has m c i = has l c i /\ (has l c i = false -> received_bytes m c i = received_bytes l c i).
Proof.
  intros ND F Hl. destruct (format_parse l ND F Hl) as [m [E G]]. exists m. split; [assumption |].
  intros c i. unfold has, received_bytes. rewrite G. destruct (cget l (ckey c i)) as [e |] eqn:Ge; [| auto].
  destruct (ce_complete e) eqn:Ec; [split; [reflexivity | discriminate] |].
  destruct (Z.ltb_spec 0 (ce_bytes e)); [rewrite Ec; auto |]. split; [reflexivity |]. intros _.
  apply (aget_In _ zeqb_reflect) in Ge. rewrite Forall_forall in F. destruct (F _ Ge) as [c' [i' [_ [_ [_ Hb]]]]]. cbn [snd] in Hb. lia.
Qed.

Definition nameable (c i : Z) : Prop := c = 0 \/ c = 2 \/ c = 8 \/ (c = 6 /\ i = 0).
Lemma reachable_formats h :
  Forall (fun s => stmt_ok s /\ match s with
                                | Have c i | Drop c i => c = 0 \/ c = 2 \/ c = 8 \/ (c = 6 /\ i = 0)
                                | HavePart c i b => (c = 0 \/ c = 2 \/ c = 8 \/ (c = 6 /\ i = 0)) /\ b < 2 ^ 64
                                | DropAll => True
                                end) h ->
  NoDup (map fst (exec_all [] h)) /\ Forall entry_ok (exec_all [] h) /\ zlen (exec_all [] h) <= zlen h.
Proof.
  enough (G : forall h m, Forall (fun s => stmt_ok s /\ match s with
                                | Have c i | Drop c i => c = 0 \/ c = 2 \/ c = 8 \/ (c = 6 /\ i = 0)
                                | HavePart c i b => (c = 0 \/ c = 2 \/ c = 8 \/ (c = 6 /\ i = 0)) /\ b < 2 ^ 64
                                | DropAll => True
                                end) h -> NoDup (map fst m) -> Forall entry_ok m ->
     NoDup (map fst (exec_all m h)) /\ Forall entry_ok (exec_all m h) /\ zlen (exec_all m h) <= zlen m + zlen h).
  { intros H. apply (G h []); auto; constructor. }
  clear h. induction h as [| s h IH]; intros m F ND E; cbn [exec_all fold_left].
  - split; [assumption |]. split; [assumption |]. change (zlen (@nil stmt)) with 0. lia.
  - inversion_clear F as [| ? ? [Hs Hn] Fh]. fold (exec_all (exec m s) h). rewrite zlen_cons.
    assert (FP : forall k e, Forall entry_ok m -> entry_ok (k, e) -> Forall entry_ok (aput Z.eqb m k e)).
    { clear. intros k e F0 He. induction m as [| [a b] m IH]; cbn [aput]; [now constructor |].
      inversion_clear F0 as [| ? ? Fa Fm]. destruct (Z.eqb_spec a k) as [-> |]; constructor; auto. }
    assert (OK : forall c i, bin_ok c i -> nameable c i -> 0 <= ce_bytes (cget_or_new m (ckey c i)) < 2 ^ 64).
    { intros c i Hb Hc. unfold cget_or_new. destruct (cget m (ckey c i)) as [e |] eqn:G; [| cbn; lia].
      apply (aget_In _ zeqb_reflect) in G. rewrite Forall_forall in E. destruct (E _ G) as [? [? [_ [_ [_ X]]]]]. exact X. }
    assert (S1 : NoDup (map fst (exec m s)) /\ Forall entry_ok (exec m s) /\ zlen (exec m s) <= zlen m + 1).
    { destruct s as [c i | c i b | c i |]; cbn [stmt_ok] in Hs; cbn [exec].
      - unfold mark. split; [now apply (aput_NoDup _ zeqb_reflect) |]. split.
        + apply FP; [assumption |]. exists c, i. cbn [fst snd ce_bytes]. repeat split; try apply Hs; auto; now apply OK.
        + pose proof (aput_length Z.eqb zeqb_reflect m (ckey c i) {| ce_bytes := ce_bytes (cget_or_new m (ckey c i)); ce_complete := true |}). unfold zlen. lia.
      - destruct Hs as [Hs Hb]. destruct Hn as [Hn Hb']. unfold mark_partial. split; [now apply (aput_NoDup _ zeqb_reflect) |]. split.
        + apply FP; [assumption |]. exists c, i. cbn [fst snd]. split; [reflexivity |]. split; [assumption |]. split; [assumption |].
          pose proof (OK c i Hs Hn). destruct (negb _ && _); cbn [ce_bytes]; lia.
        + match goal with |- zlen (aput _ _ ?k ?v) <= _ => pose proof (aput_length Z.eqb zeqb_reflect m k v) end. unfold zlen. lia.
      - unfold unmark. split; [now apply (adel_NoDup _ zeqb_reflect) |]. split.
        + rewrite Forall_forall in *. intros y Hy. apply filter_In in Hy as [Hy _]. auto.
        + pose proof (adel_length Z.eqb m (ckey c i)). unfold zlen. lia.
      - unfold clear. cbn. pose proof (zlen_nonneg m). repeat split; try constructor. unfold zlen in *. cbn. lia. }
    destruct S1 as [S1 [S2 S3]]. destruct (IH (exec m s) Fh S1 S2) as [I1 [I2 I3]]. split; [assumption |]. split; [assumption | lia].
Qed.
