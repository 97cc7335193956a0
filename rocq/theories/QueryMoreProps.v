(** C18, further: component ranges and lists of return types in a request,
    what is accepted and what is refused. *)
From Coq Require Import String Ascii List.
From Verif Require Import Base BaseLemmas Text TextProofs Be ViewModel QueryModel QueryProps.

(** ** Specification *)

Inductive item := One (c : Z) | Range (lo hi : Z).
Definition item_ok (i : item) : Prop :=
  match i with One c => 0 <= c < 65536 | Range lo hi => 0 <= lo <= hi /\ hi < 65536 end.
Definition item_text (i : item) : list Z :=
  match i with One c => dec c | Range lo hi => dec lo ++ [45] ++ dec hi end.
Definition item_comps (i : item) : list Z :=
  match i with One c => [c] | Range lo hi => map (Z.add lo) (zseq (hi - lo + 1)) end.
(** "comps=" and the items, separated by commas. *)
Definition comps_text (i : item) (t : list item) : list Z :=
  txt "comps=" ++ item_text i ++ concat (map (cons 44) (map item_text t)).

(** ** Ranges *)

Lemma zseq_cons n : 0 <= n -> zseq (1 + n) = 0 :: map (Z.add 1) (zseq n).
Proof.
  intros Hn. unfold zseq. rewrite Z2Nat.inj_add, Nat.add_1_l by lia. cbn [seq map]. f_equal.
  rewrite <- seq_shift, !map_map. apply map_ext. intros k. lia.
Qed.

Lemma expand_range : forall n fuel lo hi acc, 0 <= lo -> hi < 65536 -> hi - lo + 1 = Z.of_nat n ->
  zlen acc + Z.of_nat n <= 16384 -> (n < fuel)%nat ->
  expand fuel lo hi acc = Ret (Some (acc ++ map (Z.add lo) (zseq (hi - lo + 1)))).
Proof.
  induction n as [|n IH]; intros fuel lo hi acc Hlo Hhi Hn Ha Hf; (destruct fuel as [|fuel]; [lia|]); cbn [expand].
  - replace (lo <=? hi) with false by lia. rewrite Hn. change (zseq (Z.of_nat 0)) with (@nil Z). cbn [map].
    now rewrite app_nil_r.
  - replace (lo <=? hi) with true by lia. unfold kJpipMaxComponents. replace (16384 <=? zlen acc) with false by lia.
    rewrite wrap64_small by (unfold two64; lia). rewrite Z.mod_small by lia.
    rewrite IH; [|lia|lia|lia|rewrite zlen_app; change (zlen [lo]) with 1; lia|lia].
    rewrite <- app_assoc. f_equal. f_equal. f_equal.
    replace (hi - lo + 1) with (1 + (hi - (lo + 1) + 1)) by lia. rewrite zseq_cons by lia. cbn [map app].
    rewrite Z.add_0_r. f_equal. rewrite map_map. apply map_ext. intros k. lia.
Qed.

Lemma item_zlen i : item_ok i -> 1 <= zlen (item_comps i).
Proof.
  destruct i as [c|lo hi]; cbn [item_ok item_comps]; intros H; [vm_compute; discriminate|].
  unfold zlen. rewrite map_length. change (Z.of_nat (length (zseq (hi - lo + 1)))) with (zlen (zseq (hi - lo + 1))).
  rewrite zseq_len by lia. lia.
Qed.

Lemma range_shape lo x acc : 0 <= lo < two64 ->
  parse_comp (dec lo ++ [45] ++ x) acc =
  let '(hi, e2) := strtoull x in
  if (e2 =? 0) || negb (c_at x e2 =? 0) || (hi <? lo) then Ret None else expand expand_fuel lo hi acc.
Proof.
  intros H. pose proof (dec_pos lo ltac:(lia)) as P.
  assert (E : parse_comp (dec lo ++ [45] ++ x) acc =
    let '(l, e) := strtoull (dec lo ++ [45] ++ x) in
    if e =? 0 then Ret None
    else if c_at (dec lo ++ [45] ++ x) e =? 45 then
      let '(hi, e2) := strtoull (zskip (e + 1) (dec lo ++ [45] ++ x)) in
      if (e2 =? 0) || negb (c_at (dec lo ++ [45] ++ x) (e + 1 + e2) =? 0) || (hi <? l) then Ret None
      else expand expand_fuel l hi acc
    else if negb (c_at (dec lo ++ [45] ++ x) e =? 0) then Ret None
    else expand expand_fuel l l acc).
  { unfold parse_comp. destruct (dec lo) eqn:D; [cbn in P; lia|]. reflexivity. }
  rewrite E, strtoull_dec by (try assumption; reflexivity).
  replace (zlen (dec lo) =? 0) with false by lia. rewrite c_at_end by reflexivity. cbn [app]. change (45 =? 45) with true. cbv iota.
  replace (dec lo ++ 45 :: x) with ((dec lo ++ [45]) ++ x) by (rewrite <- app_assoc; reflexivity).
  rewrite zskip_app by (rewrite zlen_app; reflexivity).
  destruct (strtoull x) as [hi e2] eqn:S.
  assert (C : 0 <= e2).
  { unfold strtoull in S. revert S. set (ws := take_while is_space x).
    destruct (match zskip (zlen ws) x with 45 :: s' => _ | 43 :: s' => _ | _ => _ end) as [[neg sg] s2] eqn:Q.
    assert (0 <= sg).
    { destruct (zskip (zlen ws) x) as [|c t]; [apply pair_inj in Q as [Q _]; apply pair_inj in Q as [_ Q]; lia|].
      repeat (match type of Q with context [match ?v with _ => _ end] => destruct v end;
              try (apply pair_inj in Q as [Q _]; apply pair_inj in Q as [_ Q]; lia)). }
    destruct (take_while is_digit s2); intros S; apply pair_inj in S as [_ <-]; [lia|].
    pose proof (zlen_nonneg ws). pose proof (zlen_nonneg (z :: l)). lia. }
  replace (c_at ((dec lo ++ [45]) ++ x) (zlen (dec lo) + 1 + e2)) with (c_at x e2); [reflexivity|].
  unfold c_at. rewrite znth_app_r by (rewrite zlen_app; change (zlen [45]) with 1; lia).
  f_equal. rewrite zlen_app. change (zlen [45]) with 1. lia.
Qed.

Lemma parse_item i acc : item_ok i -> zlen acc + zlen (item_comps i) <= 16384 ->
  parse_comp (item_text i) acc = Ret (Some (acc ++ item_comps i)).
Proof.
  intros Hi Ha. destruct i as [c|lo hi]; cbn [item_ok item_text item_comps] in *.
  - apply parse_comp_dec; [assumption|]. change (zlen [c]) with 1 in Ha. lia.
  - assert (L : zlen (map (Z.add lo) (zseq (hi - lo + 1))) = hi - lo + 1).
    { unfold zlen. rewrite map_length. apply zseq_len. lia. }
    rewrite L in Ha. rewrite range_shape by (unfold two64; lia). rewrite strtoull_dec0 by (unfold two64; lia).
    pose proof (dec_pos hi ltac:(lia)) as P. replace (zlen (dec hi) =? 0) with false by lia.
    rewrite <- (app_nil_r (dec hi)) at 1. rewrite c_at_end by reflexivity. cbn [Z.eqb negb orb].
    replace (hi <? lo) with false by lia.
    apply (expand_range (Z.to_nat (hi - lo + 1))); try lia.
    pose proof (zlen_nonneg acc). unfold expand_fuel. apply Z2Nat.inj_lt; lia.
Qed.

Lemma parse_items : forall l acc, Forall item_ok l -> zlen acc + zlen (concat (map item_comps l)) <= 16384 ->
  parse_comps (map item_text l) acc = Ret (Some (acc ++ concat (map item_comps l))).
Proof.
  induction l as [|i l IH]; intros acc H L; cbn [map parse_comps concat] in *; [now rewrite app_nil_r|].
  inversion H; subst. rewrite zlen_app in L. pose proof (zlen_nonneg (concat (map item_comps l))).
  rewrite parse_item by (try assumption; lia). cbn [bind].
  rewrite IH by (try assumption; rewrite zlen_app; lia). rewrite <- app_assoc. reflexivity.
Qed.

Lemma item_chars i : item_ok i -> Forall (fun x => x <> 44 /\ x <> 38) (item_text i).
Proof.
  assert (D : forall n, 0 <= n -> Forall (fun x => x <> 44 /\ x <> 38) (dec n)).
  { intros n Hn. eapply Forall_impl; [|apply (dec_digits_all n Hn)]. cbv beta. intros a Ha. unfold is_digit in Ha. lia. }
  destruct i as [c|lo hi]; cbn [item_ok item_text]; intros H; [apply D; lia|].
  apply Forall_app. split; [apply D; lia|]. constructor; [lia|]. apply D. lia.
Qed.

Lemma field_comps r v : field r (txt "comps") v =
  let* cs := parse_comps (split 44 v) [] in
  match cs with
  | None => Ret (PErr MalformedField)
  | Some cs =>
    let w := q_win r in
    let w := {| fx := fx w; fy := fy w; ox := ox w; oy := oy w; sx := sx w; sy := sy w; comps := cs; rounding := rounding w |} in
    Ret (POk (Rq (q_target r) w (q_has_fsiz r) (q_has_roff r) (q_has_rsiz r) true (q_type r) (q_model r)
                 (q_len r) (q_quality r) (q_cnew r) (q_cid r) (q_cclose r) (q_qid r)))
  end.
Proof. reflexivity. Qed.

(** A parameter by itself as the whole query. *)
Lemma sole_param k v : k <> [] -> Forall (fun x => x <> 61 /\ x <> 38 /\ x <> 63) k -> Forall (fun x => x <> 38) v ->
  parse_jpip_query (k ++ [61] ++ v) = field no_request k v.
Proof.
  intros N Hk Hv. unfold parse_jpip_query.
  assert (F : Forall (fun x => x <> 38) (k ++ [61] ++ v)).
  { apply Forall_app. split; [eapply Forall_impl; [|exact Hk]; cbv beta; tauto|]. constructor; [lia|assumption]. }
  destruct k as [|c k']; [congruence|]. cbn [app]. inversion Hk; subst.
  replace (c =? 63) with false by lia. cbn [app] in F. rewrite split_one by exact F. cbn [params].
  change (c :: k' ++ 61 :: v) with ((c :: k') ++ [61] ++ v).
  rewrite param_kv; [|discriminate|eapply Forall_impl; [|exact Hk]; cbv beta; tauto].
  destruct (field no_request (c :: k') v) as [[r|f]| |]; reflexivity.
Qed.

(** Any list of components and component ranges is read as the list of all the
    components it names, in order. *)
Theorem C18_component_ranges : forall i t, Forall item_ok (i :: t) ->
  zlen (concat (map item_comps (i :: t))) <= 16384 ->
  exists r, parse_jpip_query (comps_text i t) = Ret (POk r) /\ q_has_comps r = true /\
    comps (q_win r) = concat (map item_comps (i :: t)).
Proof.
  intros i t H L. unfold comps_text. change (txt "comps=") with (txt "comps" ++ [61]). rewrite <- app_assoc.
  inversion H as [|? ? Hi Ht]; subst.
  assert (C : Forall (Forall (fun x => x <> 44 /\ x <> 38)) (map item_text t)).
  { apply Forall_map. eapply Forall_impl; [|exact Ht]. apply item_chars. }
  rewrite sole_param; [|discriminate|repeat (constructor; [vm_compute; intuition discriminate|]); constructor|].
  - rewrite field_comps, split_join.
    + change (item_text i :: map item_text t) with (map item_text (i :: t)).
      rewrite parse_items by (try assumption; exact L). cbn [bind]. eexists. split; [reflexivity|]. split; reflexivity.
    + eapply Forall_impl; [|apply (item_chars i Hi)]. cbv beta. tauto.
    + eapply Forall_impl; [|exact C]. intros l Hl. eapply Forall_impl; [|exact Hl]. cbv beta. tauto.
  - apply Forall_app. split; [eapply Forall_impl; [|apply (item_chars i Hi)]; cbv beta; tauto|].
    clear - C. induction C as [|l ls Hl _ IH]; cbn [map concat]; [constructor|].
    cbn [app]. constructor; [lia|]. apply Forall_app. split; [eapply Forall_impl; [|exact Hl]; cbv beta; tauto|exact IH].
Qed.
Print Assumptions C18_component_ranges.
Example C18_component_ranges_case :
  comps_text (One 4) [Range 0 2; One 9] = txt "comps=4,0-2,9" /\
  concat (map item_comps [One 4; Range 0 2; One 9]) = [4; 0; 1; 2; 9].
Proof. split; reflexivity. Qed.

Lemma strtoull_none x : stops is_digit x -> stops is_space x -> stops (fun c => (c =? 43) || (c =? 45)) x ->
  strtoull x = (0, 0).
Proof.
  intros A B C. unfold strtoull.
  assert (W : take_while is_space x = []) by (destruct x; [reflexivity|cbn [take_while stops] in *; now rewrite B]).
  rewrite W. change (zskip (zlen []) x) with x.
  destruct x as [|c t]; [reflexivity|]. cbn [stops] in *. apply Bool.orb_false_iff in C as [C1 C2].
  assert (E : forall (X : Type) (f g : list Z -> X) (d : X),
    match c :: t with 45 :: s' => f s' | 43 :: s' => g s' | _ => d end = d).
  { intros X f g d. apply Z.eqb_neq in C1, C2.
    destruct c as [|c|c]; [reflexivity| |reflexivity].
    do 6 (destruct c as [c|c|]; try reflexivity; try (exfalso; lia)). }
  rewrite E. cbn [take_while]. now rewrite A.
Qed.

(** A range that does not end in a number, has text after it, or runs
    backwards is refused. *)
Theorem C18_malformed_range : forall lo x, 0 <= lo < two64 -> Forall (fun c => c <> 44 /\ c <> 38) x ->
  (x = [] \/
   exists hi junk, x = dec hi ++ junk /\ 0 <= hi < two64 /\
     (junk = [] /\ hi < lo \/ exists c t, junk = c :: t /\ is_digit c = false /\ c <> 0)) ->
  parse_jpip_query (txt "comps=" ++ dec lo ++ [45] ++ x) = Ret (PErr MalformedField).
Proof.
  intros lo x Hlo Hx Hc. change (txt "comps=") with (txt "comps" ++ [61]). rewrite <- app_assoc.
  assert (D : Forall (fun x => x <> 44 /\ x <> 38) (dec lo ++ [45] ++ x)).
  { apply Forall_app. split; [|constructor; [lia|assumption]].
    eapply Forall_impl; [|apply (dec_digits_all lo); lia]. cbv beta. intros a Ha. unfold is_digit in Ha. lia. }
  rewrite sole_param; [|discriminate|repeat (constructor; [vm_compute; intuition discriminate|]); constructor
    |eapply Forall_impl; [|exact D]; cbv beta; tauto].
  rewrite field_comps, split_one by (eapply Forall_impl; [|exact D]; cbv beta; tauto). cbn [parse_comps].
  rewrite range_shape by assumption.
  destruct Hc as [->|(hi & junk & -> & Hhi & Hj)].
  - rewrite strtoull_none by exact I. reflexivity.
  - assert (J : stops is_digit junk) by (destruct Hj as [[-> _]|(c & t & -> & Hd & _)]; cbn [stops]; auto).
    rewrite strtoull_dec by assumption.
    assert (K : negb (c_at (dec hi ++ junk) (zlen (dec hi)) =? 0) || (hi <? lo) = true).
    { destruct Hj as [[-> Hlt]|(c & t & -> & Hd & Hne)].
      - replace (hi <? lo) with true by lia. apply Bool.orb_true_r.
      - rewrite c_at_end by reflexivity. cbn. lia. }
    rewrite <- Bool.orb_assoc, K, Bool.orb_true_r. reflexivity.
Qed.
Print Assumptions C18_malformed_range.
Example C18_malformed_range_case :
  parse_jpip_query (txt "comps=4-2") = Ret (PErr MalformedField) /\
  parse_jpip_query (txt "comps=4-") = Ret (PErr MalformedField) /\
  parse_jpip_query (txt "comps=4-7x") = Ret (PErr MalformedField).
Proof. repeat split. Qed.

(** ** Return types *)

(** An offer of the one return type the server can produce: one of its two
    names, with blanks around it or parameters after a semicolon. *)
Definition offers_jpp (item : list Z) : Prop :=
  exists blanks name rest, item = blanks ++ name ++ rest /\
    Forall (fun c => c = 32 \/ c = 9) blanks /\
    (name = txt "jpp-stream" \/ name = txt "image/jpp-stream") /\
    (Forall (fun c => c = 32 \/ c = 9) rest \/ exists parameters, rest = 59 :: parameters).

Lemma blank_iff c : is_blank c = true <-> c = 32 \/ c = 9.
Proof. unfold is_blank. lia. Qed.
Lemma trim_split s : exists b, s = b ++ trim_left s /\ Forall (fun c => c = 32 \/ c = 9) b /\ stops is_blank (trim_left s).
Proof.
  exists (take_while is_blank s). unfold trim_left. induction s as [|c s IH]; [cbn; repeat split; constructor|].
  cbn [take_while]. destruct (is_blank c) eqn:B.
  - destruct IH as (E & F & G).
    assert (K : zskip (zlen (c :: take_while is_blank s)) (c :: s) = zskip (zlen (take_while is_blank s)) s).
    { unfold zskip, zlen. rewrite !Nat2Z.id. reflexivity. }
    rewrite K. split; [cbn [app]; now rewrite <- E|]. split; [constructor; [now apply blank_iff|assumption]|assumption].
  - change (zskip (zlen []) (c :: s)) with (c :: s). repeat split; [constructor|exact B].
Qed.
Lemma trim_app b s : Forall (fun c => c = 32 \/ c = 9) b -> stops is_blank s -> trim_left (b ++ s) = s.
Proof.
  intros F G. unfold trim_left. rewrite take_while_app; [now apply zskip_app| |assumption].
  eapply Forall_impl; [|exact F]. intros c. apply blank_iff.
Qed.
Lemma take_until p s : exists t, s = take_while p s ++ t /\ stops p t.
Proof.
  induction s as [|c s (t & E & G)]; [exists []; split; [reflexivity|exact I]|]. cbn [take_while].
  destruct (p c) eqn:B; [exists t|exists (c :: s)]; cbn [app].
  - split; [congruence|assumption].
  - split; [reflexivity|exact B].
Qed.

Lemma acceptable_iff item : is_acceptable_return_type item = true <-> offers_jpp item.
Proof.
  unfold is_acceptable_return_type. destruct (trim_split item) as (b & E & Fb & Sb).
  destruct (trim_split (rev (trim_left item))) as (b' & E' & Fb' & Sb').
  apply (f_equal (@rev Z)) in E'. rewrite rev_involutive, rev_app_distr in E'.
  set (core := rev (trim_left (rev (trim_left item)))) in *.
  split; intros H.
  - destruct (take_until (fun c => negb (c =? 59)) core) as (t & Et & St).
    set (name := take_while (fun c => negb (c =? 59)) core) in *.
    exists b, name, (t ++ rev b'). split; [rewrite (app_assoc name), <- Et, <- E'; exact E|].
    split; [assumption|]. split.
    + apply Bool.orb_true_iff in H. unfold seq_eqb in H.
      destruct (list_eq_dec Z.eq_dec name (txt "jpp-stream")); [now left|].
      destruct (list_eq_dec Z.eq_dec name (txt "image/jpp-stream")); [now right|]. intuition discriminate.
    + destruct t as [|c t]; [left; cbn [app]; now apply Forall_rev|]. right. cbn [stops] in St.
      exists (t ++ rev b'). cbn [app]. f_equal. lia.
  - destruct H as (b2 & name & rest & E2 & F2 & N & R).
    assert (Nb : stops is_blank (name ++ rest)) by (destruct N as [-> | ->]; reflexivity).
    assert (T : trim_left item = name ++ rest) by (rewrite E2; now apply trim_app).
    assert (L : exists r', core = name ++ r' /\ (r' = [] \/ exists q, r' = 59 :: q)).
    { destruct R as [R|(q & ->)].
      - exists []. split; [|now left]. unfold core. rewrite T, rev_app_distr, trim_app.
        + now rewrite rev_involutive, app_nil_r.
        + now apply Forall_rev.
        + destruct N as [-> | ->]; reflexivity.
      - rewrite T in E'. clear - E' Fb' N.
        assert (B' : Forall (fun c => c <> 59) (rev b')).
        { apply Forall_rev. eapply Forall_impl; [|exact Fb']. cbv beta. lia. }
        clearbody core. revert core E' B'. clear Fb'. generalize (rev b'). clear b'. intros e core E B.
        assert (P : exists r', core = (name ++ [59]) ++ r').
        { replace (name ++ 59 :: q) with ((name ++ [59]) ++ q) in E by (rewrite <- app_assoc; reflexivity).
          clear N. revert core E. generalize name. intros n.
          assert (G : forall n core, (n ++ [59]) ++ q = core ++ e -> exists r', core = (n ++ [59]) ++ r').
          { clear n. induction n as [|c n IH]; intros core E.
            - destruct core as [|k core]; cbn [app] in *.
              + rewrite <- E in B. inversion B. lia.
              + inversion E; subst. now exists core.
            - destruct core as [|k core].
              + exfalso. cbn [app] in E. rewrite <- E in B. apply Forall_inv_tail in B.
                apply Forall_app in B as [B _]. apply Forall_app in B as [_ B]. inversion B. lia.
              + cbn [app] in E. inversion E; subst. destruct (IH core) as (r' & ->); [assumption|]. now exists r'. }
          apply G. }
        destruct P as (r' & ->). exists (59 :: r'). split; [now rewrite <- app_assoc|]. right. now exists r'. }
    destruct L as (r' & Ec & Hr). rewrite Ec.
    replace (take_while (fun c => negb (c =? 59)) (name ++ r')) with name.
    + destruct N as [-> | ->]; reflexivity.
    + symmetry. apply take_while_app.
      * destruct N as [-> | ->]; repeat constructor.
      * destruct Hr as [->|(q & ->)]; [exact I|reflexivity].
Qed.

Lemma field_type r v : field r (txt "type") v =
  if existsb is_acceptable_return_type (split 44 v) then
    Ret (POk (Rq (q_target r) (q_win r) (q_has_fsiz r) (q_has_roff r) (q_has_rsiz r) (q_has_comps r) (txt "jpp-stream") (q_model r)
                 (q_len r) (q_quality r) (q_cnew r) (q_cid r) (q_cclose r) (q_qid r)))
  else Ret (PErr UnsupportedType).
Proof. reflexivity. Qed.

(** A request listing return types is answered with the type the server
    produces exactly when one of the listed types is it. *)
Theorem C18_return_types : forall i t, Forall (Forall (fun c => c <> 44 /\ c <> 38)) (i :: t) ->
  let q := parse_jpip_query (txt "type=" ++ i ++ concat (map (cons 44) t)) in
  (Exists offers_jpp (i :: t) -> exists r, q = Ret (POk r) /\ q_type r = txt "jpp-stream") /\
  (~ Exists offers_jpp (i :: t) -> q = Ret (PErr UnsupportedType)).
Proof.
  intros i t H q. subst q. change (txt "type=") with (txt "type" ++ [61]). rewrite <- app_assoc.
  inversion H as [|? ? Hi Ht]; subst.
  rewrite sole_param; [|discriminate|repeat (constructor; [vm_compute; intuition discriminate|]); constructor|].
  - rewrite field_type, split_join.
    + split; intros K.
      * replace (existsb is_acceptable_return_type (i :: t)) with true.
        -- eexists. split; reflexivity.
        -- symmetry. apply existsb_exists. apply Exists_exists in K as (x & Hx & Ho). exists x.
           split; [assumption|now apply acceptable_iff].
      * destruct (existsb is_acceptable_return_type (i :: t)) eqn:B; [|reflexivity]. exfalso. apply K.
        apply existsb_exists in B as (x & Hx & Ho). apply Exists_exists. exists x. split; [assumption|now apply acceptable_iff].
    + eapply Forall_impl; [|exact Hi]. cbv beta. tauto.
    + eapply Forall_impl; [|exact Ht]. intros l Hl. eapply Forall_impl; [|exact Hl]. cbv beta. tauto.
  - apply Forall_app. split; [eapply Forall_impl; [|exact Hi]; cbv beta; tauto|].
    clear - Ht. induction Ht as [|l ls Hl _ IH]; cbn [map concat]; [constructor|].
    cbn [app]. constructor; [lia|]. apply Forall_app. split; [eapply Forall_impl; [|exact Hl]; cbv beta; tauto|exact IH].
Qed.
Print Assumptions C18_return_types.
Example C18_return_types_case :
  Exists offers_jpp [txt "jpt-stream"; txt " image/jpp-stream;ptype=ext"] /\ ~ offers_jpp (txt "jpp-stream2").
Proof.
  split.
  - apply Exists_cons_tl, Exists_cons_hd. apply acceptable_iff. reflexivity.
  - intros H. apply acceptable_iff in H. discriminate.
Qed.
