(** The request a client sends is the request the server reads. *)
From Coq Require Import String Ascii List.
From Verif Require Import Base BaseLemmas Text TextProofs Be ViewModel QueryModel.

(** ** Specification: windows the API can hold *)

Definition u32 (v : Z) : Prop := 0 <= v < 2 ^ 32.
Record api_window (w : window) : Prop := {
  aw_size : u32 (fx w) /\ u32 (fy w);
  aw_offset : u32 (ox w) /\ u32 (oy w);
  aw_region : u32 (sx w) /\ u32 (sy w);
  aw_comps : Forall (fun c => 0 <= c < 65536) (comps w) }.
(** A model text has no separator of parameters and no space. *)
Definition model_text (m : list Z) : Prop := Forall (fun c => c <> 38 /\ c <> 32) m.

(** ** Strings *)

Lemma index_of_app c p s : Forall (fun x => x <> c) p -> index_of c (p ++ c :: s) = Some (zlen p).
Proof.
  induction 1 as [|x p Hx _ IH]; cbn [app index_of].
  - now rewrite Z.eqb_refl.
  - replace (x =? c) with false by lia. rewrite IH. cbn [option_map]. now rewrite zlen_cons.
Qed.
Lemma index_of_none c p : Forall (fun x => x <> c) p -> index_of c p = None.
Proof. induction 1 as [|x p Hx _ IH]; cbn [index_of]; [reflexivity|]. replace (x =? c) with false by lia. now rewrite IH. Qed.
Lemma find_0 c s : find c s 0 = index_of c s.
Proof. unfold find. rewrite zskip_0. destruct (index_of c s); reflexivity. Qed.
Lemma split_app c p s : Forall (fun x => x <> c) p -> split c (p ++ c :: s) = p :: split c s.
Proof.
  induction 1 as [|x p Hx _ IH]; cbn [app split]; [now rewrite Z.eqb_refl|].
  replace (x =? c) with false by lia. now rewrite IH.
Qed.
Lemma split_one c p : Forall (fun x => x <> c) p -> split c p = [p].
Proof. induction 1 as [|x p Hx _ IH]; cbn [split]; [reflexivity|]. replace (x =? c) with false by lia. now rewrite IH. Qed.
Lemma split_join c : forall ps p, Forall (fun x => x <> c) p -> Forall (Forall (fun x => x <> c)) ps ->
  split c (p ++ concat (map (cons c) ps)) = p :: ps.
Proof.
  induction ps as [|q ps IH]; intros p Hp Hs; cbn [map concat].
  - rewrite app_nil_r. now apply split_one.
  - inversion Hs; subst. cbn [app]. rewrite split_app by assumption. f_equal. now apply IH.
Qed.
Lemma seq_eqb_eq a b : seq_eqb a b = true <-> a = b.
Proof. unfold seq_eqb. destruct (list_eq_dec Z.eq_dec a b); split; congruence. Qed.
Lemma c_at_end a b n : zlen a = n -> c_at (a ++ b) n = match b with [] => 0 | c :: _ => c end.
Proof.
  intros <-. unfold c_at. rewrite znth_app_r by lia. rewrite Z.sub_diag. destruct b; reflexivity.
Qed.

Definition digits (s : list Z) : Prop := Forall (fun c => is_digit c = true) s.
Lemma dec_digits_all n : 0 <= n -> digits (dec n).
Proof. intros H. apply dec_spec. exact H. Qed.
Lemma digits_ne s c : digits s -> is_digit c = false -> Forall (fun x => x <> c) s.
Proof. intros H E. eapply Forall_impl; [|exact H]. cbv beta. intros a Ha <-. congruence. Qed.
Lemma dec_pos n : 0 <= n -> 0 < zlen (dec n).
Proof. intros H. destruct (dec_spec n H) as (_ & N & _). destruct (dec n) as [|x t]; [congruence|]. rewrite zlen_cons. pose proof (zlen_nonneg t). lia. Qed.
Lemma strtoull_dec0 n : 0 <= n < two64 -> strtoull (dec n) = (n, zlen (dec n)).
Proof. intros H. rewrite <- (app_nil_r (dec n)) at 1. now rewrite strtoull_dec. Qed.
Lemma u32_64 n : u32 n -> 0 <= n < two64.
Proof. unfold u32, two64. change (2 ^ 32) with 4294967296. change (2 ^ 64) with 18446744073709551616. lia. Qed.
Lemma u32_wrap n : u32 n -> wrap32 n = n.
Proof. intros H. apply wrap32_small. exact H. Qed.

(** ** Fields *)

Lemma parse_pair_dec a b : u32 a -> u32 b -> parse_pair (dec a ++ [44] ++ dec b) = Some (a, b).
Proof.
  intros Ha Hb. pose proof (u32_64 a Ha). pose proof (u32_64 b Hb). unfold parse_pair. rewrite find_0.
  cbn [app]. rewrite index_of_app by (apply digits_ne; [apply dec_digits_all; lia|reflexivity]).
  rewrite strtoull_dec by (try assumption; reflexivity). rewrite Z.eqb_refl. cbn [negb].
  replace (dec a ++ 44 :: dec b) with ((dec a ++ [44]) ++ dec b) by (rewrite <- app_assoc; reflexivity).
  rewrite zskip_app by (rewrite zlen_app; reflexivity). rewrite strtoull_dec0 by assumption.
  rewrite <- (app_nil_r ((dec a ++ [44]) ++ dec b)).
  rewrite c_at_end by (rewrite !zlen_app; change (zlen [44]) with 1; lia). cbn [negb Z.eqb]. now rewrite !u32_wrap.
Qed.

Definition round_txt (d : round) : list Z := match d with Up => txt ",round-up" | Closest => txt ",closest" | Down => [] end.
Lemma parse_fsiz_dec a b d : u32 a -> u32 b ->
  parse_fsiz (dec a ++ [44] ++ dec b ++ round_txt d) = Some (a, b, match d with Down => None | _ => Some d end).
Proof.
  intros Ha Hb. pose proof (u32_64 a Ha). pose proof (u32_64 b Hb). unfold parse_fsiz. rewrite find_0.
  cbn [app]. rewrite index_of_app by (apply digits_ne; [apply dec_digits_all; lia|reflexivity]).
  rewrite strtoull_dec by (try assumption; reflexivity). rewrite Z.eqb_refl. cbn [negb].
  set (rest := round_txt d).
  replace (dec a ++ 44 :: dec b ++ rest) with ((dec a ++ [44]) ++ dec b ++ rest) by (rewrite <- app_assoc; reflexivity).
  assert (zlen (dec a ++ [44]) = zlen (dec a) + 1) as L by (rewrite zlen_app; reflexivity).
  unfold find. rewrite zskip_app by assumption. rewrite strtoull_dec by (try assumption; destruct d; reflexivity || exact I).
  assert (Forall (fun x => x <> 44) (dec b)) as N by (apply digits_ne; [apply dec_digits_all; lia|reflexivity]).
  destruct d; unfold rest, round_txt.
  - rewrite app_nil_r, index_of_none by exact N. cbn [option_map].
    rewrite <- (app_nil_r ((dec a ++ [44]) ++ dec b)). rewrite c_at_end by (rewrite !zlen_app; change (zlen [44]) with 1; lia).
    cbn [negb Z.eqb]. now rewrite !u32_wrap.
  - change (txt ",round-up") with (44 :: txt "round-up"). rewrite index_of_app by exact N. cbn [option_map].
    rewrite Z.eqb_refl. cbn [negb].
    replace ((dec a ++ [44]) ++ dec b ++ 44 :: txt "round-up") with ((dec a ++ [44] ++ dec b ++ [44]) ++ txt "round-up")
      by (rewrite <- !app_assoc; reflexivity).
    rewrite zskip_app by (rewrite !zlen_app; change (zlen [44]) with 1; lia). rewrite !u32_wrap by assumption. reflexivity.
  - change (txt ",closest") with (44 :: txt "closest"). rewrite index_of_app by exact N. cbn [option_map].
    rewrite Z.eqb_refl. cbn [negb].
    replace ((dec a ++ [44]) ++ dec b ++ 44 :: txt "closest") with ((dec a ++ [44] ++ dec b ++ [44]) ++ txt "closest")
      by (rewrite <- !app_assoc; reflexivity).
    rewrite zskip_app by (rewrite !zlen_app; change (zlen [44]) with 1; lia). rewrite !u32_wrap by assumption. reflexivity.
Qed.

Lemma expand_fuel_S : exists f, expand_fuel = S (S f).
Proof. exists (Z.to_nat 16384). vm_compute. reflexivity. Qed.
Lemma parse_comp_dec c acc : 0 <= c < 65536 -> zlen acc < 16384 -> parse_comp (dec c) acc = Ret (Some (acc ++ [c])).
Proof.
  intros Hc Ha. assert (0 <= c < two64) as H64 by (unfold two64; lia).
  unfold parse_comp. rewrite strtoull_dec0 by exact H64. pose proof (dec_pos c ltac:(lia)) as P.
  replace (zlen (dec c) =? 0) with false by lia.
  rewrite <- (app_nil_r (dec c)), c_at_end by (rewrite ?app_nil_r; reflexivity). rewrite app_nil_r. cbn [Z.eqb negb].
  destruct expand_fuel_S as (f & ->). cbn [expand]. rewrite Z.leb_refl. unfold kJpipMaxComponents.
  replace (16384 <=? zlen acc) with false by lia.
  rewrite wrap64_small by (unfold two64; lia). replace (c + 1 <=? c) with false by lia.
  rewrite Z.mod_small by lia. destruct (dec c); [exfalso; change (zlen (@nil Z)) with 0 in P; lia|reflexivity].
Qed.
Lemma parse_comps_dec : forall cs acc, Forall (fun c => 0 <= c < 65536) cs -> zlen acc + zlen cs <= 16384 ->
  parse_comps (map dec cs) acc = Ret (Some (acc ++ cs)).
Proof.
  induction cs as [|c t IH]; intros acc H L; cbn [map parse_comps]; [now rewrite app_nil_r|].
  inversion H; subst. rewrite zlen_cons in L. pose proof (zlen_nonneg t). rewrite parse_comp_dec by lia. cbn [bind].
  rewrite IH by (try assumption; rewrite zlen_app; change (zlen [c]) with 1; lia). rewrite <- app_assoc. reflexivity.
Qed.
Lemma split_comps c t : 0 <= c -> Forall (fun c => 0 <= c < 65536) t ->
  split 44 (dec c ++ concat (map (fun c => 44 :: dec c) t)) = map dec (c :: t).
Proof.
  intros Hc Ht. replace (map (fun c => 44 :: dec c) t) with (map (cons 44) (map dec t)) by (rewrite map_map; reflexivity).
  rewrite split_join; [reflexivity| |].
  - apply digits_ne; [now apply dec_digits_all|reflexivity].
  - apply Forall_map. eapply Forall_impl; [|exact Ht]. cbv beta. intros x Hx. apply digits_ne; [apply dec_digits_all; lia|reflexivity].
Qed.

Lemma param_kv r k v : k <> [] -> Forall (fun x => x <> 61) k -> param r (k ++ [61] ++ v) = field r k v.
Proof.
  intros N H. unfold param. rewrite find_0. cbn [app]. rewrite index_of_app by exact H. rewrite ztake_app by reflexivity.
  replace (k ++ 61 :: v) with ((k ++ [61]) ++ v) by (rewrite <- app_assoc; reflexivity).
  rewrite zskip_app by (rewrite zlen_app; reflexivity). destruct k; [congruence|reflexivity].
Qed.
Lemma params_app a : forall b r, params (a ++ b) r =
  let* x := params a r in match x with PErr f => Ret (PErr f) | POk r => params b r end.
Proof.
  induction a as [|p a IH]; intros b r; cbn [app params bind]; [reflexivity|].
  destruct (param r p) as [[r'|f]| |]; cbn [bind]; try reflexivity. apply IH.
Qed.

Ltac ne61 := repeat (constructor; [discriminate|]); constructor.
Lemma param_fsiz r a b d : u32 a -> u32 b ->
  param r (txt "fsiz=" ++ dec a ++ [44] ++ dec b ++ round_txt d) =
  let w := q_win r in
  Ret (POk (Rq (q_target r) {| fx := a; fy := b; ox := ox w; oy := oy w; sx := sx w; sy := sy w; comps := comps w;
                  rounding := match d with Down => rounding w | _ => d end |} true (q_has_roff r) (q_has_rsiz r) (q_has_comps r) (q_type r) (q_model r)
                   (q_len r) (q_quality r) (q_cnew r) (q_cid r) (q_cclose r) (q_qid r))).
Proof.
  intros Ha Hb. change (txt "fsiz=") with (txt "fsiz" ++ [61]). rewrite <- app_assoc, param_kv by (try discriminate; ne61).
  assert (forall v, field r (txt "fsiz") v = match parse_fsiz v with
    | None => Ret (PErr MalformedField)
    | Some (a, b, rd) =>
      let w := q_win r in
      let w := {| fx := a; fy := b; ox := ox w; oy := oy w; sx := sx w; sy := sy w; comps := comps w;
                  rounding := match rd with Some rd => rd | None => rounding w end |} in
      Ret (POk (Rq (q_target r) w true (q_has_roff r) (q_has_rsiz r) (q_has_comps r) (q_type r) (q_model r)
                   (q_len r) (q_quality r) (q_cnew r) (q_cid r) (q_cclose r) (q_qid r)))
    end) as -> by reflexivity.
  rewrite parse_fsiz_dec by assumption. destruct d; reflexivity.
Qed.
Lemma param_roff r a b : u32 a -> u32 b ->
  param r (txt "roff=" ++ dec a ++ [44] ++ dec b) =
  let w := q_win r in
  Ret (POk (Rq (q_target r) {| fx := fx w; fy := fy w; ox := a; oy := b; sx := sx w; sy := sy w; comps := comps w; rounding := rounding w |}
                   (q_has_fsiz r) true (q_has_rsiz r) (q_has_comps r) (q_type r) (q_model r)
                   (q_len r) (q_quality r) (q_cnew r) (q_cid r) (q_cclose r) (q_qid r))).
Proof.
  intros Ha Hb. change (txt "roff=") with (txt "roff" ++ [61]). rewrite <- app_assoc, param_kv by (try discriminate; ne61).
  assert (forall v, field r (txt "roff") v = match parse_pair v with
    | None => Ret (PErr MalformedField)
    | Some (a, b) =>
      let w := q_win r in
      let w := {| fx := fx w; fy := fy w; ox := a; oy := b; sx := sx w; sy := sy w; comps := comps w; rounding := rounding w |} in
      Ret (POk (Rq (q_target r) w (q_has_fsiz r) true (q_has_rsiz r) (q_has_comps r) (q_type r) (q_model r)
                   (q_len r) (q_quality r) (q_cnew r) (q_cid r) (q_cclose r) (q_qid r)))
    end) as -> by reflexivity.
  rewrite parse_pair_dec by assumption. reflexivity.
Qed.
Lemma param_rsiz r a b : u32 a -> u32 b ->
  param r (txt "rsiz=" ++ dec a ++ [44] ++ dec b) =
  let w := q_win r in
  Ret (POk (Rq (q_target r) {| fx := fx w; fy := fy w; ox := ox w; oy := oy w; sx := a; sy := b; comps := comps w; rounding := rounding w |}
                   (q_has_fsiz r) (q_has_roff r) true (q_has_comps r) (q_type r) (q_model r)
                   (q_len r) (q_quality r) (q_cnew r) (q_cid r) (q_cclose r) (q_qid r))).
Proof.
  intros Ha Hb. change (txt "rsiz=") with (txt "rsiz" ++ [61]). rewrite <- app_assoc, param_kv by (try discriminate; ne61).
  assert (forall v, field r (txt "rsiz") v = match parse_pair v with
    | None => Ret (PErr MalformedField)
    | Some (a, b) =>
      let w := q_win r in
      let w := {| fx := fx w; fy := fy w; ox := ox w; oy := oy w; sx := a; sy := b; comps := comps w; rounding := rounding w |} in
      Ret (POk (Rq (q_target r) w (q_has_fsiz r) (q_has_roff r) true (q_has_comps r) (q_type r) (q_model r)
                   (q_len r) (q_quality r) (q_cnew r) (q_cid r) (q_cclose r) (q_qid r)))
    end) as -> by reflexivity.
  rewrite parse_pair_dec by assumption. reflexivity.
Qed.
Definition comps_param (c : Z) (t : list Z) : list Z := txt "comps=" ++ dec c ++ concat (map (fun c => 44 :: dec c) t).
Lemma param_comps r c t : Forall (fun c => 0 <= c < 65536) (c :: t) -> zlen (c :: t) <= 16384 ->
  param r (comps_param c t) =
  let w := q_win r in
  Ret (POk (Rq (q_target r) {| fx := fx w; fy := fy w; ox := ox w; oy := oy w; sx := sx w; sy := sy w; comps := c :: t; rounding := rounding w |}
                   (q_has_fsiz r) (q_has_roff r) (q_has_rsiz r) true (q_type r) (q_model r)
                   (q_len r) (q_quality r) (q_cnew r) (q_cid r) (q_cclose r) (q_qid r))).
Proof.
  intros H L. unfold comps_param. change (txt "comps=") with (txt "comps" ++ [61]). rewrite <- app_assoc, param_kv by (try discriminate; ne61).
  assert (forall v, field r (txt "comps") v = let* cs := parse_comps (split 44 v) [] in
    match cs with
    | None => Ret (PErr MalformedField)
    | Some cs =>
      let w := q_win r in
      let w := {| fx := fx w; fy := fy w; ox := ox w; oy := oy w; sx := sx w; sy := sy w; comps := cs; rounding := rounding w |} in
      Ret (POk (Rq (q_target r) w (q_has_fsiz r) (q_has_roff r) (q_has_rsiz r) true (q_type r) (q_model r)
                   (q_len r) (q_quality r) (q_cnew r) (q_cid r) (q_cclose r) (q_qid r)))
    end) as -> by reflexivity.
  inversion H; subst. rewrite split_comps by (try assumption; lia).
  rewrite parse_comps_dec by assumption. reflexivity.
Qed.
Lemma param_type r : param r (txt "type=jpp-stream") =
  Ret (POk (Rq (q_target r) (q_win r) (q_has_fsiz r) (q_has_roff r) (q_has_rsiz r) (q_has_comps r) (txt "jpp-stream") (q_model r)
                   (q_len r) (q_quality r) (q_cnew r) (q_cid r) (q_cclose r) (q_qid r))).
Proof. reflexivity. Qed.
Lemma param_model r m : param r (txt "model=" ++ m) =
  Ret (POk (Rq (q_target r) (q_win r) (q_has_fsiz r) (q_has_roff r) (q_has_rsiz r) (q_has_comps r) (q_type r) m
                   (q_len r) (q_quality r) (q_cnew r) (q_cid r) (q_cclose r) (q_qid r))).
Proof. change (txt "model=") with (txt "model" ++ [61]). rewrite <- app_assoc, param_kv by (try discriminate; ne61). reflexivity. Qed.

(** ** The whole request *)

Definition offset_given (w : window) : bool := negb (ox w =? 0) || negb (oy w =? 0).
Definition region_given (w : window) : bool := negb (sx w =? 0) || negb (sy w =? 0).
(** What the server should see. *)
Definition as_sent (w : window) (model : option (list Z)) : request :=
  Rq [] w true (offset_given w) (region_given w) (match comps w with [] => false | _ => true end) (txt "jpp-stream")
     (match model with Some m => m | None => [] end) None None None None None None.

Definition query_params (w : window) (model : option (list Z)) : list (list Z) :=
  (if offset_given w then [txt "roff=" ++ dec (ox w) ++ [44] ++ dec (oy w)] else []) ++
  (if region_given w then [txt "rsiz=" ++ dec (sx w) ++ [44] ++ dec (sy w)] else []) ++
  match comps w with [] => [] | c :: t => [comps_param c t] end ++
  [txt "type=jpp-stream"] ++
  match model with Some m => [txt "model=" ++ m] | None => [] end.
Lemma query_text w model :
  format_view_window_query w ++ match model with Some m => txt "&model=" ++ m | None => [] end =
  (txt "fsiz=" ++ dec (fx w) ++ [44] ++ dec (fy w) ++ round_txt (rounding w)) ++ concat (map (cons 38) (query_params w model)).
Proof.
  unfold format_view_window_query, query_params. fold (offset_given w) (region_given w) (round_txt (rounding w)).
  rewrite !map_app, !concat_app.
  assert ((if offset_given w then txt "&roff=" ++ dec (ox w) ++ [44] ++ dec (oy w) else []) =
    concat (map (cons 38) (if offset_given w then [txt "roff=" ++ dec (ox w) ++ [44] ++ dec (oy w)] else []))) as <-
    by (destruct (offset_given w); [cbn [map concat]; now rewrite app_nil_r|reflexivity]).
  assert ((if region_given w then txt "&rsiz=" ++ dec (sx w) ++ [44] ++ dec (sy w) else []) =
    concat (map (cons 38) (if region_given w then [txt "rsiz=" ++ dec (sx w) ++ [44] ++ dec (sy w)] else []))) as <-
    by (destruct (region_given w); [cbn [map concat]; now rewrite app_nil_r|reflexivity]).
  assert (format_comps (comps w) = concat (map (cons 38) match comps w with [] => [] | c :: t => [comps_param c t] end)) as <-
    by (destruct (comps w); [reflexivity|cbn [map concat]; now rewrite app_nil_r]).
  assert (match model with Some m => txt "&model=" ++ m | None => [] end =
    concat (map (cons 38) match model with Some m => [txt "model=" ++ m] | None => [] end)) as <-
    by (destruct model; [cbn [map concat]; now rewrite app_nil_r|reflexivity]).
  rewrite <- !app_assoc. reflexivity.
Qed.

Lemma no_c_dec c n : 0 <= n -> is_digit c = false -> Forall (fun x => x <> c) (dec n).
Proof. intros. apply digits_ne; [now apply dec_digits_all|assumption]. Qed.
(** Separators that none of the fields contains. *)
Definition sep (c : Z) : Prop := c = 38 \/ c = 32.
Lemma no_sep_dec c n : sep c -> 0 <= n -> Forall (fun x => x <> c) (dec n).
Proof. intros [-> | ->] H; apply no_c_dec; auto. Qed.
Ltac lits := repeat (constructor; [let H := fresh in intros H; discriminate H|]); constructor.
Ltac nosep := repeat apply Forall_app; repeat split; try (apply no_sep_dec; unfold u32 in *; lia);
  try match goal with H : sep ?c |- _ => destruct H as [-> | ->]; lits end.
Lemma first_no_sep c w : sep c -> api_window w ->
  Forall (fun x => x <> c) (txt "fsiz=" ++ dec (fx w) ++ [44] ++ dec (fy w) ++ round_txt (rounding w)).
Proof.
  intros S []. repeat (apply Forall_app; split).
  - destruct S as [-> | ->]; lits.
  - apply no_sep_dec; [exact S|unfold u32 in *; lia].
  - destruct S as [-> | ->]; lits.
  - apply no_sep_dec; [exact S|unfold u32 in *; lia].
  - destruct (rounding w); destruct S as [-> | ->]; cbn [round_txt]; lits.
Qed.
Lemma Forall_if {A} (P : A -> Prop) (b : bool) l : (b = true -> Forall P l) -> Forall P (if b then l else []).
Proof. destruct b; auto. Qed.
Lemma params_no_sep c w model : sep c -> api_window w -> (forall m, model = Some m -> model_text m) ->
  Forall (Forall (fun x => x <> c)) (query_params w model).
Proof.
  intros S [A1 A2 A3 A4] M. unfold query_params. repeat (apply Forall_app; split).
  - apply Forall_if. intros _. constructor; [|constructor]. repeat (apply Forall_app; split).
    + destruct S as [-> | ->]; lits.
    + apply no_sep_dec; [exact S|unfold u32 in *; lia].
    + destruct S as [-> | ->]; lits.
    + apply no_sep_dec; [exact S|unfold u32 in *; lia].
  - apply Forall_if. intros _. constructor; [|constructor]. repeat (apply Forall_app; split).
    + destruct S as [-> | ->]; lits.
    + apply no_sep_dec; [exact S|unfold u32 in *; lia].
    + destruct S as [-> | ->]; lits.
    + apply no_sep_dec; [exact S|unfold u32 in *; lia].
  - destruct (comps w) as [|k t]; [constructor|]. constructor; [|constructor]. unfold comps_param.
    inversion A4 as [|? ? K T]; subst. repeat (apply Forall_app; split).
    + destruct S as [-> | ->]; lits.
    + apply no_sep_dec; [exact S|lia].
    + apply Forall_concat, Forall_map. eapply Forall_impl; [|exact T]. cbv beta. intros x Hx.
      constructor; [destruct S; subst; discriminate|apply no_sep_dec; [exact S|lia]].
  - constructor; [|constructor]. destruct S as [-> | ->]; lits.
  - destruct model as [m|]; [|constructor]. specialize (M m eq_refl). constructor; [|constructor].
    apply Forall_app. split; [destruct S as [-> | ->]; lits|]. eapply Forall_impl; [|exact M]. cbv beta. intros x Hx.
    destruct S as [-> | ->]; lia.
Qed.

Lemma params_cons p t r : params (p :: t) r = let* x := param r p in match x with PErr f => Ret (PErr f) | POk r => params t r end.
Proof. reflexivity. Qed.

Theorem C18_query_parses : forall w model, api_window w -> zlen (comps w) <= 16384 ->
  (forall m, model = Some m -> model_text m) ->
  parse_jpip_query (format_view_window_query w ++ match model with Some m => txt "&model=" ++ m | None => [] end) =
  Ret (POk (as_sent w model)).
Proof.
  intros w model A L M. rewrite query_text.
  set (p1 := txt "fsiz=" ++ dec (fx w) ++ [44] ++ dec (fy w) ++ round_txt (rounding w)).
  set (ps := query_params w model).
  assert (parse_jpip_query (p1 ++ concat (map (cons 38) ps)) = params (split 38 (p1 ++ concat (map (cons 38) ps))) no_request) as -> by reflexivity.
  rewrite split_join; [|apply first_no_sep; [left; reflexivity|exact A]|apply params_no_sep; [left; reflexivity|exact A|exact M]].
  pose proof A as [[A1 A1'] [A2 A2'] [A3 A3'] A4].
  rewrite params_cons. unfold p1. rewrite param_fsiz by assumption. cbn zeta. cbn [bind].
  set (r1 := Rq _ _ _ _ _ _ _ _ _ _ _ _ _ _).
  assert (r1 = Rq [] {| fx := fx w; fy := fy w; ox := 0; oy := 0; sx := 0; sy := 0; comps := []; rounding := rounding w |}
            true false false false [] [] None None None None None None) as ->
    by (unfold r1, no_request, no_window; cbn [q_target q_win q_has_roff q_has_rsiz q_has_comps q_type q_model q_len q_quality q_cnew q_cid q_cclose q_qid
          fx fy ox oy sx sy comps rounding]; destruct (rounding w); reflexivity).
  unfold ps, query_params. rewrite !params_app.
  set (r := Rq _ _ _ _ _ _ _ _ _ _ _ _ _ _) at 1.
  assert (params (if offset_given w then [txt "roff=" ++ dec (ox w) ++ [44] ++ dec (oy w)] else []) r =
    Ret (POk (Rq [] {| fx := fx w; fy := fy w; ox := ox w; oy := oy w; sx := 0; sy := 0; comps := []; rounding := rounding w |}
       true (offset_given w) false false [] [] None None None None None None))) as ->.
  { destruct (offset_given w) eqn:E.
    - rewrite params_cons, param_roff by assumption. reflexivity.
    - unfold offset_given in E. replace (ox w) with 0 by lia. replace (oy w) with 0 by lia. reflexivity. }
  cbn [bind]. clear r. rewrite params_app. set (r := Rq _ _ _ _ _ _ _ _ _ _ _ _ _ _) at 1.
  assert (params (if region_given w then [txt "rsiz=" ++ dec (sx w) ++ [44] ++ dec (sy w)] else []) r =
    Ret (POk (Rq [] {| fx := fx w; fy := fy w; ox := ox w; oy := oy w; sx := sx w; sy := sy w; comps := []; rounding := rounding w |}
       true (offset_given w) (region_given w) false [] [] None None None None None None))) as ->.
  { destruct (region_given w) eqn:E.
    - rewrite params_cons, param_rsiz by assumption. reflexivity.
    - unfold region_given in E. replace (sx w) with 0 by lia. replace (sy w) with 0 by lia. reflexivity. }
  cbn [bind]. clear r. rewrite params_app. set (r := Rq _ _ _ _ _ _ _ _ _ _ _ _ _ _) at 1.
  assert (params match comps w with [] => [] | c :: t => [comps_param c t] end r =
    Ret (POk (Rq [] w true (offset_given w) (region_given w) (match comps w with [] => false | _ => true end) [] [] None None None None None None))) as ->.
  { destruct (comps w) as [|c t] eqn:E.
    - unfold r. destruct w as [a b c d e f g h]; cbn in E |- *. rewrite E. reflexivity.
    - rewrite params_cons, param_comps by assumption. unfold r. cbn [bind params q_win].
      destruct w as [a b c' d e f g h]; cbn in E |- *. rewrite E. reflexivity. }
  cbn [bind]. clear r. cbn [app]. rewrite params_cons, param_type.
  cbn [bind q_target q_win q_has_fsiz q_has_roff q_has_rsiz q_has_comps q_type q_model q_len q_quality q_cnew q_cid q_cclose q_qid].
  destruct model as [m|]; [|reflexivity]. rewrite params_cons, param_model. reflexivity.
Qed.
Print Assumptions C18_query_parses.

(** ** The request line *)

Theorem C18_request : forall w model, api_window w -> zlen (comps w) <= 16384 ->
  (forall m, model = Some m -> model_text m) ->
  exists query, split_http_get_line (request_line w model) = Some (txt "/jpip", query) /\
    parse_jpip_query query = Ret (POk (as_sent w model)).
Proof.
  intros w model A L M. eexists. split; [|apply C18_query_parses; assumption].
  unfold request_line. rewrite query_text.
  set (q := (txt "fsiz=" ++ dec (fx w) ++ [44] ++ dec (fy w) ++ round_txt (rounding w)) ++ concat (map (cons 38) (query_params w model))).
  assert (Forall (fun x => x <> 32) q) as N.
  { apply Forall_app. split; [apply first_no_sep; [right; reflexivity|exact A]|].
    apply Forall_concat, Forall_map. eapply Forall_impl; [|apply (params_no_sep 32 w model); [right; reflexivity|exact A|exact M]].
    cbv beta. intros p Hp. constructor; [discriminate|exact Hp]. }
  unfold split_http_get_line. pose proof (zlen_nonneg q).
  replace (zlen (txt "GET /jpip?" ++ q ++ txt " HTTP/1.1") <? 14) with false
    by (rewrite !zlen_app; change (zlen (txt "GET /jpip?")) with 10; change (zlen (txt " HTTP/1.1")) with 9; lia).
  change (txt "GET /jpip?" ++ q ++ txt " HTTP/1.1") with (txt "GET " ++ (txt "/jpip?" ++ q ++ txt " HTTP/1.1")).
  rewrite ztake_app by reflexivity. change (negb (seq_eqb (txt "GET ") (txt "GET "))) with false. cbv iota.
  unfold find at 1. rewrite zskip_app by reflexivity.
  replace (txt "/jpip?" ++ q ++ txt " HTTP/1.1") with ((txt "/jpip?" ++ q) ++ 32 :: txt "HTTP/1.1") by (rewrite <- app_assoc; reflexivity).
  rewrite index_of_app by (apply Forall_app; split; [lits|exact N]). cbn [option_map].
  replace (4 + zlen (txt "/jpip?" ++ q) - 4) with (zlen (txt "/jpip?" ++ q)) by lia. rewrite ztake_app by reflexivity.
  rewrite find_0. change (txt "/jpip?" ++ q) with (txt "/jpip" ++ 63 :: q). rewrite index_of_app by lits.
  rewrite ztake_app by reflexivity. do 2 f_equal.
Qed.
Print Assumptions C18_request.

Example C18_case :
  let w := {| fx := 1920; fy := 1080; ox := 0; oy := 4294967295; sx := 64; sy := 0; comps := [0; 2; 65535]; rounding := Up |} in
  request_line w (Some (txt "Hm,P4-6")) =
    txt "GET /jpip?fsiz=1920,1080,round-up&roff=0,4294967295&rsiz=64,0&comps=0,2,65535&type=jpp-stream&model=Hm,P4-6 HTTP/1.1" /\
  api_window w /\ model_text (txt "Hm,P4-6").
Proof.
  cbn zeta. split; [vm_compute; reflexivity|]. split.
  - split; unfold u32; cbn [fx fy ox oy sx sy comps]; try lia. repeat (constructor; [lia|]). constructor.
  - repeat (constructor; [split; intros H; discriminate H|]). constructor.
Qed.

(** ** Any text *)

Lemma strtoull_range s : 0 <= fst (strtoull s) < two64.
Proof.
  unfold strtoull. destruct (match zskip _ s with [] => _ | _ => _ end) as [[neg sg] s2].
  destruct (take_while is_digit s2) as [|d ds] eqn:E; [cbn [fst]; unfold two64; lia|]. cbn [fst].
  assert (0 <= dec_value (d :: ds)) as P.
  { unfold dec_value, horner. assert (forall l v, 0 <= v -> Forall (fun c => is_digit c = true) l -> 0 <= fold_left (fun v c => 10 * v + (c - 48)) l v) as F.
    { induction l as [|c l IH]; intros v Hv Hl; cbn [fold_left]; [exact Hv|]. inversion Hl; subst. apply IH; [unfold is_digit in *; lia|assumption]. }
    apply F; [lia|]. rewrite <- E. clear. induction s2 as [|c t IH]; cbn [take_while]; [constructor|].
    destruct (is_digit c) eqn:D; [constructor; assumption|constructor]. }
  destruct (Z.leb_spec two64 (dec_value (d :: ds))); [unfold two64; lia|].
  destruct neg; [unfold wrap64; apply Z.mod_pos_bound; reflexivity|lia].
Qed.
Lemma wrap32_u32 v : u32 (wrap32 v).
Proof. unfold u32, wrap32. apply Z.mod_pos_bound. reflexivity. Qed.

Definition comps_ok (cs : list Z) : Prop := zlen cs <= 16384 /\ Forall (fun c => 0 <= c < 65536) cs.
Lemma expand_total fuel : forall v hi acc, comps_ok acc -> 16386 - zlen acc <= Z.of_nat fuel ->
  exists r, expand fuel v hi acc = Ret r /\ forall cs, r = Some cs -> comps_ok cs.
Proof.
  induction fuel as [|fuel IH]; intros v hi acc [A1 A2] Hf; [lia|]. cbn [expand].
  destruct (v <=? hi); [|exists (Some acc); split; [reflexivity|intros cs [= <-]; split; assumption]].
  unfold kJpipMaxComponents. destruct (Z.leb_spec 16384 (zlen acc)); [exists None; split; [reflexivity|discriminate]|].
  apply IH; [|rewrite zlen_app; change (zlen [v mod 65536]) with 1; lia].
  split; [rewrite zlen_app; change (zlen [v mod 65536]) with 1; lia|].
  apply Forall_app. split; [exact A2|]. constructor; [lia|constructor].
Qed.
Lemma expand_fuel_total v hi acc : comps_ok acc -> exists r, expand expand_fuel v hi acc = Ret r /\ forall cs, r = Some cs -> comps_ok cs.
Proof. intros A. apply expand_total; [exact A|]. unfold expand_fuel. rewrite Z2Nat.id by lia. pose proof (zlen_nonneg acc). lia. Qed.
Lemma parse_comp_total item acc : comps_ok acc -> exists r, parse_comp item acc = Ret r /\ forall cs, r = Some cs -> comps_ok cs.
Proof.
  intros A. assert (exists r, Ret (@None (list Z)) = Ret r /\ forall cs, r = Some cs -> comps_ok cs) as T by (exists None; split; [reflexivity|discriminate]).
  unfold parse_comp. destruct item as [|c t]; [exists (Some acc); split; [reflexivity|intros cs [= <-]; exact A]|].
  destruct (strtoull (c :: t)) as [lo e]. destruct (e =? 0); [exact T|]. destruct (_ =? 45).
  - destruct (strtoull _) as [hi e2]. destruct (_ || _); [exact T|]. now apply expand_fuel_total.
  - destruct (negb _); [exact T|]. now apply expand_fuel_total.
Qed.
Lemma parse_comps_total : forall items acc, comps_ok acc -> exists r, parse_comps items acc = Ret r /\ forall cs, r = Some cs -> comps_ok cs.
Proof.
  induction items as [|i t IH]; intros acc A; cbn [parse_comps]; [exists (Some acc); split; [reflexivity|intros cs [= <-]; exact A]|].
  destruct (parse_comp_total i acc A) as (r & -> & R). cbn [bind]. destruct r as [acc'|]; [auto|exists None; split; [reflexivity|discriminate]].
Qed.

Definition seen_ok (r : request) : Prop := api_window (q_win r) /\ zlen (comps (q_win r)) <= 16384.
Lemma parse_pair_ok v a b : parse_pair v = Some (a, b) -> u32 a /\ u32 b.
Proof.
  unfold parse_pair. destruct (find 44 v 0); [|discriminate]. destruct (strtoull v) as [x e]. destruct (negb _); [discriminate|].
  destruct (strtoull _) as [y e2]. destruct (negb _); [discriminate|]. intros [= <- <-]. split; apply wrap32_u32.
Qed.
Lemma parse_fsiz_ok v a b d : parse_fsiz v = Some (a, b, d) -> u32 a /\ u32 b.
Proof.
  unfold parse_fsiz. destruct (find 44 v 0); [|discriminate]. destruct (strtoull v) as [x e]. destruct (negb _); [discriminate|].
  destruct (strtoull _) as [y e2]. destruct (find _ _ _).
  - destruct (negb _); [discriminate|]. repeat (match goal with |- context [if ?b then _ else _] => destruct b end; [intros [= <- <- _]; split; apply wrap32_u32|]). discriminate.
  - destruct (negb _); [discriminate|]. intros [= <- <- _]. split; apply wrap32_u32.
Qed.
Lemma field_total r k v : seen_ok r -> exists x, field r k v = Ret x /\ forall r', x = POk r' -> seen_ok r'.
Proof.
  intros [[A1 A2 A3 A4] L]. unfold field.
  Ltac same := eexists; split; [reflexivity|]; intros r' [= <-]; split; [split|]; cbn [q_win fx fy ox oy sx sy comps]; assumption.
  Ltac bad := eexists; split; [reflexivity|discriminate].
  destruct (seq_eqb k (txt "target")); [same|].
  destruct (seq_eqb k (txt "fsiz")).
  { destruct (parse_fsiz v) as [[[a b] d]|] eqn:E; [|bad]. apply parse_fsiz_ok in E. same. }
  destruct (seq_eqb k (txt "roff")).
  { destruct (parse_pair v) as [[a b]|] eqn:E; [|bad]. apply parse_pair_ok in E. same. }
  destruct (seq_eqb k (txt "rsiz")).
  { destruct (parse_pair v) as [[a b]|] eqn:E; [|bad]. apply parse_pair_ok in E. same. }
  destruct (seq_eqb k (txt "comps")).
  { destruct (parse_comps_total (split 44 v) []) as (cs & -> & C); [split; [change (zlen (@nil Z)) with 0; lia|constructor]|].
    cbn [bind]. destruct cs as [cs|]; [|bad]. destruct (C cs eq_refl). same. }
  destruct (seq_eqb k (txt "model")); [same|].
  destruct (seq_eqb k (txt "len")); [destruct (parse_number v); [same|bad]|].
  destruct (seq_eqb k (txt "quality")); [destruct (parse_number v); [same|bad]|].
  destruct (seq_eqb k (txt "type")); [destruct (existsb _ _); [same|bad]|].
  destruct (seq_eqb k (txt "cnew")); [same|].
  destruct (seq_eqb k (txt "cid")); [same|].
  destruct (seq_eqb k (txt "cclose")); [same|].
  destruct (seq_eqb k (txt "qid")); [destruct (parse_number v); [same|bad]|].
  same.
Qed.
Lemma params_total : forall ps r, seen_ok r -> exists x, params ps r = Ret x /\ forall r', x = POk r' -> seen_ok r'.
Proof.
  induction ps as [|p t IH]; intros r S; cbn [params]; [eexists; split; [reflexivity|intros r' [= <-]; exact S]|].
  assert (exists x, param r p = Ret x /\ forall r', x = POk r' -> seen_ok r') as (x & -> & X).
  { unfold param. destruct p as [|c p]; [eexists; split; [reflexivity|intros r' [= <-]; exact S]|].
    destruct (find _ _ _); now apply field_total. }
  cbn [bind]. destruct x as [r'|f]; [apply IH; now apply X|eexists; split; [reflexivity|discriminate]].
Qed.
(** Whatever text arrives, parsing ends, and an accepted request is one the API
    can hold, with no more components than an image can have. *)
Theorem C18_any_text : forall q, exists x, parse_jpip_query q = Ret x /\
  forall r, x = POk r -> api_window (q_win r) /\ zlen (comps (q_win r)) <= 16384.
Proof.
  intros q. unfold parse_jpip_query. set (q' := match q with [] => [] | _ => _ end). destruct q' as [|c t]; [eexists; split; [reflexivity|discriminate]|].
  apply params_total. split; [split|]; unfold u32; cbn; try lia. constructor.
Qed.
Print Assumptions C18_any_text.

(** Texts that name a component above 65535, or a size above 2^32-1, are not
    refused: the server answers for another component or another size. *)
Theorem C18_out_of_range_refuted :
  ~ (forall n m r, 0 <= n < 2 ^ 64 -> 0 <= m < 2 ^ 64 ->
      parse_jpip_query (txt "fsiz=" ++ dec n ++ txt ",1&comps=" ++ dec m) = Ret (POk r) ->
      fx (q_win r) = n /\ comps (q_win r) = [m]).
Proof.
  intros H. destruct (H (2 ^ 32 + 7) 65538 (Rq [] {| fx := 7; fy := 1; ox := 0; oy := 0; sx := 0; sy := 0; comps := [2]; rounding := Down |}
     true false false true [] [] None None None None None None)) as [E _]; [lia|lia|vm_compute; reflexivity|discriminate E].
Qed.
Print Assumptions C18_out_of_range_refuted.
