(** Properties of chunked transfer coding. *)
From Verif Require Import Base BaseLemmas Text TextProofs Be ChunkModel.

(** ** Specification: chunks framed by the server *)

Definition frame (chunks : list (list Z)) : list Z :=
  concat (map (fun c => format_chunk_header (zlen c) ++ c ++ [CR; LF]) chunks) ++ format_last_chunk.
Definition chunk_ok (c : list Z) : Prop := 0 < zlen c < two64.

(** ** Hexadecimal *)

Lemma hex_char_val d : 0 <= d < 16 -> hex_val (hex_char d) = Some d.
Proof. intros H. unfold hex_val, hex_char. destruct (d <? 10) eqn:E.
  - replace ((48 <=? 48 + d) && (48 + d <=? 57)) with true by lia. f_equal. lia.
  - replace ((48 <=? 87 + d) && (87 + d <=? 57)) with false by lia.
    replace ((97 <=? 87 + d) && (87 + d <=? 102)) with true by lia. f_equal. lia.
Qed.
Definition is_hex (c : Z) : Prop := exists d, 0 <= d < 16 /\ c = hex_char d.
Lemma is_hex_ne c : is_hex c -> c <> CR /\ c <> LF /\ c <> 59.
Proof. intros (d & H & ->). unfold hex_char, CR, LF. destruct (d <? 10) eqn:E; lia. Qed.

Lemma hex_digits_acc fuel : forall n acc, hex_digits fuel n acc = hex_digits fuel n [] ++ acc.
Proof.
  induction fuel as [| f IH]; intros n acc; cbn [hex_digits]; [reflexivity |].
  destruct (n <? 16); [reflexivity |]. rewrite IH, (IH _ [hex_char _]), <- app_assoc. reflexivity.
Qed.

Lemma stream_size_app a : forall b v, stream_size (a ++ b) v = match stream_size a v with Some w => stream_size b w | None => None end.
Proof. induction a as [|c a IH]; intros b v; cbn [app stream_size]; [reflexivity|]. destruct (hex_val c); auto. Qed.

Lemma hex_digits_spec fuel : forall n, 0 <= n < 2 ^ Z.of_nat fuel -> n < two64 ->
  Forall is_hex (hex_digits fuel n []) /\ (fuel <> O -> hex_digits fuel n [] <> []) /\ stream_size (hex_digits fuel n []) 0 = Some n.
Proof.
  induction fuel as [|f IH]; intros n H H64.
  - change (2 ^ Z.of_nat 0) with 1 in H. cbn [hex_digits]. split; [constructor|split; [congruence|]]. cbn. f_equal. lia.
  - cbn [hex_digits]. destruct (Z.ltb_spec n 16).
    + split; [|split; [discriminate|]].
      * constructor; [exists n; split; [lia|reflexivity]|constructor].
      * cbn [stream_size]. rewrite hex_char_val by lia. cbn [stream_size]. rewrite Z.shiftl_0_l, Z.lor_0_l, wrap64_small by lia. reflexivity.
    + rewrite hex_digits_acc. rewrite Nat2Z.inj_succ, Z.pow_succ_r in H by lia.
      destruct (IH (n / 16)) as [F [_ V]]; [split; [lia|]; apply Z.div_lt_upper_bound; lia|lia|].
      split; [|split].
      * apply Forall_app. split; [assumption|]. constructor; [exists (n mod 16); split; [lia|reflexivity]|constructor].
      * intros _ E. apply app_eq_nil in E as [_ E]. discriminate E.
      * rewrite stream_size_app, V. cbn [stream_size]. rewrite hex_char_val by lia. cbn [stream_size].
        rewrite (lor_shift_add _ _ 4) by lia. change (2 ^ 4) with 16. rewrite wrap64_small by lia. f_equal. lia.
Qed.
Lemma hex_spec n : 0 <= n < two64 -> Forall is_hex (hex n) /\ hex n <> [] /\ stream_size (hex n) 0 = Some n.
Proof.
  intros H. unfold hex. destruct (hex_digits_spec (S (Z.to_nat (Z.log2 n))) n) as (A & B & C); try lia.
  - split; [lia|]. rewrite Nat2Z.inj_succ, Z2Nat.id by apply Z.log2_nonneg.
    destruct (Z.eq_dec n 0) as [->|N]; [reflexivity|]. apply Z.log2_spec. lia.
  - auto.
Qed.

(** ** The streaming decoder does not depend on how the bytes are cut *)

Definition more (s : cdec) (x : list Z) : cdec := set_rest s (cd_rest s ++ x).
Definition more_turn (t : turn) (x : list Z) : turn :=
  match t with Stop ok s o => Stop ok (more s x) o | Next s o => Next (more s x) o end.
Definition pre_turn (o : list Z) (t : turn) : turn :=
  match t with Stop ok s o' => Stop ok s (o ++ o') | Next s o' => Next s (o ++ o') end.
(** Waiting for more input. *)
Definition stalled (t : turn) : option (cdec * list Z) :=
  match t with Stop true s o => if cd_done s then None else Some (s, o) | _ => None end.

Definition cd_inv (s : cdec) : Prop :=
  cd_done s = false /\ (cd_in s = true -> 0 < cd_left s /\ cd_crlf s = false /\ cd_final s = false) /\
  (cd_crlf s = true -> cd_final s = false).

Lemma take_while_le p l : zlen (take_while p l) <= zlen l.
Proof.
  induction l as [|c l IH]; cbn [take_while]; [lia|]. rewrite zlen_cons. pose proof (zlen_nonneg l).
  destruct (p c); [rewrite zlen_cons; lia|change (zlen (@nil Z)) with 0; lia].
Qed.
Lemma take_while_more p l x : zlen (take_while p l) < zlen l -> take_while p (l ++ x) = take_while p l.
Proof.
  induction l as [|c l IH]; cbn [take_while app]; [cbn; lia|]. destruct (p c) eqn:E; [|auto].
  rewrite !zlen_cons. intros H. f_equal. apply IH. lia.
Qed.

Lemma zskip_more {A} n (l x : list A) : n <= zlen l -> zskip n (l ++ x) = zskip n l ++ x.
Proof. apply zskip_app_le. Qed.

Ltac um1 s x :=
  change (cd_rest (more s x)) with (cd_rest s ++ x); change (cd_done (more s x)) with (cd_done s);
  change (cd_left (more s x)) with (cd_left s); change (cd_in (more s x)) with (cd_in s);
  change (cd_crlf (more s x)) with (cd_crlf s); change (cd_final (more s x)) with (cd_final s).
Ltac um := repeat match goal with |- context [more ?s ?x] => progress (um1 s x) end.
Lemma turn_size_more s o x : cd_done s = false -> stalled (turn_size s o) = None ->
  turn_size (more s x) o = more_turn (turn_size s o) x.
Proof.
  intros D. unfold turn_size, more. cbn [cd_rest set_rest].
  pose proof (take_while_le (fun c => negb (c =? LF)) (cd_rest s)) as L.
  destruct (zlen (cd_rest s) <=? zlen (take_while (fun c => negb (c =? LF)) (cd_rest s))) eqn:E.
  { cbn [stalled]. rewrite D. discriminate. }
  intros _. rewrite take_while_more by lia. set (line := take_while (fun c => negb (c =? LF)) (cd_rest s)) in *.
  rewrite zlen_app. pose proof (zlen_nonneg x). replace (zlen (cd_rest s) + zlen x <=? zlen line) with false by lia.
  destruct ((zlen line =? 0) || negb (znth 0 line (zlen line - 1) =? CR)); [reflexivity|].
  set (ds := take_while (fun c => negb (c =? 59)) (ztake (zlen line - 1) line)).
  destruct (stream_size ds 0) as [size|]; [|reflexivity]. destruct ds; [reflexivity|].
  rewrite zskip_more by lia. destruct (size =? 0); reflexivity.
Qed.
Lemma turn_size_stall s o s1 o1 : stalled (turn_size s o) = Some (s1, o1) -> s1 = s /\ o1 = o.
Proof.
  unfold turn_size. destruct (zlen (cd_rest s) <=? _); cbn [stalled].
  - destruct (cd_done s); [discriminate|]. intros E. apply Some_inj, pair_inj in E. intuition.
  - destruct (_ || _); [discriminate|]. destruct (stream_size _ 0); [|discriminate].
    destruct (take_while _ _); [discriminate|]. destruct (_ =? 0); discriminate.
Qed.

Lemma turn_final_more s o x : cd_done s = false -> stalled (turn_final s o) = None ->
  turn_final (more s x) o = more_turn (turn_final s o) x.
Proof.
  intros D. unfold turn_final. um. destruct (cd_final s) eqn:F; [|apply (turn_size_more s o x); exact D].
  cbn [cd_rest]. destruct (zlen (cd_rest s) <? 2) eqn:E.
  { cbn [stalled]. rewrite D. discriminate. }
  intros _. rewrite zlen_app. pose proof (zlen_nonneg x). replace (zlen (cd_rest s) + zlen x <? 2) with false by lia.
  rewrite !znth_app_l by lia. rewrite zskip_more by lia. destruct (_ || _); unfold more_turn, more; cbn; reflexivity.
Qed.
Lemma turn_final_stall s o s1 o1 : stalled (turn_final s o) = Some (s1, o1) -> s1 = s /\ o1 = o.
Proof.
  unfold turn_final. destruct (cd_final s) eqn:F; [|apply turn_size_stall].
  destruct (zlen (cd_rest s) <? 2); cbn [stalled].
  - destruct (cd_done s); [discriminate|]. intros E. apply Some_inj, pair_inj in E. intuition.
  - destruct (_ || _); cbn [stalled cd_done]; discriminate.
Qed.

Lemma turn_crlf_more s o x : cd_done s = false -> stalled (turn_crlf s o) = None ->
  turn_crlf (more s x) o = more_turn (turn_crlf s o) x.
Proof.
  intros D. unfold turn_crlf. um. destruct (cd_crlf s) eqn:F; [|apply (turn_final_more s o x); exact D].
  cbn [cd_rest]. destruct (zlen (cd_rest s) <? 2) eqn:E.
  { cbn [stalled]. rewrite D. discriminate. }
  rewrite zlen_app. pose proof (zlen_nonneg x). replace (zlen (cd_rest s) + zlen x <? 2) with false by lia.
  rewrite !znth_app_l by lia. rewrite zskip_more by lia. destruct (_ || _); [reflexivity|].
  intros H1. apply (turn_final_more (Cd (zskip 2 (cd_rest s)) (cd_done s) (cd_left s) (cd_in s) false (cd_final s))); [exact D|exact H1].
Qed.
Lemma Pf s o : turn_final s o = pre_turn o (turn_final s []).
Proof.
  unfold turn_final, turn_size. destruct (cd_final s).
  - destruct (_ <? 2); [cbn; now rewrite app_nil_r|]. destruct (_ || _); cbn; now rewrite app_nil_r.
  - destruct (_ <=? _); [cbn; now rewrite app_nil_r|]. destruct (_ || _); [cbn; now rewrite app_nil_r|].
    destruct (stream_size _ 0); [|cbn; now rewrite app_nil_r]. destruct (take_while _ _); [cbn; now rewrite app_nil_r|].
    destruct (_ =? 0); cbn; now rewrite app_nil_r.
Qed.
Lemma Pc s o : turn_crlf s o = pre_turn o (turn_crlf s []).
Proof.
  unfold turn_crlf. destruct (cd_crlf s); [|apply Pf].
  destruct (_ <? 2); [cbn; now rewrite app_nil_r|]. destruct (_ || _); [cbn; now rewrite app_nil_r|]. apply Pf.
Qed.
Lemma turn_crlf_stall s o s1 o1 x : cd_in s = false -> stalled (turn_crlf s o) = Some (s1, o1) ->
  turn_crlf (more s x) o = pre_turn o1 (turn_chunk (more s1 x)).
Proof.
  intros I. 
  intros H. assert (turn_crlf (more s x) o = turn_crlf (more s1 x) o /\ o1 = o /\ cd_in s1 = false) as (E & -> & I1).
  { unfold turn_crlf in H at 1. destruct (cd_crlf s) eqn:C.
    - destruct (zlen (cd_rest s) <? 2) eqn:E.
      + cbn [stalled] in H. destruct (cd_done s); [discriminate|]. apply Some_inj, pair_inj in H as [<- <-]. auto.
      + destruct (_ || _) eqn:G in H; [discriminate|]. apply turn_final_stall in H as [-> ->]. split; [|auto].
        unfold turn_crlf at 1. um. rewrite C, zlen_app. pose proof (zlen_nonneg x).
        replace (zlen (cd_rest s) + zlen x <? 2) with false by lia. rewrite !znth_app_l by lia. rewrite G, zskip_more by lia.
        reflexivity.
    - apply turn_final_stall in H as [-> ->]. auto. }
  rewrite E, Pc. f_equal. unfold turn_chunk. um. now rewrite I1.
Qed.

Lemma turn_chunk_more s x : cd_inv s -> stalled (turn_chunk s) = None -> turn_chunk (more s x) = more_turn (turn_chunk s) x.
Proof.
  intros (D & I & _). unfold turn_chunk. um. destruct (cd_in s) eqn:F; [|apply (turn_crlf_more s [] x); exact D].
  destruct (I eq_refl) as (I1 & I2 & I3). cbn [cd_rest cd_left].
  destruct (zlen (cd_rest s) =? 0) eqn:E.
  { cbn [stalled]. rewrite D. discriminate. }
  pose proof (zlen_nonneg x). pose proof (zlen_nonneg (cd_rest s)). rewrite zlen_app.
  replace (zlen (cd_rest s) + zlen x =? 0) with false by lia.
  destruct (cd_left s - Z.min (cd_left s) (zlen (cd_rest s)) =? 0) eqn:G.
  - replace (Z.min (cd_left s) (zlen (cd_rest s) + zlen x)) with (cd_left s) by lia.
    replace (Z.min (cd_left s) (zlen (cd_rest s))) with (cd_left s) by lia.
    rewrite Z.sub_diag. change (0 =? 0) with true. cbv iota. rewrite ztake_app_le, zskip_more by lia.
    intros Hs. cbn [cd_done cd_final].
    apply (turn_crlf_more (Cd (zskip (cd_left s) (cd_rest s)) (cd_done s) 0 false true (cd_final s))); [exact D|exact Hs].
  - cbn [stalled cd_done]. rewrite D. discriminate.
Qed.
Lemma turn_chunk_stall s x s1 o1 : cd_inv s -> stalled (turn_chunk s) = Some (s1, o1) ->
  turn_chunk (more s x) = pre_turn o1 (turn_chunk (more s1 x)).
Proof.
  intros (D & I & _). unfold turn_chunk at 1 2. um. destruct (cd_in s) eqn:F.
  2:{ intros H. apply (turn_crlf_stall s [] s1 o1 x); assumption. }
  destruct (I eq_refl) as (I1 & I2 & I3). cbn [cd_rest cd_left].
  assert (forall t, t = pre_turn [] t) as P0 by (intros []; reflexivity).
  destruct (zlen (cd_rest s) =? 0) eqn:E.
  { cbn [stalled]. rewrite D. intros H. apply Some_inj, pair_inj in H as [<- <-]. rewrite <- P0.
    unfold turn_chunk. um. rewrite F, ?D. reflexivity. }
  pose proof (zlen_nonneg x). pose proof (zlen_nonneg (cd_rest s)). rewrite zlen_app.
  replace (zlen (cd_rest s) + zlen x =? 0) with false by lia.
  destruct (cd_left s - Z.min (cd_left s) (zlen (cd_rest s)) =? 0) eqn:G.
  - intros Hst. replace (Z.min (cd_left s) (zlen (cd_rest s) + zlen x)) with (cd_left s) by lia.
    replace (Z.min (cd_left s) (zlen (cd_rest s))) with (cd_left s) in Hst by lia.
    rewrite Z.sub_diag in *. change (0 =? 0) with true. cbv iota. rewrite ztake_app_le, zskip_more by lia.
    cbn [cd_done cd_final].
    apply (turn_crlf_stall (Cd (zskip (cd_left s) (cd_rest s)) (cd_done s) 0 false true (cd_final s))); [reflexivity|exact Hst].
  - cbn [stalled cd_done]. rewrite D. intros Hst. apply Some_inj, pair_inj in Hst as [<- <-].
    assert (zlen (cd_rest s) < cd_left s) as Lt by lia.
    replace (Z.min (cd_left s) (zlen (cd_rest s))) with (zlen (cd_rest s)) in * by lia.
    rewrite (zskip_all (zlen (cd_rest s)) (cd_rest s)), (ztake_all (zlen (cd_rest s)) (cd_rest s)) by lia. unfold turn_chunk. um.
    cbn [cd_rest cd_in cd_left cd_done cd_crlf cd_final app].
    rewrite ?F. destruct (zlen x =? 0) eqn:X.
    + replace x with (@nil Z) by (symmetry; apply zlen_0; lia). rewrite app_nil_r. change (zlen (@nil Z)) with 0. rewrite Z.add_0_r.
      replace (Z.min (cd_left s) (zlen (cd_rest s))) with (zlen (cd_rest s)) by lia.
      rewrite G, zskip_all, ztake_all by lia. cbn [pre_turn]. rewrite app_nil_r. reflexivity.
    + set (k := cd_left s - zlen (cd_rest s)). assert (0 < k) by (unfold k; lia).
      replace (Z.min (cd_left s) (zlen (cd_rest s) + zlen x)) with (zlen (cd_rest s) + Z.min k (zlen x)) by (unfold k; lia).
      assert (ztake (zlen (cd_rest s) + Z.min k (zlen x)) (cd_rest s ++ x) = cd_rest s ++ ztake (Z.min k (zlen x)) x) as ->.
      { rewrite <- ztake_plus by lia. rewrite ztake_app, zskip_app by reflexivity. reflexivity. }
      assert (zskip (zlen (cd_rest s) + Z.min k (zlen x)) (cd_rest s ++ x) = zskip (Z.min k (zlen x)) x) as ->.
      { rewrite Z.add_comm, <- zskip_zskip by lia. now rewrite zskip_app. }
      replace (cd_left s - (zlen (cd_rest s) + Z.min k (zlen x))) with (k - Z.min k (zlen x)) by (unfold k; lia).
      destruct (k - Z.min k (zlen x) =? 0) eqn:K; [|reflexivity].
      rewrite Pc, (Pc _ (ztake _ x)). destruct (turn_crlf _ []); cbn [pre_turn]; now rewrite app_assoc.
Qed.

(** Each turn that goes round consumes bytes, and the flags stay consistent. *)
Lemma turn_size_inv s o : cd_done s = false -> cd_in s = false -> cd_crlf s = false -> cd_final s = false ->
  match turn_size s o with
  | Stop ok s' _ => cd_inv s' /\ zlen (cd_rest s') <= zlen (cd_rest s)
  | Next s' _ => cd_inv s' /\ zlen (cd_rest s') < zlen (cd_rest s)
  end.
Proof.
  intros D I C F. assert (cd_inv s) as Is by (repeat split; congruence). unfold turn_size.
  pose proof (take_while_le (fun c => negb (c =? LF)) (cd_rest s)) as L.
  set (line := take_while _ (cd_rest s)) in *. pose proof (zlen_nonneg line).
  destruct (zlen (cd_rest s) <=? zlen line) eqn:E; [split; [exact Is|lia]|].
  destruct (_ || _); [split; [exact Is|lia]|].
  assert (forall ds v, 0 <= v < two64 -> forall r, stream_size ds v = Some r -> 0 <= r < two64) as Hr.
  { induction ds as [|c t IH]; cbn [stream_size]; intros v Hv r E1; [apply Some_inj in E1; subst; exact Hv|].
    destruct (hex_val c); [|discriminate]. eapply IH; [|exact E1]. unfold wrap64. apply Z.mod_pos_bound. reflexivity. }
  destruct (stream_size _ 0) as [size|] eqn:S; [|split; [exact Is|lia]]. apply Hr in S; [|unfold two64; lia].
  destruct (take_while _ (ztake _ line)); [split; [exact Is|lia]|].
  destruct (size =? 0) eqn:Z0; (split; [|cbn [cd_rest]; rewrite zlen_zskip; lia]).
  - split; [exact D|]. cbn. split; congruence.
  - split; [exact D|]. cbn. split; [intros _; repeat split; try assumption; lia|congruence].
Qed.

Definition turn_good (s : cdec) (t : turn) : Prop :=
  match t with
  | Stop ok s' _ => (cd_done s' = false -> cd_inv s') /\ zlen (cd_rest s') <= zlen (cd_rest s)
  | Next s' _ => cd_inv s' /\ zlen (cd_rest s') < zlen (cd_rest s)
  end.
Lemma turn_chunk_inv s : cd_inv s -> turn_good s (turn_chunk s).
Proof.
  intros Is. destruct (Is) as (D & I & C).
  assert (forall t o, cd_done t = false -> cd_in t = false -> cd_crlf t = false -> turn_good t (turn_final t o)) as Gf.
  { intros t o Dt It Ct. unfold turn_final. destruct (cd_final t) eqn:Ft.
    - assert (cd_inv t) by (repeat split; congruence).
      destruct (zlen (cd_rest t) <? 2) eqn:E; [split; [auto|lia]|]. destruct (_ || _); [split; [auto|lia]|].
      split; cbn [cd_rest cd_done]; [discriminate|rewrite zlen_zskip; lia].
    - pose proof (turn_size_inv t o Dt It Ct Ft) as H. destruct (turn_size t o); unfold turn_good; intuition. }
  assert (forall t o, cd_done t = false -> cd_in t = false -> (cd_crlf t = true -> cd_final t = false) -> turn_good t (turn_crlf t o)) as Gc.
  { intros t o Dt It Ct. unfold turn_crlf. destruct (cd_crlf t) eqn:X.
    - assert (cd_inv t) by (split; [exact Dt|split; [congruence|intros _; apply Ct; reflexivity]]).
      destruct (zlen (cd_rest t) <? 2) eqn:E; [split; [auto|lia]|]. destruct (_ || _); [split; [auto|lia]|].
      set (t' := Cd (zskip 2 (cd_rest t)) (cd_done t) (cd_left t) (cd_in t) false (cd_final t)).
      pose proof (Gf t' o Dt It eq_refl) as H1. assert (zlen (cd_rest t') = zlen (cd_rest t) - 2) as L by (unfold t'; cbn [cd_rest]; rewrite zlen_zskip; lia).
      unfold turn_good in *. destruct (turn_final t' o); intuition lia.
    - apply Gf; assumption. }
  unfold turn_chunk. destruct (cd_in s) eqn:F; [|apply Gc; auto].
  destruct (I eq_refl) as (I1 & I2 & I3). pose proof (zlen_nonneg (cd_rest s)).
  destruct (zlen (cd_rest s) =? 0) eqn:E; [split; [auto|lia]|].
  destruct (cd_left s - Z.min (cd_left s) (zlen (cd_rest s)) =? 0) eqn:G.
  - set (t' := Cd (zskip (Z.min (cd_left s) (zlen (cd_rest s))) (cd_rest s)) (cd_done s) (cd_left s - Z.min (cd_left s) (zlen (cd_rest s))) false true (cd_final s)).
    pose proof (Gc t' (ztake (Z.min (cd_left s) (zlen (cd_rest s))) (cd_rest s)) D eq_refl (fun _ => I3)) as H1.
    assert (zlen (cd_rest t') <= zlen (cd_rest s)) as L by (unfold t'; cbn [cd_rest]; rewrite zlen_zskip; lia).
    unfold turn_good in *. destruct (turn_crlf t' _); intuition lia.
  - split; [|cbn [cd_rest]; rewrite zlen_zskip; lia]. intros _. repeat split; cbn; intros; try assumption; try lia; congruence.
Qed.

(** Running the loop to its end. *)
Lemma feed_loop_ok fuel : forall s acc, cd_inv s -> zlen (cd_rest s) < Z.of_nat fuel ->
  exists ok s' o, feed_loop fuel s acc = Ret (ok, s', acc ++ o) /\ (cd_done s' = false -> cd_inv s').
Proof.
  induction fuel as [|fuel IH]; intros s acc Hs Hf; [pose proof (zlen_nonneg (cd_rest s)); lia|]. cbn [feed_loop].
  pose proof (turn_chunk_inv s Hs) as G. destruct (turn_chunk s) as [ok s' o|s' o]; cbn [turn_good] in G.
  - exists ok, s', o. intuition.
  - destruct G as [G1 G2]. destruct (IH s' (acc ++ o) G1 ltac:(lia)) as (ok & s2 & o2 & -> & H).
    exists ok, s2, (o ++ o2). rewrite app_assoc. auto.
Qed.
Lemma feed_loop_acc fuel : forall s acc, feed_loop fuel s acc =
  match feed_loop fuel s [] with Ret (ok, s', o) => Ret (ok, s', acc ++ o) | UB => UB | NoFuel => NoFuel end.
Proof.
  induction fuel as [|fuel IH]; intros s acc; cbn [feed_loop]; [reflexivity|].
  destruct (turn_chunk s) as [ok s' o|s' o]; [reflexivity|]. rewrite (IH s' (acc ++ o)), (IH s' ([] ++ o)).
  destruct (feed_loop fuel s' []) as [[[ok2 s2] o2]| |]; try reflexivity. cbn [app]. now rewrite app_assoc.
Qed.
Lemma feed_loop_fuel f1 : forall f2 s acc, cd_inv s -> zlen (cd_rest s) < Z.of_nat f1 -> zlen (cd_rest s) < Z.of_nat f2 ->
  feed_loop f1 s acc = feed_loop f2 s acc.
Proof.
  induction f1 as [|f1 IH]; intros [|f2] s acc Hs H1 H2; try (pose proof (zlen_nonneg (cd_rest s)); lia). cbn [feed_loop].
  pose proof (turn_chunk_inv s Hs) as G. destruct (turn_chunk s) as [ok s' o|s' o]; cbn [turn_good] in G; [reflexivity|].
  apply IH; [apply G|lia|lia].
Qed.

(** One feed of [r ++ x] is a feed of [r] followed, unless it failed or
    finished, by a feed of [x]. *)
Lemma feed_loop_split x : forall f f2 s acc ok s1 o1, cd_inv s -> zlen (cd_rest s) + zlen x < Z.of_nat f ->
  feed_loop f s acc = Ret (ok, s1, o1) ->
  zlen (cd_rest s1) + zlen x < Z.of_nat f2 ->
  feed_loop f (more s x) acc =
    if negb ok || cd_done s1 then Ret (ok, more s1 x, o1) else feed_loop f2 (more s1 x) o1.
Proof.
  pose proof (zlen_nonneg x) as Hx.
  induction f as [|f IH]; intros f2 s acc ok s1 o1 Hs Hf E Hf2; [pose proof (zlen_nonneg (cd_rest s)); lia|].
  cbn [feed_loop] in E |- *. pose proof (turn_chunk_inv s Hs) as G.
  destruct (stalled (turn_chunk s)) as [[s' o']|] eqn:St.
  - rewrite (turn_chunk_stall s x s' o' Hs St). destruct (turn_chunk s) as [[|] t o|]; cbn [stalled] in St; try discriminate.
    destruct (cd_done t) eqn:D; [discriminate|]. apply Some_inj, pair_inj in St as [-> ->]. apply Ret_inj, pair_inj in E as [E <-].
    apply pair_inj in E as [<- <-]. rewrite D. cbn [negb orb]. destruct f2 as [|f2]; [pose proof (zlen_nonneg (cd_rest s')); lia|].
    cbn [turn_good] in G. destruct G as [G1 G2]. specialize (G1 D). cbn [feed_loop].
    assert (cd_inv (more s' x)) as Gm by exact G1. pose proof (turn_chunk_inv _ Gm) as G'.
    destruct (turn_chunk (more s' x)) as [ok2 s2 o2|s2 o2]; cbn [pre_turn turn_good] in *; rewrite app_assoc; [reflexivity|].
    assert (zlen (cd_rest (more s' x)) = zlen (cd_rest s') + zlen x) as L by (cbn; now rewrite zlen_app).
    apply feed_loop_fuel; [apply G'|lia|lia].
  - rewrite (turn_chunk_more s x Hs St). destruct (turn_chunk s) as [ok' t o|t o]; cbn [more_turn].
    + apply Ret_inj, pair_inj in E as [E <-]. apply pair_inj in E as [<- <-].
      replace (negb ok' || cd_done t) with true; [reflexivity|]. cbn [stalled] in St. destruct ok'; [|reflexivity].
      destruct (cd_done t); [reflexivity|discriminate].
    + cbn [turn_good] in G. apply IH; [apply G|lia|exact E|exact Hf2].
Qed.

Lemma set_more s x : set_rest s (cd_rest s ++ x) = more s x. Proof. reflexivity. Qed.

Lemma receive_cons s p t acc : receive s (p :: t) acc =
  (let* (r, o) := cd_feed s p in
   let (ok, s') := r : bool * cdec in
   if negb ok || cd_done s' then Ret (Rcv ok (cd_done s') (acc ++ o) (cd_rest s' ++ concat t))
   else receive s' t (acc ++ o)).
Proof. reflexivity. Qed.
Lemma receive_cuts reads : forall s acc x, cd_inv s ->
  receive s (x :: reads) acc = receive s [x ++ concat reads] acc.
Proof.
  induction reads as [|y t IH]; intros s acc x Hs.
  - cbn [concat]. now rewrite app_nil_r.
  - rewrite (receive_cons s x), (receive_cons s (x ++ _)). unfold cd_feed. rewrite !set_more. set (r := concat (y :: t)).
    assert (cd_inv (more s x)) as Hx by exact Hs.
    destruct (feed_loop_ok (S (length (cd_rest (more s x)))) (more s x) [] Hx ltac:(unfold zlen; lia)) as (ok & s1 & o & E & Hi).
    cbn [app] in E. rewrite E. cbn [bind].
    assert (zlen (cd_rest s1) <= zlen (cd_rest (more s x))) as Ls.
    { clear -E Hx. revert E. generalize (S (length (cd_rest (more s x)))). intros f. generalize (more s x), Hx, (@nil Z). clear.
      induction f as [|f IH]; intros t Ht acc E; [discriminate|]. cbn [feed_loop] in E. pose proof (turn_chunk_inv t Ht) as G.
      destruct (turn_chunk t) as [ok' t' o'|t' o']; cbn [turn_good] in G.
      - apply Ret_inj, pair_inj in E as [E _]. apply pair_inj in E as [_ <-]. apply G.
      - apply IH in E; [lia|apply G]. }
    assert (more s (x ++ r) = more (more s x) r) as Em by (unfold more, set_rest; cbn; now rewrite app_assoc).
    rewrite Em.
    set (F := S (length (cd_rest (more (more s x) r)))).
    assert (zlen (cd_rest (more s x)) + zlen r < Z.of_nat F) as HF.
    { unfold F. um. rewrite !app_length. unfold zlen. rewrite app_length. lia. }
    assert (feed_loop F (more s x) [] = Ret (ok, s1, o)) as E2.
    { rewrite <- E. apply feed_loop_fuel; [exact Hx|pose proof (zlen_nonneg r); lia|unfold zlen; lia]. }
    rewrite (feed_loop_split r F F (more s x) [] ok s1 o Hx HF E2 ltac:(lia)).
    destruct (negb ok || cd_done s1) eqn:Q.
    + cbn [bind]. um. rewrite Q. now rewrite app_nil_r.
    + apply orb_false_elim in Q as [Q1 Q2]. apply negb_false_iff in Q1. subst ok. specialize (Hi Q2).
      rewrite (IH s1 (acc ++ o) y Hi). rewrite (receive_cons s1). unfold cd_feed. rewrite set_more.
      change (y ++ concat t) with r.
      rewrite (feed_loop_fuel (S (length (cd_rest (more s1 r)))) F (more s1 r)).
      2: exact Hi. 2: unfold zlen; lia.
      2:{ um. rewrite zlen_app. lia. }
      rewrite (feed_loop_acc F (more s1 r) o). destruct (feed_loop F (more s1 r) []) as [[[ok2 s2] o2]| |]; try reflexivity.
      cbn [bind]. rewrite !app_assoc. destruct (negb ok2 || cd_done s2); reflexivity.
Qed.

(** ** C17.  Any bytes, any cut: the same outcome as in one read. *)
Theorem C17_cut_independent : forall reads reads', reads <> [] -> reads' <> [] -> concat reads = concat reads' ->
  receive cd_init reads [] = receive cd_init reads' [] /\ exists r, receive cd_init reads [] = Ret r.
Proof.
  intros [|a r] [|b r'] N N' E; try congruence.
  assert (cd_inv cd_init) as I by (repeat split; discriminate).
  rewrite (receive_cuts r cd_init [] a I), (receive_cuts r' cd_init [] b I). cbn [concat] in E. rewrite E. split; [reflexivity|].
  cbn [receive]. unfold cd_feed. rewrite set_more.
  destruct (feed_loop_ok (S (length (cd_rest (more cd_init (b ++ concat r'))))) (more cd_init (b ++ concat r')) [] I ltac:(unfold zlen; lia)) as (ok & s1 & o & -> & _).
  cbn [bind]. destruct (negb ok || cd_done s1); eexists; reflexivity.
Qed.
Print Assumptions C17_cut_independent.

(** ** What the server frames is received, for any cut *)

Definition St_size (r : list Z) : cdec := Cd r false 0 false false false.

Lemma zlen_pos {A} (l : list A) : l <> [] -> 0 < zlen l.
Proof. destruct l as [|x l]; [congruence|]. rewrite zlen_cons. pose proof (zlen_nonneg l). lia. Qed.

Lemma take_line ds r : Forall is_hex ds ->
  take_while (fun c => negb (c =? LF)) (ds ++ [CR; LF] ++ r) = ds ++ [CR].
Proof.
  intros H. replace (ds ++ [CR; LF] ++ r) with ((ds ++ [CR]) ++ LF :: r) by (rewrite <- app_assoc; reflexivity).
  apply take_while_app; [|reflexivity]. apply Forall_app. split.
  - eapply Forall_impl; [|exact H]. intros c Hc. apply is_hex_ne in Hc. cbv beta. replace (c =? LF) with false by lia. reflexivity.
  - constructor; [reflexivity|constructor].
Qed.

Lemma turn_size_hex n r o l : 0 <= n < two64 ->
  turn_size (Cd (format_chunk_header n ++ r) false l false false false) o =
  Next (if n =? 0 then Cd r false l false false true else Cd r false n true false false) o.
Proof.
  intros Hn. destruct (hex_spec n Hn) as (F & NE & V). unfold turn_size. cbn [cd_rest cd_done cd_left cd_in cd_crlf cd_final].
  unfold format_chunk_header. rewrite <- app_assoc, take_line by exact F.
  set (ds := hex n) in *. clearbody ds.
  assert (0 < zlen ds) as Lp by (apply zlen_pos; exact NE).
  assert (zlen (ds ++ [CR; LF] ++ r) = zlen ds + 2 + zlen r) as -> by (rewrite !zlen_app; change (zlen [CR; LF]) with 2; lia).
  assert (zlen (ds ++ [CR]) = zlen ds + 1) as -> by (rewrite !zlen_app; reflexivity).
  pose proof (zlen_nonneg r). replace (zlen ds + 2 + zlen r <=? zlen ds + 1) with false by lia.
  rewrite znth_app_r by lia. replace (zlen ds + 1 - 1 - zlen ds) with 0 by lia. change (znth 0 [CR] 0) with CR.
  change (negb (CR =? CR)) with false. replace ((zlen ds + 1 =? 0) || false) with false by lia.
  replace (zlen ds + 1 - 1) with (zlen ds) by lia. rewrite ztake_app by reflexivity.
  assert (take_while (fun c => negb (c =? 59)) ds = ds) as ->.
  { rewrite <- (app_nil_r ds) at 1. apply take_while_app; [|exact I]. eapply Forall_impl; [|exact F].
    intros c Hc. apply is_hex_ne in Hc. cbv beta. replace (c =? 59) with false by lia. reflexivity. }
  rewrite V. destruct ds as [|d ds']; [congruence|]. set (ds := d :: ds') in *.
  assert (zskip (zlen ds + 1 + 1) (ds ++ [CR; LF] ++ r) = r) as ->.
  { rewrite app_assoc. apply zskip_app. rewrite zlen_app. change (zlen [CR; LF]) with 2. lia. }
  destruct (n =? 0); reflexivity.
Qed.

Lemma frame_cons c t : frame (c :: t) = format_chunk_header (zlen c) ++ c ++ [CR; LF] ++ frame t.
Proof. unfold frame. cbn [map concat]. now rewrite <- !app_assoc. Qed.

Lemma stream_frame tail chunks : forall fuel acc o l, Forall chunk_ok chunks -> (length chunks < fuel)%nat ->
  match turn_size (Cd (frame chunks ++ tail) false l false false false) o with
  | Stop ok s o => Ret (ok, s, acc ++ o)
  | Next s o => feed_loop fuel s (acc ++ o)
  end = Ret (true, Cd tail true (match chunks with [] => l | _ => 0 end) false false false, acc ++ o ++ concat chunks).
Proof.
  induction chunks as [|c t IH]; intros fuel acc o l Hc Hf.
  - change (frame [] ++ tail) with (format_chunk_header 0 ++ [CR; LF] ++ tail).
    rewrite turn_size_hex by (unfold two64; lia). change (0 =? 0) with true. cbv iota.
    destruct fuel as [|fuel]; [cbn in Hf; lia|]. cbn [feed_loop]. unfold turn_chunk, turn_crlf, turn_final.
    cbn [cd_rest cd_done cd_left cd_in cd_crlf cd_final app].
    assert (zlen (CR :: LF :: tail) <? 2 = false) as -> by (rewrite !zlen_cons; pose proof (zlen_nonneg tail); lia).
    change (negb (znth 0 (CR :: LF :: tail) 0 =? CR) || negb (znth 0 (CR :: LF :: tail) 1 =? LF)) with false.
    change (zskip 2 (CR :: LF :: tail)) with tail. cbv iota. cbn [concat]. rewrite !app_nil_r. reflexivity.
  - inversion Hc as [|? ? C1 Ct]; subst. rewrite frame_cons, <- !app_assoc.
    rewrite turn_size_hex by (unfold chunk_ok in C1; lia). unfold chunk_ok in C1. replace (zlen c =? 0) with false by lia.
    destruct fuel as [|fuel]; [cbn in Hf; lia|]. cbn [feed_loop].
    assert (turn_chunk (Cd (c ++ [CR; LF] ++ frame t ++ tail) false (zlen c) true false false) =
            turn_size (Cd (frame t ++ tail) false 0 false false false) c) as ->.
    { unfold turn_chunk. cbn [cd_rest cd_done cd_left cd_in cd_crlf cd_final].
      assert (zlen (c ++ [CR; LF] ++ frame t ++ tail) = zlen c + 2 + zlen (frame t ++ tail)) as ->
        by (rewrite zlen_app, (zlen_app [CR; LF]); change (zlen [CR; LF]) with 2; lia).
      pose proof (zlen_nonneg (frame t ++ tail)).
      replace (zlen c + 2 + zlen (frame t ++ tail) =? 0) with false by lia.
      replace (Z.min (zlen c) (zlen c + 2 + zlen (frame t ++ tail))) with (zlen c) by lia.
      rewrite Z.sub_diag. change (0 =? 0) with true. cbv iota. rewrite ztake_app, zskip_app by reflexivity.
      unfold turn_crlf. cbn [cd_rest cd_done cd_left cd_in cd_crlf cd_final].
      assert (zlen ([CR; LF] ++ frame t ++ tail) <? 2 = false) as -> by (rewrite zlen_app; change (zlen [CR; LF]) with 2; lia).
      reflexivity. }
    pose proof (IH fuel (acc ++ o) c 0 Ct ltac:(cbn in Hf; lia)) as E.
    destruct (turn_size _ c) as [ok s' o'|s' o']; rewrite E; cbn [concat]; rewrite <- !app_assoc; destruct t; reflexivity.
Qed.

Lemma frame_len chunks : Forall chunk_ok chunks -> Z.of_nat (length chunks) < zlen (frame chunks).
Proof.
  induction 1 as [|c t C _ IH]; [vm_compute; reflexivity|]. rewrite frame_cons, !zlen_app. cbn [length].
  unfold chunk_ok in C. pose proof (zlen_nonneg (format_chunk_header (zlen c))). change (zlen [CR; LF]) with 2. lia.
Qed.

(** Every cut of the framed body (followed by anything) into reads: the body is
    delivered, completion is reported and nothing beyond is consumed. *)
Theorem C17_received : forall chunks tail reads, Forall chunk_ok chunks -> concat reads = frame chunks ++ tail ->
  receive cd_init reads [] = Ret (Rcv true true (concat chunks) tail).
Proof.
  intros chunks tail reads Hc E.
  assert (reads <> []) as N.
  { intros ->. apply (f_equal zlen) in E. rewrite zlen_app in E. pose proof (frame_len chunks Hc). pose proof (zlen_nonneg tail).
    change (zlen (concat [])) with 0 in E. lia. }
  destruct (C17_cut_independent reads [frame chunks ++ tail] N) as [-> _]; [discriminate|cbn [concat]; now rewrite app_nil_r|].
  rewrite receive_cons. unfold cd_feed. rewrite set_more. cbn [feed_loop].
  assert (turn_chunk (more cd_init (frame chunks ++ tail)) = turn_size (Cd (frame chunks ++ tail) false 0 false false false) []) as -> by reflexivity.
  pose proof (stream_frame tail chunks (length (cd_rest (more cd_init (frame chunks ++ tail)))) [] [] 0 Hc) as S.
  rewrite S.
  - cbn [bind app]. cbn [negb orb cd_done cd_rest concat app]. now rewrite app_nil_r.
  - pose proof (frame_len chunks Hc) as L. cbn [more set_rest cd_rest cd_init app]. rewrite app_length. unfold zlen in L. lia.
Qed.
Print Assumptions C17_received.

(** Short of the end, completion is not reported and the bytes handed on are
    the beginning of the body. *)
Theorem C17_not_before : forall chunks reads missing, Forall chunk_ok chunks -> missing <> [] ->
  concat reads ++ missing = frame chunks ->
  exists body unread more, receive cd_init reads [] = Ret (Rcv true false body unread) /\ concat chunks = body ++ more.
Proof.
  intros chunks reads missing Hc Nm E.
  pose proof (C17_received chunks [] [concat reads; missing] Hc) as R.
  rewrite app_nil_r in R. specialize (R ltac:(cbn [concat]; now rewrite app_nil_r)).
  assert (exists r, receive cd_init reads [] = Ret r /\ exists s o, r = Rcv (rc_ok r) (cd_done s) o (cd_rest s) /\
    cd_feed cd_init (concat reads) = Ret (rc_ok r, s, o)) as (r & Er & s & o & Es & Ef).
  { assert (cd_inv cd_init) as I by (repeat split; discriminate).
    destruct reads as [|x t].
    - eexists. split; [reflexivity|]. exists cd_init, []. split; reflexivity.
    - rewrite (receive_cuts t cd_init [] x I). cbn [concat]. rewrite receive_cons. unfold cd_feed. rewrite set_more.
      destruct (feed_loop_ok (S (length (cd_rest (more cd_init (x ++ concat t))))) (more cd_init (x ++ concat t)) [] I ltac:(unfold zlen; lia))
        as (ok & s1 & o & -> & _). cbn [bind app concat].
      exists (Rcv ok (cd_done s1) o (cd_rest s1)). split; [|exists s1, o; split; reflexivity].
      destruct (negb ok || cd_done s1) eqn:Q; cbn [app]; rewrite ?app_nil_r; [reflexivity|].
      apply orb_false_elim in Q as [Q1 Q2]. apply negb_false_iff in Q1. subst ok. reflexivity. }
  rewrite receive_cons, Ef in R. cbn [bind app] in R. destruct r as [ok dn bd un]. cbn [rc_ok] in *.
  destruct (negb ok || cd_done s) eqn:Q.
  - apply Ret_inj in R. exfalso. apply (f_equal rc_unread) in R. cbn [rc_unread concat] in R. rewrite app_nil_r in R.
    apply app_eq_nil in R as [_ R]. congruence.
  - apply orb_false_elim in Q as [Q1 Q2]. apply negb_false_iff in Q1. rewrite Q1 in *. rewrite Q2 in Es. rewrite Es in Er.
    rewrite receive_cons in R. destruct (cd_feed s missing) as [[[ok2 s2] o2]| |]; cbn [bind] in R; try discriminate.
    exists o, (cd_rest s), o2. split; [exact Er|].
    destruct (negb ok2 || cd_done s2); cbn [receive] in R; apply Ret_inj in R; apply (f_equal rc_body) in R; cbn [rc_body] in R; congruence.
Qed.
Print Assumptions C17_not_before.

Example C17_demo : Forall chunk_ok [[1; 2; 13; 10]; [48; 13; 10; 13; 10]; repeat 7 300] /\
  firstn 10 (frame [[1; 2; 13; 10]; [48; 13; 10; 13; 10]; repeat 7 300]) = [52; 13; 10; 1; 2; 13; 10; 13; 10; 53].
Proof. split; [repeat constructor|vm_compute; reflexivity]. Qed.

(** ** The batch decoder *)

Fixpoint checked (ds : list Z) (size : Z) : option Z :=
  match ds with
  | [] => Some size
  | c :: t =>
    match hex_val c with
    | None => None
    | Some v => if (two64 - 1) / 16 <? size then None else checked t (wrap64 (Z.lor (Z.shiftl size 4) v))
    end
  end.
Lemma checked_app a : forall b v, checked (a ++ b) v = match checked a v with Some w => checked b w | None => None end.
Proof. induction a as [|c a IH]; intros b v; cbn [app checked]; [reflexivity|]. destruct (hex_val c); [|reflexivity]. destruct (_ <? v); auto. Qed.
Lemma checked_hex_digits fuel : forall n, 0 <= n < 2 ^ Z.of_nat fuel -> n < two64 -> checked (hex_digits fuel n []) 0 = Some n.
Proof.
  induction fuel as [|f IH]; intros n H H64.
  - change (2 ^ Z.of_nat 0) with 1 in H. cbn. f_equal. lia.
  - cbn [hex_digits]. destruct (Z.ltb_spec n 16).
    + cbn [checked]. rewrite hex_char_val by lia. change ((two64 - 1) / 16 <? 0) with false. cbv iota.
      rewrite Z.shiftl_0_l, Z.lor_0_l, wrap64_small by lia. reflexivity.
    + rewrite hex_digits_acc. rewrite Nat2Z.inj_succ, Z.pow_succ_r in H by lia.
      rewrite checked_app, (IH (n / 16)); [|split; [lia|]; apply Z.div_lt_upper_bound; lia|lia].
      cbn [checked]. rewrite hex_char_val by lia. unfold two64 in *. change ((2 ^ 64 - 1) / 16) with 1152921504606846975.
      change (2 ^ 64) with 18446744073709551616 in H64. replace (1152921504606846975 <? n / 16) with false by lia.
      rewrite (lor_shift_add _ _ 4) by lia. change (2 ^ 4) with 16.
      rewrite wrap64_small by (unfold two64; change (2 ^ 64) with 18446744073709551616; lia). f_equal. lia.
Qed.
Lemma checked_hex n : 0 <= n < two64 -> checked (hex n) 0 = Some n.
Proof.
  intros H. unfold hex. apply checked_hex_digits; [|lia].
  split; [lia|]. rewrite Nat2Z.inj_succ, Z2Nat.id by apply Z.log2_nonneg.
  destruct (Z.eq_dec n 0) as [->|N]; [reflexivity|]. apply Z.log2_spec. lia.
Qed.

Lemma find_crlf_at : forall ds fuel pre post, (length ds < fuel)%nat -> Forall (fun c => c <> CR) ds ->
  find_crlf fuel (pre ++ ds ++ CR :: LF :: post) (zlen pre) = Ret (zlen pre + zlen ds).
Proof.
  induction ds as [|d ds IH]; intros fuel pre post Hf Hd; (destruct fuel as [|fuel]; [cbn in Hf; lia|]); cbn [find_crlf app].
  - pose proof (zlen_nonneg post).
    replace (zlen pre + 1 <? zlen (pre ++ CR :: LF :: post)) with true by (rewrite zlen_app, !zlen_cons; lia).
    rewrite rd_be by reflexivity. cbn [bind]. change (CR =? CR) with true. cbv iota.
    replace (pre ++ CR :: LF :: post) with ((pre ++ [CR]) ++ LF :: post) by (rewrite <- app_assoc; reflexivity).
    rewrite rd_be by (rewrite zlen_app; reflexivity). cbn [bind]. change (LF =? LF) with true. cbv iota.
    f_equal. change (zlen (@nil Z)) with 0. lia.
  - inversion Hd; subst. pose proof (zlen_nonneg post). pose proof (zlen_nonneg ds).
    replace (zlen pre + 1 <? _) with true by (rewrite zlen_app, zlen_cons, zlen_app, !zlen_cons; lia).
    rewrite rd_be by reflexivity. cbn [bind]. replace (d =? CR) with false by lia.
    replace (pre ++ d :: ds ++ CR :: LF :: post) with ((pre ++ [d]) ++ ds ++ CR :: LF :: post) by (rewrite <- app_assoc; reflexivity).
    replace (zlen pre + 1) with (zlen (pre ++ [d])) by (rewrite zlen_app; reflexivity).
    rewrite IH by (try assumption; cbn in Hf; lia). f_equal. rewrite zlen_app, (zlen_cons d ds). change (zlen [d]) with 1. lia.
Qed.

Lemma find_semi_at : forall ds fuel pre post, (length ds < fuel)%nat -> Forall (fun c => c <> 59) ds ->
  find_semi fuel (pre ++ ds ++ post) (zlen pre) (zlen pre + zlen ds) = Ret (zlen pre + zlen ds).
Proof.
  induction ds as [|d ds IH]; intros fuel pre post Hf Hd; (destruct fuel as [|fuel]; [cbn in Hf; lia|]); cbn [find_semi app].
  - change (zlen (@nil Z)) with 0. rewrite Z.add_0_r, Z.ltb_irrefl. reflexivity.
  - inversion Hd; subst. rewrite zlen_cons. pose proof (zlen_nonneg ds).
    replace (zlen pre <? zlen pre + (1 + zlen ds)) with true by lia.
    rewrite rd_be by reflexivity. cbn [bind]. replace (d =? 59) with false by lia. cbn [negb].
    replace (pre ++ d :: ds ++ post) with ((pre ++ [d]) ++ ds ++ post) by (rewrite <- app_assoc; reflexivity).
    replace (zlen pre + (1 + zlen ds)) with (zlen (pre ++ [d]) + zlen ds) by (rewrite zlen_app; change (zlen [d]) with 1; lia).
    replace (zlen pre + 1) with (zlen (pre ++ [d])) by (rewrite zlen_app; reflexivity).
    apply IH; [cbn in Hf; lia|assumption].
Qed.

Lemma read_size_at : forall ds fuel pre post v, (length ds < fuel)%nat ->
  read_size fuel (pre ++ ds ++ post) (zlen pre) (zlen pre + zlen ds) v = Ret (checked ds v).
Proof.
  induction ds as [|d ds IH]; intros fuel pre post v Hf; (destruct fuel as [|fuel]; [cbn in Hf; lia|]); cbn [read_size app checked].
  - change (zlen (@nil Z)) with 0. rewrite Z.add_0_r, Z.ltb_irrefl. reflexivity.
  - rewrite zlen_cons. pose proof (zlen_nonneg ds).
    replace (zlen pre <? zlen pre + (1 + zlen ds)) with true by lia.
    rewrite rd_be by reflexivity. cbn [bind]. destruct (hex_val d); [|reflexivity]. destruct (_ <? v); [reflexivity|].
    replace (pre ++ d :: ds ++ post) with ((pre ++ [d]) ++ ds ++ post) by (rewrite <- app_assoc; reflexivity).
    replace (zlen pre + (1 + zlen ds)) with (zlen (pre ++ [d]) + zlen ds) by (rewrite zlen_app; change (zlen [d]) with 1; lia).
    replace (zlen pre + 1) with (zlen (pre ++ [d])) by (rewrite zlen_app; reflexivity).
    apply IH. cbn in Hf; lia.
Qed.

Lemma app_len_le {A} (a b c : list A) : (length b < S (length (a ++ b ++ c)))%nat.
Proof. rewrite !app_length. lia. Qed.

(** The head of one turn of the batch loop, at a chunk header. *)
Lemma chunk_loop_head fuel pre n post acc : 0 <= n < two64 ->
  let data := pre ++ format_chunk_header n ++ post in
  let i := zlen (pre ++ format_chunk_header n) in
  chunk_loop (S fuel) data (zlen pre) acc =
  if n =? 0 then let* ok := skip_trailers (S (length data)) data i in if ok then ret acc else throw
  else if (zlen data - i <? n) || (zlen data - i - n <? 2) then throw
  else
    let* a := rd data (i + n) in let* b := rd data (i + n + 1) in
    if negb (a =? CR) || negb (b =? LF) then throw else chunk_loop fuel data (i + n + 2) (acc ++ ztake n (zskip i data)).
Proof.
  intros Hn data i. destruct (hex_spec n Hn) as (F & NE & _). pose proof (checked_hex n Hn) as V.
  assert (data = pre ++ hex n ++ CR :: LF :: post) as D by (unfold data, format_chunk_header; rewrite <- !app_assoc; reflexivity).
  assert (i = zlen pre + zlen (hex n) + 2) as I by (unfold i, format_chunk_header; rewrite !zlen_app; change (zlen [CR; LF]) with 2; lia).
  clearbody i. subst i. rewrite D in *. clear data D.
  set (ds := hex n) in *. clearbody ds. pose proof (zlen_pos ds NE). pose proof (zlen_nonneg pre). pose proof (zlen_nonneg post).
  set (data := pre ++ ds ++ CR :: LF :: post).
  assert (zlen data = zlen pre + zlen ds + 2 + zlen post) as L by (unfold data; rewrite !zlen_app, !zlen_cons; lia).
  cbn [chunk_loop]. replace (zlen pre <? zlen data) with true by lia.
  unfold data at 2. rewrite find_crlf_at;
    [|apply app_len_le|eapply Forall_impl; [|exact F]; intros c Hc; apply is_hex_ne in Hc; tauto]. cbn [bind].
  replace (zlen data <=? zlen pre + zlen ds + 1) with false by lia.
  unfold data at 2. rewrite find_semi_at;
    [|apply app_len_le|eapply Forall_impl; [|exact F]; intros c Hc; apply is_hex_ne in Hc; tauto]. cbn [bind].
  unfold data at 2. rewrite read_size_at by apply app_len_le. rewrite V. cbn [bindx bind].
  replace (zlen pre + zlen ds <=? zlen pre) with false by lia. reflexivity.
Qed.

Lemma chunk_loop_frame : forall chunks fuel pre tail acc, (length chunks < fuel)%nat -> Forall chunk_ok chunks ->
  chunk_loop fuel (pre ++ frame chunks ++ tail) (zlen pre) acc = ret (acc ++ concat chunks).
Proof.
  induction chunks as [|c t IH]; intros fuel pre tail acc Hf Hc; (destruct fuel as [|fuel]; [cbn in Hf; lia|]).
  - change (frame [] ++ tail) with (format_chunk_header 0 ++ CR :: LF :: tail).
    rewrite chunk_loop_head by (unfold two64; lia). change (0 =? 0) with true. cbv iota.
    set (p := pre ++ format_chunk_header 0). rewrite app_assoc. fold p. cbn [skip_trailers].
    pose proof (zlen_nonneg tail). replace (zlen p + 1 <? zlen (p ++ CR :: LF :: tail)) with true by (rewrite zlen_app, !zlen_cons; lia).
    rewrite rd_be by reflexivity. cbn [bind].
    replace (p ++ CR :: LF :: tail) with ((p ++ [CR]) ++ LF :: tail) by (rewrite <- app_assoc; reflexivity).
    rewrite rd_be by (rewrite zlen_app; reflexivity). cbn [bind concat]. rewrite app_nil_r. reflexivity.
  - inversion Hc as [|? ? C1 Ct]; subst. unfold chunk_ok in C1. rewrite frame_cons, <- !app_assoc.
    rewrite chunk_loop_head by lia. replace (zlen c =? 0) with false by lia.
    set (p := pre ++ format_chunk_header (zlen c)). rewrite (app_assoc pre). fold p.
    set (post := [CR; LF] ++ frame t ++ tail). pose proof (zlen_nonneg (frame t ++ tail)).
    assert (zlen post = 2 + zlen (frame t ++ tail)) as Lp by (unfold post; rewrite zlen_app; reflexivity).
    assert (zlen (p ++ c ++ post) = zlen p + zlen c + zlen post) as L by (rewrite !zlen_app; lia).
    rewrite L. replace ((_ <? zlen c) || _) with false by lia.
    rewrite zskip_app, ztake_app by reflexivity.
    assert (rd (p ++ c ++ post) (zlen p + zlen c) = Ret CR) as ->.
    { rewrite app_assoc. unfold post. cbn [app]. apply rd_be. apply zlen_app. }
    assert (rd (p ++ c ++ post) (zlen p + zlen c + 1) = Ret LF) as ->.
    { unfold post. cbn [app]. replace (p ++ c ++ CR :: LF :: frame t ++ tail) with ((p ++ c ++ [CR]) ++ LF :: frame t ++ tail)
        by (rewrite <- !app_assoc; reflexivity). apply rd_be. rewrite !zlen_app. change (zlen [CR]) with 1. lia. }
    cbn [bind]. change (negb (CR =? CR) || negb (LF =? LF)) with false. cbv iota.
    replace (p ++ c ++ post) with ((p ++ c ++ [CR; LF]) ++ frame t ++ tail) by (unfold post; rewrite <- !app_assoc; reflexivity).
    replace (zlen p + zlen c + 2) with (zlen (p ++ c ++ [CR; LF])) by (rewrite !zlen_app; change (zlen [CR; LF]) with 2; lia).
    rewrite IH by (try assumption; cbn in Hf; lia). cbn [concat]. rewrite <- app_assoc. reflexivity.
Qed.

(** The batch decoder gives the same body, whatever follows it. *)
Theorem C17_batch : forall chunks tail, Forall chunk_ok chunks ->
  decode_chunked_body (frame chunks ++ tail) = ret (concat chunks).
Proof.
  intros chunks tail Hc. unfold decode_chunked_body.
  rewrite (chunk_loop_frame chunks _ [] tail []); [reflexivity| |exact Hc].
  pose proof (frame_len chunks Hc) as L. cbn [app]. rewrite app_length. unfold zlen in L. lia.
Qed.
Print Assumptions C17_batch.

(** *** Any bytes *)

Lemma find_crlf_safe data : forall fuel j, 0 <= j -> (Z.to_nat (zlen data - j) < fuel)%nat ->
  exists k, find_crlf fuel data j = Ret k /\ j <= k.
Proof.
  induction fuel as [|fuel IH]; intros j Hj Hf; [lia|]. cbn [find_crlf].
  destruct (Z.ltb_spec (j + 1) (zlen data)); [|exists j; split; [reflexivity|lia]].
  rewrite (rd_in data j), (rd_in data (j + 1)) by lia. cbn [bind].
  destruct (IH (j + 1)) as (k & E & K); [lia|lia|].
  destruct (_ =? CR); [destruct (_ =? LF)|]; eauto with zarith.
Qed.
Lemma find_semi_safe data e : e <= zlen data -> forall fuel j, 0 <= j -> (Z.to_nat (e - j) < fuel)%nat ->
  exists k, find_semi fuel data j e = Ret k /\ (j <= e -> j <= k <= e) /\ (e < j -> k = j).
Proof.
  intros He. induction fuel as [|fuel IH]; intros j Hj Hf; [lia|]. cbn [find_semi].
  destruct (Z.ltb_spec j e); [|exists j; split; [reflexivity|lia]].
  rewrite (rd_in data j) by lia. cbn [bind].
  destruct (IH (j + 1)) as (k & E & K1 & K2); [lia|lia|].
  destruct (negb _); [exists k; split; [exact E|lia]|exists j; split; [reflexivity|lia]].
Qed.
Lemma read_size_safe data e : e <= zlen data -> forall fuel j v, 0 <= j -> (Z.to_nat (e - j) < fuel)%nat -> 0 <= v < two64 ->
  exists r, read_size fuel data j e v = Ret r /\ forall n, r = Some n -> 0 <= n < two64.
Proof.
  intros He. induction fuel as [|fuel IH]; intros j v Hj Hf Hv; [lia|]. cbn [read_size].
  destruct (Z.ltb_spec j e); [|exists (Some v); split; [reflexivity|intros n [= <-]; exact Hv]].
  rewrite (rd_in data j) by lia. cbn [bind]. destruct (hex_val _); [|exists None; split; [reflexivity|discriminate]].
  destruct (_ <? v); [exists None; split; [reflexivity|discriminate]|].
  apply IH; [lia|lia|]. unfold wrap64. apply Z.mod_pos_bound. reflexivity.
Qed.
Lemma skip_trailers_safe data : forall fuel i, 0 <= i -> (Z.to_nat (zlen data - i) < fuel)%nat ->
  exists b, skip_trailers fuel data i = Ret b.
Proof.
  induction fuel as [|fuel IH]; intros i Hi Hf; [lia|]. cbn [skip_trailers].
  destruct (Z.ltb_spec (i + 1) (zlen data)); [|eauto].
  rewrite (rd_in data i), (rd_in data (i + 1)) by lia. cbn [bind].
  destruct (_ && _); [eauto|].
  destruct (find_crlf_safe data (S (length data)) i) as (k & -> & K); [lia|unfold zlen; lia|]. cbn [bind].
  destruct (zlen data <=? k + 1); [eauto|]. apply IH; lia.
Qed.
Lemma chunk_loop_safe data : forall fuel i acc, 0 <= i -> (Z.to_nat (zlen data - i) < fuel)%nat ->
  exists r, chunk_loop fuel data i acc = Ret r /\ forall b, r = Some b -> zlen b <= zlen acc + Z.max 0 (zlen data - i).
Proof.
  induction fuel as [|fuel IH]; intros i acc Hi Hf; [lia|]. cbn [chunk_loop].
  assert (exists r, Ret (@None (list Z)) = Ret r /\ forall b, r = Some b -> zlen b <= zlen acc + Z.max 0 (zlen data - i)) as T
    by (exists None; split; [reflexivity|discriminate]).
  destruct (Z.ltb_spec i (zlen data)); [|exact T].
  destruct (find_crlf_safe data (S (length data)) i) as (k & -> & K); [lia|unfold zlen; lia|]. cbn [bind].
  destruct (Z.leb_spec (zlen data) (k + 1)); [exact T|].
  destruct (find_semi_safe data k ltac:(lia) (S (length data)) i) as (se & -> & S1 & _); [lia|unfold zlen in *; lia|]. cbn [bind].
  specialize (S1 K).
  destruct (read_size_safe data se ltac:(lia) (S (length data)) i 0) as (r & -> & R); [lia|unfold zlen in *; lia|unfold two64; lia|].
  cbn [bindx bind]. destruct r as [n|]; [|exact T]. specialize (R n eq_refl).
  destruct (se <=? i); [exact T|]. destruct (Z.eqb_spec n 0).
  - destruct (skip_trailers_safe data (S (length data)) (k + 2)) as (b & ->); [lia|unfold zlen in *; lia|]. cbn [bind].
    destruct b; [|exact T]. exists (Some acc). split; [reflexivity|]. intros b [= <-]. lia.
  - destruct ((_ <? n) || _) eqn:Q; [exact T|]. apply orb_false_elim in Q as [Q1 Q2].
    rewrite (rd_in data (k + 2 + n)), (rd_in data (k + 2 + n + 1)) by lia. cbn [bind].
    destruct (_ || _); [exact T|].
    destruct (IH (k + 2 + n + 2) (acc ++ ztake n (zskip (k + 2) data))) as (r & E & B); [lia|lia|].
    exists r. split; [exact E|]. intros b Hb. specialize (B b Hb). rewrite zlen_app, zlen_ztake in B; [lia|].
    rewrite zlen_zskip by lia. lia.
Qed.

(** Whatever the bytes, the batch decoder reads inside them and ends, and what
    it delivers is no longer than them. *)
Theorem C17_batch_any_bytes : forall data, exists r, decode_chunked_body data = Ret r /\ forall b, r = Some b -> zlen b <= zlen data.
Proof.
  intros data. unfold decode_chunked_body. destruct (chunk_loop_safe data (S (length data)) 0 []) as (r & E & B); [lia|unfold zlen; lia|].
  exists r. split; [exact E|]. intros b Hb. specialize (B b Hb). change (zlen (@nil Z)) with 0 in B. pose proof (zlen_nonneg data). lia.
Qed.
Print Assumptions C17_batch_any_bytes.

(** The two decoders do not agree on every input: a 17-digit size is refused by
    the batch decoder, while the streaming decoder lets it wrap to 1 and reports
    a complete one-byte body. *)
Definition overlong : list Z := [49] ++ repeat 48 15 ++ [49; CR; LF; 7; CR; LF] ++ format_last_chunk.
Theorem C17_overlong_size_refuted :
  ~ (forall data body, receive cd_init [data] [] = Ret (Rcv true true body []) -> decode_chunked_body data = ret body).
Proof.
  intros H. specialize (H overlong [7]). assert (decode_chunked_body overlong = throw) as E by (vm_compute; reflexivity).
  rewrite E in H. specialize (H ltac:(vm_compute; reflexivity)). discriminate H.
Qed.
Print Assumptions C17_overlong_size_refuted.
