(** Reading a main header from any bytes: every read is inside the codestream
    and the two bytes that follow it, the loops end, and what follows the
    codestream has no effect. *)
From Verif Require Import Base BaseLemmas SourceModel MarkerModel.

Definition defined {A} (m : ex A) : Prop := exists r, m = Ret r.
Lemma defined_ret {A} (a : A) : defined (ret a). Proof. eexists; reflexivity. Qed.
Lemma defined_throw {A} : defined (@throw A). Proof. eexists; reflexivity. Qed.
Lemma defined_bind {A B} (m : ex A) (f : A -> ex B) : defined m -> (forall a, m = ret a -> defined (f a)) -> defined (let? x := m in f x).
Proof. intros [[a|] ->] H; [apply (H a eq_refl)|apply defined_throw]. Qed.
Lemma defined_smap {A} (k : A -> seg) m : defined m -> defined (smap k m).
Proof. intros H. apply defined_bind; [exact H|]. intros. apply defined_ret. Qed.
Lemma bindx_ret {A B} (m : ex A) (f : A -> ex B) b : bindx m f = ret b -> exists a, m = ret a /\ f a = ret b.
Proof. destruct m as [[a|]| |]; cbn; try discriminate. intros H. exists a. split; [reflexivity|exact H]. Qed.
Lemma ret_pair {A B} (p p' : A) (a a' : B) : ret (p, a) = ret (p', a') -> p = p' /\ a = a'.
Proof. intros H. injection H as -> ->. split; reflexivity. Qed.

(** ** Inside one segment *)
Section Seg.
Context (lmar : Z) (g : list Z) (Hg : zlen g = lmar).

(** Reads forward, inside the segment. *)
Definition fwd {A} (f : Z -> ex (Z * A)) : Prop :=
  forall p, 0 <= p -> defined (f p) /\ (forall p' a, f p = ret (p', a) -> p < p' <= lmar).

Lemma fwd_byte : fwd (fbyte lmar g).
Proof.
  intros p Hp. unfold fbyte. destruct (lmar <=? p) eqn:E.
  - split; [eexists; reflexivity|]. intros; discriminate.
  - rewrite rd_in by lia. cbn. split; [eexists; reflexivity|]. intros p' a H. apply ret_pair in H as [H _]. lia.
Qed.
Lemma fwd_seq {A B C} (f : Z -> ex (Z * A)) (h : Z -> ex (Z * B)) (k : A -> B -> C) :
  fwd f -> fwd h -> fwd (fun p => let? (p, a) := f p in let? (p, b) := h p in ret (p, k a b)).
Proof.
  intros Hf Hh p Hp. destruct (Hf p Hp) as [[[[p1 a]|] E] H1]; rewrite E in *; cbn; [|split; [eexists; reflexivity|intros; discriminate]].
  specialize (H1 p1 a eq_refl). destruct (Hh p1 ltac:(lia)) as [[[[p2 b]|] E2] H2]; rewrite E2 in *; cbn; [|split; [eexists; reflexivity|intros; discriminate]].
  specialize (H2 p2 b eq_refl). split; [eexists; reflexivity|]. intros p' c H. apply ret_pair in H as [H _]. lia.
Qed.
Lemma fwd_word : fwd (fword lmar g). Proof. apply (fwd_seq _ _ (fun a b => ((a <<b 8) + b) mod 65536)); apply fwd_byte. Qed.
Lemma fwd_dword : fwd (fdword lmar g). Proof. apply (fwd_seq _ _ (fun a b => wrap32 ((a <<b 16) + b))); apply fwd_word. Qed.
Lemma fwd_bind {A B} (f : Z -> ex (Z * A)) (h : A -> Z -> ex (Z * B)) :
  fwd f -> (forall a, fwd (h a)) -> fwd (fun p => let? (p, a) := f p in h a p).
Proof.
  intros Hf Hh p Hp. destruct (Hf p Hp) as [[[[p1 a]|] E] H1]; rewrite E in *; cbn; [|split; [eexists; reflexivity|intros; discriminate]].
  specialize (H1 p1 a eq_refl). destruct (Hh a p1 ltac:(lia)) as [D H2]. split; [exact D|]. intros p' b H. specialize (H2 p' b H). lia.
Qed.
(** The last step may give up or succeed. *)
Definition fwd0 {A} (f : Z -> ex (Z * A)) : Prop :=
  forall p, 0 <= p -> defined (f p) /\ (forall p' a, f p = ret (p', a) -> p <= p' /\ (p' <= lmar \/ p' = p)).
Lemma fwd_end {A B} (f : Z -> ex (Z * A)) (h : A -> Z -> ex (Z * B)) :
  fwd f -> (forall a, fwd0 (h a)) -> fwd (fun p => let? (p, a) := f p in h a p).
Proof.
  intros Hf Hh p Hp. destruct (Hf p Hp) as [[[[p1 a]|] E] H1]; rewrite E in *; cbn; [|split; [eexists; reflexivity|intros; discriminate]].
  specialize (H1 p1 a eq_refl). destruct (Hh a p1 ltac:(lia)) as [D H2]. split; [exact D|]. intros p' b H. specialize (H2 p' b H). lia.
Qed.
Lemma fwd0_ret {A} (a : A) : fwd0 (fun p => ret (p, a)).
Proof. intros p Hp. split; [eexists; reflexivity|]. intros p' b H. apply ret_pair in H as [H _]. lia. Qed.
Lemma fwd0_throw {A} : fwd0 (fun p => @throw (Z * A)).
Proof. intros p Hp. split; [eexists; reflexivity|]. intros; discriminate. Qed.

Lemma fmany_defined {A} (f : Z -> ex (Z * A)) : fwd f -> forall fuel n p, 0 <= p -> lmar - p < Z.of_nat fuel -> (0 < fuel)%nat -> defined (fmany fuel n f p).
Proof.
  intros Hf. induction fuel; intros n p Hp Hfuel H0; [lia|].
  cbn [fmany]. destruct (n <=? 0); [apply defined_ret|].
  destruct (Hf p Hp) as [[[[p1 a]|] E] H1]; rewrite E in *; cbn; [|apply defined_throw].
  specialize (H1 p1 a eq_refl). destruct fuel; [lia|].
  apply defined_bind; [apply IHfuel; lia|]. intros [p2 l] _. apply defined_ret.
Qed.
Lemma loop_defined {A} (f : Z -> ex (Z * A)) n p : fwd f -> 0 <= p -> defined (loop lmar n f p).
Proof. intros Hf Hp. apply fmany_defined; [exact Hf|exact Hp|lia|lia]. Qed.

Lemma fwd_then {A B} (f : Z -> ex (Z * A)) (h : Z * A -> ex B) p :
  fwd f -> 0 <= p -> (forall p' a, 0 <= p' -> defined (h (p', a))) -> defined (let? x := f p in h x).
Proof. intros Hf Hp Hh. destruct (Hf p Hp) as [D H]. apply defined_bind; [exact D|]. intros [p' a] E. apply Hh. specialize (H p' a E). lia. Qed.

Lemma fwd_siz_comp : fwd (siz_comp lmar g).
Proof.
  unfold siz_comp. apply fwd_bind; [apply fwd_byte|]. intros a.
  apply fwd_bind; [apply fwd_byte|]. intros xr. apply fwd_end; [apply fwd_byte|]. intros yr.
  destruct ((xr =? 0) || (yr =? 0)); [apply fwd0_throw|apply fwd0_ret].
Qed.
Lemma fwd_comp_index C : fwd (comp_index lmar g C).
Proof. unfold comp_index. destruct (C <? 257); [apply fwd_byte|apply fwd_word]. Qed.
Lemma fwd_atk_step : fwd (atk_step lmar g).
Proof. unfold atk_step. apply (fwd_seq _ _ pair); [apply fwd_byte|apply fwd_dword]. Qed.
Lemma fwd_crg_entry : fwd (crg_entry lmar g).
Proof. unfold crg_entry. apply (fwd_seq _ _ pair); apply fwd_word. Qed.
Lemma fwd_poc_entry C : fwd (poc_entry lmar g C).
Proof.
  unfold poc_entry. apply fwd_bind; [apply fwd_byte|]. intros rs. apply fwd_bind; [apply fwd_comp_index|]. intros cs.
  apply fwd_bind; [apply fwd_word|]. intros lye. apply fwd_bind; [apply fwd_byte|]. intros re.
  apply (fwd_seq _ _ (fun ce po => Poc rs cs lye re ce po)); [apply fwd_comp_index|apply fwd_byte].
Qed.
Lemma fwd_if {A} (b : bool) (f h : Z -> ex (Z * A)) : fwd f -> fwd h -> fwd (fun p => if b then f p else h p).
Proof. destruct b; auto. Qed.
Lemma fwd_map {A B} (f : Z -> ex (Z * A)) (k : A -> B) : fwd f -> fwd (fun p => let? (p, a) := f p in ret (p, k a)).
Proof. intros Hf. apply (fwd_end f (fun a p => ret (p, k a))); [exact Hf|]. intros a. apply fwd0_ret. Qed.
Lemma fwd_tlm_entry ST SP : fwd (tlm_entry lmar g ST SP).
Proof.
  assert (V : fwd (fun p => if SP =? 0 then fword lmar g p else fdword lmar g p)) by (apply fwd_if; [apply fwd_word|apply fwd_dword]).
  unfold tlm_entry. destruct (ST =? 1); [|destruct (ST =? 2)].
  - apply (fwd_seq (fun p => let? (p, b) := fbyte lmar g p in ret (p, [b])) _ pair); [apply (fwd_map _ (fun b => [b])), fwd_byte|exact V].
  - apply (fwd_seq (fun p => let? (p, b) := fword lmar g p in ret (p, [b])) _ pair); [apply (fwd_map _ (fun b => [b])), fwd_word|exact V].
  - apply (fwd_map _ (fun v => ([], v)) V).
Qed.

Ltac fstep := first
  [ apply defined_ret | apply defined_throw
  | match goal with |- defined (if ?b then _ else _) => destruct b end
  | match goal with |- defined (bindx (loop _ _ _ _) _) => apply defined_bind; [apply loop_defined; [|lia]|intros [? ?] _] end
  | match goal with |- defined (bindx (fbyte _ _ _) _) => apply fwd_then; [apply fwd_byte|lia|intros ? ? ?] end
  | match goal with |- defined (bindx (fword _ _ _) _) => apply fwd_then; [apply fwd_word|lia|intros ? ? ?] end
  | match goal with |- defined (bindx (fdword _ _ _) _) => apply fwd_then; [apply fwd_dword|lia|intros ? ? ?] end
  | match goal with |- defined (bindx (comp_index _ _ _ _) _) => apply fwd_then; [apply fwd_comp_index|lia|intros ? ? ?] end
  | apply fwd_byte | apply fwd_word | apply fwd_dword | apply fwd_siz_comp | apply fwd_atk_step | apply fwd_crg_entry | apply fwd_poc_entry | apply fwd_tlm_entry ].

Lemma siz_defined : defined (parse_siz lmar g). Proof. unfold parse_siz. repeat fstep. Qed.
Lemma cap_loop_defined : forall is P n p, 0 <= p -> defined (cap_loop lmar g is P n p).
Proof.
  induction is; intros P n p Hp; cbn [cap_loop]; [fstep|]. destruct (Z.testbit P (31 - a)).
  - fstep. apply defined_bind; [apply IHis; lia|]. intros [? ?] _. fstep.
  - apply defined_bind; [apply IHis; lia|]. intros [? ?] _. fstep.
Qed.
Lemma cap_defined : defined (parse_cap lmar g).
Proof. unfold parse_cap. fstep. apply defined_bind; [apply cap_loop_defined; lia|]. intros [? ?] _. repeat fstep. Qed.
Lemma cpf_defined : defined (parse_cpf lmar g). Proof. unfold parse_cpf. repeat fstep. Qed.
Lemma prf_defined : defined (parse_prf lmar g). Proof. unfold parse_prf. repeat fstep. Qed.
Lemma cod_defined : defined (parse_cod lmar g). Proof. unfold parse_cod. repeat fstep. Qed.
Lemma coc_defined C : defined (parse_coc lmar g C). Proof. unfold parse_coc. repeat fstep. Qed.
Lemma rgn_defined C : defined (parse_rgn lmar g C). Proof. unfold parse_rgn. repeat fstep. Qed.
Lemma dfs_defined : defined (parse_dfs lmar g). Proof. unfold parse_dfs. repeat fstep. Qed.
Lemma atk_defined : defined (parse_atk lmar g). Proof. unfold parse_atk. repeat fstep. Qed.
Lemma qcd_defined : defined (parse_qcd lmar g). Proof. unfold parse_qcd. repeat fstep. Qed.
Lemma qcc_defined C : defined (parse_qcc lmar g C). Proof. unfold parse_qcc. repeat fstep. Qed.
Lemma poc_defined C : defined (parse_poc lmar g C). Proof. unfold parse_poc. repeat fstep. Qed.
Lemma tlm_defined : defined (parse_tlm lmar g). Proof. unfold parse_tlm. repeat fstep. Qed.
Lemma raw_defined : defined (parse_raw lmar g). Proof. unfold parse_raw. repeat fstep. Qed.
Lemma crg_defined : defined (parse_crg lmar g). Proof. unfold parse_crg. repeat fstep. Qed.
Lemma com_defined : defined (parse_com lmar g). Proof. unfold parse_com. repeat fstep. Qed.
Lemma sot_defined : defined (parse_sot lmar g). Proof. unfold parse_sot. repeat fstep. Qed.
Lemma with_C_defined {A} C (f : Z -> ex A) : (forall c, defined (f c)) -> defined (with_C C f).
Proof. intros H. destruct C; [apply H|apply defined_throw]. Qed.

Lemma main_parser_defined w C f base : main_parser w C = Some f -> defined (f lmar base g).
Proof.
  unfold main_parser.
  repeat match goal with |- (if ?b then Some ?k else _) = Some f -> _ => destruct b; [intros H; assert (E : k = f) by congruence; rewrite <- E; clear H E|] end; [..|discriminate].
  all: try (apply with_C_defined; intros c); apply defined_smap;
    first [apply siz_defined|apply cap_defined|apply prf_defined|apply cod_defined|apply coc_defined|apply tlm_defined|apply raw_defined|apply cpf_defined|apply qcd_defined|apply qcc_defined|apply rgn_defined|apply poc_defined|apply crg_defined|apply com_defined|apply dfs_defined|apply atk_defined].
Qed.
End Seg.

(** ** On the source *)
Notation word_at d p := ((Z.shiftl (znth 0 d p) 8 + znth 0 d (p + 1)) mod 65536).
Lemma two32_val : two32 = 4294967296. Proof. reflexivity. Qed.
Lemma wrap32_id v : 0 <= v < two32 -> wrap32 v = v. Proof. intros. unfold wrap32. apply Z.mod_small. assumption. Qed.

Lemma lift_word d n p : 1 <= n <= zlen d -> n < two32 -> 0 <= p ->
  lift (SourceModel.get_word (Src (Some d) p n)) = if n - 2 <? p then throw else ret (Src (Some d) (p + 2) n, word_at d p).
Proof.
  intros Hn H32 Hp. pose proof two32_val. unfold SourceModel.get_word, SourceModel.get_byte, andthen, at_buf. cbn [len data pos].
  destruct (Z.eq_dec n 1) as [->|H1].
  { replace (1 - 2 <? p) with true by lia. change (wrap32 (1 - 2)) with 4294967295. change (wrap32 (1 - 1)) with 0.
    destruct (4294967295 <? p) eqn:E; [reflexivity|]. destruct (0 <? p) eqn:E1; [reflexivity|].
    assert (p = 0) by lia. subst p. rewrite rd_in by lia. cbn. reflexivity. }
  rewrite (wrap32_id (n - 2)) by lia. destruct (n - 2 <? p) eqn:E; [reflexivity|].
  rewrite (wrap32_id (n - 1)) by lia. replace (n - 1 <? p) with false by lia.
  rewrite rd_in by lia. cbn [bind]. unfold good. cbn [len data pos].
  rewrite (wrap32_id (p + 1)) by lia. rewrite (wrap32_id (n - 1)) by lia. replace (n - 1 <? p + 1) with false by lia.
  rewrite rd_in by lia. cbn [bind]. unfold lift. cbn [len data pos]. rewrite (wrap32_id (p + 1 + 1)) by lia.
  replace (p + 1 + 1) with (p + 2) by ring. reflexivity.
Qed.

(** What a segment's head gives: an exception, or the announced length, all of
    it inside the codestream. *)
Lemma open_eq d n p : n <= zlen d -> n < two32 -> 0 <= p -> p + 2 <= n ->
  open_segment (Src (Some d) p n) =
  let L := word_at d p in
  if (L <? 2) || (n <? p + L) then throw else ret (Src (Some d) (p + L) n, (L, p + 2, ztake L (zskip (p + 2) d))).
Proof.
  intros Hn H32 Hp H2. pose proof two32_val. unfold open_segment. rewrite lift_word by lia. replace (n - 2 <? p) with false by lia.
  cbn zeta. assert (HL : 0 <= word_at d p < 65536) by (apply Z.mod_pos_bound; lia). set (L := word_at d p) in *.
  cbn [bindx ret pos]. unfold get_N_byte. cbn [len data pos]. rewrite (wrap32_id (n - (p + 2))) by lia.
  replace (n <? p + 2) with false by lia. cbn [orb].
  destruct (L <? 2) eqn:E2; cbn [orb].
  { assert (W : wrap32 (L - 2) = L - 2 + two32) by (unfold wrap32; symmetry; apply Z.mod_unique with (-1); [left|]; rewrite two32_val in *; lia).
    rewrite W. replace (n - (p + 2) <? L - 2 + two32) with true by lia. reflexivity. }
  rewrite (wrap32_id (L - 2)) by lia. destruct (n <? p + L) eqn:E3.
  - replace (n - (p + 2) <? L - 2) with true by lia. reflexivity.
  - replace (n - (p + 2) <? L - 2) with false by lia. replace (p + 2 + (L - 2) <=? zlen d) with true by lia. unfold good, lift. cbn [bindx ret mem data]. rewrite (wrap32_id (p + 2 + (L - 2))) by lia.
    replace (p + 2 + (L - 2)) with (p + L) by ring. reflexivity.
Qed.
Lemma skip_eq d n p w : n <= zlen d -> n <= two32 - 65552 -> 0 <= p -> p + 2 <= n -> (w <? 65328) || (65343 <? w) = true ->
  skip_unknown (Src (Some d) p n) w =
  let L := word_at d p in if n <? p + Z.max 2 L then throw else ret (Src (Some d) (p + Z.max 2 L) n, L).
Proof.
  intros Hn H32 Hp H2 Ew. pose proof two32_val. unfold skip_unknown. rewrite Ew. rewrite lift_word by lia. replace (n - 2 <? p) with false by lia. cbn zeta. cbn [bindx ret].
  assert (HL : 0 <= word_at d p < 65536) by (apply Z.mod_pos_bound; lia). set (L := word_at d p) in *.
  destruct (2 <=? L) eqn:E2.
  - unfold forward_Nbytes. cbn [len data pos]. rewrite (wrap32_id (p + 2 + (L - 2))) by lia. rewrite Z.max_r by lia.
    replace (p + 2 + (L - 2)) with (p + L) by ring. destruct (n <? p + L) eqn:E3.
    + replace (p + L <=? n) with false by lia. reflexivity.
    + replace (p + L <=? n) with true by lia. reflexivity.
  - rewrite Z.max_l by lia. replace (n <? p + 2) with false by lia. reflexivity.
Qed.

(** The bytes a segment shows do not come from behind the codestream, unless
    the segment touches the end. *)
Lemma shown_same (input pad : list Z) L p : 0 <= p -> 0 <= L -> p + L <= zlen input -> ztake L (zskip p (input ++ pad)) = ztake L (zskip p input).
Proof. intros. rewrite zskip_app_le by lia. rewrite ztake_app_le; [reflexivity|]. rewrite zlen_zskip by lia. lia. Qed.
Lemma word_same input pad p : 0 <= p -> p + 1 < zlen input -> word_at (input ++ pad) p = word_at input p.
Proof. intros. rewrite !znth_app_l by lia. reflexivity. Qed.
Lemma zlen_shown (d : list Z) L p : 0 <= p -> 0 <= L -> p + L <= zlen d -> zlen (ztake L (zskip p d)) = L.
Proof. intros. rewrite zlen_ztake; [reflexivity|]. rewrite zlen_zskip by lia. lia. Qed.

(** Packed headers that lie in the first [n] bytes. *)
Definition seg_in (n : Z) (x : seg) : Prop :=
  match x with SPpm (_, p, k) => 0 <= p /\ 0 <= k /\ p + k <= n | _ => True end.

Lemma main_parser_in w C f L p g x n : main_parser w C = Some f -> f L p g = ret x -> 3 <= L < 65536 \/ (w <> M_PPM /\ 2 <= L) -> 0 <= p -> p + L <= n + 2 ->
  seg_in n x.
Proof.
  unfold main_parser. intros H Hx HL Hp Hn. revert H.
  repeat match goal with |- (if ?b then Some ?k else _) = Some f -> _ => destruct b eqn:?Ew; [intros H; assert (E : k = f) by congruence; rewrite <- E in Hx; clear H E|] end; [..|discriminate].
  all: try (unfold with_C in Hx; destruct C; [|discriminate Hx]).
  all: unfold smap in Hx; apply bindx_ret in Hx as (a & Ha & Hx); injection Hx as <-; try exact I.
  cbn. unfold parse_raw in Ha. apply bindx_ret in Ha as ([p1 z] & Hb & Ha). injection Ha as <-.
  assert (p1 = 1). { unfold fbyte in Hb. destruct (L <=? 0); [discriminate Hb|]. unfold rd in Hb. destruct ((0 <=? 0) && (0 <? zlen g)); [|discriminate Hb]. cbn in Hb. apply ret_pair in Hb as [Hb _]. lia. }
  subst p1. cbn. destruct HL as [HL|[HL _]]; [|lia]. rewrite Z.mod_small by lia. lia.
Qed.

(** No packed-header segment announces a length of 2. *)
Definition no_empty_ppm (input : list Z) : Prop := forall a b, input <> a ++ [255; 96; 0; 2] ++ b.

Lemma word_bytes d p : bytes_ok d -> 0 <= p -> p + 1 < zlen d -> word_at d p = 256 * znth 0 d p + znth 0 d (p + 1).
Proof.
  intros Hd Hp H. pose proof (bytes_ok_nth d p Hd ltac:(lia)). pose proof (bytes_ok_nth d (p + 1) Hd ltac:(lia)).
  rewrite Z.shiftl_mul_pow2 by lia. change (2 ^ 8) with 256. rewrite Z.mod_small by lia. lia.
Qed.
Lemma split4 d p : 0 <= p -> p + 4 <= zlen d -> d = ztake p d ++ [znth 0 d p; znth 0 d (p + 1); znth 0 d (p + 2); znth 0 d (p + 3)] ++ zskip (p + 4) d.
Proof.
  intros Hp H. rewrite <- (ztake_zskip p d) at 1. f_equal.
  rewrite (zskip_cons_nth 0 d p) by lia. rewrite (zskip_cons_nth 0 d (p + 1)) by lia.
  replace (p + 1 + 1) with (p + 2) by ring. rewrite (zskip_cons_nth 0 d (p + 2)) by lia.
  replace (p + 2 + 1) with (p + 3) by ring. rewrite (zskip_cons_nth 0 d (p + 3)) by lia.
  replace (p + 3 + 1) with (p + 4) by ring. reflexivity.
Qed.
Lemma ppm_at_least_3 input p : bytes_ok input -> no_empty_ppm input -> 0 <= p -> p + 4 <= zlen input ->
  word_at input p = M_PPM -> 2 <= word_at input (p + 2) -> 3 <= word_at input (p + 2).
Proof.
  intros Hb Hno Hp Hl Hw H2. destruct (Z.eq_dec (word_at input (p + 2)) 2) as [E|E]; [|lia]. exfalso.
  rewrite word_bytes in Hw, E by (try assumption; lia). replace (p + 2 + 1) with (p + 3) in E by ring.
  pose proof (bytes_ok_nth input p Hb ltac:(lia)). pose proof (bytes_ok_nth input (p + 1) Hb ltac:(lia)).
  pose proof (bytes_ok_nth input (p + 2) Hb ltac:(lia)). pose proof (bytes_ok_nth input (p + 3) Hb ltac:(lia)).
  unfold M_PPM in Hw. apply (Hno (ztake p input) (zskip (p + 4) input)).
  rewrite (split4 input p) at 1 by lia. repeat f_equal; lia.
Qed.

Section Read.
Context (input : list Z) (Hb : bytes_ok input) (Hn : 1 <= zlen input <= two32 - 65552) (Hno : no_empty_ppm input).
Local Notation n := (zlen input).
Definition place (pad : list Z) (r : option (Z * hdr)) : ex (src * hdr) :=
  Ret (option_map (fun x : Z * hdr => (Src (Some (input ++ pad)) (fst x) n, snd x)) r).

Lemma segments_same : forall k p h, 0 <= p <= n -> n - p < Z.of_nat k -> Forall (seg_in n) (now h) ->
  exists r, (forall pad fuel, 2 <= zlen pad -> n - p < Z.of_nat fuel -> read_segments fuel (Src (Some (input ++ pad)) p n) h = place pad r)
    /\ match r with Some (p', h') => 2 <= p' <= n /\ Forall (seg_in n) (now h') | None => True end.
Proof.
  pose proof two32_val. assert (H32 : n < two32) by lia.
  induction k; intros p h Hp Hk Hh; [lia|].
  assert (Hlen : forall pad : list Z, zlen (input ++ pad) = n + zlen pad) by (intros; apply zlen_app).
  destruct (Z_lt_ge_dec (n - 2) p) as [Hend|Hend].
  { exists None. split; [|exact I]. intros pad fuel Hpad Hf. destruct fuel; [lia|]. cbn [read_segments].
    rewrite lift_word by (rewrite ?Hlen; lia). replace (n - 2 <? p) with true by lia. reflexivity. }
  destruct (Z.eq_dec (word_at input p) M_SOT) as [Hsot|Hsot].
  { exists (Some (p + 2, h)). split; [|split; [lia|exact Hh]]. intros pad fuel Hpad Hf. destruct fuel; [lia|]. cbn [read_segments].
    rewrite lift_word by (rewrite ?Hlen; lia). replace (n - 2 <? p) with false by lia. cbn [bindx ret].
    rewrite word_same by lia. rewrite Hsot, Z.eqb_refl. reflexivity. }
  (* one step of the loop, the same whatever follows *)
  assert (Hstep : forall pad fuel, 2 <= zlen pad -> read_segments (S fuel) (Src (Some (input ++ pad)) p n) h =
     match main_parser (word_at input p) (option_map Csiz (h_siz h)) with
     | Some parse =>
       let? (s, (lmar, base, g)) := open_segment (Src (Some (input ++ pad)) (p + 2) n) in
       let? x := parse lmar base g in read_segments fuel s (Hdr (before h) (now h ++ [x]) (ppm h))
     | None => let? (s, _) := skip_unknown (Src (Some (input ++ pad)) (p + 2) n) (word_at input p) in read_segments fuel s h
     end).
  { intros pad fuel Hpad. cbn [read_segments]. rewrite lift_word by (rewrite ?Hlen; lia). replace (n - 2 <? p) with false by lia. cbn [bindx ret].
    rewrite word_same by lia. replace (word_at input p =? M_SOT) with false by lia. reflexivity. }
  destruct (main_parser (word_at input p) (option_map Csiz (h_siz h))) as [parse|] eqn:Ep.
  - (* a known marker *)
    destruct (Z_lt_ge_dec (n - 2) (p + 2)) as [Hend2|Hend2].
    { exists None. split; [|exact I]. intros pad fuel Hpad Hf. destruct fuel; [lia|]. rewrite Hstep by lia.
      unfold open_segment. rewrite lift_word by (rewrite ?Hlen; lia). replace (n - 2 <? p + 2) with true by lia. reflexivity. }
    set (L := word_at input (p + 2)) in *.
    assert (HL : 0 <= L < 65536) by (apply Z.mod_pos_bound; lia).
    assert (Hopen : forall pad, 2 <= zlen pad -> open_segment (Src (Some (input ++ pad)) (p + 2) n) =
       if (L <? 2) || (n <? p + 2 + L) then throw else ret (Src (Some (input ++ pad)) (p + 2 + L) n, (L, p + 4, ztake L (zskip (p + 4) (input ++ pad))))).
    { intros pad Hpad. rewrite open_eq by (rewrite ?Hlen; lia). rewrite word_same by lia. replace (p + 2 + 2) with (p + 4) by ring. reflexivity. }
    destruct ((L <? 2) || (n <? p + 2 + L)) eqn:Ebad.
    { exists None. split; [|exact I]. intros pad fuel Hpad Hf. destruct fuel; [lia|]. rewrite Hstep by lia. rewrite Hopen by lia. reflexivity. }
    apply orb_false_elim in Ebad as [E2 E3].
    assert (H3 : word_at input p = M_PPM -> 3 <= L). { intros Hw. apply (ppm_at_least_3 input p Hb Hno); [lia|lia|exact Hw|fold L; lia]. }
    destruct (Z_lt_ge_dec n (p + 4 + L)) as [Hover|Hin].
    + (* the segment touches the end: nothing can follow *)
      exists None. split; [|exact I]. intros pad fuel Hpad Hf. destruct fuel; [lia|]. rewrite Hstep by lia. rewrite Hopen by lia. cbn [bindx ret].
      destruct (main_parser_defined L (ztake L (zskip (p + 4) (input ++ pad))) ltac:(apply zlen_shown; rewrite ?Hlen; lia) _ _ _ (p + 4) Ep) as [[x|] Ex]; rewrite Ex; [|reflexivity].
      cbn [bindx ret]. destruct fuel; [lia|]. cbn [read_segments]. rewrite lift_word by (rewrite ?Hlen; lia).
      replace (n - 2 <? p + 2 + L) with true by lia. reflexivity.
    + set (g := ztake L (zskip (p + 4) input)).
      destruct (main_parser_defined L g ltac:(apply zlen_shown; lia) _ _ _ (p + 4) Ep) as [[x|] Ex].
      * destruct (IHk (p + 2 + L) (Hdr (before h) (now h ++ [x]) (ppm h))) as (r & Hr & Hr'); [lia|lia| |].
        { cbn [now]. apply Forall_app. split; [exact Hh|]. constructor; [|constructor].
          apply (main_parser_in _ _ _ _ _ _ _ n Ep Ex); [|lia|lia]. destruct (Z.eq_dec (word_at input p) M_PPM) as [Ew|Ew]; [left; specialize (H3 Ew); lia|right; lia]. }
        exists r. split; [|exact Hr']. intros pad fuel Hpad Hf. destruct fuel; [lia|]. rewrite Hstep by lia. rewrite Hopen by lia. cbn [bindx ret].
        rewrite shown_same by lia. fold g. rewrite Ex. cbn [bindx ret]. apply Hr; lia.
      * exists None. split; [|exact I]. intros pad fuel Hpad Hf. destruct fuel; [lia|]. rewrite Hstep by lia. rewrite Hopen by lia. cbn [bindx ret].
        rewrite shown_same by lia. fold g. rewrite Ex. reflexivity.
  - (* an unknown one *)
    destruct ((word_at input p <? 65328) || (65343 <? word_at input p)) eqn:Ew.
    + destruct (Z_lt_ge_dec (n - 2) (p + 2)) as [Hend2|Hend2].
      { exists None. split; [|exact I]. intros pad fuel Hpad Hf. destruct fuel; [lia|]. rewrite Hstep by lia.
        unfold skip_unknown. rewrite Ew. rewrite lift_word by (rewrite ?Hlen; lia). replace (n - 2 <? p + 2) with true by lia. reflexivity. }
      set (L := word_at input (p + 2)) in *.
      assert (HL : 0 <= L < 65536) by (apply Z.mod_pos_bound; lia).
      assert (Hskip : forall pad, 2 <= zlen pad -> skip_unknown (Src (Some (input ++ pad)) (p + 2) n) (word_at input p) =
        if n <? p + 2 + Z.max 2 L then throw else ret (Src (Some (input ++ pad)) (p + 2 + Z.max 2 L) n, L)).
      { intros pad Hpad. rewrite skip_eq by (rewrite ?Hlen; first [lia|exact Ew]). rewrite word_same by lia. reflexivity. }
      destruct (n <? p + 2 + Z.max 2 L) eqn:E3.
      * exists None. split; [|exact I]. intros pad fuel Hpad Hf. destruct fuel; [lia|]. rewrite Hstep by lia. rewrite Hskip by lia. reflexivity.
      * destruct (IHk (p + 2 + Z.max 2 L) h) as (r & Hr & Hr'); [lia|lia|exact Hh|].
        exists r. split; [|exact Hr']. intros pad fuel Hpad Hf. destruct fuel; [lia|]. rewrite Hstep by lia. rewrite Hskip by lia. cbn [bindx ret]. apply Hr; lia.
    + destruct (IHk (p + 2) h) as (r & Hr & Hr'); [lia|lia|exact Hh|].
      exists r. split; [|exact Hr']. intros pad fuel Hpad Hf. destruct fuel; [lia|]. rewrite Hstep by lia. unfold skip_unknown. rewrite Ew. cbn [bindx ret]. apply Hr; lia.
Qed.

Lemma ppm_in : forall l, Forall (seg_in n) l -> exists b, forall pad, ppm_bytes (input ++ pad) (all_of is_ppm l) = Ret b.
Proof.
  induction l as [|x l IH]; intros H; [exists []; reflexivity|]. inversion H as [|? ? Hx Hl]; subst. destruct (IH Hl) as (b & Hb').
  destruct x; cbn [all_of is_ppm]; try (exists b; exact Hb').
  destruct x as [[z p] k]. cbn in Hx. exists (ztake k (zskip p input) ++ b). intros pad. cbn [ppm_bytes].
  rewrite zlen_app. pose proof (zlen_nonneg pad). replace (p + k <=? n + zlen pad) with true by lia. rewrite Hb'. cbn [bind]. rewrite shown_same by lia. reflexivity.
Qed.
Lemma ppm_pieces_defined : forall fuel b, (length b < fuel)%nat -> defined (ppm_pieces fuel b).
Proof.
  induction fuel; intros b Hf; [lia|]. cbn [ppm_pieces].
  destruct b as [|b0 [|b1 [|b2 [|b3 r]]]]; try (eexists; reflexivity).
  match goal with |- context [zlen r <? ?v] => set (v0 := v); destruct (zlen r <? v0) eqn:E end; [eexists; reflexivity|].
  apply defined_bind; [|intros; eexists; reflexivity]. apply IHfuel. cbn in Hf.
  unfold zskip. rewrite skipn_length. lia.
Qed.

Lemma header_same h : exists r, (forall pad, 2 <= zlen pad -> read_header (Src (Some (input ++ pad)) 0 n) h = place pad r)
  /\ match r with Some (p, h') => 2 <= p <= n | None => True end.
Proof.
  pose proof two32_val. assert (H32 : n < two32) by lia.
  assert (Hlen : forall pad : list Z, zlen (input ++ pad) = n + zlen pad) by (intros; apply zlen_app).
  destruct (Z_lt_ge_dec (n - 2) 0) as [Hend|Hend].
  { exists None. split; [|exact I]. intros pad Hpad. unfold read_header. rewrite lift_word by (rewrite ?Hlen; lia). replace (n - 2 <? 0) with true by lia. reflexivity. }
  destruct (segments_same (S (Z.to_nat n)) 2 (Hdr (before h ++ now h) [] None)) as (r & Hr & Hr'); [lia|lia|constructor|].
  assert (Hstart : forall pad, 2 <= zlen pad -> read_header (Src (Some (input ++ pad)) 0 n) h =
     let? (s, h) := place pad r in
     match all_of is_ppm (now h) with
     | [] => ret (s, h)
     | l => let* b := ppm_bytes (mem s) l in let? pcs := ppm_pieces (S (length b)) b in ret (s, Hdr (before h) (now h) (Some pcs))
     end).
  { intros pad Hpad. unfold read_header. rewrite lift_word by (rewrite ?Hlen; lia). replace (n - 2 <? 0) with false by lia. cbn [bindx ret]. cbn [Z.add].
    rewrite Hr; [reflexivity|lia|]. cbn [mem data]. specialize (Hlen pad). unfold zlen in Hlen at 1. lia. }
  destruct r as [[p' h']|].
  2:{ exists None. split; [|exact I]. intros pad Hpad. rewrite Hstart by lia. reflexivity. }
  destruct Hr' as [Hp' Hh']. destruct (ppm_in _ Hh') as (b & Hb').
  destruct (all_of is_ppm (now h')) as [|x l] eqn:El.
  { exists (Some (p', h')). split; [|lia]. intros pad Hpad. rewrite Hstart by lia. cbn. rewrite El. reflexivity. }
  destruct (ppm_pieces_defined (S (length b)) b ltac:(lia)) as [[pcs|] Epcs].
  - exists (Some (p', Hdr (before h') (now h') (Some pcs))). split; [|lia]. intros pad Hpad. rewrite Hstart by lia. unfold place at 1. cbn [option_map bindx ret fst snd]. rewrite El. rewrite <- El.
    cbn [mem data]. rewrite El. rewrite Hb'. cbn [bind]. rewrite Epcs. reflexivity.
  - exists None. split; [|exact I]. intros pad Hpad. rewrite Hstart by lia. unfold place at 1. cbn [option_map bindx ret fst snd]. rewrite El.
    cbn [mem data]. rewrite Hb'. cbn [bind]. rewrite Epcs. reflexivity.
Qed.
End Read.
