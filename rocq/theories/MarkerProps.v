(** C63: the main header written by the encoder is read back with every setting. *)
From Coq Require Import Bool.
From Verif Require Import Base BaseLemmas SourceModel MarkerModel MarkerSafe MarkerRound HeaderRound HeaderItems MarkerSpec.

Lemma ret_inj {A} (a b : A) : ret a = ret b -> a = b.
Proof. intros H. unfold ret in H. congruence. Qed.

Lemma sizes_good x : sizes_ok x -> siz_good x.
Proof.
  intros [(A1 & A2 & A3 & A4 & A5 & A6 & A7 & A8 & A9) [B1 B2] D]. unfold siz_good, u16, u32. rewrite two32_val. unfold in_word, in_dword in *.
  repeat (split; [assumption|]). eapply Forall_impl; [|exact D]. intros [[a b] c] (H1 & H2 & H3). exact (conj H1 (conj H2 H3)).
Qed.

Lemma wrap_range v : u32 (wrap32 v).
Proof. unfold u32, wrap32. apply Z.mod_pos_bound. rewrite two32_val. lia. Qed.

(** The sizes after the encoder's own checks. *)
Definition checked (x : siz) : siz :=
  Siz (Rsiz x) (Xsiz x) (Ysiz x) (XOsiz x) (YOsiz x) (fst (tile_size x)) (snd (tile_size x)) (XTOsiz x) (YTOsiz x) (Csiz x) (Comps x).
Lemma check_siz_eq x0 : sizes_ok x0 -> tiles_fit x0 -> check_siz x0 =
  if ((Xsiz x0 <? XOsiz x0) || (Ysiz x0 <? YOsiz x0)) || ((XOsiz x0 <? XTOsiz x0) || (YOsiz x0 <? YTOsiz x0)) then throw
  else if (XTOsiz x0 + fst (tile_size x0) <=? XOsiz x0) || (YTOsiz x0 + snd (tile_size x0) <=? YOsiz x0) then throw else ret (checked x0).
Proof.
  intros Hok (HXY & HX & HY). pose proof (sizes_good _ Hok) as (A1 & A2 & A3 & A4 & A5 & A6 & A7 & A8 & A9 & A10 & A11 & A12). unfold u32 in *. pose proof two32_val as E32.
  unfold check_siz. destruct ((Xsiz x0 <? XOsiz x0) || (Ysiz x0 <? YOsiz x0)) eqn:E1; [reflexivity|].
  destruct ((XOsiz x0 <? XTOsiz x0) || (YOsiz x0 <? YTOsiz x0)) eqn:E2; [reflexivity|]. cbn [orb]. cbv zeta.
  assert (EX : wrap32 (Xsiz x0 - XOsiz x0) = Xsiz x0 - XOsiz x0) by (apply wrap32_id; lia). assert (EY : wrap32 (Ysiz x0 - YOsiz x0) = Ysiz x0 - YOsiz x0) by (apply wrap32_id; lia).
  assert (E0 : wrap32 (XTsiz x0 * YTsiz x0) = XTsiz x0 * YTsiz x0) by (apply wrap32_id; nia). rewrite E0, EX, EY.
  unfold checked. unfold tile_size in *. destruct ((XTsiz x0 =? 0) || (YTsiz x0 =? 0)) eqn:E3; cbn [fst snd] in *.
  - replace (XTsiz x0 * YTsiz x0 =? 0) with true by (symmetry; apply Z.eqb_eq; apply orb_prop in E3 as [E3|E3]; apply Z.eqb_eq in E3; rewrite E3; ring).
    cbn [XTOsiz XTsiz XOsiz YTOsiz YTsiz YOsiz]. rewrite !wrap32_id by lia. reflexivity.
  - apply orb_false_elim in E3 as [E3 E4]. apply Z.eqb_neq in E3, E4. replace (XTsiz x0 * YTsiz x0 =? 0) with false by (symmetry; apply Z.eqb_neq; nia).
    rewrite !wrap32_id by lia. destruct x0; reflexivity.
Qed.
Lemma tile_size_range x : sizes_ok x -> XOsiz x <= Xsiz x -> YOsiz x <= Ysiz x -> 0 <= fst (tile_size x) /\ 0 <= snd (tile_size x).
Proof.
  intros Hok HX HY. pose proof (sizes_good _ Hok) as (A1 & A2 & A3 & A4 & A5 & A6 & A7 & A8 & A9 & A10 & A11 & A12). unfold u32 in *.
  unfold tile_size. destruct ((XTsiz x =? 0) || (YTsiz x =? 0)); cbn [fst snd]; lia.
Qed.

Lemma lor_u16 a : u16 a -> u16 (Z.lor a 16384).
Proof.
  intros H. unfold u16 in *. assert (Hn : 0 <= Z.lor a 16384) by (apply Z.lor_nonneg; lia). split; [exact Hn|].
  destruct (Z.eq_dec (Z.lor a 16384) 0); [lia|]. change 65536 with (2 ^ 16). apply Z.log2_lt_pow2; [lia|]. rewrite Z.log2_lor by lia. apply Z.max_lub_lt.
  - destruct (Z.eq_dec a 0) as [->|]; [reflexivity|]. apply Z.log2_lt_pow2; lia.
  - reflexivity.
Qed.

(** Guard bits and style share a byte. *)
Lemma head_byte st g : 0 <= st <= 2 -> 0 <= g <= 7 ->
  let v := (st + (g <<b 5)) mod 256 in u8 v /\ quant_style v = st /\ get_number_of_guardbits v = g.
Proof.
  intros Hs Hg. cbv zeta. assert (G : forallb (fun s => forallb (fun g => let v := (s + (g <<b 5)) mod 256 in (quant_style v =? s) && (get_number_of_guardbits v =? g)) (zseq 8)) (zseq 3) = true) by reflexivity.
  rewrite forallb_forall in G. specialize (G st). assert (In st (zseq 3)) as Hin by (apply in_map_iff; exists (Z.to_nat st); split; [lia|apply in_seq; cbn; lia]). specialize (G Hin). rewrite forallb_forall in G.
  specialize (G g). assert (In g (zseq 8)) as Hin2 by (apply in_map_iff; exists (Z.to_nat g); split; [lia|apply in_seq; cbn; lia]). specialize (G Hin2). cbv zeta in G. apply andb_prop in G as [G1 G2].
  split; [apply Z.mod_pos_bound; lia|]. split; apply Z.eqb_eq; assumption.
Qed.

(** A precinct's two exponents share a byte. *)
Lemma pp_byte a b : 0 <= a <= 15 -> 0 <= b <= 15 -> let v := (a + (b <<b 4)) mod 256 in v &b 15 = a /\ (v &b 240) >>b 4 = b.
Proof.
  intros Ha Hb. cbv zeta. assert (G : forallb (fun a => forallb (fun b => let v := (a + (b <<b 4)) mod 256 in (v &b 15 =? a) && ((v &b 240) >>b 4 =? b)) (zseq 16)) (zseq 16) = true) by reflexivity.
  rewrite forallb_forall in G. specialize (G a). assert (In a (zseq 16)) as Hin by (apply in_map_iff; exists (Z.to_nat a); split; [lia|apply in_seq; cbn; lia]). specialize (G Hin). rewrite forallb_forall in G.
  specialize (G b). assert (In b (zseq 16)) as Hin2 by (apply in_map_iff; exists (Z.to_nat b); split; [lia|apply in_seq; cbn; lia]). specialize (G Hin2). cbv zeta in G. apply andb_prop in G as [G1 G2].
  split; apply Z.eqb_eq; assumption.
Qed.

Lemma last_or_znth l i : 0 <= i -> last_or l 0 (Z.to_nat i) = znth 0 l (Z.min i (zlen l - 1)).
Proof.
  intros Hi. unfold last_or, znth. destruct l as [|a l]; [cbn; destruct (Z.to_nat _); reflexivity|].
  replace (Z.to_nat (Z.min i (zlen (a :: l) - 1))) with (Nat.min (Z.to_nat i) (length (a :: l) - 1)); [reflexivity|]. unfold zlen. cbn [length]. lia.
Qed.
Lemma znth_pp l i : Forall (fun v => 0 <= v <= 15) l -> 0 <= znth 0 l i <= 15.
Proof. intros H. unfold znth. destruct (nth_in_or_default (Z.to_nat i) l 0) as [Hin| ->]; [|lia]. rewrite Forall_forall in H. apply H. exact Hin. Qed.

(** The coding style segment holds the settings. *)
Lemma make_cod_reads P Lc c : coding_ok P -> make_cod P = ret (Lc, c) ->
  cod_good c /\ zlen (SPcod c) <= 100 /\ Lc = 7 + zlen (SPcod c)
  /\ is_use_SOP c = p_SOP P /\ is_use_EPH c = p_EPH P /\ is_maximum_precincts c = p_max P
  /\ get_progression_order c = p_order P /\ get_number_of_layers c = p_layers P /\ use_color_trafo c = p_color P
  /\ get_dwt_levels c = Ret (p_levels P) /\ get_codeblock_size c = ret (2 ^ (blkwidth P + 2), 2 ^ (blkheight P + 2))
  /\ get_Cmodes c = Ret (p_style P) /\ get_transformation c = Ret (p_transf P)
  /\ forall r, 0 <= r <= p_levels P ->
       get_precinct_size c r = ret (if p_max P then (15, 15) else (precinct_exponent P (PPx P) r, precinct_exponent P (PPy P) r)).
Proof.
  intros [Hlv Ho Hly Hcl (Hbw & Hbh & Hbs) Hst Htr (Hpp & Hpx & Hpy)] H. unfold make_cod in H. rewrite Hpp, Z.eqb_refl in H. cbn [negb] in H. cbv zeta in H. apply ret_pair in H as [<- <-].
  unfold in_byte, in_word in *.
  assert (ESG : wrap32 ((p_order P <<b 24) + (p_layers P <<b 8) + p_color P) = p_order P * 16777216 + p_layers P * 256 + p_color P).
  { rewrite !Z.shiftl_mul_pow2 by lia. change (2 ^ 24) with 16777216. change (2 ^ 8) with 256. apply wrap32_id. rewrite two32_val. lia. }
  rewrite ESG. rewrite (Z.mod_small (blkwidth P)), (Z.mod_small (blkheight P)) by lia.
  set (pp := if p_max P then [] else rev (precinct_tmp (Z.to_nat (p_levels P + 1)) (PPx P) (PPy P) 0 0)).
  assert (Hppl : zlen pp = if p_max P then 0 else p_levels P + 1).
  { unfold pp. destruct (p_max P); [reflexivity|]. unfold zlen. rewrite rev_length. fold (zlen (precinct_tmp (Z.to_nat (p_levels P + 1)) (PPx P) (PPy P) 0 0)). rewrite precinct_tmp_len. lia. }
  assert (Hppu : Forall u8 pp). { unfold pp. destruct (p_max P); [constructor|]. apply Forall_rev, precinct_tmp_byte. }
  assert (Hsg : 0 <= p_order P * 16777216 + p_layers P * 256 + p_color P < two32) by (rewrite two32_val; lia).
  set (SGv := p_order P * 16777216 + p_layers P * 256 + p_color P) in *.
  assert (Hlen : zlen ([p_levels P; blkwidth P; blkheight P; p_style P; p_transf P] ++ pp) = 5 + zlen pp) by (rewrite zlen_app; reflexivity).
  assert (Hst3 : forallb (fun t : bool * bool * bool => let '(a, b, c) := t in let v := Z.lor (Z.lor (if a then 0 else 1) (if b then 2 else 0)) (if c then 4 else 0) in
             (0 <=? v) && (v <? 256) && eqb (v &b 1 =? 0) a && eqb (negb (v &b 2 =? 0)) b && eqb (negb (v &b 4 =? 0)) c)
             (flat_map (fun a : bool => flat_map (fun b : bool => map (fun c : bool => (a, b, c)) [true; false]) [true; false]) [true; false]) = true) by reflexivity.
  rewrite forallb_forall in Hst3. specialize (Hst3 (p_max P, p_SOP P, p_EPH P)).
  assert (Hin3 : In (p_max P, p_SOP P, p_EPH P) (flat_map (fun a : bool => flat_map (fun b : bool => map (fun c : bool => (a, b, c)) [true; false]) [true; false]) [true; false])) by (destruct (p_max P), (p_SOP P), (p_EPH P); cbn; tauto).
  specialize (Hst3 Hin3). cbv zeta in Hst3. apply andb_prop in Hst3 as [Hst3 G5]. apply andb_prop in Hst3 as [Hst3 G4]. apply andb_prop in Hst3 as [Hst3 G3]. apply andb_prop in Hst3 as [G1 G2].
  apply Z.leb_le in G1. apply Z.ltb_lt in G2. apply eqb_prop in G3, G4, G5.
  set (stv := Z.lor (Z.lor (if p_max P then 0 else 1) (if p_SOP P then 2 else 0)) (if p_EPH P then 4 else 0)) in *.
  unfold is_use_SOP, is_use_EPH, is_maximum_precincts, get_progression_order, get_number_of_layers, use_color_trafo, get_dwt_levels, get_codeblock_size, get_Cmodes, get_transformation, get_precinct_size, is_maximum_precincts. cbn [Scod SGcod SPcod].
  split;[|split; [|split; [|split; [|split; [|split; [|split; [|split; [|split; [|split; [|split; [|split; [|split]]]]]]]]]]]].
  - split; [exact (conj G1 G2)|]. split; [exact Hsg|]. cbn [SPcod]. split; [|split; [rewrite Hlen; pose proof (zlen_nonneg pp); lia|cbn; lia]].
    unfold u8. repeat (constructor; [lia|]). exact Hppu.
  - rewrite Hlen, Hppl. destruct (p_max P); lia.
  - rewrite Hlen, Hppl. destruct (p_max P); [reflexivity|]. rewrite Z.mod_small by lia. ring.
  - exact G4.
  - exact G5.
  - exact G3.
  - rewrite Z.shiftr_div_pow2 by lia. change (2 ^ 24) with 16777216. unfold SGv.
    replace (p_order P * 16777216 + p_layers P * 256 + p_color P) with (p_layers P * 256 + p_color P + p_order P * 16777216) by ring. rewrite Z.div_add by lia. rewrite Z.div_small by lia. apply Z.mod_small. lia.
  - rewrite Z.shiftr_div_pow2 by lia. change (2 ^ 8) with 256. unfold SGv.
    replace (p_order P * 16777216 + p_layers P * 256 + p_color P) with (p_color P + (p_order P * 65536 + p_layers P) * 256) by ring. rewrite Z.div_add by lia. rewrite (Z.div_small (p_color P)) by lia.
    change 65535 with (Z.ones 16). rewrite Z.land_ones by lia. change (2 ^ 16) with 65536. replace (0 + (p_order P * 65536 + p_layers P)) with (p_layers P + p_order P * 65536) by ring. rewrite Z.mod_add by lia. apply Z.mod_small. lia.
  - unfold SGv. change 255 with (Z.ones 8). rewrite Z.land_ones by lia. change (2 ^ 8) with 256. replace (p_order P * 16777216 + p_layers P * 256 + p_color P) with (p_color P + (p_order P * 65536 + p_layers P) * 256) by ring. rewrite Z.mod_add by lia. apply Z.mod_small. lia.
  - reflexivity.
  - unfold codeblock_size. change (sp ([p_levels P; blkwidth P; blkheight P; p_style P; p_transf P] ++ pp) 1) with (rd ([p_levels P; blkwidth P; blkheight P; p_style P; p_transf P] ++ pp) 1).
    rewrite (rd_in _ 1), (rd_in _ 2) by (rewrite Hlen; pose proof (zlen_nonneg pp); lia).
    cbv beta iota delta [bind]. change (znth 0 ([p_levels P; blkwidth P; blkheight P; p_style P; p_transf P] ++ pp) 1) with (blkwidth P). change (znth 0 ([p_levels P; blkwidth P; blkheight P; p_style P; p_transf P] ++ pp) 2) with (blkheight P).
    replace ((8 <? blkwidth P) || (8 <? blkheight P) || (8 <? blkwidth P + blkheight P)) with false by lia. rewrite !Z.shiftl_1_l. reflexivity.
  - unfold sp. rewrite rd_in by (rewrite Hlen; pose proof (zlen_nonneg pp); lia). reflexivity.
  - unfold sp. rewrite rd_in by (rewrite Hlen; pose proof (zlen_nonneg pp); lia). reflexivity.
  - intros r Hr. unfold precinct_size. rewrite G3. destruct (p_max P) eqn:EM; [reflexivity|].
    rewrite Hlen, Hppl. replace (5 + (p_levels P + 1) <=? 5 + r) with false by lia. unfold sp. rewrite rd_in by (rewrite Hlen, Hppl; lia). cbn [bind].
    assert (Eb : znth 0 ([p_levels P; blkwidth P; blkheight P; p_style P; p_transf P] ++ pp) (5 + r) = (precinct_exponent P (PPx P) r + (precinct_exponent P (PPy P) r <<b 4)) mod 256).
    { unfold znth. replace (Z.to_nat (5 + r)) with (5 + Z.to_nat r)%nat by lia. cbn [app nth Nat.add]. unfold pp. unfold zlen in Hppl. unfold pp in Hppl. rewrite rev_length in Hppl.
      rewrite rev_nth by lia. replace (length (precinct_tmp (Z.to_nat (p_levels P + 1)) (PPx P) (PPy P) 0 0) - S (Z.to_nat r))%nat with (Z.to_nat (p_levels P - r)) by lia.
      rewrite precinct_tmp_nth by (unfold zlen in Hpp; lia). rewrite !last_or_znth by lia. reflexivity. }
    rewrite Eb. unfold precinct_exponent.
    destruct (pp_byte (znth 0 (PPx P) (Z.min (p_levels P - r) (zlen (PPx P) - 1))) (znth 0 (PPy P) (Z.min (p_levels P - r) (zlen (PPy P) - 1)))) as [-> ->]; [apply znth_pp; exact Hpx|apply znth_pp; exact Hpy|]. reflexivity.
Qed.

Lemma color_on_reads x P : finds_color x P (color_on x P) /\ (color_on x P = p_color P \/ color_on x P = 0).
Proof.
  unfold color_on. cbv zeta. assert (Hs : same_sampling x -> same3 (fun t => snd (fst t)) (Comps x) = true).
  { unfold same_sampling, sampling, same3. destruct (znth (0, 0, 0) (Comps x) 0) as [[? ?] ?], (znth (0, 0, 0) (Comps x) 1) as [[? ?] ?], (znth (0, 0, 0) (Comps x) 2) as [[? ?] ?]. cbn [fst snd]. intros [E1 E2]. injection E1 as -> ->. injection E2 as -> ->. rewrite !Z.eqb_refl. reflexivity. }
  destruct (Csiz x <? 3) eqn:E3.
  - replace (Csiz x =? 3) with false by lia. cbn [andb]. destruct (p_color P =? 1) eqn:E1; (split; [split; [|split]|]); intros; try lia; auto.
  - cbn [andb]. destruct ((Csiz x =? 3) && (p_color P =? 1) && negb (same3 (fun t => snd (fst t)) (Comps x)) && negb (same3 snd (Comps x))) eqn:E; (split; [split; [|split]|]); intros; try lia; auto.
    + rewrite Hs in E by assumption. cbn [negb] in E. rewrite andb_false_r in E. discriminate E.
Qed.

Lemma tiles_eq x0 : sizes_ok x0 -> tiles_fit x0 -> XTOsiz x0 <= XOsiz x0 <= Xsiz x0 -> YTOsiz x0 <= YOsiz x0 <= Ysiz x0 ->
  XOsiz x0 < XTOsiz x0 + fst (tile_size x0) -> YOsiz x0 < YTOsiz x0 + snd (tile_size x0) ->
  get_number_of_tiles (checked x0) = Ret (columns x0, rows x0) /\ 0 <= columns x0 /\ 0 <= rows x0.
Proof.
  intros Hok (HXY & HX & HY) (I1 & I2) (I3 & I4) I5 I6. pose proof (sizes_good _ Hok) as (A1 & A2 & A3 & A4 & A5 & A6 & A7 & A8 & A9 & A10 & A11 & A12). unfold u32 in *. pose proof two32_val as E32.
  unfold get_number_of_tiles, ceil_int, checked. cbn [Xsiz Ysiz XTOsiz YTOsiz XTsiz YTsiz].
  replace (fst (tile_size x0) =? 0) with false by lia. replace (snd (tile_size x0) =? 0) with false by lia. cbn [bind].
  rewrite (wrap32_id (Xsiz x0 - XTOsiz x0)), (wrap32_id (Ysiz x0 - YTOsiz x0)), (wrap32_id (fst (tile_size x0) - 1)), (wrap32_id (snd (tile_size x0) - 1)) by lia.
  rewrite !wrap32_id by lia. unfold columns, rows. rewrite <- !Z.add_sub_assoc. split; [reflexivity|]. split; (apply Z.div_pos; lia).
Qed.
Lemma tiles_rsiz r x : get_number_of_tiles (Siz r (Xsiz x) (Ysiz x) (XOsiz x) (YOsiz x) (XTsiz x) (YTsiz x) (XTOsiz x) (YTOsiz x) (Csiz x) (Comps x)) = get_number_of_tiles x.
Proof. reflexivity. Qed.

(** All the segments after SIZ, as written and as read. *)
Definition read_cap (c : cap) : cap := Cap (Pcap c) (map (fun i => if Z.testbit (Pcap c) (31 - i) then znth 0 (Ccap c) i else 0) (zseq 32)).

Lemma make_cap_item C P q : item C (write_cap (make_cap P q)) (SCap (read_cap (make_cap P q))).
Proof.
  assert (Hw : u16 (ccap15 (p_transf P) (get_MAGB q))).
  { unfold ccap15. set (m := get_MAGB q). assert (0 <= (if m <? 27 then if 8 <? m then m - 8 else 0 else if m <=? 71 then (m - 27) / 4 + 19 else 31) <= 31).
    { destruct (m <? 27) eqn:E1; [destruct (8 <? m) eqn:E2; lia|]. destruct (m <=? 71) eqn:E2; [|lia]. assert (0 <= (m - 27) / 4 <= 11) by (split; [apply Z.div_pos; lia|apply Z.div_le_upper_bound; lia]). lia. }
    unfold u16. destruct (p_transf P =? 0); lia. }
  unfold make_cap. set (w := ccap15 _ _) in *. clearbody w. cbv zeta.
  assert (Hall : forall l, Forall u16 l -> forall i, u16 (znth 0 l i)).
  { intros l Hl i. unfold znth. destruct (nth_in_or_default (Z.to_nat i) l 0) as [Hin| ->]; [|unfold u16; lia]. rewrite Forall_forall in Hl. apply Hl. exact Hin. }
  destruct (p_order P =? 5); unfold read_cap; apply cap_item; try (vm_compute; split; congruence); apply Hall; repeat (constructor; [first [exact Hw|vm_compute; split; congruence]|]); constructor.
Qed.
Lemma quant_good P d g steps : steps_ok P d steps -> 0 <= g <= 7 -> 0 <= p_levels P <= 32 ->
  forall base L st, (base = 5 \/ base = 6) -> quant_head (p_transf P =? 1) d base (p_levels P) = (L, st) ->
  let v := (st + (g <<b 5)) mod 256 in
  u8 v /\ quant_style v = style_of P d /\ get_number_of_guardbits v = g /\ steps_good (p_transf P =? 1) v steps /\ zlen steps <= 100
  /\ L mod 65536 = base - 2 + zlen (steps_bytes (p_transf P =? 1) steps).
Proof.
  intros [Hlen Hall] Hg Hlv base L st Hb H. cbv zeta. unfold style_of, steps_ok, reversible in *. rewrite steps_len. unfold steps_good, quant_head in *.
  destruct (p_transf P =? 1); cbn [negb andb] in Hlen; [|destruct d]; apply pair_equal_spec in H as [<- <-].
  - destruct (head_byte 0 g ltac:(lia) Hg) as (B1 & B2 & B3). split; [exact B1|]. split; [exact B2|]. split; [exact B3|]. split; [split; [exact B2|exact Hall]|]. split; [lia|]. cbv iota. rewrite Z.mod_small by lia. lia.
  - destruct (head_byte 1 g ltac:(lia) Hg) as (B1 & B2 & B3). split; [exact B1|]. split; [exact B2|]. split; [exact B3|]. split; [split; [unfold quant_style in B2; lia|exact Hall]|]. split; [lia|]. cbv iota. rewrite Z.mod_small by lia. lia.
  - destruct (head_byte 2 g ltac:(lia) Hg) as (B1 & B2 & B3). split; [exact B1|]. split; [exact B2|]. split; [exact B3|]. split; [split; [unfold quant_style in B2; lia|exact Hall]|]. split; [lia|]. cbv iota. rewrite Z.mod_small by lia. lia.
Qed.

Lemma all_of_none {A B} (f : seg -> option A) (g : B -> seg) l : (forall x, f (g x) = None) -> all_of f (map g l) = [].
Proof. intros H. induction l as [|a l IH]; [reflexivity|]. cbn [map all_of]. rewrite H. exact IH. Qed.
Lemma all_of_some {A B} (f : seg -> option A) (g : B -> seg) (k : B -> A) l : (forall x, f (g x) = Some (k x)) -> all_of f (map g l) = map k l.
Proof. intros H. induction l as [|a l IH]; [reflexivity|]. cbn [map all_of]. rewrite H, IH. reflexivity. Qed.
Lemma last_of_none {A B} (f : seg -> option A) (g : B -> seg) l : (forall x, f (g x) = None) -> last_of f (map g l) = None.
Proof. intros H. induction l as [|a l IH]; [reflexivity|]. cbn [map last_of]. rewrite IH. apply H. Qed.

(** The segments of the header, for checked settings. *)
Definition head_items (C : Z) (P : cod_params) (Lc : Z) (c : cod) (Lq : Z) (q : qcd) (qccs : list (Z * qcc)) (tl : list tlm) : list (list Z * seg) :=
  [(write_cap (make_cap P q), SCap (read_cap (make_cap P q))); (write_cod Lc c, SCod c); (write_qcd (p_transf P =? 1) Lq q, SQcd q)]
  ++ map (fun y : Z * qcc => (write_qcc C (p_transf P =? 1) (fst y) (snd y), SQcc (snd y))) qccs
  ++ map (fun t => (write_tlm t, STlm t)) tl ++ [(write_com (Com 1 com_text), SCom (Com 1 com_text))].
Lemma head_items_bytes C P Lc c Lq q qccs tl : flat_map fst (head_items C P Lc c Lq q qccs tl) =
  write_cap (make_cap P q) ++ write_cod Lc c ++ write_qcd (p_transf P =? 1) Lq q
  ++ flat_map (fun y : Z * qcc => write_qcc C (p_transf P =? 1) (fst y) (snd y)) qccs ++ flat_map write_tlm tl ++ write_com (Com 1 com_text).
Proof.
  unfold head_items. rewrite !flat_map_app. cbn [flat_map fst app]. rewrite app_nil_r, <- !app_assoc. do 4 f_equal; [|f_equal].
  - induction qccs as [|y l IH]; [reflexivity|]. cbn [map flat_map fst]. rewrite IH. reflexivity.
  - induction tl as [|y l IH]; [reflexivity|]. cbn [map flat_map fst]. rewrite IH. reflexivity.
Qed.
Lemma head_items_segs C P Lc c Lq q qccs tl : map snd (head_items C P Lc c Lq q qccs tl) =
  [SCap (read_cap (make_cap P q)); SCod c; SQcd q] ++ map (fun y => SQcc (snd y)) qccs ++ map STlm tl ++ [SCom (Com 1 com_text)].
Proof. unfold head_items. rewrite !map_app, !map_map. reflexivity. Qed.

Lemma cap_reads P q : Z.testbit (Pcap (make_cap P q)) 17 = true /\ Z.testbit (znth 0 (Ccap (read_cap (make_cap P q))) 14) 5 = (p_transf P =? 0).
Proof.
  assert (Hw : Z.testbit (ccap15 (p_transf P) (get_MAGB q)) 5 = (p_transf P =? 0)).
  { unfold ccap15. set (m := get_MAGB q). clearbody m. assert (Hm : 0 <= (if m <? 27 then if 8 <? m then m - 8 else 0 else if m <=? 71 then (m - 27) / 4 + 19 else 31) < 32).
    { destruct (m <? 27) eqn:E1; [destruct (8 <? m) eqn:E2; lia|]. destruct (m <=? 71) eqn:E2; [|lia]. assert (0 <= (m - 27) / 4 <= 11) by (split; [apply Z.div_pos; lia|apply Z.div_le_upper_bound; lia]). lia. }
    set (v := if m <? 27 then _ else _) in *. clearbody v. clear m. destruct (p_transf P =? 0).
    - assert (E : Z.testbit (32 + v) 5 = Z.odd ((32 + v) / 2 ^ 5)) by (rewrite <- Z.shiftr_div_pow2, <- Z.bit0_odd, Z.shiftr_spec by lia; reflexivity). rewrite E. change (2 ^ 5) with 32.
      replace (32 + v) with (v + 1 * 32) by ring. rewrite Z.div_add by lia. rewrite Z.div_small by lia. reflexivity.
    - cbn [Z.add]. destruct (Z.eq_dec v 0) as [->|]; [reflexivity|]. apply Z.bits_above_log2; [lia|]. apply Z.log2_lt_pow2; lia. }
  unfold make_cap. set (w := ccap15 _ _) in *. clearbody w. cbv zeta. destruct (p_order P =? 5); (split; [reflexivity|exact Hw]).
Qed.

(** C63: reading the header that the encoder wrote, up to the first tile-part,
    ends exactly there and finds every setting. *)
Theorem C63_header_round_trip : forall x0 P Q qf steps csteps lengths bytes rest pad n,
  sizes_ok x0 -> tiles_fit x0 -> coding_ok P -> 0 <= p_guard Q <= 7 ->
  steps_ok P (p_derived Q && negb qf) steps ->
  (qf = true -> forall i, 0 <= i < Csiz x0 - 1 -> steps_ok P false (znth [] csteps i)) ->
  columns x0 * rows x0 <= 10921 -> zlen lengths = columns x0 * rows x0 -> Forall in_dword lengths ->
  encoder_header x0 P Q qf steps csteps lengths = ret bytes ->
  n = zlen bytes + 2 + zlen rest -> n < 4294967296 ->
  exists h, parse_main (Src (Some ((bytes ++ [255; 144] ++ rest) ++ pad)) 0 n) hdr0
            = ret (Src (Some ((bytes ++ [255; 144] ++ rest) ++ pad)) (zlen bytes) n, h)
    /\ finds_sizes x0 h /\ finds_coding x0 P h /\ finds_quant P Q qf steps h
    /\ (if qf then finds_quants (Csiz x0) P Q csteps h else h_qcc h = [])
    /\ finds_capability P h /\ finds_lengths (columns x0 * rows x0) lengths h
    /\ h_coc h = [] /\ h_rgn h = [] /\ h_poc h = None /\ ppm h = None.
Proof.
  intros x0 P0 Q qf steps csteps lengths bytes rest pad n Hok Hfit Hcod Hg Hsteps Hcst Hmax Hlen Hlens H Hn H32.
  unfold encoder_header in H. rewrite check_siz_eq in H by assumption.
  destruct (((Xsiz x0 <? XOsiz x0) || (Ysiz x0 <? YOsiz x0)) || ((XOsiz x0 <? XTOsiz x0) || (YOsiz x0 <? YTOsiz x0))) eqn:E1; [discriminate|].
  destruct ((XTOsiz x0 + fst (tile_size x0) <=? XOsiz x0) || (YTOsiz x0 + snd (tile_size x0) <=? YOsiz x0)) eqn:E2; [discriminate|]. cbn [bindx ret] in H.
  apply orb_false_elim in E1 as [E1 E1']. apply orb_false_elim in E1 as [EX EY]. apply orb_false_elim in E1' as [EXT EYT]. apply orb_false_elim in E2 as [EX2 EY2].
  pose proof (sizes_good _ Hok) as Hsg. pose proof Hsg as (A1 & A2 & A3 & A4 & A5 & A6 & A7 & A8 & A9 & A10 & A11 & A12). unfold u32 in A2, A3, A4, A5, A6, A7, A8, A9. pose proof two32_val as E32.
  destruct (tile_size_range x0 Hok) as [HT0 HT1]; [lia|lia|].
  change (color_on (checked x0) P0) with (color_on x0 P0) in H. destruct (color_on_reads x0 P0) as [Hcr Hcv]. set (col := color_on x0 P0) in *.
  set (P := with_color P0 col) in *.
  assert (HcP : coding_ok P). { destruct Hcod. constructor; try assumption. unfold P. cbn [p_color with_color]. unfold in_byte in *. destruct Hcv as [-> | ->]; lia. }
  destruct (make_cod P) as [[[Lc c]|]| |] eqn:EC; cbn [bindx] in H; try discriminate. pose proof (make_cod_reads P Lc c HcP EC) as (Hcg & Hc100 & HLc & Hreads).
  destruct (make_qcd Q P qf steps) as [Lq q] eqn:EQ. unfold make_qcd in EQ. destruct (quant_head (p_transf P =? 1) (p_derived Q && negb qf) 5 (p_levels P)) as [L st] eqn:EH. apply pair_equal_spec in EQ as [<- <-].
  destruct (quant_good P _ (p_guard Q) steps Hsteps Hg (ok_levels _ HcP) 5 L st ltac:(left; reflexivity) EH) as (Q1 & Q2 & Q3 & Q4 & Q5 & Q6).
  set (v := (st + (p_guard Q <<b 5)) mod 256) in *. cbn [Sqcd] in H. rewrite Q3 in H. cbn [Csiz] in H. change (Csiz (checked x0)) with (Csiz x0) in H.
  set (qccs := if qf then map (fun i => make_qcc (Csiz x0) (i + 1) (p_guard Q) P (znth [] csteps i)) (zseq (Csiz x0 - 1)) else []).
  assert (HqC : qf = true -> Csiz x0 = 3 \/ Csiz x0 = 1). { intros ->. destruct ((Csiz x0 =? 3) || (Csiz x0 =? 1)) eqn:E; [lia|]. cbn [bindx] in H. discriminate H. }
  assert (H' : (let* (nx, ny) := get_number_of_tiles (checked x0) in
     let m := wrap32 (nx * ny) in if 65535 <? m then throw else
     ret (w16 M_SOC ++ write_siz (Siz (Z.lor (Rsiz x0) 16384) (Xsiz x0) (Ysiz x0) (XOsiz x0) (YOsiz x0) (fst (tile_size x0)) (snd (tile_size x0)) (XTOsiz x0) (YTOsiz x0) (Csiz x0) (Comps x0))
       ++ write_cap (make_cap P (Qcd v steps)) ++ write_cod Lc c ++ write_qcd (p_transf P =? 1) (L mod 65536) (Qcd v steps)
       ++ flat_map (fun y : Z * qcc => write_qcc (Csiz x0) (p_transf P =? 1) (fst y) (snd y)) qccs
       ++ (if 1 <? m then write_tlm (Tlm 0 96 (map (fun i => i mod 65536) (zseq m)) lengths) else [])
       ++ write_com (Com 1 com_text))) = ret bytes).
  { unfold qccs. destruct qf; [destruct (HqC eq_refl) as [EC3|EC3]; rewrite EC3 in *|]; exact H. }
  clear H. rename H' into H.
  destruct (tiles_eq x0 Hok Hfit ltac:(lia) ltac:(lia) ltac:(lia) ltac:(lia)) as (ET & HT2 & HT3). rewrite ET in H. cbn [bind] in H. cbv zeta in H.
  assert (Hprod : 0 <= columns x0 * rows x0) by nia. rewrite wrap32_id in H by lia. replace (65535 <? columns x0 * rows x0) with false in H by lia. apply ret_inj in H.
  set (m := columns x0 * rows x0) in *.
  set (x := Siz (Z.lor (Rsiz x0) 16384) (Xsiz x0) (Ysiz x0) (XOsiz x0) (YOsiz x0) (fst (tile_size x0)) (snd (tile_size x0)) (XTOsiz x0) (YTOsiz x0) (Csiz x0) (Comps x0)) in *.
  assert (ETm : map (fun i => i mod 65536) (zseq m) = zseq m).
  { unfold zseq. rewrite map_map. apply map_ext_in. intros a Ha. apply in_seq in Ha. apply Z.mod_small. lia. }
  rewrite ETm in H. set (tls := if 1 <? m then [Tlm 0 96 (zseq m) lengths] else []).
  assert (Hx : siz_good x).
  { destruct Hfit as (F1 & F2 & F3). unfold siz_good, x, u32. cbn [Rsiz Xsiz Ysiz XOsiz YOsiz XTsiz YTsiz XTOsiz YTOsiz Csiz Comps]. split; [apply lor_u16; exact A1|]. repeat (split; [lia|]). exact A12. }
  set (items := head_items (Csiz x0) P Lc c (L mod 65536) (Qcd v steps) qccs tls).
  assert (Hbytes : bytes = w16 M_SOC ++ write_siz x ++ flat_map fst items).
  { rewrite <- H. unfold items. rewrite head_items_bytes. do 6 f_equal. f_equal. f_equal. unfold tls. destruct (1 <? m); [cbn [flat_map]; rewrite app_nil_r|]; reflexivity. }
  clear H.
  assert (Hzs : forall k, 0 <= k -> zlen (zseq k) = k) by (intros k Hk; unfold zlen, zseq; rewrite map_length, seq_length; lia).
  assert (Hqgood : forall i, qf = true -> 0 <= i < Csiz x0 - 1 ->
     let y := make_qcc (Csiz x0) (i + 1) (p_guard Q) P (znth [] csteps i) in
     u8 (Sqcc (snd y)) /\ quant_style (Sqcc (snd y)) = style_of P false /\ get_number_of_guardbits (Sqcc (snd y)) = p_guard Q
     /\ steps_good (p_transf P =? 1) (Sqcc (snd y)) (SPqcc (snd y)) /\ zlen (SPqcc (snd y)) <= 100
     /\ fst y = 4 + zlen (steps_bytes (p_transf P =? 1) (SPqcc (snd y))) /\ Cqcc (snd y) = i + 1 /\ SPqcc (snd y) = znth [] csteps i).
  { intros i Hq Hi. specialize (Hcst Hq i Hi). unfold make_qcc. destruct (quant_head (p_transf P =? 1) false 6 (p_levels P)) as [L' st'] eqn:EH'. cbv zeta. cbn [fst snd Sqcc SPqcc Cqcc].
    destruct (quant_good P false (p_guard Q) _ Hcst Hg (ok_levels _ HcP) 6 L' st' ltac:(right; reflexivity) EH') as (B1 & B2 & B3 & B4 & B5 & B6).
    replace (257 <=? Csiz x0) with false by (destruct (HqC Hq); lia). repeat (split; [first [assumption|reflexivity]|]). reflexivity. }
  assert (Hitems : Forall (fun bx => item (Some (Csiz x)) (fst bx) (snd bx) /\ is_siz (snd bx) = None) items).
  { unfold items, head_items. change (Csiz x) with (Csiz x0). apply Forall_app; split; [|apply Forall_app; split; [|apply Forall_app; split]].
    - constructor; [split; [apply make_cap_item|reflexivity]|]. constructor; [split; [apply cod_item; assumption|reflexivity]|]. constructor; [split; [|reflexivity]|constructor].
      apply qcd_item; cbn [Sqcd SPqcd]; assumption.
    - apply Forall_forall. intros bx Hin. apply in_map_iff in Hin as (y & <- & Hin). cbn [fst snd]. split; [|reflexivity]. unfold qccs in Hin. destruct qf eqn:Eqf; [|destruct Hin].
      apply in_map_iff in Hin as (i & <- & Hin). apply in_map_iff in Hin as (k & <- & Hin). apply in_seq in Hin.
      destruct (Hqgood (Z.of_nat k) eq_refl ltac:(lia)) as (B1 & B2 & B3 & B4 & B5 & B6 & B7 & B8). destruct (HqC eq_refl) as [EC3|EC3].
      all: apply qcc_item; try assumption; [lia|unfold u8; rewrite B7; lia].
    - apply Forall_forall. intros bx Hin. apply in_map_iff in Hin as (y & <- & Hin). cbn [fst snd]. split; [|reflexivity]. unfold tls in Hin. destruct (1 <? m) eqn:Em; [|destruct Hin]. destruct Hin as [<-|[]].
      apply tlm_item; [rewrite Hzs by lia; lia| | |lia].
      + apply Forall_forall. intros a Ha. apply in_map_iff in Ha as (k & <- & Ha). apply in_seq in Ha. unfold u16. lia.
      + eapply Forall_impl; [|exact Hlens]. intros a Ha. unfold u32. rewrite E32. exact Ha.
    - constructor; [split; [|reflexivity]|constructor]. apply com_item; [unfold u16; cbn; lia| |reflexivity]. unfold com_text, u8. cbn [Ccom]. repeat (constructor; [lia|]). constructor. }
  pose proof (header_round x items rest pad n Hx Hitems) as HR. cbv zeta in HR. rewrite <- Hbytes in HR. specialize (HR Hn ltac:(lia)).
  change (w16 M_SOT) with [255; 144] in HR. eexists. split; [exact HR|].
  assert (Esegs : SSiz x :: map snd items = SSiz x :: [SCap (read_cap (make_cap P (Qcd v steps))); SCod c; SQcd (Qcd v steps)] ++ map (fun y => SQcc (snd y)) qccs ++ map STlm tls ++ [SCom (Com 1 com_text)]) by (unfold items; rewrite head_items_segs; reflexivity).
  rewrite Esegs. clear HR Esegs Hitems.
  assert (Hlast : forall (A : Type) (f : seg -> option A), (forall y, f (SQcc y) = None) -> (forall y, f (STlm y) = None) -> (forall y, f (SCom y) = None) ->
     h_ptr f (Hdr [] (SSiz x :: [SCap (read_cap (make_cap P (Qcd v steps))); SCod c; SQcd (Qcd v steps)] ++ map (fun y : Z * qcc => SQcc (snd y)) qccs ++ map STlm tls ++ [SCom (Com 1 com_text)]) None)
     = last_of f [SSiz x; SCap (read_cap (make_cap P (Qcd v steps))); SCod c; SQcd (Qcd v steps)]).
  { intros A f F1 F2 F3. unfold h_ptr. cbn [before now app]. change (SSiz x :: SCap (read_cap (make_cap P (Qcd v steps))) :: SCod c :: SQcd (Qcd v steps) :: map (fun y : Z * qcc => SQcc (snd y)) qccs ++ map STlm tls ++ [SCom (Com 1 com_text)])
      with ([SSiz x; SCap (read_cap (make_cap P (Qcd v steps))); SCod c; SQcd (Qcd v steps)] ++ map (fun y : Z * qcc => SQcc (snd y)) qccs ++ map STlm tls ++ [SCom (Com 1 com_text)]).
    rewrite !last_of_app. rewrite (last_of_none f (fun y : Z * qcc => SQcc (snd y))) by (intros; apply F1). rewrite (last_of_none f STlm) by exact F2. cbn [last_of]. rewrite F3. reflexivity. }
  assert (Hall : forall (A : Type) (f : seg -> option A), (forall y, f (SQcc y) = None) -> (forall y, f (STlm y) = None) -> (forall y, f (SCom y) = None) -> f (SSiz x) = None -> (forall y, f (SCap y) = None) -> f (SCod c) = None -> (forall y, f (SQcd y) = None) ->
     all_of f (SSiz x :: [SCap (read_cap (make_cap P (Qcd v steps))); SCod c; SQcd (Qcd v steps)] ++ map (fun y : Z * qcc => SQcc (snd y)) qccs ++ map STlm tls ++ [SCom (Com 1 com_text)]) = []).
  { intros A f F1 F2 F3 F4 F5 F6 F7. cbn [app all_of]. rewrite F4, F5, F6, F7, !all_of_app. rewrite (all_of_none f (fun y : Z * qcc => SQcc (snd y))) by (intros; apply F1). rewrite (all_of_none f STlm) by exact F2. cbn [all_of]. rewrite F3. reflexivity. }
  split; [|split; [|split; [|split; [|split; [|split; [|split; [|split; [|split]]]]]]]].
  - exists x. unfold h_siz. rewrite Hlast by reflexivity. split; [reflexivity|]. unfold x. cbn [Rsiz Xsiz Ysiz XOsiz YOsiz XTsiz YTsiz XTOsiz YTOsiz Csiz Comps]. repeat (split; [reflexivity|]). split; [destruct (tile_size x0); reflexivity|]. repeat split.
  - exists c. unfold h_cod. rewrite Hlast by reflexivity. split; [reflexivity|]. destruct Hreads as (R1 & R2 & R3 & R4 & R5 & R6 & R7 & R8 & R9 & R10 & R11).
    repeat (split; [assumption|]). split; [rewrite R6; exact Hcr|]. repeat (split; [assumption|]). exact R11.
  - exists (Qcd v steps). unfold h_qcd. rewrite Hlast by reflexivity. split; [reflexivity|]. split; [reflexivity|]. split; [exact Q3|exact Q2].
  - assert (Eq : h_qcc (Hdr [] (SSiz x :: [SCap (read_cap (make_cap P (Qcd v steps))); SCod c; SQcd (Qcd v steps)] ++ map (fun y : Z * qcc => SQcc (snd y)) qccs ++ map STlm tls ++ [SCom (Com 1 com_text)]) None) = map snd qccs).
    { unfold h_qcc. cbn [now app all_of is_qcc]. rewrite !all_of_app. rewrite (all_of_some is_qcc (fun y : Z * qcc => SQcc (snd y)) snd) by reflexivity. rewrite (all_of_none is_qcc STlm) by reflexivity. cbn [all_of is_qcc]. rewrite !app_nil_r. reflexivity. }
    unfold finds_quants. rewrite !Eq. clear Eq Hlast Hall. unfold qccs. destruct qf eqn:Eqf; [|reflexivity]. rewrite map_map.
    destruct A10 as [A10 _]. split; [unfold zlen; rewrite map_length; fold (zlen (zseq (Csiz x0 - 1))); apply Hzs; lia|].
    intros i Hi. cbv zeta. destruct (Hqgood i eq_refl Hi) as (B1 & B2 & B3 & B4 & B5 & B6 & B7 & B8).
    assert (En : znth (Qcc 0 0 []) (map (fun i => snd (make_qcc (Csiz x0) (i + 1) (p_guard Q) P (znth [] csteps i))) (zseq (Csiz x0 - 1))) i = snd (make_qcc (Csiz x0) (i + 1) (p_guard Q) P (znth [] csteps i))).
    { unfold znth at 1. rewrite (nth_indep _ _ (snd (make_qcc (Csiz x0) (0 + 1) (p_guard Q) P (znth [] csteps 0)))) by (rewrite map_length; unfold zseq; rewrite map_length, seq_length; lia).
      rewrite (map_nth (fun i => snd (make_qcc (Csiz x0) (i + 1) (p_guard Q) P (znth [] csteps i))) (zseq (Csiz x0 - 1)) 0).
      replace (nth (Z.to_nat i) (zseq (Csiz x0 - 1)) 0) with i; [reflexivity|]. unfold zseq. rewrite (map_nth Z.of_nat (seq 0 (Z.to_nat (Csiz x0 - 1))) 0%nat). rewrite seq_nth by lia. lia. }
    rewrite En. split; [exact B7|]. split; [exact B8|]. split; [exact B3|exact B2].
  - exists (read_cap (make_cap P (Qcd v steps))). unfold h_cap. rewrite Hlast by reflexivity. split; [reflexivity|]. destruct (cap_reads P (Qcd v steps)) as [C1 C2]. split; [exact C1|exact C2].
  - assert (Et : h_tlm (Hdr [] (SSiz x :: [SCap (read_cap (make_cap P (Qcd v steps))); SCod c; SQcd (Qcd v steps)] ++ map (fun y : Z * qcc => SQcc (snd y)) qccs ++ map STlm tls ++ [SCom (Com 1 com_text)]) None) = tls).
    { unfold h_tlm. cbn [now app all_of is_tlm]. rewrite !all_of_app. rewrite (all_of_none is_tlm (fun y : Z * qcc => SQcc (snd y))) by reflexivity. rewrite (all_of_some is_tlm STlm (fun t => t)) by reflexivity. rewrite map_id. cbn [all_of is_tlm]. rewrite app_nil_r. reflexivity. }
    unfold finds_lengths. rewrite Et. unfold tls. destruct (1 <? m); [|reflexivity]. eexists. split; [reflexivity|]. split; reflexivity.
  - unfold h_coc. cbn [now]. apply Hall; reflexivity.
  - unfold h_rgn. cbn [now]. apply Hall; reflexivity.
  - unfold h_poc. rewrite Hlast by reflexivity. reflexivity.
  - reflexivity.
Qed.
Print Assumptions C63_header_round_trip.

(** Settings that fit are written: nothing but the listed checks refuses them. *)
Theorem C63_header_written : forall x0 P Q qf steps csteps lengths,
  sizes_ok x0 -> tiles_fit x0 -> image_ok x0 -> coding_ok P -> (qf = true -> Csiz x0 = 1 \/ Csiz x0 = 3) ->
  columns x0 * rows x0 <= 65535 ->
  exists bytes, encoder_header x0 P Q qf steps csteps lengths = ret bytes.
Proof.
  intros x0 P0 Q qf steps csteps lengths Hok Hfit ((I1 & I2) & (I3 & I4) & I5 & I6) Hcod Hq Hmax. unfold encoder_header. rewrite check_siz_eq by assumption.
  replace (((Xsiz x0 <? XOsiz x0) || (Ysiz x0 <? YOsiz x0)) || ((XOsiz x0 <? XTOsiz x0) || (YOsiz x0 <? YTOsiz x0))) with false by lia.
  replace ((XTOsiz x0 + fst (tile_size x0) <=? XOsiz x0) || (YTOsiz x0 + snd (tile_size x0) <=? YOsiz x0)) with false by lia. cbn [bindx ret].
  unfold make_cod. cbn [PPx PPy with_color]. destruct (ok_precincts _ Hcod) as [-> _]. rewrite Z.eqb_refl. cbn [negb]. cbv zeta. cbn [bindx ret].
  destruct (make_qcd _ _ _ _) as [Lq q]. destruct (tiles_eq x0 Hok Hfit ltac:(lia) ltac:(lia) ltac:(lia) ltac:(lia)) as (ET & HT2 & HT3). pose proof two32_val.
  change (Csiz (checked x0)) with (Csiz x0). cbn [Csiz].
  assert (Hfin : forall qccs : list (Z * qcc), exists bytes, (let* (nx, ny) := get_number_of_tiles (checked x0) in
     if 65535 <? wrap32 (nx * ny) then throw else
     ret (w16 M_SOC ++ write_siz (Siz (Z.lor (Rsiz x0) 16384) (Xsiz x0) (Ysiz x0) (XOsiz x0) (YOsiz x0) (fst (tile_size x0)) (snd (tile_size x0)) (XTOsiz x0) (YTOsiz x0) (Csiz x0) (Comps x0))
       ++ write_cap (make_cap (with_color P0 (color_on (checked x0) P0)) q)
       ++ write_cod ((if p_max P0 then 12 else 13 + p_levels P0) mod 65536)
            (Cod (Z.lor (Z.lor (if p_max P0 then 0 else 1) (if p_SOP P0 then 2 else 0)) (if p_EPH P0 then 4 else 0))
               (wrap32 ((p_order P0 <<b 24) + (p_layers P0 <<b 8) + color_on (checked x0) P0))
               ([p_levels P0; blkwidth P0 mod 256; blkheight P0 mod 256; p_style P0; p_transf P0] ++ (if p_max P0 then [] else rev (precinct_tmp (Z.to_nat (p_levels P0 + 1)) (PPx P0) (PPy P0) 0 0))))
       ++ write_qcd (p_transf P0 =? 1) Lq q
       ++ flat_map (fun y : Z * qcc => write_qcc (Csiz x0) (p_transf P0 =? 1) (fst y) (snd y)) qccs
       ++ (if 1 <? wrap32 (nx * ny) then write_tlm (Tlm 0 96 (map (fun i => i mod 65536) (zseq (wrap32 (nx * ny)))) lengths) else [])
       ++ write_com (Com 1 com_text))) = ret bytes).
  { intros qccs. rewrite ET. cbn [bind]. rewrite wrap32_id by nia. replace (65535 <? columns x0 * rows x0) with false by lia. eexists. reflexivity. }
  destruct qf.
  - replace ((Csiz x0 =? 3) || (Csiz x0 =? 1)) with true by (destruct (Hq eq_refl); lia). cbn [bindx ret]. apply Hfin.
  - cbn [bindx ret]. apply Hfin.
Qed.
Print Assumptions C63_header_written.

(** A colour image of 640x480 in four tiles, with an offset, 2 levels, SOP,
    precincts 2^7x2^6 at full resolution and 2^6x2^6 below, and a quality
    factor: all hypotheses hold. *)
Definition ex_siz := Siz 0 650 490 10 10 320 240 10 10 3 [(7, 1, 1); (7, 1, 1); (7, 1, 1)].
Definition ex_cod := CodP 4 4 false true false 2 1 1 2 64 0 [7; 6] [6; 6].
Definition ex_steps := [18432; 18400; 18400; 16500; 14000; 14000; 12100].
Example C63_example :
  sizes_ok ex_siz /\ tiles_fit ex_siz /\ image_ok ex_siz /\ coding_ok ex_cod /\ steps_ok ex_cod false ex_steps
  /\ columns ex_siz = 2 /\ rows ex_siz = 2
  /\ exists bytes, encoder_header ex_siz ex_cod (QcdP 1 false) true ex_steps [ex_steps; rev ex_steps] [1000; 2000; 3000; 70000] = ret bytes /\ zlen bytes = 192.
Proof.
  split; [constructor; [unfold in_word, in_dword; cbn; lia|cbn; split; [lia|reflexivity]|repeat constructor; unfold in_byte; cbn; lia]|].
  split; [unfold tiles_fit; cbn; lia|]. split; [unfold image_ok; cbn; lia|].
  split; [constructor; unfold in_byte, in_word; cbn; try lia; split; [reflexivity|]; split; repeat constructor; lia|].
  split; [split; [reflexivity|unfold ex_steps, in_word; cbn; repeat constructor; lia]|].
  split; [reflexivity|]. split; [reflexivity|]. eexists. split; [reflexivity|vm_compute; reflexivity].
Qed.

(** With more tiles than one TLM segment can hold, its length wraps and the
    header does not read back; nothing in the encoder refuses that. *)
Definition many_tiles (k : Z) := Siz 0 k 1 0 0 1 1 0 0 1 [(7, 1, 1)].
Definition plain_cod := CodP 4 4 true false false 0 1 0 0 64 1 [] [].
Definition many_header (k : Z) := encoder_header (many_tiles k) plain_cod (QcdP 1 false) false [64] [] (repeat 100 (Z.to_nat k)).
Definition many_read (bytes : list Z) := parse_main (Src (Some (bytes ++ [255; 144] ++ repeat 0 10)) 0 (zlen bytes + 12)) hdr0.
Definition many_result (k : Z) : option bool :=
  match many_header k with
  | Ret (Some b) => match many_read b with Ret None => Some false | Ret (Some _) => Some true | _ => None end
  | _ => None
  end.
Lemma many_cases k r : many_result k = Some r ->
  exists bytes, many_header k = ret bytes /\ if r then exists s h, many_read bytes = ret (s, h) else many_read bytes = throw.
Proof.
  unfold many_result. destruct (many_header k) as [[b|]| |]; intros H; try discriminate. exists b. split; [reflexivity|].
  destruct (many_read b) as [[[s h]|]| |]; try discriminate; injection H as <-; [exists s, h|]; reflexivity.
Qed.
Theorem C63_many_tiles_refuted :
  sizes_ok (many_tiles 10922) /\ tiles_fit (many_tiles 10922) /\ image_ok (many_tiles 10922) /\ coding_ok plain_cod
  /\ columns (many_tiles 10922) * rows (many_tiles 10922) = 10922
  /\ (exists bytes, many_header 10922 = ret bytes /\ many_read bytes = throw)
  /\ (exists bytes, many_header 100 = ret bytes /\ exists s h, many_read bytes = ret (s, h)).
Proof.
  split; [constructor; [unfold in_word, in_dword; cbn; lia|cbn; split; [lia|reflexivity]|repeat constructor; unfold in_byte; cbn; lia]|].
  split; [unfold tiles_fit; cbn; lia|]. split; [unfold image_ok; cbn; lia|].
  split; [constructor; unfold in_byte, in_word; cbn; try lia; split; [reflexivity|]; split; constructor|].
  split; [reflexivity|]. split.
  - apply (many_cases 10922 false). vm_compute. reflexivity.
  - apply (many_cases 100 true). vm_compute. reflexivity.
Qed.
Print Assumptions C63_many_tiles_refuted.

(** A tile of 65536x65536 is taken for a tile size that was not given: the
    whole image becomes one tile. *)
Definition big_tile := Siz 0 70000 70000 0 0 65536 65536 0 0 1 [(7, 1, 1)].
Theorem C63_big_tile_refuted :
  sizes_ok big_tile /\ image_ok big_tile /\ columns big_tile = 2 /\ rows big_tile = 2
  /\ exists bytes s h x, encoder_header big_tile plain_cod (QcdP 1 false) false [64] [] [1; 1; 1; 1] = ret bytes
     /\ parse_main (Src (Some (bytes ++ [255; 144] ++ repeat 0 10)) 0 (zlen bytes + 12)) hdr0 = ret (s, h)
     /\ h_siz h = Some x /\ XTsiz x = 70000 /\ YTsiz x = 70000 /\ h_tlm h = [].
Proof.
  split; [constructor; [unfold in_word, in_dword; cbn; lia|cbn; split; [lia|reflexivity]|repeat constructor; unfold in_byte; cbn; lia]|].
  split; [unfold image_ok; cbn; lia|]. split; [reflexivity|]. split; [reflexivity|]. do 4 eexists. split; [vm_compute; reflexivity|]. split; [vm_compute; reflexivity|]. split; [reflexivity|]. repeat split.
Qed.
Print Assumptions C63_big_tile_refuted.
