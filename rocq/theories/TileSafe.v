(** Reading tile-parts from any bytes: every read is inside the codestream and
    the two bytes that follow it, the loops end, and what follows the codestream
    has no effect. *)
From Verif Require Import Base BaseLemmas SourceModel MarkerModel MarkerSafe TileModel TileSpec.

Lemma tile_parser_defined lmar g (Hg : zlen g = lmar) w C f base : tile_parser w C = Some f -> defined (f lmar base g).
Proof.
  unfold tile_parser.
  repeat match goal with |- (if ?b then Some ?k else _) = Some f -> _ => destruct b; [intros H; assert (E : k = f) by congruence; rewrite <- E; clear H E|] end; [..|discriminate].
  all: apply defined_smap; first [apply cod_defined|apply coc_defined|apply raw_defined|apply qcd_defined|apply qcc_defined|apply rgn_defined|apply poc_defined|apply com_defined]; exact Hg.
Qed.

(** A packed header that lies in the first [n] bytes. *)
Definition ppt_in (n : Z) (x : seg) : Prop := match x with SPpt (_, p, k) => 0 <= p /\ 0 <= k /\ p + k <= n | _ => True end.
Lemma tile_parser_in w C f L p g x n : tile_parser w C = Some f -> f L p g = ret x -> 3 <= L < 65536 \/ (w <> M_PPT /\ 2 <= L) -> 0 <= p -> p + L <= n + 2 -> ppt_in n x.
Proof.
  unfold tile_parser. intros H Hx HL Hp Hn. revert H.
  repeat match goal with |- (if ?b then Some ?k else _) = Some f -> _ => destruct b eqn:?Ew; [intros H; assert (E : k = f) by congruence; rewrite <- E in Hx; clear H E|] end; [..|discriminate].
  all: unfold smap in Hx; apply bindx_ret in Hx as (a & Ha & Hx); injection Hx as <-; try exact I.
  cbn. unfold parse_raw in Ha. apply bindx_ret in Ha as ([p1 z] & Hb & Ha). injection Ha as <-.
  assert (p1 = 1). { unfold fbyte in Hb. destruct (L <=? 0); [discriminate Hb|]. unfold rd in Hb. destruct ((0 <=? 0) && (0 <? zlen g)); [|discriminate Hb]. cbn in Hb. apply ret_pair in Hb as [Hb _]. lia. }
  subst p1. cbn. destruct HL as [HL|[HL _]]; [|lia]. rewrite Z.mod_small by lia. lia.
Qed.

Definition no_empty_ppt (input : list Z) : Prop := forall a b, input <> a ++ [255; 97; 0; 2] ++ b.
Lemma ppt_at_least_3 input p : bytes_ok input -> no_empty_ppt input -> 0 <= p -> p + 4 <= zlen input ->
  word_at input p = M_PPT -> 2 <= word_at input (p + 2) -> 3 <= word_at input (p + 2).
Proof.
  intros Hb Hno Hp Hl Hw H2. destruct (Z.eq_dec (word_at input (p + 2)) 2) as [E|E]; [|lia]. exfalso.
  rewrite word_bytes in Hw, E by (try assumption; lia). replace (p + 2 + 1) with (p + 3) in E by ring.
  pose proof (bytes_ok_nth input p Hb ltac:(lia)). pose proof (bytes_ok_nth input (p + 1) Hb ltac:(lia)).
  pose proof (bytes_ok_nth input (p + 2) Hb ltac:(lia)). pose proof (bytes_ok_nth input (p + 3) Hb ltac:(lia)).
  unfold M_PPT in Hw. apply (Hno (ztake p input) (zskip (p + 4) input)).
  rewrite (split4 input p) at 1 by lia. repeat f_equal; lia.
Qed.

Section Read.
Context (input : list Z) (Hb : bytes_ok input) (Hn : 1 <= zlen input <= two32 - 65552) (C : Z).
Local Notation n := (zlen input).
Definition located {A} (pad : list Z) (r : option (Z * A)) : ex (src * A) :=
  Ret (option_map (fun x : Z * A => (Src (Some (input ++ pad)) (fst x) n, snd x)) r).

(** Nothing fits behind a segment that touches the end. *)
Lemma part_header_same : forall k p segs count, 0 <= p <= n -> n - p < Z.of_nat k ->
  exists r, (forall pad fuel, 2 <= zlen pad -> n - p < Z.of_nat fuel -> read_part_header fuel (Src (Some (input ++ pad)) p n) C segs count = located pad r)
    /\ match r with Some (p', (segs', _)) => p + 2 <= p' <= n /\ exists tl, segs' = segs ++ tl /\ (no_empty_ppt input -> Forall (ppt_in n) tl) | None => True end.
Proof.
  pose proof two32_val. assert (H32 : n < two32) by lia.
  induction k; intros p segs count Hp Hk; [lia|].
  assert (Hlen : forall pad : list Z, zlen (input ++ pad) = n + zlen pad) by (intros; apply zlen_app).
  destruct (Z_lt_ge_dec (n - 2) p) as [Hend|Hend].
  { exists None. split; [|exact I]. intros pad fuel Hpad Hf. destruct fuel; [lia|]. cbn [read_part_header].
    rewrite lift_word by (rewrite ?Hlen; lia). replace (n - 2 <? p) with true by lia. reflexivity. }
  destruct (Z.eq_dec (word_at input p) M_SOD) as [Hsod|Hsod].
  { exists (Some (p + 2, (segs, count))). split; [|split; [lia|]]. 2:{ exists []. rewrite app_nil_r. split; [reflexivity|constructor]. }
    intros pad fuel Hpad Hf. destruct fuel; [lia|]. cbn [read_part_header].
    rewrite lift_word by (rewrite ?Hlen; lia). replace (n - 2 <? p) with false by lia. cbn [bindx ret].
    rewrite word_same by lia. rewrite Hsod, Z.eqb_refl. reflexivity. }
  assert (Hstep : forall pad fuel, 2 <= zlen pad -> read_part_header (S fuel) (Src (Some (input ++ pad)) p n) C segs count =
     match tile_parser (word_at input p) C with
     | Some parse =>
       let? (s, (lmar, base, g)) := open_segment (Src (Some (input ++ pad)) (p + 2) n) in
       let? x := parse lmar base g in read_part_header fuel s C (segs ++ [x]) (wrap32 (count + lmar + 2))
     | None => let? (s, L) := skip_unknown (Src (Some (input ++ pad)) (p + 2) n) (word_at input p) in read_part_header fuel s C segs (wrap32 (count + 2 + L))
     end).
  { intros pad fuel Hpad. cbn [read_part_header]. rewrite lift_word by (rewrite ?Hlen; lia). replace (n - 2 <? p) with false by lia. cbn [bindx ret].
    rewrite word_same by lia. replace (word_at input p =? M_SOD) with false by lia. reflexivity. }
  destruct (tile_parser (word_at input p) C) as [parse|] eqn:Ep.
  - destruct (Z_lt_ge_dec (n - 2) (p + 2)) as [Hend2|Hend2].
    { exists None. split; [|exact I]. intros pad fuel Hpad Hf. destruct fuel; [lia|]. rewrite Hstep by lia.
      unfold open_segment. rewrite lift_word by (rewrite ?Hlen; lia). replace (n - 2 <? p + 2) with true by lia. reflexivity. }
    set (L := word_at input (p + 2)) in *.
    assert (HL : 0 <= L < 65536) by (apply Z.mod_pos_bound; lia).
    assert (Hopen : forall pad, 2 <= zlen pad -> open_segment (Src (Some (input ++ pad)) (p + 2) n) =
       if (L <? 2) || (n <? p + 2 + L) then throw else ret (Src (Some (input ++ pad)) (p + 2 + L) n, (L, p + 4, ztake L (zskip (p + 4) (input ++ pad))))).
    { intros pad Hpad. rewrite open_eq by (rewrite ?Hlen; lia). rewrite word_same by lia. replace (p + 2 + 2) with (p + 4) by ring. reflexivity. }
    destruct ((L <? 2) || (n <? p + 2 + L)) eqn:Ebad.
    { exists None. split; [|exact I]. intros pad fuel Hpad Hf. destruct fuel; [lia|]. rewrite Hstep by lia. rewrite Hopen by lia. reflexivity. }
    apply orb_false_elim in Ebad as [E2 E3].
    destruct (Z_lt_ge_dec n (p + 4 + L)) as [Hover|Hin].
    + exists None. split; [|exact I]. intros pad fuel Hpad Hf. destruct fuel; [lia|]. rewrite Hstep by lia. rewrite Hopen by lia. cbn [bindx ret].
      destruct (tile_parser_defined L (ztake L (zskip (p + 4) (input ++ pad))) ltac:(apply zlen_shown; rewrite ?Hlen; lia) _ _ _ (p + 4) Ep) as [[x|] Ex]; rewrite Ex; [|reflexivity].
      cbn [bindx ret]. destruct fuel; [lia|]. cbn [read_part_header]. rewrite lift_word by (rewrite ?Hlen; lia).
      replace (n - 2 <? p + 2 + L) with true by lia. reflexivity.
    + set (g := ztake L (zskip (p + 4) input)).
      destruct (tile_parser_defined L g ltac:(apply zlen_shown; lia) _ _ _ (p + 4) Ep) as [[x|] Ex].
      * destruct (IHk (p + 2 + L) (segs ++ [x]) (wrap32 (count + L + 2))) as (r & Hr & Hr'); [lia|lia|].
        exists r. split.
        -- intros pad fuel Hpad Hf. destruct fuel; [lia|]. rewrite Hstep by lia. rewrite Hopen by lia. cbn [bindx ret].
           rewrite shown_same by lia. fold g. rewrite Ex. cbn [bindx ret]. apply Hr; lia.
        -- destruct r as [[p' [segs' c]]|]; [|exact I]. destruct Hr' as (H1 & tl & H2 & H3). split; [lia|]. exists (x :: tl). split; [rewrite H2, <- app_assoc; reflexivity|].
           intros Hno. constructor; [|exact (H3 Hno)]. apply (tile_parser_in _ _ _ _ _ _ _ n Ep Ex); [|lia|lia].
           destruct (Z.eq_dec (word_at input p) M_PPT) as [Ew|Ew]; [left|right; lia]. pose proof (ppt_at_least_3 input p Hb Hno ltac:(lia) ltac:(lia) Ew) as H3'. fold L in H3'. lia.
      * exists None. split; [|exact I]. intros pad fuel Hpad Hf. destruct fuel; [lia|]. rewrite Hstep by lia. rewrite Hopen by lia. cbn [bindx ret].
        rewrite shown_same by lia. fold g. rewrite Ex. reflexivity.
  - destruct ((word_at input p <? 65328) || (65343 <? word_at input p)) eqn:Ew.
    + destruct (Z_lt_ge_dec (n - 2) (p + 2)) as [Hend2|Hend2].
      { exists None. split; [|exact I]. intros pad fuel Hpad Hf. destruct fuel; [lia|]. rewrite Hstep by lia.
        unfold skip_unknown. rewrite Ew. rewrite lift_word by (rewrite ?Hlen; lia). replace (n - 2 <? p + 2) with true by lia. reflexivity. }
      set (L := word_at input (p + 2)) in *.
      assert (HL : 0 <= L < 65536) by (apply Z.mod_pos_bound; lia).
      assert (Hskip : forall pad, 2 <= zlen pad -> skip_unknown (Src (Some (input ++ pad)) (p + 2) n) (word_at input p) =
        if n <? p + 2 + Z.max 2 L then throw else ret (Src (Some (input ++ pad)) (p + 2 + Z.max 2 L) n, L)).
      { intros pad Hpad. rewrite skip_eq by (rewrite ?Hlen; first [lia|exact Ew]). rewrite word_same by lia. reflexivity. }
      destruct (n <? p + 2 + Z.max 2 L) eqn:E3.
      * exists None. split; [|exact I]. intros pad fuel Hpad Hf. destruct fuel; [lia|]. rewrite Hstep by lia. rewrite Hskip by lia. reflexivity.
      * destruct (IHk (p + 2 + Z.max 2 L) segs (wrap32 (count + 2 + L))) as (r & Hr & Hr'); [lia|lia|].
        exists r. split.
        -- intros pad fuel Hpad Hf. destruct fuel; [lia|]. rewrite Hstep by lia. rewrite Hskip by lia. cbn [bindx ret]. apply Hr; lia.
        -- destruct r as [[p' [segs' c]]|]; [|exact I]. destruct Hr' as (H1 & H2). split; [lia|exact H2].
    + destruct (IHk (p + 2) segs (wrap32 (count + 2 + 0))) as (r & Hr & Hr'); [lia|lia|].
      exists r. split.
      * intros pad fuel Hpad Hf. destruct fuel; [lia|]. rewrite Hstep by lia. unfold skip_unknown. rewrite Ew. cbn [bindx ret]. apply Hr; lia.
      * destruct r as [[p' [segs' c]]|]; [|exact I]. destruct Hr' as (H1 & H2). split; [lia|exact H2].
Qed.

Lemma eoc_same p : 0 <= p -> forall i dflt, p + Z.of_nat i <= n -> 0 <= dflt ->
  exists m, (forall pad, eoc_offset (input ++ pad) p i dflt = Ret m) /\ 0 <= m <= Z.max dflt (Z.of_nat i).
Proof.
  intros Hp. induction i as [|i IH]; intros dflt Hi Hd; [exists dflt; split; [reflexivity|lia]|]. cbn [eoc_offset].
  destruct (Z.of_nat (S i) <? 2) eqn:E2; [exists dflt; split; [reflexivity|lia]|].
  assert (R : forall pad j, p <= j < n -> rd (input ++ pad) j = Ret (znth 0 input j)).
  { intros pad j Hj. rewrite rd_in by (rewrite zlen_app; pose proof (zlen_nonneg pad); lia). rewrite znth_app_l by lia. reflexivity. }
  destruct ((znth 0 input (p + Z.of_nat (S i) - 2) =? 255) && (znth 0 input (p + Z.of_nat (S i) - 1) =? 217)) eqn:Eb.
  - exists (Z.of_nat (S i) - 2). split; [|lia]. intros pad. rewrite !R by lia. cbn [bind]. rewrite Eb. reflexivity.
  - destruct (IH dflt ltac:(lia) Hd) as (m & Hm & Hr). exists m. split; [|lia]. intros pad. rewrite !R by lia. cbn [bind]. rewrite Eb. apply Hm.
Qed.

Lemma part_same p t : 0 <= p <= n ->
  exists r, (forall pad, 2 <= zlen pad -> read_part (Src (Some (input ++ pad)) p n) C t = located pad r)
    /\ match r with Some (p', tp) => tp_sot tp = t /\ p + 2 <= tp_body tp /\ 0 <= tp_len tp /\ tp_body tp + tp_len tp = p' /\ p' <= n /\ (no_empty_ppt input -> packed_in n tp) | None => True end.
Proof.
  intros Hp. pose proof two32_val. destruct (part_header_same (Z.to_nat (n - p + 1)) p [] (2 + 10 + 2) Hp ltac:(lia)) as (r & Hr & Hr'). unfold read_part. cbn [mem data].
  assert (Hr2 : forall pad, 2 <= zlen pad -> read_part_header (S (length (input ++ pad))) (Src (Some (input ++ pad)) p n) C [] (2 + 10 + 2) = located pad r).
  { intros pad Hpad. apply Hr; [exact Hpad|]. rewrite app_length. unfold zlen. lia. }
  destruct r as [[p1 [segs c]]|].
  2:{ exists None. split; [|exact I]. intros pad Hpad. rewrite Hr2 by exact Hpad. reflexivity. }
  destruct Hr' as (H1 & tl & H2 & H3). cbn [app] in H2. subst tl.
  set (rem := n - p1). assert (Hw : wrap32 rem = rem) by (apply wrap32_id; unfold rem; lia).
  assert (exists m, 0 <= m <= rem /\ forall pad, (if Psot t =? 0 then eoc_offset (input ++ pad) p1 (Z.to_nat rem) (if 2 <=? rem then rem - 2 else 0)
     else let n0 := wrap32 (Psot t - c) in Ret (if rem <? n0 then rem else n0)) = Ret m) as (m & Hm & Em).
  { destruct (Psot t =? 0).
    - destruct (eoc_same p1 ltac:(lia) (Z.to_nat rem) (if 2 <=? rem then rem - 2 else 0) ltac:(unfold rem; lia) ltac:(destruct (2 <=? rem) eqn:E; lia)) as (m & Hm & Hm').
      exists m. split; [destruct (2 <=? rem) eqn:E; unfold rem in *; lia|exact Hm].
    - cbv zeta. set (k := wrap32 (Psot t - c)). assert (0 <= k) by (unfold k, wrap32; apply Z.mod_pos_bound; lia).
      exists (if rem <? k then rem else k). split; [destruct (rem <? k) eqn:E; unfold rem in *; lia|reflexivity]. }
  exists (Some (p1 + m, Tp t segs p1 m)). split.
  - intros pad Hpad. rewrite Hr2 by exact Hpad. unfold located. cbn [option_map fst snd bindx]. unfold get_remaining. cbn [len pos mem data]. fold rem. rewrite Hw. rewrite Em. cbn [bind].
    unfold forward_Nbytes. cbn [len pos data]. rewrite wrap32_id by (unfold rem in *; lia). replace (p1 + m <=? n) with true by (unfold rem in *; lia). reflexivity.
  - cbn [tp_sot tp_body tp_len tp_segs]. unfold rem in *. split; [reflexivity|]. split; [lia|]. split; [lia|]. split; [lia|]. split; [lia|]. intros Hno. unfold packed_in. cbn [tp_segs]. apply (Forall_impl _ (fun x Hx => Hx) (H3 Hno)).
Qed.

(** The SOT segment: if it reads its last two bytes behind the end, no header
    can follow. *)
Lemma sot_same p : 0 <= p <= n -> (exists t, 0 <= Isot t /\ p + 12 <= n /\ forall pad, 2 <= zlen pad -> read_sot (Src (Some (input ++ pad)) p n) = ret (Src (Some (input ++ pad)) (p + 10) n, t))
  \/ (forall pad, 2 <= zlen pad -> read_sot (Src (Some (input ++ pad)) p n) = throw)
  \/ (n < p + 12 /\ p + 10 <= n /\ forall pad, 2 <= zlen pad -> exists t, read_sot (Src (Some (input ++ pad)) p n) = ret (Src (Some (input ++ pad)) (p + 10) n, t)).
Proof.
  intros Hp. pose proof two32_val. assert (Hlen : forall pad : list Z, zlen (input ++ pad) = n + zlen pad) by (intros; apply zlen_app).
  destruct (Z_lt_ge_dec (n - 2) p) as [Hend|Hend].
  { right; left. intros pad Hpad. unfold read_sot, open_segment. rewrite lift_word by (rewrite ?Hlen; lia). replace (n - 2 <? p) with true by lia. reflexivity. }
  set (L := word_at input p).
  assert (Hopen : forall pad, 2 <= zlen pad -> open_segment (Src (Some (input ++ pad)) p n) =
     if (L <? 2) || (n <? p + L) then throw else ret (Src (Some (input ++ pad)) (p + L) n, (L, p + 2, ztake L (zskip (p + 2) (input ++ pad))))).
  { intros pad Hpad. rewrite open_eq by (rewrite ?Hlen; lia). rewrite word_same by lia. reflexivity. }
  destruct ((L <? 2) || (n <? p + L)) eqn:Ebad.
  { right; left. intros pad Hpad. unfold read_sot. rewrite Hopen by lia. reflexivity. }
  apply orb_false_elim in Ebad as [E2 E3]. destruct (Z.eq_dec L 10) as [EL|EL].
  2:{ right; left. intros pad Hpad. unfold read_sot. rewrite Hopen by lia. cbn [bindx ret]. replace (L =? 10) with false by lia. reflexivity. }
  rewrite EL in *. assert (Hp10 : p + 10 <= n) by lia.
  assert (P : forall g, zlen g = 10 -> exists t, 0 <= Isot t /\ parse_sot 10 g = ret t).
  { intros g Hg. unfold parse_sot. do 11 (destruct g as [|? g]; [try discriminate Hg|]).
    - eexists. split; [|reflexivity]. cbn. apply Z.mod_pos_bound. lia.
    - exfalso. revert Hg. unfold zlen. cbn [length]. lia. }
  destruct (Z_lt_ge_dec n (p + 12)) as [Hov|Hin].
  - right; right. split; [lia|]. split; [lia|]. intros pad Hpad. destruct (P (ztake 10 (zskip (p + 2) (input ++ pad)))) as (t & _ & Et); [apply zlen_shown; rewrite ?Hlen; lia|].
    exists t. unfold read_sot. rewrite Hopen by lia. cbn [bindx ret]. change (negb (10 =? 10)) with false. cbv iota. rewrite Et. reflexivity.
  - left. destruct (P (ztake 10 (zskip (p + 2) input))) as (t & H0 & Et); [apply zlen_shown; lia|]. exists t. split; [exact H0|]. split; [lia|]. intros pad Hpad.
    unfold read_sot. rewrite Hopen by lia. cbn [bindx ret]. change (negb (10 =? 10)) with false. cbv iota. rewrite shown_same by lia. rewrite Et. reflexivity.
Qed.

Lemma parts_same tiles : forall k p done, 0 <= p <= n -> n - p < Z.of_nat k ->
  exists r, (forall pad fuel, 2 <= zlen pad -> n - p < Z.of_nat fuel -> read_parts fuel (Src (Some (input ++ pad)) p n) C tiles done = located pad r)
    /\ match r with Some (p', ts) => p' <= n /\ exists new, ts = done ++ new /\ laid_out p new p' /\ Forall (fun t => 0 <= Isot (tp_sot t) < tiles) new /\ (no_empty_ppt input -> Forall (packed_in n) new) | None => True end.
Proof.
  pose proof two32_val. assert (Hlen : forall pad : list Z, zlen (input ++ pad) = n + zlen pad) by (intros; apply zlen_app).
  induction k; intros p done Hp Hk; [lia|].
  assert (Hrem : wrap32 (n - p) = n - p) by (apply wrap32_id; lia).
  assert (Hdone : forall q, p <= q <= n -> q <= n /\ exists new : list tile_part, done = done ++ new /\ laid_out p new q /\ Forall (fun t => 0 <= Isot (tp_sot t) < tiles) new /\ (no_empty_ppt input -> Forall (packed_in n) new)).
  { intros q Hq. split; [lia|]. exists []. rewrite app_nil_r. cbn. repeat split; try constructor; lia. }
  destruct (n - p <? 2) eqn:E2.
  { exists (Some (p, done)). split; [|apply Hdone; lia]. intros pad fuel Hpad Hf. destruct fuel; [lia|]. cbn [read_parts]. unfold get_remaining. cbn [len pos]. rewrite Hrem, E2. reflexivity. }
  assert (Hstep : forall pad fuel, 2 <= zlen pad -> read_parts (S fuel) (Src (Some (input ++ pad)) p n) C tiles done =
    let s := Src (Some (input ++ pad)) (p + 2) n in
    if word_at input p =? M_EOC then ret (s, done) else if negb (word_at input p =? M_SOT) then throw else
    let? (s, t) := read_sot s in if tiles <=? Isot t then throw else let? (s, q) := read_part s C t in read_parts fuel s C tiles (done ++ [q])).
  { intros pad fuel Hpad. cbn [read_parts]. unfold get_remaining. cbn [len pos]. rewrite Hrem, E2. rewrite lift_word by (rewrite ?Hlen; lia). replace (n - 2 <? p) with false by lia. cbn [bindx ret]. rewrite word_same by lia. reflexivity. }
  destruct (word_at input p =? M_EOC) eqn:Ee.
  { exists (Some (p + 2, done)). split; [|apply Hdone; lia]. intros pad fuel Hpad Hf. destruct fuel; [lia|]. rewrite Hstep by lia. reflexivity. }
  destruct (negb (word_at input p =? M_SOT)) eqn:Es.
  { exists None. split; [|exact I]. intros pad fuel Hpad Hf. destruct fuel; [lia|]. rewrite Hstep by lia. reflexivity. }
  destruct (sot_same (p + 2) ltac:(lia)) as [(t & Ht0 & Ht12 & Ht)|[Ht|(Ht12 & Ht10 & Ht)]].
  - destruct (tiles <=? Isot t) eqn:Ei.
    { exists None. split; [|exact I]. intros pad fuel Hpad Hf. destruct fuel; [lia|]. rewrite Hstep by lia. cbv zeta. rewrite Ht by lia. cbn [bindx ret]. rewrite Ei. reflexivity. }
    destruct (part_same (p + 2 + 10) t ltac:(lia)) as (r & Hr & Hr'). destruct r as [[p1 tp]|].
    + destruct Hr' as (G1 & G2 & G3 & G4 & G5 & G6). destruct (IHk p1 (done ++ [tp]) ltac:(lia) ltac:(lia)) as (r & Hr2 & Hr2').
      exists r. split.
      * intros pad fuel Hpad Hf. destruct fuel; [lia|]. rewrite Hstep by lia. cbv zeta. rewrite Ht by lia. cbn [bindx ret]. rewrite Ei. rewrite Hr by lia. unfold located at 1. cbn [option_map fst snd bindx]. apply Hr2; lia.
      * destruct r as [[p' ts]|]; [|exact I]. destruct Hr2' as (K1 & new & K2 & K3 & K4 & K5). split; [exact K1|]. exists (tp :: new). split; [rewrite K2, <- app_assoc; reflexivity|]. split.
        -- cbn [laid_out]. rewrite G4. split; [lia|]. split; [exact G3|exact K3].
        -- split; [constructor; [rewrite G1; lia|exact K4]|]. intros Hno. constructor; [exact (G6 Hno)|exact (K5 Hno)].
    + exists None. split; [|exact I]. intros pad fuel Hpad Hf. destruct fuel; [lia|]. rewrite Hstep by lia. cbv zeta. rewrite Ht by lia. cbn [bindx ret]. rewrite Ei. rewrite Hr by lia. reflexivity.
  - exists None. split; [|exact I]. intros pad fuel Hpad Hf. destruct fuel; [lia|]. rewrite Hstep by lia. cbv zeta. rewrite Ht by lia. reflexivity.
  - exists None. split; [|exact I]. intros pad fuel Hpad Hf. destruct fuel; [lia|]. rewrite Hstep by lia. cbv zeta. destruct (Ht pad Hpad) as (t & ->). cbn [bindx ret]. destruct (tiles <=? Isot t); [reflexivity|].
    destruct (part_same (p + 2 + 10) t ltac:(lia)) as (r & Hr & Hr'). rewrite Hr by lia. destruct r as [[p1 tp]|]; [|reflexivity]. exfalso. lia.
Qed.
End Read.
