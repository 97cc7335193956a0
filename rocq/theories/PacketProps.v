(** Packet headers: round trip (C33), termination (C34), reuse for the next frame
    (C54), memory safety (C55). *)
From Verif Require Import Base BaseLemmas ChainModel ChainProps PacketModel PacketTree PacketCode PacketSpec PacketProofs PacketSim PacketSafe PacketReuse.

Lemma Reads_reads c l e : Reads c l e -> reads chain_bit c l e.
Proof. induction 1 as [|c b c1 bs c2 E R IH]; [reflexivity|]. exists c1. split; [unfold chain_bit; rewrite E; reflexivity|exact IH]. Qed.

Lemma bands_ok style layers ccap fuel : 64 <= style < 128 -> has ccap 49152 = false -> 1 <= layers -> (256 < fuel)%nat ->
  forall ds, Forall grid ds -> exists bits fb fb', fresh_bands ds style layers = Ret fb /\ (forall w, generate_bands 0 ds w = Ret (put_all w bits)) /\
    (forall rest, parse_bands list_bit fuel 0 ccap fb (bits ++ rest) = ret (fb', rest)) /\ Forall bit bits /\
    map (fun d => map got (bblocks d)) fb' = map (fun d => map sent (snd d)) ds.
Proof.
  intros Hs Hc Hy Hf. induction ds as [|[[nx ny] bs] ds IH]; intros G.
  - exists [], [], []. split; [reflexivity|]. split; [reflexivity|]. split; [reflexivity|]. split; [constructor|reflexivity].
  - inversion G as [|? ? G1 G2]; subst. destruct (header_ok nx ny bs style layers ccap fuel G1 Hs Hc Hy Hf) as (b1 & d & d' & E1 & E2 & E3 & E4 & E5). destruct (IH G2) as (b2 & fb & fb' & F1 & F2 & F3 & F4 & F5).
    exists (b1 ++ b2), (d :: fb), (d' :: fb'). split; [cbn [fresh_bands]; rewrite E1; go; rewrite F1; reflexivity|]. split; [intros w; cbn [generate_bands]; rewrite E2; go; rewrite F2, put_all_app; reflexivity|].
    split; [intros rest; cbn [parse_bands]; rewrite <- app_assoc, E3; go; rewrite F3; reflexivity|]. split; [apply Forall_app; auto|]. cbn [map snd]. rewrite E5, F5. reflexivity.
Qed.

(** C33: whatever the code-blocks of a packet hold, the header that is written
    is read back to the same description of every block, from any chain of
    tile-parts, and reading stops exactly where the header ends. *)
Theorem C33_round_trip : forall ds style layers ccap eph rest fuel,
  Forall grid ds -> 64 <= style < 128 -> has ccap 49152 = false -> 1 <= layers -> (256 < fuel)%nat ->
  exists bytes fb, write_packet_header 0 ds eph = Ret bytes /\ fresh_bands ds style layers = Ret fb /\
    forall c, bits c = 0 -> last_byte c <> 255 -> Ahead c (bytes ++ rest) ->
    exists fb' c', read_packet_header fuel eph 0 ccap fb c = ret (fb', c') /\
      map (fun d => map got (bblocks d)) fb' = map (fun d => map sent (snd d)) ds /\
      Ahead c' rest /\ bits c' = 0 /\ last_byte c' <> 255.
Proof.
  intros ds style layers ccap eph rest fuel G Hs Hc Hy Hf. destruct (bands_ok style layers ccap fuel Hs Hc Hy Hf ds G) as (bits & fb & fb' & E1 & E2 & E3 & E4 & E5).
  exists (flush (put_all new_writer bits) eph), fb. split; [unfold write_packet_header; rewrite E2; reflexivity|]. split; [exact E1|]. intros c B L A.
  destruct (C32_round_trip bits eph rest c E4 B L A) as (c1 & c2 & R & K & A2 & B2 & L2).
  pose proof (Reads_reads _ _ _ R) as (c0 & R0 & R1). specialize (E3 []). rewrite app_nil_r in E3.
  destruct (sim_bands list_bit chain_bit _ (fun l s => sim_list chain_bit c1 l s) fuel 0 ccap fb _ _ R1 _ _ E3) as (c1' & E6 & R2). cbn [reads] in R2. subst c1'.
  unfold read_packet_header. rewrite R0. go. change (1 =? 0) with false. cbv iota. rewrite E6. go. rewrite K. go.
  destruct eph.
  - cbn [app] in A2. destruct (get_byte_cons _ _ _ _ A2) as (c3 & H1 & H2 & _ & H4 & H5 & _). destruct (get_byte_cons _ _ _ _ H2) as (c4 & H1' & H2' & _ & H4' & H5' & _).
    exists fb', c4. unfold check_EPH, get_word, lift. rewrite H1. go. rewrite H1'. go. change ((255 * 256 + 146) mod 65536 =? 65426) with true. cbv iota. go. split; [reflexivity|]. split; [exact E5|]. split; [exact H2'|]. split; congruence.
  - exists fb', (flush_bits c2). unfold check_EPH. go. split; [reflexivity|]. auto.
Qed.
Print Assumptions C33_round_trip.

(** Bands of 3x2, 1x1 and 0x3 code-blocks, some with nothing to send. *)
Definition ex_blk (n z : Z) (l : list Z) : eblk := EB (total l) z [0] [n] l 3.
Definition ex_grid : list (Z * Z * list eblk) :=
  [(3, 2, [ex_blk 3 2 [700; 5; 9]; ex_blk 0 0 []; ex_blk 1 7 [2]; ex_blk 2 0 [300; 0]; ex_blk 0 0 []; ex_blk 1 1 [65000]]); (1, 1, [ex_blk 1 30 [17]]); (0, 3, [])].
Lemma ex_grid_ok : Forall grid ex_grid.
Proof.
  assert (forall n z l, 0 <= n <= 3 -> 0 <= z < 256 -> zlen l = n -> (n = 0 <-> total l = 0) -> (0 < n -> 2 <= znth 0 l 0) -> Forall (fun v => 0 <= v) l -> total (ztake 3 l) < 2 ^ 29 -> coded (ex_blk n z l)) as H.
  { intros n z l H1 H2 H3 H4 H5 H6 H7. constructor; cbn [ex_blk e_start e_passes e_length e_zbp e_plen]; try (change (znth 0 [n] 0) with n); auto; try lia; [exists []; reflexivity|exists []; reflexivity]. }
  unfold ex_grid. repeat (apply Forall_cons || apply Forall_nil); unfold grid; (split; [lia|]); (split; [lia|]); (split; [lia|]); (split; [reflexivity|]); repeat (apply Forall_cons || apply Forall_nil); apply H; cbn; try lia; repeat constructor; lia.
Qed.
Example C33_example : exists bytes fb fb' c', write_packet_header 0 ex_grid true = Ret bytes /\ fresh_bands ex_grid 64 2 = Ret fb /\
  read_packet_header 300 true 0 0 fb (Chain 0 0 [bytes ++ [1; 2]] (bytes ++ [1; 2]) 0 0 0) = ret (fb', c') /\
  map (fun d => map got (bblocks d)) fb' =
    [[Some (2, 3, 700, 14); None; Some (7, 1, 2, 0); Some (0, 2, 300, 0); None; Some (1, 1, 65000, 0)]; [Some (30, 1, 17, 0)]; []] /\
  zskip (pos c') (current c') = [1; 2].
Proof. eexists _, _, _, _. split; [vm_compute; reflexivity|]. split; [vm_compute; reflexivity|]. split; [vm_compute; reflexivity|]. split; vm_compute; reflexivity. Qed.

(** ** Histories of packets *)
(** A precinct's bands before any packet. *)
Definition new_bands (dims : list (Z * Z)) (style layers : Z) : out (list band) := fresh_bands (map (fun d => (fst d, snd d, [])) dims) style layers.
(** Packets in turn: the header for a layer, then so many bytes of body. *)
Fixpoint read_packets (fuel : nat) (eph : bool) (ccap : Z) (ps : list (Z * nat)) (ds : list band) (c : chain) : ex (list band * chain) :=
  match ps with
  | [] => ret (ds, c)
  | (layer, n) :: ps =>
      let? (ds, c) := read_packet_header fuel eph layer ccap ds c in
      let? (_, c) := lift (read_bytes n c) in
      read_packets fuel eph ccap ps ds c
  end.
Definition sizes_ok (dims : list (Z * Z)) : Prop := Forall (fun d => 0 <= fst d /\ 0 <= snd d /\ fst d * snd d <= 2 ^ 26) dims.
Definition bodies_ok (bodies : list (list Z)) : Prop := bodies <> [] /\ Forall (fun b => 0 < zlen b < 2 ^ 32) bodies.
(** What block decoding takes from a code-block. *)
Definition seen (b : cb) : Z * Z * Z * Z * Z * list Z * list Z * list Z * bool :=
  (cmodes b, npasses b, nzbp b, fskip b, lblock b, map (znth 0 (plen b)) (zseq (npasses b)), lstart b, lpasses b, included b).

(** *** Proofs *)
Definition Inv (c : chain) : Prop := exists l, Ahead c l.
Lemma land1 v : bit01 (Z.land v 1).
Proof. change 1 with (Z.ones 1). rewrite Z.land_ones by lia. change (2 ^ 1) with 2. pose proof (Z.mod_pos_bound v 2 ltac:(lia)). unfold bit01. lia. Qed.
Lemma byte_inv c : Inv c -> exists b c', get_byte c = Ret (b, c') /\ Inv c'.
Proof.
  intros [[|b l] A]; [exists 0, c; split; [exact (get_byte_nil 0 c A)|exists []; exact A]|]. destruct (get_byte_cons 0 c b l A) as (c' & E & A' & _). exists b, c'. split; [exact E|exists l; exact A'].
Qed.
Lemma inv_upd c t l n : Inv c -> Inv (Chain (node_pos c) (pos c) (nodes c) (current c) t l n).
Proof. intros [r []]. exists r. constructor; assumption. Qed.
Lemma chain_get c : Inv c -> match chain_bit c with Ret None => True | Ret (Some (b, c')) => bit01 b /\ Inv c' /\ (false = true -> (0 < 0)%nat) | _ => False end.
Proof.
  intros H. unfold chain_bit, get_bit, lift. destruct (bits c =? 0).
  - destruct (byte_inv c H) as (b & c' & -> & H'). go. cbn. split; [apply land1|]. split; [now apply inv_upd|discriminate].
  - go. cbn. split; [apply land1|]. split; [now apply inv_upd|discriminate].
Qed.
Lemma bytes_inv n c : Inv c -> exists l c', read_bytes n c = Ret (l, c') /\ Inv c'.
Proof. intros [l A]. destruct (read_bytes_ok n c l A) as (c' & E & A'). eexists _, c'. split; [exact E|eexists; exact A']. Qed.
Lemma eph_inv eph c : Inv c -> match check_EPH eph c with Ret None => True | Ret (Some c') => Inv c' | _ => False end.
Proof.
  intros H. unfold check_EPH, get_word, lift. destruct eph; [|exact H]. destruct (byte_inv c H) as (a & c1 & -> & H1). go. destruct (byte_inv c1 H1) as (b & c2 & -> & H2). go. destruct (_ =? _); [exact H2|exact I].
Qed.
Lemma last_inv c : Inv c -> exists c', check_last_FF c = Ret c' /\ Inv c'.
Proof.
  intros H. unfold check_last_FF. destruct (tmp_byte c =? 255); [|eauto]. pose proof (chain_get c H) as G. unfold chain_bit, lift in G. destruct (get_bit c) as [[b c']| |]; go; cbn in G; try contradiction. exists c'. split; [reflexivity|apply G].
Qed.
Lemma flush_inv c : Inv c -> Inv (flush_bits c).
Proof. apply inv_upd. Qed.
Definition safe {A} (P : A -> Prop) (x : ex (A * chain)) : Prop :=
  match x with Ret None => True | Ret (Some (a, c)) => P a /\ Inv c | UB => False | NoFuel => True end.
Lemma header_safe style layers fuel eph layer ccap d0s ds c : has ccap 49152 = false -> 0 <= layer < layers -> Forall2 (band_ok style layers) d0s ds -> Inv c -> safe (Forall2 (band_ok style layers) d0s) (read_packet_header fuel eph layer ccap ds c).
Proof.
  intros Hc Hl K H. unfold read_packet_header. pose proof (chain_get c H) as G. destruct (chain_bit c) as [[[b c1]|]| |]; go; unfold safe, ret, throw; auto; try contradiction. destruct G as (_ & H1 & _). destruct (b =? 0).
  - pose proof (eph_inv eph _ (flush_inv _ H1)) as E. destruct (check_EPH eph (flush_bits c1)) as [[c2|]| |]; go; unfold safe, ret, throw; auto; try contradiction.
  - pose proof (ok_bands chain_bit Inv (fun _ => O) false chain_get style layers fuel layer ccap Hc Hl d0s ds c1 K H1 ltac:(discriminate)) as P. destruct (parse_bands chain_bit fuel layer ccap ds c1) as [[[ds2 c2]|]| |]; go; cbn [ok] in P; cbn [safe]; auto. destruct P as (P1 & P2 & _).
    destruct (last_inv c2 P2) as (c3 & E3 & H3). unfold lift. rewrite E3. go. pose proof (eph_inv eph _ (flush_inv _ H3)) as E. destruct (check_EPH eph (flush_bits c3)) as [[c4|]| |]; go; unfold safe, ret, throw; auto; try contradiction.
Qed.
Lemma packets_safe style layers fuel eph ccap d0s : has ccap 49152 = false -> forall ps ds c, Forall (fun p => 0 <= fst p < layers) ps -> Forall2 (band_ok style layers) d0s ds -> Inv c -> safe (Forall2 (band_ok style layers) d0s) (read_packets fuel eph ccap ps ds c).
Proof.
  intros Hc. induction ps as [|[layer n] ps IH]; intros ds c Hp K H; cbn [read_packets]; [split; assumption|]. inversion Hp as [|? ? Hl Hps]; subst. pose proof (header_safe style layers fuel eph layer ccap d0s ds c Hc Hl K H) as G. destruct (read_packet_header fuel eph layer ccap ds c) as [[[ds1 c1]|]| |]; go; cbn [safe] in *; auto. destruct G as [G1 G2].
  destruct (bytes_inv n c1 G2) as (l & c2 & E & H2). unfold lift. rewrite E. go. apply IH; auto.
Qed.
Lemma blank_reset t0 t : Forall (fun n => st n = 0 /\ cur n = 0 /\ val n = 0 /\ isset n = false) t0 -> same t0 t -> map reset_node t = t0.
Proof.
  intros F S. apply (nth_ext _ _ node0 node0); [rewrite map_length; pose proof (sm_len _ _ S); unfold zlen in *; lia|]. intros k Hk. rewrite map_length in Hk. change node0 with (reset_node node0) at 1. rewrite map_nth.
  pose proof (sm_nd _ _ S (Z.of_nat k) ltac:(pose proof (sm_len _ _ S); unfold zlen in *; lia)) as (A & B & C & D). unfold nd, znth in *. rewrite !Nat2Z.id in *. rewrite Forall_forall in F. specialize (F (nth k t0 node0)). destruct F as (F1 & F2 & F3 & F4); [apply nth_In; pose proof (sm_len _ _ S); unfold zlen in *; lia|].
  rewrite (nd_eta (nth k t0 node0)). unfold reset_node. rewrite F1, F2, F3, F4. congruence.
Qed.
Definition empty_tree (t : tree) : Prop := Forall (fun n => st n = 0 /\ cur n = 0 /\ val n = 0 /\ isset n = false) t.
Definition unused (style layers : Z) (d : band) : Prop := empty_tree (binc d) /\ empty_tree (bzbp d) /\ bblocks d = repeat (fresh_cb style layers) (Z.to_nat (bnx d * bny d)).
Lemma new_ok style layers dims : sizes_ok dims -> 0 <= style < 128 -> 1 <= layers ->
  exists ds, new_bands dims style layers = Ret ds /\ Forall2 (band_ok style layers) ds ds /\ Forall (unused style layers) ds.
Proof.
  intros D Hs Hl. unfold new_bands. induction D as [|[nx ny] dims D1 D2 IH]; [exists []; repeat split; constructor|]. destruct IH as (ds & E & K & U). cbn [fst snd] in D1. destruct (fresh_band_ok nx ny style layers) as (d & E1 & K1); try lia.
  exists (d :: ds). cbn [map fresh_bands fst snd]. rewrite E1. go. rewrite E. go. split; [reflexivity|]. split; [constructor; assumption|]. constructor; [|exact U].
  unfold fresh_band in E1. destruct (Z.eqb_spec (nx * ny) 0) as [Z0|Z0]; [apply Ret_inj in E1; subst d; split; [constructor|]; split; [constructor|]; cbn [bblocks bnx bny]; rewrite Z0; reflexivity|].
  destruct (tagtree_ok nx ny) as (t & Et & _ & B); [nia|nia|lia|]. rewrite Et in E1. cbn [bind] in E1. apply Ret_inj in E1. subst d.
  assert (empty_tree t) as ET. { apply Forall_forall. intros n Hn. apply (In_nth _ _ node0) in Hn. destruct Hn as (k & Hk & <-). pose proof (B (Z.of_nat k) ltac:(unfold zlen; lia)) as Bk. unfold nd, znth in Bk. rewrite Nat2Z.id in Bk. unfold blank in Bk. tauto. }
  split; [exact ET|]. split; [exact ET|reflexivity].
Qed.
Lemma start_inv bodies : bodies_ok bodies -> exists c, create_tile_buf bodies = Ret c /\ Inv c.
Proof.
  intros [N F]. unfold create_tile_buf. assert (filter (fun b => negb (zlen b =? 0)) bodies = bodies) as ->. { clear N. induction F as [|b bs Hb F IH]; [reflexivity|]. cbn [filter]. replace (negb (zlen b =? 0)) with true by lia. rewrite IH. reflexivity. }
  rewrite Nat.sub_diag. destruct bodies as [|b bs]; [contradiction|]. destruct (activate_ahead 0 b bs F) as (c & E & A & _). exists c. split; [exact E|]. eexists; exact A.
Qed.

(** C55: whatever the tile-parts hold, reading any packets of a precinct never
    steps outside an array, shifts too far or follows a null pointer. *)
Theorem C55_memory_safe_partial : forall dims style layers ccap eph fuel ps bodies,
  sizes_ok dims -> 0 <= style < 128 -> 1 <= layers -> has ccap 49152 = false -> Forall (fun p => 0 <= fst p < layers) ps -> bodies_ok bodies ->
  exists ds c, new_bands dims style layers = Ret ds /\ create_tile_buf bodies = Ret c /\ read_packets fuel eph ccap ps ds c <> UB.
Proof.
  intros dims style layers ccap eph fuel ps bodies D Hs Hl Hc Hp B. destruct (new_ok style layers dims D Hs Hl) as (ds & E & K & _). destruct (start_inv bodies B) as (c & E2 & H). exists ds, c. split; [exact E|]. split; [exact E2|].
  pose proof (packets_safe style layers fuel eph ccap ds Hc ps ds c Hp K H) as S. intros X. rewrite X in S. exact S.
Qed.
Print Assumptions C55_memory_safe_partial.
(** With blocks of both kinds in a tile-component, 33 length bits are shifted
    down by 32. *)
Theorem C55_mixed_refuted : exists bodies ds c, bodies_ok bodies /\ new_bands [(1, 1)] 64 1 = Ret ds /\ create_tile_buf bodies = Ret c /\
  forall eph, read_packets 300 eph 49152 [(0, O)] ds c = UB.
Proof.
  exists [flush (put_all new_writer ([1; 1; 0] ++ repeat 1 30 ++ [0] ++ repeat 0 31 ++ [1; 0])) false]. eexists _, _. split; [split; [discriminate|]; repeat constructor|]. split; [vm_compute; reflexivity|]. split; [vm_compute; reflexivity|]. intros eph. vm_compute. reflexivity.
Qed.
Print Assumptions C55_mixed_refuted.
Example C55_example : sizes_ok [(3, 2); (1, 1); (0, 3)] /\ bodies_ok [[255; 0; 17]; [9]] /\
  exists ds c r, new_bands [(3, 2); (1, 1); (0, 3)] 64 2 = Ret ds /\ create_tile_buf [[128; 64; 0]; [193; 240; 17]] = Ret c /\
    read_packets 300 false 0 [(0, 1%nat); (1, 0%nat)] ds c = ret r.
Proof.
  split; [unfold sizes_ok; repeat constructor; cbn; lia|]. split; [split; [discriminate|]; repeat constructor; cbn; lia|]. eexists _, _, _. split; [vm_compute; reflexivity|]. split; [vm_compute; reflexivity|]. vm_compute. reflexivity.
Qed.

(** *** The next frame *)
Lemma roomy l l' i : roomier l l' -> 0 <= i -> znth 0 l' i = znth 0 l i.
Proof.
  intros [-> |[L ->]] Hi; [reflexivity|]. destruct (Z_lt_le_dec i (zlen l)) as [G|G]; [apply znth_app_l; lia|]. rewrite znth_app_r by lia. unfold znth. rewrite nth_repeat. symmetry. apply nth_overflow. unfold zlen in *. lia.
Qed.
Lemma twin_seen b b' : twin b b' -> seen b' = seen b.
Proof.
  intros [T1 T2 T3 T4 T5 T6 T7 T8 T9 T10]. unfold seen. rewrite T1, T2, T3, T4, T5, T8, T9, T10. do 3 f_equal. f_equal. apply map_ext_in. intros i Hi. apply zseq_In in Hi. apply roomy; [exact T6|lia].
Qed.
Lemma twins_seen ds ds' : Forall2 twins ds ds' -> map (fun d => map seen (bblocks d)) ds' = map (fun d => map seen (bblocks d)) ds.
Proof.
  induction 1 as [|d d' ds ds' H F IH]; [reflexivity|]. cbn [map]. rewrite IH. f_equal. pose proof (tb_cb _ _ H) as T. clear -T. induction T as [|b b' bs bs' H F IH]; [reflexivity|]. cbn [map]. rewrite IH, (twin_seen b b' H). reflexivity.
Qed.
Lemma reset_twin style layers b : 0 <= layers -> cb_ok style layers b -> twin (fresh_cb style layers) (reset_cb b).
Proof.
  intros Hl [K1 K2 K3 K4 K5 K6 K7]. constructor; cbn [fresh_cb reset_cb cmodes npasses nzbp fskip lblock plen plcount lstart lpasses included]; auto.
  - unfold zlen in K3. destruct K3 as [E|E]; [left; replace (length (plen b)) with 4%nat by lia; reflexivity|right; split; [reflexivity|replace (length (plen b)) with 128%nat by lia; reflexivity]].
  - f_equal. unfold zlen in K6. lia.
  - f_equal. unfold zlen in K7. lia.
Qed.
Lemma reset_twins style layers d0 d : 0 <= layers -> unused style layers d0 -> band_ok style layers d0 d -> twins d0 (reset_band d).
Proof.
  intros Hl (U1 & U2 & U3) [K1 K2 Kx Ky K3 Ki Kz K4 K5]. constructor; cbn [reset_band bnx bny binc bzbp bblocks]; auto using blank_reset.
  rewrite U3, <- Kx, <- Ky, <- K4. unfold zlen. rewrite Nat2Z.id. clear -K5 Hl. induction K5 as [|b bs H F IH]; cbn [length repeat map]; constructor; eauto using reset_twin.
Qed.
Lemma header_alike style layers fuel eph layer ccap d0s ds ds' c : has ccap 49152 = false -> 0 <= layer < layers -> Forall2 (band_ok style layers) d0s ds -> Forall2 twins ds ds' -> Inv c ->
  orel (pairR (Forall2 twins)) (read_packet_header fuel eph layer ccap ds c) (read_packet_header fuel eph layer ccap ds' c).
Proof.
  intros Hc Hl K T H. unfold read_packet_header. pose proof (chain_get c H) as G. destruct (chain_bit c) as [[[b c1]|]| |]; go; try exact I. destruct G as (_ & H1 & _). destruct (b =? 0).
  - destruct (check_EPH eph (flush_bits c1)) as [[c2|]| |]; go; try exact I. split; [exact T|reflexivity].
  - eapply orel_bind; [apply (bands_twin chain_bit Inv chain_get style layers fuel layer ccap Hc Hl d0s ds ds' c1 K T H1)|]. intros [ds2 c2] [ds2' c2'] [T2 E2]. cbn [fst snd] in *. subst c2'. cbv beta iota.
    destruct (check_last_FF c2) as [c3| |]; go; try exact I. destruct (check_EPH eph (flush_bits c3)) as [[c4|]| |]; go; try exact I. split; [exact T2|reflexivity].
Qed.
Lemma packets_alike style layers fuel eph ccap d0s : has ccap 49152 = false -> forall ps ds ds' c, Forall (fun p => 0 <= fst p < layers) ps -> Forall2 (band_ok style layers) d0s ds -> Forall2 twins ds ds' -> Inv c ->
  orel (pairR (Forall2 twins)) (read_packets fuel eph ccap ps ds c) (read_packets fuel eph ccap ps ds' c).
Proof.
  intros Hc. induction ps as [|[layer n] ps IH]; intros ds ds' c Hp K T H; cbn [read_packets]; [split; [exact T|reflexivity]|]. inversion Hp as [|? ? Hl Hps]; subst. pose proof (header_safe style layers fuel eph layer ccap d0s ds c Hc Hl K H) as G. pose proof (header_alike style layers fuel eph layer ccap d0s ds ds' c Hc Hl K T H) as A.
  destruct (read_packet_header fuel eph layer ccap ds c) as [[[ds1 c1]|]| |], (read_packet_header fuel eph layer ccap ds' c) as [[[ds1' c1']|]| |]; go; cbn [orel safe] in *; auto; try contradiction. destruct A as [A1 A2]. cbn [fst snd] in *. subst c1'. destruct G as [G1 G2].
  destruct (bytes_inv n c1 G2) as (l & c2 & E & H2). unfold lift. rewrite E. go. apply IH; auto.
Qed.

(** C54: after any packets of one frame, the precinct is reset; then whatever the
    next frame's tile-parts hold, its packets are read as by a new decoder. *)
Theorem C54_reuse_partial : forall dims style layers ccap eph fuel ps bodies ds c ds1 c1,
  sizes_ok dims -> 0 <= style < 128 -> 1 <= layers -> has ccap 49152 = false -> Forall (fun p => 0 <= fst p < layers) ps -> bodies_ok bodies ->
  new_bands dims style layers = Ret ds -> create_tile_buf bodies = Ret c -> read_packets fuel eph ccap ps ds c = ret (ds1, c1) ->
  forall fuel' ps' bodies' c', Forall (fun p => 0 <= fst p < layers) ps' -> bodies_ok bodies' -> create_tile_buf bodies' = Ret c' ->
  match read_packets fuel' eph ccap ps' (map reset_band ds1) c', read_packets fuel' eph ccap ps' ds c' with
  | Ret (Some (used, c1)), Ret (Some (new, c2)) => c1 = c2 /\ map (fun d => map seen (bblocks d)) used = map (fun d => map seen (bblocks d)) new
  | Ret None, Ret None => True
  | NoFuel, NoFuel => True
  | _, _ => False
  end.
Proof.
  intros dims style layers ccap eph fuel ps bodies ds c ds1 c1 D Hs Hl Hc Hp B E1 E2 E3 fuel' ps' bodies' c' Hp' B' E4. destruct (new_ok style layers dims D Hs Hl) as (ds0 & E & K & U). rewrite E1 in E. apply Ret_inj in E. subst ds0.
  destruct (start_inv bodies B) as (c0 & F2 & H). rewrite E2 in F2. apply Ret_inj in F2. subst c0. destruct (start_inv bodies' B') as (c0 & F2 & H'). rewrite E4 in F2. apply Ret_inj in F2. subst c0.
  pose proof (packets_safe style layers fuel eph ccap ds Hc ps ds c Hp K H) as S. rewrite E3 in S. destruct S as [S _].
  assert (Forall2 twins ds (map reset_band ds1)) as T. { clear -S U Hl. revert U. induction S as [|d d1 ds ds1 X S IH]; intros U; cbn [map]; [constructor|]. inversion U; subst. constructor; [apply (reset_twins style layers); auto; lia|auto]. }
  pose proof (packets_alike style layers fuel' eph ccap ds Hc ps' ds (map reset_band ds1) c' Hp' K T H') as A. pose proof (packets_safe style layers fuel' eph ccap ds Hc ps' ds c' Hp' K H') as S'.
  destruct (read_packets fuel' eph ccap ps' ds c') as [[[a ca]|]| |], (read_packets fuel' eph ccap ps' (map reset_band ds1) c') as [[[b cb]|]| |]; cbn [orel safe] in *; auto; try contradiction. destruct A as [A1 A2]. cbn [fst snd] in *. split; [congruence|]. apply twins_seen. exact A1.
Qed.
Print Assumptions C54_reuse_partial.
(** Not with blocks of both kinds: one that was not HT in the last frame is taken
    not to be HT in this one. *)
Theorem C54_mixed_refuted : exists bodies bodies' ds c c' ds1 c1 used new c2 c3,
  new_bands [(1, 1)] 64 1 = Ret ds /\ create_tile_buf bodies = Ret c /\ create_tile_buf bodies' = Ret c' /\ read_packets 300 false 49152 [(0, O)] ds c = ret (ds1, c1) /\
  read_packets 300 false 49152 [(0, O)] (map reset_band ds1) c' = ret (used, c2) /\ read_packets 300 false 49152 [(0, O)] ds c' = ret (new, c3) /\
  map (fun d => map cmodes (bblocks d)) used = [[0]] /\ map (fun d => map (fun b => Z.land (cmodes b) HT) (bblocks d)) new = [[HT]].
Proof.
  exists [flush (put_all new_writer [1; 1; 0; 1; 0; 1; 1; 0; 1]) false], [flush (put_all new_writer [1; 1; 0; 1; 0; 0; 1; 0; 1]) false]. do 9 eexists. repeat (split; [vm_compute; reflexivity|]). vm_compute; reflexivity.
Qed.
Print Assumptions C54_mixed_refuted.
(** A first frame with two layers, a second that differs. *)
Example C54_example : exists bodies bodies' ds c c' ds1 c1 used c2, bodies_ok bodies /\ bodies_ok bodies' /\
  new_bands [(2, 1); (1, 1)] 64 2 = Ret ds /\ create_tile_buf bodies = Ret c /\ create_tile_buf bodies' = Ret c' /\ read_packets 300 false 0 [(0, 2%nat); (1, O)] ds c = ret (ds1, c1) /\
  read_packets 300 false 0 [(0, 2%nat); (1, O)] (map reset_band ds1) c' = ret (used, c2) /\
  map (fun d => map seen (bblocks d)) used <> map (fun d => map seen (bblocks d)) ds1.
Proof.
  exists [flush (put_all new_writer [1; 1; 1; 0; 0; 0; 1; 0; 0; 0]) false; [7; 7; 0]], [flush (put_all new_writer [1; 1; 0; 1; 0; 0; 0; 1; 0; 0; 0]) false; [7; 7; 0]]. do 7 eexists. split; [split; [discriminate|]; repeat constructor; cbn; lia|]. split; [split; [discriminate|]; repeat constructor; cbn; lia|]. repeat (split; [vm_compute; reflexivity|]). vm_compute. discriminate.
Qed.

(** ** Termination (C34) *)
(** The bytes of the tile's chain not read yet. *)
Definition unread (c : chain) : list Z := zskip (pos c) (current c) ++ concat (zskip (node_pos c + 1) (nodes c)).
(** A reader that refuses to go past the last byte, instead of handing out zeros. *)
Definition strict_bit (c : chain) : ex (Z * chain) := if (bits c =? 0) && (zlen (unread c) =? 0) then throw else chain_bit c.
Definition bits_left (c : chain) : nat := Z.to_nat (bits c + 8 * zlen (unread c)).

Definition SInv (c : chain) : Prop := 0 <= bits c /\ Ahead c (unread c).
Lemma strict_get c : SInv c -> match strict_bit c with Ret None => True | Ret (Some (b, c')) => bit01 b /\ SInv c' /\ (true = true -> (bits_left c' < bits_left c)%nat) | _ => False end.
Proof.
  intros [B A]. unfold strict_bit, chain_bit, get_bit, lift, bits_left. destruct (Z.eqb_spec (bits c) 0) as [E|E]; cbn [andb].
  - destruct (Z.eqb_spec (zlen (unread c)) 0) as [L|L]; [exact I|]. destruct (unread c) as [|b l] eqn:U; [contradiction|]. destruct (get_byte_cons 0 c b l A) as (c' & -> & A' & _ & L' & B' & _). go. cbn [ret]. split; [apply land1|].
    pose proof (a_l _ _ _ A') as Ul. fold (unread c') in Ul. set (c2 := Chain _ _ _ _ _ _ _). assert (unread c2 = l) as U2 by (subst c2; unfold unread in *; cbn [pos current node_pos nodes]; auto).
    assert (7 - 1 <= bits c2 <= 8 - 1) as B2 by (subst c2; cbn [bits]; destruct (last_byte c' =? 255); lia).
    split; [split; [lia|rewrite U2; destruct A'; constructor; assumption]|]. intros _. rewrite U2, zlen_cons. pose proof (zlen_nonneg l). lia.
  - go. cbn [ret]. split; [apply land1|]. set (c2 := Chain _ _ _ _ _ _ _). assert (unread c2 = unread c) as U2 by reflexivity. assert (bits c2 = bits c - 1) as B2 by reflexivity.
    split; [split; [lia|rewrite U2; destruct A; constructor; assumption]|]. intros _. rewrite U2. pose proof (zlen_nonneg (unread c)). lia.
Qed.

(** A packet header from any source of bits. *)
Definition header {S} (get : S -> ex (Z * S)) (fuel : nat) (layer ccap : Z) (ds : list band) (s : S) : ex (list band * S) :=
  let? (bit, s) := get s in if bit =? 0 then ret (ds, s) else parse_bands get fuel layer ccap ds s.
Lemma header_strict style layers fuel layer ccap d0s ds c : has ccap 49152 = false -> 0 <= layer < layers -> Forall2 (band_ok style layers) d0s ds -> SInv c -> (bits_left c < fuel)%nat ->
  match header strict_bit fuel layer ccap ds c with
  | Ret (Some r) => header chain_bit fuel layer ccap ds c = ret r
  | Ret None => True
  | UB | NoFuel => False
  end.
Proof.
  intros Hc Hl K H F. unfold header. pose proof (strict_get c H) as G. assert (forall r, strict_bit c = ret r -> chain_bit c = ret r) as W by (unfold strict_bit; intros r; destruct ((bits c =? 0) && _); [discriminate|auto]).
  destruct (strict_bit c) as [[[b c1]|]| |]; go; auto. rewrite (W _ eq_refl). go. destruct G as (_ & H1 & M). specialize (M eq_refl). destruct (b =? 0); [reflexivity|].
  pose proof (ok_bands strict_bit SInv bits_left true strict_get style layers fuel layer ccap Hc Hl d0s ds c1 K H1 ltac:(lia)) as O.
  destruct (parse_bands strict_bit fuel layer ccap ds c1) as [[[a c']|]| |] eqn:P; cbn [ok] in O; auto; try discriminate O.
  destruct (sim_bands strict_bit chain_bit (fun l s => l = s)) with (fuel := fuel) (layer := layer) (ccap := ccap) (ds := ds) (s := c1) (l := c1) (a := a) (l' := c') as (s' & E2 & <-); auto.
  intros l s <- v l' Eb. unfold strict_bit in Eb. destruct ((bits l =? 0) && _); [discriminate Eb|]. exists l'. auto.
Qed.
Lemma byte_bits c b c' : get_byte c = Ret (b, c') -> bits c' = bits c.
Proof. unfold get_byte, read_current. repeat (match goal with |- context [if ?b then _ else _] => destruct b end); cbn [current pos]; intros E; try (destruct (rd _ _); cbn [bind] in E); try discriminate E; apply Ret_inj, pair_inj in E; destruct E as [_ <-]; reflexivity. Qed.
Lemma bytes_bits n : forall c l c', read_bytes n c = Ret (l, c') -> bits c' = bits c.
Proof.
  induction n as [|n IH]; intros c l c' E; cbn [read_bytes] in E; [apply Ret_inj, pair_inj in E; destruct E as [_ <-]; reflexivity|]. destruct (get_byte c) as [[b c1]| |] eqn:E1; cbn [bind] in E; try discriminate E. destruct (read_bytes n c1) as [[l2 c2]| |] eqn:E2; cbn [bind] in E; try discriminate E. apply Ret_inj, pair_inj in E. destruct E as [_ <-]. rewrite (IH _ _ _ E2). exact (byte_bits _ _ _ E1).
Qed.
Lemma header_bits fuel eph layer ccap ds c ds' c' : read_packet_header fuel eph layer ccap ds c = ret (ds', c') -> bits c' = 0.
Proof.
  assert (forall c1 c2, check_EPH eph (flush_bits c1) = ret c2 -> bits c2 = 0) as W.
  { intros c1 c2. unfold check_EPH, PacketModel.get_word, lift. destruct eph; [|intros E; apply Ret_inj, Some_inj in E; subst c2; reflexivity]. destruct (get_byte (flush_bits c1)) as [[a x]| |] eqn:E1; go; try discriminate. destruct (get_byte x) as [[b y]| |] eqn:E2; go; try discriminate. destruct (_ =? _); [|discriminate]. intros E. apply Ret_inj, Some_inj in E. subst c2. rewrite (byte_bits _ _ _ E2), (byte_bits _ _ _ E1). reflexivity. }
  unfold read_packet_header. destruct (chain_bit c) as [[[b c1]|]| |]; go; try discriminate. destruct (b =? 0).
  - destruct (check_EPH eph (flush_bits c1)) as [[c2|]| |] eqn:E; go; try discriminate. intros X. apply Ret_inj, Some_inj, pair_inj in X. destruct X as [_ <-]. exact (W _ _ E).
  - destruct (parse_bands _ _ _ _ _ _) as [[[d2 c2]|]| |]; go; try discriminate. destruct (check_last_FF c2) as [c3| |]; go; try discriminate. destruct (check_EPH eph (flush_bits c3)) as [[c4|]| |] eqn:E; go; try discriminate. intros X. apply Ret_inj, Some_inj, pair_inj in X. destruct X as [_ <-]. exact (W _ _ E).
Qed.
Lemma packets_bits fuel eph ccap ps : forall ds c ds' c', bits c = 0 -> read_packets fuel eph ccap ps ds c = ret (ds', c') -> bits c' = 0.
Proof.
  induction ps as [|[layer n] ps IH]; intros ds c ds' c' B E; cbn [read_packets] in E; [apply Ret_inj, Some_inj, pair_inj in E; destruct E as [_ <-]; exact B|]. destruct (read_packet_header fuel eph layer ccap ds c) as [[[d1 c1]|]| |] eqn:E1; cbn [bindx] in E; try discriminate E. pose proof (header_bits _ _ _ _ _ _ _ _ E1) as B1. unfold lift in E. destruct (read_bytes n c1) as [[l c2]| |] eqn:E2; cbn [bind bindx ret] in E; try discriminate E.
  apply (IH d1 c2 ds' c'); [rewrite (bytes_bits _ _ _ _ E2); exact B1|exact E].
Qed.

(** C34, partial: after any packets, a header that lies within the bytes still
    unread is read in at most as many rounds of any loop as there are bits; only
    a header that runs past the last byte may not end. *)
Theorem C34_within_the_bytes_partial : forall dims style layers ccap eph fuel0 ps bodies ds0 c0 ds c layer fuel,
  sizes_ok dims -> 0 <= style < 128 -> 1 <= layers -> has ccap 49152 = false -> Forall (fun p => 0 <= fst p < layers) ps -> bodies_ok bodies ->
  new_bands dims style layers = Ret ds0 -> create_tile_buf bodies = Ret c0 -> read_packets fuel0 eph ccap ps ds0 c0 = ret (ds, c) ->
  0 <= layer < layers -> 8 * zlen (unread c) < Z.of_nat fuel ->
  match header strict_bit fuel layer ccap ds c with
  | Ret (Some r) => header chain_bit fuel layer ccap ds c = ret r /\ forall eph, exists r', read_packet_header fuel eph layer ccap ds c = Ret r'
  | Ret None => True
  | UB | NoFuel => False
  end.
Proof.
  intros dims style layers ccap eph fuel0 ps bodies ds0 c0 ds c layer fuel D Hs Hy Hc Hp B E1 E2 E3 Hl F. destruct (new_ok style layers dims D Hs Hy) as (d0s & E & K & _). rewrite E1 in E. apply Ret_inj in E. subst d0s.
  destruct (start_inv bodies B) as (c9 & F2 & H). rewrite E2 in F2. apply Ret_inj in F2. subst c9. pose proof (packets_safe style layers fuel0 eph ccap ds0 Hc ps ds0 c0 Hp K H) as S. rewrite E3 in S. destruct S as [S1 S2].
  assert (bits c = 0) as B0. { apply (packets_bits _ _ _ _ _ _ _ _) in E3; [exact E3|]. unfold create_tile_buf, activate in E2. destruct (_ ++ _); [discriminate E2|]. apply Ret_inj in E2. subst c0. reflexivity. }
  assert (SInv c) as HS by (split; [lia|]; destruct S2 as [l A]; pose proof (a_l _ _ _ A) as Ul; fold (unread c) in Ul; rewrite <- Ul; exact A).
  pose proof (header_strict style layers fuel layer ccap ds0 ds c Hc Hl S1 HS ltac:(unfold bits_left; rewrite B0; pose proof (zlen_nonneg (unread c)); lia)) as Q. destruct (header strict_bit fuel layer ccap ds c) as [[r|]| |]; auto. split; [exact Q|]. intros e.
  pose proof (header_safe style layers fuel e layer ccap ds0 ds c Hc Hl S1 S2) as W. destruct (read_packet_header fuel e layer ccap ds c) as [r'| |] eqn:R; cbn [safe] in W; [eauto|contradiction|exfalso].
  unfold header in Q. unfold read_packet_header in R. pose proof (chain_get c S2) as G. destruct (chain_bit c) as [[[b c1]|]| |]; cbn [bindx] in Q, R; try discriminate Q; try contradiction. destruct G as (_ & H1 & _). destruct (b =? 0).
  - pose proof (eph_inv e _ (flush_inv _ H1)) as X. destruct (check_EPH e (flush_bits c1)) as [[c2|]| |]; cbn [bindx ret] in R; try discriminate R; contradiction.
  - rewrite Q in R. destruct r as [d2 c2]. cbn [bindx ret] in R. pose proof (ok_bands chain_bit Inv (fun _ => O) false chain_get style layers fuel layer ccap Hc Hl ds0 ds c1 S1 H1 ltac:(discriminate)) as P. rewrite Q in P. cbn [ok ret] in P. destruct P as (_ & P2 & _).
    destruct (last_inv c2 P2) as (c3 & X3 & H3). unfold lift in R. rewrite X3 in R. cbn [bind bindx ret] in R. pose proof (eph_inv e _ (flush_inv _ H3)) as X. destruct (check_EPH e (flush_bits c3)) as [[c4|]| |]; cbn [bindx ret] in R; try discriminate R; contradiction.
Qed.
Print Assumptions C34_within_the_bytes_partial.
Example C34_example : exists ds c r, bodies_ok [[207; 128]; [5]] /\ new_bands [(1, 1)] 64 1 = Ret ds /\ create_tile_buf [[224; 128]; [5]] = Ret c /\
  read_packets 300 false 0 [] ds c = ret (ds, c) /\ 8 * zlen (unread c) < Z.of_nat 300 /\ header strict_bit 300 0 0 ds c = ret r.
Proof. eexists _, _, _. split; [split; [discriminate|]; repeat constructor; cbn; lia|]. split; [vm_compute; reflexivity|]. split; [vm_compute; reflexivity|]. split; [vm_compute; reflexivity|]. split; [vm_compute; reflexivity|]. vm_compute. reflexivity. Qed.

(** A chain that only hands out zeros from here. *)
Definition dry (c : chain) : Prop := Ahead c [] /\ 0 <= bits c <= 8 /\ tmp_byte c mod 2 ^ bits c = 0.
Lemma dry_bit c : dry c -> exists c', chain_bit c = ret (0, c') /\ dry c'.
Proof.
  intros (A & B & T). unfold chain_bit, get_bit, lift. destruct (Z.eqb_spec (bits c) 0) as [E|E].
  - pose proof (get_byte_nil 0 c A) as G. cbn [Nat.eqb] in G. rewrite G. go. cbn [node_pos pos nodes current tmp_byte last_byte bits]. rewrite Z.shiftr_0_l, Z.land_0_l. eexists. split; [reflexivity|]. split; [destruct A; constructor; assumption|]. cbn [bits tmp_byte]. rewrite Z.mod_0_l by (destruct (last_byte c =? 255); lia). destruct (last_byte c =? 255); lia.
  - go. cbn [node_pos pos nodes current tmp_byte last_byte bits]. assert (0 < 2 ^ (bits c - 1)) as Hp by (apply Z.pow_pos_nonneg; lia). assert (2 ^ bits c = 2 * 2 ^ (bits c - 1)) as P by (rewrite <- Z.pow_succ_r by lia; f_equal; lia).
    apply Z.mod_divide in T; [|lia]. destruct T as [k T].
    assert (Z.land (Z.shiftr (tmp_byte c) (bits c - 1)) 1 = 0) as ->. { rewrite Z.shiftr_div_pow2 by lia. change 1 with (Z.ones 1) at 2. rewrite Z.land_ones by lia. change (2 ^ 1) with 2. rewrite T, P. replace (k * (2 * 2 ^ (bits c - 1))) with (k * 2 * 2 ^ (bits c - 1)) by lia. rewrite Z.div_mul by lia. apply Z.mod_mul. lia. }
    eexists. split; [reflexivity|]. split; [destruct A; constructor; assumption|]. cbn [bits tmp_byte]. split; [lia|]. rewrite T, P. replace (k * (2 * 2 ^ (bits c - 1))) with (k * 2 * 2 ^ (bits c - 1)) by lia. apply Z.mod_mul. lia.
Qed.
Lemma dry_zbp fuel : forall v c, dry c -> zbp_loop chain_bit fuel v c = NoFuel.
Proof. induction fuel as [|fuel IH]; intros v c D; cbn [zbp_loop]; [reflexivity|]. destruct (dry_bit c D) as (c' & -> & D'). go. change (0 =? 0) with true. cbv iota. apply IH. exact D'. Qed.
(** C34 is false of a header cut short: a single byte that says a block is
    included, and no number of rounds is enough. *)
Theorem C34_truncated_refuted : exists bodies ds c, bodies_ok bodies /\ new_bands [(1, 1)] 64 1 = Ret ds /\ create_tile_buf bodies = Ret c /\
  forall fuel, read_packet_header fuel false 0 0 ds c = NoFuel.
Proof.
  exists [[192]], [Band 1 1 [Node 0 0 (-1) [] 0 0 0 false] [Node 0 0 (-1) [] 0 0 0 false] [fresh_cb 64 1]], (Chain 0 0 [[192]] [192] 0 0 0). split; [split; [discriminate|]; repeat constructor|]. split; [vm_compute; reflexivity|]. split; [vm_compute; reflexivity|]. intros fuel.
  assert (dry (Chain 0 1 [[192]] [192] 192 192 6)) as D. { split; [constructor; cbn; try lia; auto; exists [[192]]; split; [reflexivity|]; repeat constructor|]. split; [cbn; lia|reflexivity]. }
  unfold read_packet_header. change (chain_bit _) with (@ret (Z * chain) (1, Chain 0 1 [[192]] [192] 192 192 7)). rewrite bindx_ret. change (1 =? 0) with false. cbv iota beta. cbn [parse_bands]. unfold parse_packet_header. cbn [bnx bny binc bzbp bblocks]. change (1 * 1 =? 0) with false. cbv iota. cbn [parse_blocks]. unfold parse_block.
  change (lift (start_layer (fresh_cb 64 1) 0)) with (ret (fresh_cb 64 1)). rewrite bindx_ret. change (included (fresh_cb 64 1)) with false. cbv iota. unfold first_inclusion.
  change (lift (tree_path _ 0)) with (ret [0]). cbv zeta. rewrite bindx_ret. change (0 <? 0) with false. cbv iota. rewrite bindx_ret.
  change (get_inclusion chain_bit 0 (rev [0]) _ false _) with (@ret (tree * bool * chain) ([Node 0 0 (-1) [] 1 0 0 true], true, Chain 0 1 [[192]] [192] 192 192 6)). rewrite bindx_ret. cbv iota beta. change (rev [0]) with [0]. cbn [get_zbp]. unfold get_zbp_node.
  change (lift (nget [Node 0 0 (-1) [] 0 0 0 false] 0)) with (ret (Node 0 0 (-1) [] 0 0 0 false)). rewrite bindx_ret. cbn [st lev]. change (0 =? 0) with true. change (0 <? 0) with false. cbv iota. rewrite bindx_ret. cbn [cur]. rewrite dry_zbp by exact D. reflexivity.
Qed.
Print Assumptions C34_truncated_refuted.
