(** C57: what the client hands to the decoder. *)
From Verif Require Import Base BaseLemmas Be WalkerModel WalkerSpec WalkerProps PrecinctModel PrecinctSpec PrecinctProofs ReasmModel ReasmSpec ReasmProofs PrecinctProps.
From Verif Require JppModel.

(** ** Patching the main header *)

Lemma be16_cons v : be16 v = [v / 256 mod 256; v mod 256]. Proof. reflexivity. Qed.
Lemma u16_be_eq v : u16_be v = be16 v. Proof. reflexivity. Qed.
Lemma u32_be_eq v : u32_be v = be32 v. Proof. reflexivity. Qed.

Lemma segs_app a b : segs_bytes (a ++ b) = segs_bytes a ++ segs_bytes b.
Proof. unfold segs_bytes. rewrite map_app, concat_app. reflexivity. Qed.
Lemma segs_cons s l : segs_bytes (s :: l) = seg_bytes s ++ segs_bytes l.
Proof. reflexivity. Qed.

Lemma patch_step P s T i fuel : zlen P = i -> plain_seg s -> 6 < zlen (seg_bytes s ++ T) ->
  patch_loop (S fuel) (P ++ seg_bytes s ++ T) i = patch_loop fuel (P ++ seg_bytes s ++ T) (i + zlen (seg_bytes s)).
Proof.
  intros Hi (Hs & Hm & Hc) Hl. cbn [patch_loop]. rewrite (zlen_app P), Hi.
  replace (i + 6 <? i + zlen (seg_bytes s ++ T)) with true by lia.
  pose proof Hs as (Hs1 & Hs2 & Hs3). pose proof (zlen_nonneg (sg_payload s)) as Hp.
  assert (sg_marker s <> SOC) as Hsoc by (apply (marker_not s SOC Hs); reflexivity). unfold SOC in Hsoc. unfold COD in Hc.
  assert (rd (P ++ seg_bytes s ++ T) i = Ret 255) as ->.
  { unfold seg_bytes. rewrite be16_cons. cbn [app]. rewrite rd_be by exact Hi. f_equal. lia. }
  cbn [bind]. change (negb (255 =? 255)) with false. cbv iota.
  assert (rd (P ++ seg_bytes s ++ T) (i + 1) = Ret (sg_marker s mod 256)) as ->.
  { unfold seg_bytes. rewrite be16_cons. cbn [app].
    replace (P ++ sg_marker s / 256 mod 256 :: sg_marker s mod 256 :: (be16 (2 + zlen (sg_payload s)) ++ sg_payload s) ++ T)
      with ((P ++ [sg_marker s / 256 mod 256]) ++ sg_marker s mod 256 :: (be16 (2 + zlen (sg_payload s)) ++ sg_payload s) ++ T)
      by (rewrite <- app_assoc; reflexivity).
    apply rd_be. rewrite zlen_app, Hi. reflexivity. }
  cbn [bind]. replace (sg_marker s mod 256 =? 79) with false by lia.
  replace (i + zlen (seg_bytes s ++ T) <? i + 4) with false by lia.
  assert (rd16 (P ++ seg_bytes s ++ T) (i + 2) = Ret (2 + zlen (sg_payload s))) as ->.
  { unfold seg_bytes. rewrite <- !app_assoc. rewrite (app_assoc P). apply rd16_be; [|lia].
    rewrite zlen_app, be16_len. lia. }
  cbn [bind]. replace (sg_marker s mod 256 =? 82) with false by lia. rewrite zlen_app, seg_len.
  pose proof (zlen_nonneg T).
  replace ((2 + zlen (sg_payload s) <? 2) || (i + (4 + zlen (sg_payload s) + zlen T) <? i + 2 + (2 + zlen (sg_payload s)))) with false by lia.
  f_equal. lia.
Qed.

Lemma patch_hit P scod po rest T i fuel : zlen P = i -> 0 <= scod < 256 -> 1 <= zlen rest -> 4 + zlen rest < 65536 ->
  patch_loop (S fuel) (P ++ seg_bytes (Seg COD (scod :: po :: rest)) ++ T) i =
  Ret (P ++ seg_bytes (Seg COD (scod :: 0 :: rest)) ++ T).
Proof.
  intros Hi _ Hr Hr2. cbn [patch_loop].
  assert (zlen (seg_bytes (Seg COD (scod :: po :: rest)) ++ T) = 6 + zlen rest + zlen T) as HL.
  { rewrite zlen_app, seg_len. cbn [sg_payload]. rewrite !zlen_cons. lia. }
  pose proof (zlen_nonneg T). rewrite (zlen_app P), Hi, HL.
  replace (i + 6 <? i + (6 + zlen rest + zlen T)) with true by lia.
  assert (seg_bytes (Seg COD (scod :: po :: rest)) ++ T =
          255 :: 82 :: be16 (2 + zlen (scod :: po :: rest)) ++ scod :: po :: rest ++ T) as EB.
  { unfold seg_bytes. cbn [sg_marker sg_payload]. rewrite <- app_assoc. reflexivity. }
  rewrite EB. clear HL.
  rewrite rd_be by exact Hi. cbn [bind]. change (negb (255 =? 255)) with false. cbv iota.
  set (R := be16 (2 + zlen (scod :: po :: rest)) ++ scod :: po :: rest ++ T).
  replace (P ++ 255 :: 82 :: R) with ((P ++ [255]) ++ 82 :: R) by (rewrite <- app_assoc; reflexivity).
  rewrite rd_be by (rewrite zlen_app, Hi; reflexivity). cbn [bind]. change (82 =? 79) with false. cbv iota.
  replace (i + (6 + zlen rest + zlen T) <? i + 4) with false by lia.
  replace ((P ++ [255]) ++ 82 :: R) with ((P ++ [255; 82]) ++ R) by (rewrite <- !app_assoc; reflexivity).
  assert (rd16 ((P ++ [255; 82]) ++ R) (i + 2) = Ret (2 + zlen (scod :: po :: rest))) as ->.
  { apply rd16_be; [rewrite zlen_app, Hi; reflexivity|]. rewrite !zlen_cons. lia. }
  cbn [bind]. change (82 =? 82) with true. cbv iota.
  unfold R. set (L := be16 (2 + zlen (scod :: po :: rest))).
  replace ((P ++ [255; 82]) ++ L ++ scod :: po :: rest ++ T) with ((P ++ [255; 82] ++ L ++ [scod]) ++ po :: rest ++ T)
    by (rewrite <- !app_assoc; reflexivity).
  assert (zlen (P ++ [255; 82] ++ L ++ [scod]) = i + 5) as HP.
  { rewrite !zlen_app. unfold L. rewrite be16_len, Hi. change (zlen [255; 82]) with 2. change (zlen [scod]) with 1. lia. }
  rewrite rd_be by exact HP. cbn [bind]. f_equal.
  rewrite (ztake_app (i + 5)) by exact HP.
  replace ((P ++ [255; 82] ++ L ++ [scod]) ++ po :: rest ++ T) with ((P ++ [255; 82] ++ L ++ [scod; po]) ++ rest ++ T)
    by (rewrite <- !app_assoc; reflexivity).
  rewrite zskip_app.
  2:{ rewrite !zlen_app in *. change (zlen [scod; po]) with 2. change (zlen [scod]) with 1 in HP. lia. }
  unfold seg_bytes. cbn [sg_marker sg_payload]. rewrite <- !app_assoc.
  replace (zlen (scod :: 0 :: rest)) with (zlen (scod :: po :: rest)) by (rewrite !zlen_cons; lia). fold L. reflexivity.
Qed.

Lemma patch_segs pre : forall P T scod po rest i fuel, zlen P = i -> Forall plain_seg pre ->
  0 <= scod < 256 -> 1 <= zlen rest -> 4 + zlen rest < 65536 -> (length pre < fuel)%nat ->
  patch_loop fuel (P ++ segs_bytes (pre ++ [Seg COD (scod :: po :: rest)]) ++ T) i =
  Ret (P ++ segs_bytes (pre ++ [Seg COD (scod :: 0 :: rest)]) ++ T).
Proof.
  induction pre as [|s pre IH]; intros P T scod po rest i fuel Hi Hf H1 H2 H3 Hfu.
  - destruct fuel as [|fuel]; [cbn in Hfu; lia|]. cbn [app]. rewrite !segs_cons.
    change (segs_bytes []) with (@nil Z). rewrite !app_nil_r. apply patch_hit; assumption.
  - destruct fuel as [|fuel]; [cbn in Hfu; lia|]. inversion Hf as [|a l Ha Hl]; subst. cbn [app]. rewrite !segs_cons, <- !app_assoc.
    rewrite patch_step; [|reflexivity|exact Ha|].
    + rewrite !(app_assoc P (seg_bytes s)). rewrite <- (zlen_app P). apply IH; auto. cbn in Hfu. lia.
    + rewrite !zlen_app, segs_app, zlen_app, segs_cons, zlen_app, !seg_len. cbn [sg_payload]. rewrite !zlen_cons.
      pose proof (zlen_nonneg (sg_payload s)). pose proof (zlen_nonneg T). pose proof (zlen_nonneg (segs_bytes pre)).
      change (segs_bytes []) with (@nil Z). rewrite zlen_nil. lia.
Qed.

Lemma segs_fuel l : (length l <= length (segs_bytes l))%nat.
Proof.
  induction l as [|s l IH]; [cbn; lia|]. rewrite segs_cons, app_length. cbn [length].
  pose proof (seg_len s) as E. pose proof (zlen_nonneg (sg_payload s)). unfold zlen in *. lia.
Qed.

Lemma patch_soc T fuel : 6 < zlen (be16 SOC ++ T) ->
  patch_loop (S fuel) (be16 SOC ++ T) 0 = patch_loop fuel (be16 SOC ++ T) 2.
Proof.
  intros H. cbn [patch_loop]. replace (0 + 6 <? zlen (be16 SOC ++ T)) with true by lia.
  change (be16 SOC ++ T) with (255 :: 79 :: T). rewrite rd_0. cbn [bind]. change (negb (255 =? 255)) with false. cbv iota.
  rewrite (rd_S _ _ 0), rd_0 by lia. reflexivity.
Qed.
Lemma patch_main pre scod po rest post : Forall plain_seg pre ->
  0 <= scod < 256 -> 1 <= zlen rest -> 4 + zlen rest < 65536 ->
  patch_cod_to_lrcp (be16 SOC ++ segs_bytes (pre ++ Seg COD (scod :: po :: rest) :: post)) =
  Ret (be16 SOC ++ segs_bytes (pre ++ Seg COD (scod :: 0 :: rest) :: post)).
Proof.
  intros Hf H1 H2 H3. unfold patch_cod_to_lrcp.
  assert (forall q, pre ++ Seg COD (scod :: q :: rest) :: post = (pre ++ [Seg COD (scod :: q :: rest)]) ++ post) as EA
    by (intros; rewrite <- app_assoc; reflexivity).
  rewrite !EA, !(segs_app _ post).
  set (B := be16 SOC ++ segs_bytes (pre ++ [Seg COD (scod :: po :: rest)]) ++ segs_bytes post).
  assert (6 < zlen B) as HB.
  { unfold B. rewrite !zlen_app, be16_len, segs_app, zlen_app, segs_cons, zlen_app, seg_len. cbn [sg_payload].
    rewrite !zlen_cons. pose proof (zlen_nonneg (segs_bytes pre)). pose proof (zlen_nonneg (segs_bytes post)).
    change (segs_bytes []) with (@nil Z). rewrite zlen_nil. lia. }
  destruct (length B) as [|n] eqn:EL; [unfold zlen in HB; lia|].
  unfold B in HB |- *. rewrite (patch_soc _ _ HB). apply patch_segs; auto.
  unfold B in EL. rewrite !app_length in EL. pose proof (segs_fuel (pre ++ [Seg COD (scod :: po :: rest)])) as F.
  rewrite app_length in F. cbn in F, EL. lia.
Qed.

(** ** The whole client re-assembly *)

Lemma put_tile_part t segs body : 0 <= t < 65536 -> let p := Part t 0 1 segs body in part_len p < 2 ^ 32 ->
  put_tile t (12 + zlen (segs_bytes segs) + 2 + zlen body) (segs_bytes segs) body = part_bytes p.
Proof.
  intros Ht p Hp. unfold put_tile, part_bytes. rewrite !u16_be_eq, u32_be_eq, (Z.mod_small t 65536) by exact Ht.
  change (12 + zlen (segs_bytes segs) + 2 + zlen body) with (part_len p). change two32 with (2 ^ 32).
  pose proof (zlen_nonneg (segs_bytes segs)). pose proof (zlen_nonneg body).
  rewrite (Z.mod_small (part_len p)); [reflexivity|]. split; [|exact Hp]. unfold part_len, p. cbn [pt_segs pt_body]. lia.
Qed.

Section Loop.
  Variable h : header.
  Hypothesis Hleg : legal h.
  Hypothesis Hcnt : countable h.
  Let x := index_of_header h.

  Lemma client_loop_spec s dl hdrs : NoDup (map fst dl) ->
    (forall k b, In (k, b) dl <-> names_precinct h k /\ held s x k = Some b) ->
    forall ts acc,
    (forall t, In t ts -> 0 <= t < tiles_x h * tiles_y h /\ ds_get s 2 t = segs_bytes (hdrs t) /\
       part_len (Part t 0 1 (hdrs t) (lrcp_body h (held s x) t)) < 2 ^ 32) ->
    client_loop s x 1 dl ts acc =
      ret (Ok, acc ++ concat (map (fun t => part_bytes (Part t 0 1 (hdrs t) (lrcp_body h (held s x) t))) ts)).
  Proof.
    intros Hn Hiff. induction ts as [|t ts IH]; intros acc Ht; cbn [client_loop].
    - cbn [map concat]. rewrite app_nil_r. reflexivity.
    - destruct (Ht t (or_introl eq_refl)) as (H1 & H2 & H3). destruct (n_tiles_small h Hleg) as (_ & _ & H4).
      change (zseq 1) with [0]. cbn [mapM]. unfold x at 1. rewrite (layer_body_spec h Hleg Hcnt s dl t Hn Hiff H1). fold x.
      rewrite !ret_bindx. cbn [concat]. rewrite app_nil_r. unfold kTileHeader. rewrite H2.
      set (body := lrcp_body h (held s x) t) in *.
      pose proof H3 as H3'. unfold part_len in H3'. cbn [pt_segs pt_body] in H3'. change (2 ^ 32) with 4294967296 in H3'.
      replace (4294967295 <? 12 + zlen (segs_bytes (hdrs t)) + 2 + zlen body) with false by lia.
      rewrite IH by (intros; apply Ht; right; assumption). f_equal. f_equal.
      cbn [map concat]. rewrite <- app_assoc. f_equal. f_equal. apply put_tile_part; [lia|exact H3].
  Qed.
End Loop.

(** A client that holds the main header and the tile headers, and any of the
    precincts, hands the decoder a codestream with one tile-part per tile.  Its
    main header is the server's with the progression order set to LRCP; its
    packets are the precincts it holds, complete or not, and an empty packet for
    each one it does not hold.  The keys may be stored in any order. *)
Theorem C57_client_codestream_partial : forall h s pre scod po rest post hdrs, legal h -> countable h ->
  (* identifiers no larger than the numbering can produce *)
  NoDup (JppModel.ds_keys s) ->
  (forall i, In (0, i) (JppModel.ds_keys s) -> 0 <= i < tiles_x h * tiles_y h * zlen (h_comps h) * 2 ^ 32) ->
  (* the main header: segments before COD, COD, segments after *)
  ds_contains s 6 0 = true ->
  ds_get s 6 0 = be16 SOC ++ segs_bytes (pre ++ Seg COD (scod :: po :: rest) :: post) ->
  Forall plain_seg pre -> 0 <= scod < 256 -> 1 <= zlen rest -> 4 + zlen rest < 65536 ->
  (* the tile headers, and tiles of less than 4 GiB *)
  exists x, build h = ret x /\
  let tile t := Part t 0 1 (hdrs t) (lrcp_body h (held s x) t) in
  let nT := tiles_x h * tiles_y h in
  ((forall t, 0 <= t < nT -> ds_get s 2 t = segs_bytes (hdrs t) /\ part_len (tile t) < 2 ^ 32) ->
   reassemble_client s x 1 =
     ret (Ok, codestream (pre ++ Seg COD (scod :: 0 :: rest) :: post) (map tile (zseq nT)) [])).
Proof.
  intros h s pre scod po rest post hdrs Hl Hc Hnd Hlim Hm Em Hpre Hs Hr Hr2.
  exists (index_of_header h). split; [apply build_exact; assumption|]. intros tile nT Ht.
  unfold reassemble_client. unfold kMainHeader. rewrite Hm, Em. cbn [negb].
  rewrite patch_main by assumption. cbn [bind].
  match goal with |- context[zlen ?M =? 0] => assert (2 <= zlen M) as HM end.
  { rewrite zlen_app, be16_len. pose proof (zlen_nonneg (segs_bytes (pre ++ Seg COD (scod :: 0 :: rest) :: post))). lia. }
  match goal with |- context[zlen ?M =? 0] => replace (zlen M =? 0) with false by lia end.
  destruct (deliveries_held h Hl Hc s (conj Hnd Hlim)) as (dl & -> & Hn & Hiff). rewrite ret_bindx.
  rewrite num_tiles_exact by assumption.
  rewrite (client_loop_spec h Hl Hc s dl hdrs Hn Hiff).
  - rewrite ret_bindx. f_equal. f_equal. unfold codestream. rewrite app_nil_r, <- !app_assoc.
    rewrite map_map. reflexivity.
  - intros t Hin. apply zseq_In in Hin. split; [exact Hin|]. apply Ht, Hin.
Qed.
Print Assumptions C57_client_codestream_partial.

(** The decoder's view of it: the walker finds one tile-part per tile, with
    exactly those bytes. *)
Theorem C57_client_walk : forall main parts, Forall seg_ok main -> Forall (fun s => sg_marker s <> SOT) main ->
  Forall part_ok parts ->
  exists o, walk_codestream (codestream main parts []) = ret o /\
    Forall2 (fun p t => tp_tile t = pt_tile p /\ tp_idx t = pt_idx p /\ tp_cnt t = pt_cnt p /\
      ztake (tp_body_end t - tp_body_offset t) (zskip (tp_body_offset t) (codestream main parts [])) = pt_body p) parts (l_parts o).
Proof.
  intros main parts Hm Hn Hp. eexists. split; [apply C16_well_formed; assumption|]. cbn [l_parts].
  unfold codestream. rewrite app_nil_r.
  assert (forall pre ps, concat (map part_bytes parts) = pre ++ concat (map part_bytes ps) ->
    Forall2 (fun p t => tp_tile t = pt_tile p /\ tp_idx t = pt_idx p /\ tp_cnt t = pt_cnt p /\
      ztake (tp_body_end t - tp_body_offset t) (zskip (tp_body_offset t)
        (be16 SOC ++ segs_bytes main ++ concat (map part_bytes parts) ++ be16 EOC)) = pt_body p) ps
      (locate (2 + zlen (segs_bytes main) + zlen pre) ps)) as H.
  { intros pre ps. revert pre. induction ps as [|p ps IH]; intros pre E; cbn [locate]; constructor.
    - cbn [tp_tile tp_idx tp_cnt tp_body_end tp_body_offset]. repeat (split; [reflexivity|]).
      rewrite E. cbn [map concat].
      set (A := be16 SOT ++ be16 10 ++ be16 (pt_tile p) ++ be32 (part_len p) ++ [pt_idx p; pt_cnt p] ++ segs_bytes (pt_segs p) ++ be16 SOD).
      assert (part_bytes p = A ++ pt_body p) as EP by (unfold part_bytes, A; rewrite <- !app_assoc; reflexivity).
      assert (zlen A = 14 + zlen (segs_bytes (pt_segs p))) as EA.
      { unfold A. rewrite !zlen_app, !be16_len, be32_len. change (zlen [pt_idx p; pt_cnt p]) with 2. lia. }
      rewrite EP.
      replace (be16 SOC ++ segs_bytes main ++ (pre ++ (A ++ pt_body p) ++ concat (map part_bytes ps)) ++ be16 EOC)
        with ((be16 SOC ++ segs_bytes main ++ pre ++ A) ++ pt_body p ++ concat (map part_bytes ps) ++ be16 EOC)
        by (rewrite <- !app_assoc; reflexivity).
      rewrite zskip_app by (rewrite !zlen_app, be16_len; lia). apply ztake_app.
      unfold part_len. lia.
    - assert (zlen (part_bytes p) = part_len p) as EP.
      { unfold part_bytes, part_len. rewrite !zlen_app, !be16_len, be32_len. change (zlen [pt_idx p; pt_cnt p]) with 2. lia. }
      replace (2 + zlen (segs_bytes main) + zlen pre + part_len p) with (2 + zlen (segs_bytes main) + zlen (pre ++ part_bytes p))
        by (rewrite zlen_app; lia).
      apply IH. rewrite E. cbn [map concat]. rewrite <- app_assoc. reflexivity. }
  specialize (H [] parts eq_refl). rewrite zlen_nil, Z.add_0_r in H. exact H.
Qed.
Print Assumptions C57_client_walk.

(** A client with the main header, two tile headers and two precincts of the
    example codestream. *)
Definition demo_pre : list seg := [Seg 65361 [0; 0; 9]].
Definition demo_post : list seg := [Seg 65372 [64; 5]].
Definition demo_set : dbset := JppModel.mkSet
  [((0, 4), JppModel.mkEntry [128; 7; 9] true);
   ((6, 0), JppModel.mkEntry (be16 SOC ++ segs_bytes (demo_pre ++ Seg COD [1; 2; 0; 1; 0; 2; 4] :: demo_post)) true);
   ((2, 0), JppModel.mkEntry (segs_bytes [Seg 65373 [1; 2; 3]]) true);
   ((0, 13), JppModel.mkEntry [200; 1] false);
   ((2, 4), JppModel.mkEntry [] true)] None.
Definition demo_hdrs (t : Z) : list seg := if t =? 0 then [Seg 65373 [1; 2; 3]] else [].
Example C57_case : exists x, build demo = ret x /\
  NoDup (JppModel.ds_keys demo_set) /\
  (forall i, In (0, i) (JppModel.ds_keys demo_set) -> 0 <= i < tiles_x demo * tiles_y demo * zlen (h_comps demo) * 2 ^ 32) /\
  Forall plain_seg demo_pre /\
  (forall t, 0 <= t < tiles_x demo * tiles_y demo -> ds_get demo_set 2 t = segs_bytes (demo_hdrs t) /\
     part_len (Part t 0 1 (demo_hdrs t) (lrcp_body demo (held demo_set x) t)) < 2 ^ 32) /\
  lrcp_body demo (held demo_set x) 4 = [128; 7; 9; 0; 0; 0; 200; 1] ++ repeat 0 27.
Proof.
  destruct (build demo) as [[x|]| |] eqn:E; [|vm_compute in E; discriminate..]. exists x. split; [reflexivity|].
  vm_compute in E. apply ret_inj in E. subst x.
  split; [cbn; repeat constructor; cbn; intuition discriminate|].
  split.
  { intros i Hi. assert (tiles_x demo * tiles_y demo * zlen (h_comps demo) * 2 ^ 32 = 77309411328) as -> by (vm_compute; reflexivity).
    cbn in Hi. repeat (destruct Hi as [Hi|Hi]; [try discriminate; apply pair_inj in Hi; lia|]). destruct Hi. }
  split; [constructor; [unfold plain_seg, seg_ok, stands_alone, COD; cbn; lia|constructor]|].
  split; [|vm_compute; reflexivity].
  assert (tiles_x demo * tiles_y demo = 9) as -> by (vm_compute; reflexivity).
  intros t Ht. assert (In t (zseq 9)) as Hin by (apply zseq_In; exact Ht). clear Ht.
  cbn in Hin. repeat (destruct Hin as [<-|Hin]; [split; [reflexivity|vm_compute; reflexivity]|]). destruct Hin.
Qed.

(** With two layers the client repeats the whole tile: the precinct's two
    packets come twice, where each packet should come once.  (One tile, one
    component, one precinct, whose data-bin holds the packets [128; 1] and
    [128; 2].) *)
Definition one : header := {| h_size := (8, 8); h_origin := (0, 0); h_tsize := (8, 8); h_torigin := (0, 0);
  h_comps := [{| c_sub := (1, 1); c_NL := 0; c_pp := [(15, 15)] |}]; h_irreversible := false |}.
Definition main1 (layers : Z) : list seg := [Seg COD [0; 2; 0; layers; 0; 0; 4; 4; 0; 1]].
Theorem C57_two_layers_refuted : exists s x o, legal one /\ countable one /\ build one = ret x /\
  ds_get s 6 0 = be16 SOC ++ segs_bytes (main1 2) /\
  held s x {| k_t := 0; k_c := 0; k_r := 0; k_p := 0 |} = Some ([128; 1] ++ [128; 2]) /\
  reassemble_client s x 2 = ret (Ok, o) /\
  o = codestream [Seg COD [0; 0; 0; 2; 0; 0; 4; 4; 0; 1]] [Part 0 0 1 [] ([128; 1] ++ [128; 2] ++ [128; 1] ++ [128; 2])] [].
Proof.
  exists (JppModel.mkSet [((6, 0), JppModel.mkEntry (be16 SOC ++ segs_bytes (main1 2)) true);
                          ((0, 0), JppModel.mkEntry [128; 1; 128; 2] true)] None).
  do 2 eexists. split; [|split].
  - constructor; [constructor; cbn; lia..| |cbn; lia|vm_compute; discriminate]. repeat constructor; cbn; lia.
  - apply countable_b_ok. vm_compute. reflexivity.
  - repeat (split; [vm_compute; reflexivity|]). vm_compute. reflexivity.
Qed.
Print Assumptions C57_two_layers_refuted.

(** An identifier beyond the numbering, which a server should never send, is
    taken for another precinct's: both bins end up in the codestream. *)
Theorem C57_alias_refuted : exists s x o, build one = ret x /\
  JppModel.ds_keys s = [(6, 0); (0, 0); (0, 2 ^ 32)] /\
  reassemble_client s x 1 = ret (Ok, o) /\
  o = codestream [Seg COD [0; 0; 0; 1; 0; 0; 4; 4; 0; 1]] [Part 0 0 1 [] ([128; 1] ++ [9; 9])] [].
Proof.
  exists (JppModel.mkSet [((6, 0), JppModel.mkEntry (be16 SOC ++ segs_bytes (main1 1)) true);
                          ((0, 0), JppModel.mkEntry [128; 1] true); ((0, 2 ^ 32), JppModel.mkEntry [9; 9] true)] None).
  do 2 eexists. split; [vm_compute; reflexivity|]. split; [reflexivity|]. split; vm_compute; reflexivity.
Qed.
Print Assumptions C57_alias_refuted.
