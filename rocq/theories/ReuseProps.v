(** C73: a decoder that keeps its tile for the next frame decodes each frame
    with the tile its own headers call for. *)
From Verif Require Import Base BaseLemmas MarkerModel MarkerSpec ParamModel ParamSpec ParamProofs ParamProps ReuseModel ReuseSpec ReuseProofs.

(** For every sequence of frames that share what the fingerprint leaves out,
    whose fingerprints do not collide, and of which none fails while its rows are
    decoded, the decoder comes to an end with each; every complete frame of one
    tile is decoded with a cached or new tile, which is the one called for. *)
Theorem C73_reuse_partial fs :
  Forall frame_legal fs -> Forall (fun f => f_end f <> NoParts /\ f_end f <> RowsThrow) fs ->
  (forall f g, In f fs -> In g fs -> alike f g) -> no_collision fs ->
  exists st rs, reuse_all cache0 fs = Ret (st, rs)
  /\ Forall2 (fun f r => (f_end f = Done -> r <> Threw) /\ (f_end f = Done -> one_tile f -> exists g, r = Used g)
                         /\ forall g, r = Used g -> wanted g = wanted f /\ wanted f <> None) fs rs.
Proof.
  intros F N A NC.
  assert (N1 : Forall (fun f => f_end f <> NoParts) fs) by (eapply Forall_impl; [|exact N]; intros k [K1 K2]; assumption).
  assert (N2 : Forall (fun f => f_end f <> RowsThrow) fs) by (eapply Forall_impl; [|exact N]; intros k [K1 K2]; assumption).
  destruct (reuse_all_ret fs cache0 F N1) as (st & rs & E & P).
  exists st, rs. split; [exact E|].
  pose proof (reuse_all_ok fs [] cache0 st rs I N2 E) as U. rewrite app_nil_r in U.
  assert (S : forall g, In g (rev fs) -> In g fs) by (intros g H; apply in_rev; exact H).
  assert (G : forall l rs, (forall f, In f l -> In f fs) ->
     Forall2 (fun f r => (f_end f = Done -> one_tile f -> exists g, r = Used g) /\ (f_end f = Done -> r <> Threw)) l rs ->
     Forall2 (fun f r => forall g, r = Used g -> In g (rev fs) /\ printed f g) l rs ->
     Forall2 (fun f r => (f_end f = Done -> r <> Threw) /\ (f_end f = Done -> one_tile f -> exists g, r = Used g)
                         /\ forall g, r = Used g -> wanted g = wanted f /\ wanted f <> None) l rs).
  { clear - F A NC S. intros l rs M P. induction P as [|f r l rs [P1 P2] P IH]; intros U; inversion U as [|? ? ? ? U1 U2]; subst; constructor.
    - split; [exact P2|]. split; [exact P1|]. intros g Hg. destruct (U1 g Hg) as (Ig & v & w & V & W & H). apply S in Ig.
      assert (If : In f fs) by (apply M; left; reflexivity).
      pose proof (NC f g v w If Ig V W H) as ->. rewrite Forall_forall in F.
      destruct (same_wanted f g w (F f If) (F g Ig) (A f g If Ig) V W) as [S1 S2]. split; [symmetry; exact S1|exact S2].
    - apply IH; [intros; apply M; right; assumption|exact U2]. }
  apply G; [trivial|exact P|exact U].
Qed.
Print Assumptions C73_reuse_partial.

(** A frame after a decoded one from which its fingerprinted values differ in
    one byte is decoded with a tile of its own: one byte never collides. *)
Theorem C73_one_byte_detected g f pre post v v' a b b' c :
  words (f_main g) = ret (pre ++ v :: post) -> words (f_main f) = ret (pre ++ v' :: post) ->
  bytes8 v = a ++ b :: c -> bytes8 v' = a ++ b' :: c -> b <> b' ->
  frame_legal f -> one_tile f -> f_end f = Done ->
  exists st, reuse (Cache (Some g) (hash (pre ++ v :: post))) f = Ret (st, Used f) /\ tree st = Some f.
Proof.
  intros Wg Wf V V' N F (x & Ex & T) D. unfold reuse. rewrite Ex, T. cbn [bind]. cbn [Z.eqb Pos.eqb andb negb]. rewrite Wf. cbn [bind ret tree print]. rewrite D.
  assert (H : hash (pre ++ v :: post) <> hash (pre ++ v' :: post)).
  { unfold hash. rewrite !flat_map_app. cbn [flat_map]. rewrite V, V'. rewrite <- !app_assoc. cbn [app]. rewrite !(app_assoc (flat_map bytes8 pre) a).
    pose proof (bytes8_ok v) as O. pose proof (bytes8_ok v') as O'. rewrite V in O. rewrite V' in O'.
    apply Forall_app in O, O'. destruct O as [O1 O2]. destruct O' as [_ O2']. inversion O2; subst. inversion O2'; subst.
    apply fnv_one; try assumption; [apply Forall_app; split; [apply flat_ok|exact O1]|apply Forall_app; split; [assumption|apply flat_ok]|].
    split; [lia|reflexivity]. }
  replace (hash (pre ++ v :: post) =? hash (pre ++ v' :: post)) with false by (symmetry; apply Z.eqb_neq; exact H).
  eexists. split; reflexivity.
Qed.
Print Assumptions C73_one_byte_detected.

Definition siz1 : siz := Siz 0 64 48 0 0 64 48 0 0 1 [(7, 1, 1)].
Definition frame1 (n : Z) (steps : list Z) (tile : list seg) (e : ending) : frame := Frame (SSiz siz1 :: plain_header n 1 (Qcd 64 steps)) tile e.
Local Ltac all_in := cbn; repeat (apply Forall_cons; [unfold in_byte, in_word in *; lia|]); apply Forall_nil.
Lemma siz1_ok w h : 0 <= w < 4294967296 -> 0 <= h < 4294967296 -> sizes_ok (Siz 0 w h 0 0 64 48 0 0 1 [(7, 1, 1)]).
Proof.
  intros W H. constructor; cbn [Rsiz Xsiz Ysiz XOsiz YOsiz XTsiz YTsiz XTOsiz YTOsiz Csiz Comps]; unfold in_word, in_dword; [lia| |].
  - split; [lia|reflexivity].
  - repeat constructor; cbn; lia.
Qed.
Lemma frame_ok w h n steps tile e : 0 < w < 4294967296 -> 0 < h < 4294967296 -> 0 <= n <= 32 -> Forall in_byte steps -> zlen steps <= 255 ->
  headers_legal (plain_header n 1 (Qcd 64 steps)) tile ->
  frame_legal (Frame (SSiz (Siz 0 w h 0 0 64 48 0 0 1 [(7, 1, 1)]) :: plain_header n 1 (Qcd 64 steps)) tile e).
Proof.
  intros W H N S L HL. constructor; cbn [f_main f_tile].
  - eexists. split; [reflexivity|]. split; [apply siz1_ok; lia|cbn; lia].
  - destruct HL as [H1 H2 H3 H4 H5 H6]. constructor; assumption.
  - intros c E. apply Some_inj in E. subst c. cbn. unfold in_dword. lia.
  - intros q E. apply Some_inj in E. subst q. cbn [Sqcd SPqcd]. split; [unfold in_byte; lia|]. split; assumption.
Qed.
Lemma bare_ok n steps : 0 <= n <= 32 -> headers_legal (plain_header n 1 (Qcd 64 steps)) [].
Proof. intros N. apply plain_legal; [exact N|unfold in_byte; lia|intros E; discriminate E]. Qed.

Local Ltac one_frame := apply frame_ok; [lia|lia|lia|all_in|apply Z.leb_le; vm_compute; reflexivity|apply bare_ok; lia].
Local Ltac frames := repeat (apply Forall_cons; [one_frame|]); apply Forall_nil.
Local Ltac tiles := repeat (apply Forall_cons; [eexists; split; [reflexivity|vm_compute; reflexivity]|]); apply Forall_nil.
(** Two equal frames, one that breaks off, one with other sizes, the first again. *)
Definition run1 : list frame :=
  let q := [72; 80; 80; 88] in
  [frame1 1 q [] Done; frame1 1 q [] ReadThrows; frame1 1 q [] Done; Frame (SSiz (Siz 0 63 48 0 0 64 48 0 0 1 [(7, 1, 1)]) :: plain_header 1 1 (Qcd 64 q)) [] Done; frame1 1 q [] Done].
Example C73_case :
  Forall frame_legal run1 /\ Forall (fun f => f_end f <> NoParts /\ f_end f <> RowsThrow) run1
  /\ (forall f g, In f run1 -> In g run1 -> alike f g) /\ no_collision run1 /\ Forall one_tile run1
  /\ exists st, reuse_all cache0 run1 = Ret (st, [Used (znth (frame1 0 [] [] Done) run1 0); Threw; Used (znth (frame1 0 [] [] Done) run1 0); Used (znth (frame1 0 [] [] Done) run1 3); Used (znth (frame1 0 [] [] Done) run1 4)]).
Proof.
  assert (K : forall f, In f run1 -> f_tile f = [] /\ last_of is_qcd (f_main f) = Some (Qcd 64 [72; 80; 80; 88]) /\ all_of is_coc (f_main f) = [] /\ all_of is_qcc (f_main f) = []).
  { intros f H. cbn in H. repeat (destruct H as [<-|H]; [repeat split|]). contradiction. }
  split; [frames|].
  split; [repeat constructor; discriminate|]. split.
  { intros f g Hf Hg. destruct (K f Hf) as (F1 & F2 & F3 & F4). destruct (K g Hg) as (G1 & G2 & G3 & G4).
    split; [congruence|]. split; [congruence|]. split; [congruence|]. intros q q' E E'. rewrite F2 in E. rewrite G2 in E'. congruence. }
  split.
  { intros f g v w Hf Hg V W H.
    assert (B : forall f w, In f run1 -> words (f_main f) = ret w -> w = (match words (f_main (znth (frame1 0 [] [] Done) run1 0)) with Ret (Some w) => w | _ => [] end)
       \/ w = (match words (f_main (znth (frame1 0 [] [] Done) run1 3)) with Ret (Some w) => w | _ => [] end)).
    { clear. intros f w Hf W. cbn in Hf. repeat (destruct Hf as [<-|Hf]; [vm_compute in W; apply ret_inj in W; subst w; vm_compute; tauto|]). contradiction. }
    destruct (B f v Hf V) as [->| ->], (B g w Hg W) as [->| ->]; try reflexivity; vm_compute in H; discriminate H. }
  split; [tiles|].
  eexists. vm_compute. reflexivity.
Qed.
(** The two fingerprinted widths differ in one byte. *)
Example C73_one_byte_case :
  exists pre post v v' a b b' c, words (f_main (znth (frame1 0 [] [] Done) run1 0)) = ret (pre ++ v :: post)
  /\ words (f_main (znth (frame1 0 [] [] Done) run1 3)) = ret (pre ++ v' :: post) /\ bytes8 v = a ++ b :: c /\ bytes8 v' = a ++ b' :: c /\ b <> b'.
Proof.
  exists []. eexists. exists (64 * 4294967296 + 48), (63 * 4294967296 + 48), [48; 0; 0; 0], 64, 63, [0; 0; 0].
  split; [vm_compute; reflexivity|]. split; [vm_compute; reflexivity|]. split; [vm_compute; reflexivity|]. split; [vm_compute; reflexivity|]. discriminate.
Qed.

(** Not in general.  Of the QCD only the first value counts for the
    fingerprint: the second frame is decoded with the exponents of the first. *)
Theorem C73_quant_refuted :
  exists f g st, Forall frame_legal [f; g] /\ Forall one_tile [f; g] /\ reuse_all cache0 [f; g] = Ret (st, [Used f; Used f]) /\ wanted f <> wanted g.
Proof.
  exists (frame1 1 [72; 80; 80; 88] [] Done), (frame1 1 [72; 80; 80; 96] [] Done). eexists.
  split; [frames|].
  split; [tiles|].
  split; [vm_compute; reflexivity|]. vm_compute. discriminate.
Qed.
Print Assumptions C73_quant_refuted.
(** Nor do the tile-part header's segments: *)
Theorem C73_tile_header_refuted :
  exists f g st, Forall frame_legal [f; g] /\ Forall one_tile [f; g] /\ reuse_all cache0 [f; g] = Ret (st, [Used f; Used f]) /\ wanted f <> wanted g.
Proof.
  exists (frame1 1 [72; 80; 80; 88] [] Done), (frame1 1 [72; 80; 80; 88] [SCod (Cod 0 65537 [1; 2; 2; 0; 1])] Done). eexists.
  split. { constructor; [one_frame|]. constructor; [|constructor].
    apply frame_ok; [lia|lia|lia|all_in|apply Z.leb_le; vm_compute; reflexivity|].
    destruct (bare_ok 1 [72; 80; 80; 88] ltac:(lia)) as [H1 H2 H3 H4 H5 H6]. constructor; try assumption.
    intros c E. apply Some_inj in E. subst c. split; [all_in|]. split; [apply Z.leb_le; vm_compute; reflexivity|].
    split; [apply Z.leb_le; vm_compute; reflexivity|]. split; [intros E; discriminate E|apply Z.leb_le; vm_compute; reflexivity]. }
  split; [tiles|].
  split; [vm_compute; reflexivity|]. vm_compute. discriminate.
Qed.
Print Assumptions C73_tile_header_refuted.
(** Of segments for single components only the number counts: *)
Theorem C73_component_refuted :
  exists f g st, f_tile f = f_tile g /\ Forall one_tile [f; g] /\ reuse_all cache0 [f; g] = Ret (st, [Used f; Used f]) /\ wanted f <> None /\ wanted g <> None /\ wanted f <> wanted g.
Proof.
  exists (Frame (f_main (frame1 1 [72; 80; 80; 88] [] Done) ++ [SCoc (Coc 0 0 [1; 4; 4; 0; 1])]) [] Done).
  exists (Frame (f_main (frame1 1 [72; 80; 80; 88] [] Done) ++ [SCoc (Coc 0 0 [0; 2; 2; 0; 1])]) [] Done). eexists.
  split; [reflexivity|]. split; [tiles|].
  split; [vm_compute; reflexivity|]. split; [vm_compute; discriminate|]. split; [vm_compute; discriminate|]. vm_compute. discriminate.
Qed.
Print Assumptions C73_component_refuted.
(** When decoding rows throws, the tile is new but the fingerprint is not: the
    next frame like the one before is decoded with the tree of another image size. *)
Theorem C73_rows_throw_refuted :
  exists f g st, Forall frame_legal [f; g; f] /\ Forall one_tile [f; g; f] /\ f_end f = Done /\ f_end g = RowsThrow
  /\ reuse_all cache0 [f; g; f] = Ret (st, [Used f; Threw; Used g]) /\ option_map (fun t => fst (fst t)) (wanted f) <> option_map (fun t => fst (fst t)) (wanted g).
Proof.
  exists (frame1 1 [72; 80; 80; 88] [] Done), (Frame (SSiz (Siz 0 32 24 0 0 64 48 0 0 1 [(7, 1, 1)]) :: plain_header 1 1 (Qcd 64 [72; 80; 80; 88])) [] RowsThrow). eexists.
  split; [frames|].
  split; [tiles|].
  split; [reflexivity|]. split; [reflexivity|]. split; [vm_compute; reflexivity|]. vm_compute. discriminate.
Qed.
Print Assumptions C73_rows_throw_refuted.
(** A main header followed by no tile-part at all is a null pointer. *)
Theorem C73_no_parts_refuted : exists f, frame_legal f /\ one_tile f /\ f_end f = NoParts /\ reuse cache0 f = UB.
Proof.
  exists (frame1 1 [72; 80; 80; 88] [] NoParts).
  split; [one_frame|].
  split; [eexists; split; [reflexivity|vm_compute; reflexivity]|]. split; [reflexivity|]. vm_compute. reflexivity.
Qed.
Print Assumptions C73_no_parts_refuted.
(** The ROI shift of a component stays from frame to frame when nothing sets it. *)
Theorem C73_roi_refuted :
  exists main tile tile' p x p' x', tile_init main tile 1 fresh = ret p /\ t_comps p = [x] /\ c_roi x = roi_for main tile 0
  /\ tile_init main tile' 1 (fun _ => (c_dfs x, c_roi x)) = ret p' /\ t_comps p' = [x'] /\ roi_for main tile' 0 = 0 /\ c_roi x' <> 0.
Proof.
  exists (plain_header 1 1 (Qcd 64 [72; 80; 80; 88])), [SRgn (Rgn 0 0 5)], []. do 4 eexists.
  split; [vm_compute; reflexivity|]. split; [reflexivity|]. split; [reflexivity|].
  split; [vm_compute; reflexivity|]. split; [reflexivity|]. split; [reflexivity|]. discriminate.
Qed.
Print Assumptions C73_roi_refuted.
