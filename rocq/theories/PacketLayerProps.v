(** Code-blocks first included in a later layer (C56). *)
From Verif Require Import Base BaseLemmas ChainModel PacketModel PacketTree PacketCode PacketSpec PacketSafe PacketProps PacketLayerSpec PacketLayers.

Lemma new_at style layers dims ds : sizes_ok dims -> 0 <= style < 128 -> 1 <= layers -> new_bands dims style layers = Ret ds -> Forall (band_at 0) ds.
Proof.
  intros D Hs Hl E. destruct (new_ok style layers dims D Hs Hl) as (ds0 & E1 & K & U). rewrite E in E1. apply Ret_inj in E1. subst ds0. clear E D.
  assert (forall d, band_ok style layers d d -> unused style layers d -> band_at 0 d) as H.
  { intros d [K1 K2 _ _ K3 _ _ K4 _] (U1 & _ & U3). split; [exact K1|]. split; [exact K2|]. split; [exact K4|]. intros N. destruct (K3 N) as (T & _). pose proof (tp_len _ _ T) as L.
    assert (forall j, 0 <= j < zlen (binc d) -> st (nd (binc d) j) = 0 /\ cur (nd (binc d) j) = 0) as Z0. { intros j Hj. unfold empty_tree in U1. rewrite Forall_forall in U1. specialize (U1 (nd (binc d) j)). destruct U1 as (A & B & _); [apply znth_In; exact Hj|]. auto. }
    split.
    - constructor; [exact T| | |].
      + intros i Hi _. pose proof (tp_par _ _ T i Hi) as (P1 & _). destruct (Z0 i ltac:(lia)) as [-> ->]. destruct (Z0 (par (nd (binc d) i)) ltac:(lia)) as [_ ->]. lia.
      + intros; lia.
      + intros k l j Hk Up Hj. pose proof (Up_range _ _ _ _ T Up) as [_ R]. specialize (R j Hj). right. destruct (Z0 j ltac:(lia)) as [_ ->]. lia.
    - rewrite U3. assert (forall m i, 0 <= i -> i + Z.of_nat m <= zlen (binc d) -> flags (binc d) i (repeat (fresh_cb style layers) m)) as W.
      { induction m as [|m IH]; intros i Hi Hm; cbn [repeat flags]; [exact I|]. split; [unfold flag; destruct (Z0 i ltac:(lia)) as [-> _]; reflexivity|]. apply IH; lia. }
      apply W; [lia|]. rewrite Z2Nat.id by nia. lia. }
  clear -K U H. induction ds as [|d ds IH]; constructor; inversion K; inversion U; subst; auto.
Qed.

(** C56, partial: when no packet of the precinct is empty, the code-blocks
    included by each layer, all that is said of them and the bits consumed are
    those of the standard, whatever the source of bits. *)
Theorem C56_no_empty_packet_partial : forall (S : Type) (get : S -> ex (Z * S)) (next : Z -> S -> ex S) dims style layers ccap fuel ds s n,
  (forall s, match get s with Ret (Some (b, _)) => b = 0 \/ b = 1 | _ => True end) ->
  sizes_ok dims -> 0 <= style < 128 -> 1 <= layers <= 65535 -> Z.of_nat n <= layers -> new_bands dims style layers = Ret ds ->
  all_layers (fun layer => parse_bands get fuel layer ccap) next n ds s = all_layers (fun layer => std_bands get fuel layer ccap) next n ds s.
Proof.
  intros S get next dims style layers ccap fuel ds s n Hg D Hs Hl Hn E. apply (layers_alike get Hg fuel ccap next n ds s); [lia|]. apply (new_at style layers dims); auto; lia.
Qed.
Print Assumptions C56_no_empty_packet_partial.
(** Two layers of a 2x1 band: the first block comes with layer 0, the second with
    layer 1. *)
Definition ex_bits : list Z := [1; 1; 1; 1; 0; 0; 0; 1; 0; 0] ++ [0; 1; 1; 0; 0; 0; 1; 1].
Example C56_example : exists ds ds', new_bands [(2, 1)] 64 2 = Ret ds /\
  all_layers (fun layer => std_bands list_bit 300 layer 0) (fun _ s => ret s) 2 ds ex_bits = ret (ds', []) /\
  map (fun d => map lpasses (bblocks d)) ds' = [[[1; 0]; [0; 1]]].
Proof. eexists _, _. split; [vm_compute; reflexivity|]. split; vm_compute; reflexivity. Qed.

(** C56 is false when the packets for layers 0 and 1 are empty: the block that the
    standard has included by layer 2 is missed, and its header bits are left. *)
Theorem C56_empty_packets_refuted : exists ds bits std code rest, new_bands [(1, 1)] 64 3 = Ret ds /\
  std_bands list_bit 300 2 0 ds bits = ret (std, []) /\ parse_bands list_bit 300 2 0 ds bits = ret (code, rest) /\
  map (fun d => map lpasses (bblocks d)) std = [[[0; 0; 1]]] /\ map (fun d => map lpasses (bblocks d)) code = [[[0; 0; 0]]] /\ rest <> [].
Proof.
  eexists _, [0; 0; 1; 1; 0; 0; 0; 1; 0], _, _, _. split; [vm_compute; reflexivity|]. split; [vm_compute; reflexivity|]. split; [vm_compute; reflexivity|]. split; [vm_compute; reflexivity|]. split; [vm_compute; reflexivity|]. discriminate.
Qed.
Print Assumptions C56_empty_packets_refuted.
