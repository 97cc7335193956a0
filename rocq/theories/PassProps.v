(** C77: the coding passes of a Part 1 code-block are decoded as Annex D says. *)
From Verif Require Import Base BaseLemmas OutModel PassModel PassSpec PassProofs PassRun PassSafe MqModel MqProps.

(** The block decoder and the standard's passes, both over the MQ decoder of
    MqModel.v reading [buf]. *)
Definition decode_block (buf : list Z) (w h orient : Z) (causal bypass reset_cx restart segmark : bool) (plen : list Z) (num_pass Mb ROIshift num_ZBP : Z) : ex (blk mq) :=
  j2k_decode mq (MqModel.decode buf) (get_raw_symbol buf) w h orient causal (init buf) init_states_for_all_contexts bypass reset_cx restart segmark plen (zlen buf) num_pass Mb ROIshift num_ZBP mq0.
Definition annex_D (buf : list Z) (w h orient : Z) (causal bypass reset_cx restart segmark : bool) (plen : list Z) (num_pass num_ZBP : Z) : ex (coefs mq) :=
  all_passes mq (MqModel.decode buf) (get_raw_symbol buf) w h orient causal (init buf) init_states_for_all_contexts bypass reset_cx restart segmark plen (zlen buf) num_pass (30 - num_ZBP) mq0.

(** The stored samples are the coefficients: sign and magnitude, and for
    those that are significant the last bit-plane decoded. *)
Definition holds {A} (w h : Z) (b : blk A) (s : coefs A) : Prop :=
  forall y x, 0 <= y < h -> 0 <= x < w ->
    0 <= mag s y x < 2 ^ 31 /\
    sm b (y * up8 w + x) = mag s y x + (if neg s y x then 2 ^ 31 else 0) /\
    (sig s y x = false -> mag s y x = 0 /\ neg s y x = false) /\
    (sig s y x = true -> st b ((y + 1) * (up8 w + 2) + (x + 1)) / 8 = low s y x).
Definition agree {A} (w h : Z) (o : ex (blk A)) (o' : ex (coefs A)) : Prop :=
  match o, o' with
  | Ret (Some b), Ret (Some s) => holds w h b s
  | Ret None, Ret None => True
  | UB, UB => True
  | NoFuel, NoFuel => True
  | _, _ => False
  end.

Lemma lor_sign m : 0 <= m < 2 ^ 31 -> Z.lor m (2 ^ 31) = m + 2 ^ 31.
Proof. intros Hm. rewrite <- Z.lxor_lor, <- Z.add_nocarry_lxor; [reflexivity| |];
  (apply Z.bits_inj'; intros j Hj; rewrite Z.land_spec, Z.bits_0, Z.pow2_bits_eqb by lia; destruct (Z.eqb_spec 31 j) as [<-|N]; [rewrite <- (Z.mod_small m (2 ^ 31)) by exact Hm; rewrite Z.mod_pow2_bits_high by lia; reflexivity|apply andb_false_r]). Qed.
Lemma R_holds {A} w h orient causal okS (b : blk A) s : R A w h orient causal okS b s -> holds w h b s.
Proof.
  intros (Ht & Hm & _) y x Hy Hx. destruct (Hm y x (conj Hy Hx)) as (E & Hr & Hz). split; [exact Hr|]. split; [|split; [exact Hz|]].
  - change (y * up8 w + x) with (sadr w y x). rewrite E. unfold val. destruct (neg s y x); [apply lor_sign; exact Hr|lia].
  - intros Hg. change ((y + 1) * (up8 w + 2) + (x + 1)) with (adr w y x). destruct (Ht y x ltac:(lia) ltac:(lia)) as [K _]. destruct (K (conj Hy Hx)) as (P & HP & E' & Hl). rewrite E', <- (Hl Hg). unfold pack.
    destruct (sig s y x), (refd s y x), (cod s y x); cbn [b2z]; lia.
Qed.

(** Whatever decoder supplies the symbols, the passes, their order, their
    contexts and their segments are those of Annex D. *)
Theorem C77_any_decoder : forall (src : Type) (dec : src -> Z -> out (Z * src)) (raw : src -> out (Z * src)) (seg : src -> Z -> Z -> bool -> out src) (reset : src -> src) (ok : src -> Prop)
    w h orient causal bypass reset_cx restart segmark plen length num_pass Mb ROIshift num_ZBP o,
  (forall s l x s', ok s -> dec s l = Ret (x, s') -> (x = 0 \/ x = 1) /\ ok s') ->
  (forall s x s', ok s -> raw s = Ret (x, s') -> (x = 0 \/ x = 1) /\ ok s') ->
  (forall s pos n r s', ok s -> seg s pos n r = Ret s' -> ok s') -> (forall s, ok s -> ok (reset s)) -> ok o ->
  1 <= w -> 1 <= h -> 0 <= orient < 4 -> 0 <= num_ZBP -> Mb + ROIshift <= 31 -> 0 <= num_pass <= 3 * (Mb + ROIshift - num_ZBP) - 2 ->
  (forall v, In v plen -> 0 <= v) -> num_pass <= zlen plen -> bytes_before plen num_pass < 2 ^ 32 ->
  agree w h (j2k_decode src dec raw w h orient causal seg reset bypass reset_cx restart segmark plen length num_pass Mb ROIshift num_ZBP o)
            (all_passes src dec raw w h orient causal seg reset bypass reset_cx restart segmark plen length num_pass (30 - num_ZBP) o).
Proof.
  intros src dec raw seg reset ok w h orient causal bypass reset_cx restart segmark plen length num_pass Mb ROIshift num_ZBP o Hd Hr Hs Hre Hok Hw Hh Ho Hz HM [Hn0 Hn] Hp Hpn Hpb.
  pose proof (decode_R src dec raw w h orient causal Hh Ho ok Hd Hr seg reset Hs Hre bypass reset_cx restart segmark plen length num_pass Mb ROIshift num_ZBP Hz HM Hn Hp Hpn Hpb o Hok Hn0) as K.
  unfold agree. destruct (j2k_decode _ _ _ _ _ _ _ _ _ _ _ _ _ _ _ _ _ _ _ _) as [[b|]| |], (all_passes _ _ _ _ _ _ _ _ _ _ _ _ _ _ _ _ _ _) as [[s|]| |]; try exact K. eapply R_holds. exact K.
Qed.
Print Assumptions C77_any_decoder.

(** With the MQ decoder, on any bytes: no access outside the arrays, no
    undefined shift, and the coefficients (or the refusal) of Annex D. *)
Theorem C77_coding_passes : forall buf w h orient causal bypass reset_cx restart segmark plen num_pass Mb ROIshift num_ZBP,
  bytes_ok buf -> zlen buf < 2 ^ 32 ->
  1 <= w -> 1 <= h -> 0 <= orient < 4 -> 0 <= num_ZBP -> Mb + ROIshift <= 31 -> 0 <= num_pass <= 3 * (Mb + ROIshift - num_ZBP) - 2 ->
  (forall v, In v plen -> 0 <= v) -> num_pass <= zlen plen -> bytes_before plen num_pass < 2 ^ 32 ->
  match decode_block buf w h orient causal bypass reset_cx restart segmark plen num_pass Mb ROIshift num_ZBP,
        annex_D buf w h orient causal bypass reset_cx restart segmark plen num_pass num_ZBP with
  | Ret (Some b), Ret (Some s) => holds w h b s
  | Ret None, Ret None => True
  | _, _ => False
  end.
Proof.
  intros buf w h orient causal bypass reset_cx restart segmark plen num_pass Mb ROIshift num_ZBP Hb Hl Hw Hh Ho Hz HM Hn Hp Hpn Hpb.
  pose proof (C77_any_decoder mq (MqModel.decode buf) (get_raw_symbol buf) (init buf) init_states_for_all_contexts bits_ok w h orient causal bypass reset_cx restart segmark plen (zlen buf) num_pass Mb ROIshift num_ZBP mq0
    (fun s l x s' => mq_dec_bit buf s l x s') (fun s x s' => mq_raw_bit buf s x s') (fun s pos n r s' => mq_seg_ok buf s pos n r s') mq_reset_ok) as K.
  fold (decode_block buf w h orient causal bypass reset_cx restart segmark plen num_pass Mb ROIshift num_ZBP) in K. fold (annex_D buf w h orient causal bypass reset_cx restart segmark plen num_pass num_ZBP) in K.
  assert (T : exists r, annex_D buf w h orient causal bypass reset_cx restart segmark plen num_pass num_ZBP = Ret r).
  { apply (all_tot mq (MqModel.decode buf) (get_raw_symbol buf) w h orient causal Ho (init buf) init_states_for_all_contexts bypass reset_cx restart segmark plen (zlen buf) num_pass (30 - num_ZBP) (Mode buf)) with (m := None); try assumption.
    - intros s l G Hl'. apply decode_ok; assumption.
    - intros s [G1 G2]. apply raw_ok; assumption.
    - intros s m pos n r G H1 H2 H3. destruct (mode_tables buf m s G) as [T1 T2]. destruct (init_ok buf s pos n r Hb Hl H1 H2 H3 T1 T2) as (s' & E & _ & _ & M). exists s'. split; [exact E|]. destruct r; [|exact M]. destruct M as [M1 M2]. split; [exact M1|lia].
    - intros m s G. apply reset_mode. exact G.
    - cbn. split; split; try reflexivity; repeat constructor; lia. }
  destruct T as [r T]. rewrite T in *. specialize (K ltac:(unfold bits_ok; cbn; repeat constructor) Hw Hh Ho Hz HM Hn Hp Hpn Hpb). unfold agree in K.
  destruct (decode_block _ _ _ _ _ _ _ _ _ _ _ _ _ _) as [[b|]| |], r as [s|]; try contradiction; try exact I. exact K.
Qed.
Print Assumptions C77_coding_passes.

(** A 5 by 6 block in lazy mode, 13 passes: some of them raw. *)
Definition C77_buf : list Z := [0x28; 0x91; 0x5C; 0xE7; 0x08; 0x44; 0xB2; 0x19; 0x6D; 0xF0; 0x27; 0x83; 0x5E; 0xC1; 0x7A; 0x35; 0x9B; 0x62; 0x0D; 0xD8; 0x4F; 0xA6; 0x11; 0xEB].
Definition C77_plen : list Z := [2; 2; 1; 1; 2; 1; 2; 1; 1; 2; 2; 3; 4].
Definition rows (w h : Z) (b : blk mq) : list (list Z) := map (fun y => map (fun x => sm b (y * up8 w + x)) (zseq w)) (zseq h).
Example C77_case :
  (match decode_block C77_buf 5 6 1 true true false false false C77_plen 13 8 0 2 with Ret (Some b) => forallb (fun r => negb (forallb (fun v => v =? 0) r)) (rows 5 6 b) | _ => false end) = true /\
  bytes_ok C77_buf /\ zlen C77_buf < 2 ^ 32 /\ 0 <= 13 <= 3 * (8 + 0 - 2) - 2 /\ (forall v, In v C77_plen -> 0 <= v) /\ 13 <= zlen C77_plen /\ bytes_before C77_plen 13 = zlen C77_buf.
Proof.
  split; [vm_compute; reflexivity|]. split; [repeat constructor; lia|]. split; [vm_compute; reflexivity|]. split; [lia|]. split; [|split; [vm_compute; discriminate|vm_compute; reflexivity]].
  intros v Hv. cbn in Hv. repeat (destruct Hv as [<-|Hv]; [lia|]). destruct Hv.
Qed.

(** More passes than there are bit-planes below bit 31 are let through: the
    bit-plane number wraps and the pass shifts by 255. *)
Theorem C77_deep_block_refuted : ~ (forall buf w h orient plen num_pass Mb ROIshift num_ZBP,
  bytes_ok buf -> 1 <= w -> 1 <= h -> 0 <= orient < 4 -> 0 <= num_ZBP -> Mb + ROIshift <= 37 -> 0 <= num_pass <= 3 * (Mb + ROIshift - num_ZBP) - 2 ->
  num_pass <= zlen plen -> bytes_before plen num_pass <= zlen buf ->
  decode_block buf w h orient false false false false false plen num_pass Mb ROIshift num_ZBP <> UB).
Proof. intros H. refine (H [0x55] 1 1 0 [1] 1 37 0 31 _ _ _ _ _ _ _ _ _ _); try lia; [constructor; [red; lia|constructor]|vm_compute; discriminate|vm_compute; discriminate|vm_compute; reflexivity]. Qed.
Print Assumptions C77_deep_block_refuted.
(** The number of passes is not held against the bit-planes: a pass below
    bit-plane 0. *)
Theorem C77_too_many_passes_refuted : ~ (forall buf w h orient plen num_pass Mb num_ZBP,
  bytes_ok buf -> 1 <= w -> 1 <= h -> 0 <= orient < 4 -> 0 <= num_ZBP <= 30 -> 0 <= Mb <= 31 -> 0 <= num_pass <= 164 ->
  num_pass <= zlen plen -> bytes_before plen num_pass <= zlen buf ->
  decode_block buf w h orient false false false false false plen num_pass Mb 0 num_ZBP <> UB).
Proof. intros H. refine (H [0x55] 1 1 0 [1; 0] 2 31 30 _ _ _ _ _ _ _ _ _ _); try lia; [constructor; [red; lia|constructor]|vm_compute; discriminate|vm_compute; discriminate|vm_compute; reflexivity]. Qed.
Print Assumptions C77_too_many_passes_refuted.
