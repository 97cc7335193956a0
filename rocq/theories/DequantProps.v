(** C78: the coefficients a Part 1 code-block leaves in its subband. *)
From Verif Require Import Base BaseLemmas OutModel PassModel PassSpec PassProofs PassRun PassSafe PassLow MqModel MqProps PassProps DequantModel DequantProofs.

(** A code-block decoded and dequantised into [band], at [off], rows [stride]
    apart. *)
Definition into_band (buf : list Z) (w h orient : Z) (causal bypass reset_cx restart segmark : bool) (plen : list Z) (num_pass Mb ROIshift num_ZBP : Z)
    (size off stride : Z) (i32 reversible : bool) (scale : Z) (band : Z -> Z) : ex (Z -> Z) :=
  let? b := decode_block buf w h orient causal bypass reset_cx restart segmark plen num_pass Mb ROIshift num_ZBP in
  let* r := j2k_dequant Mb ROIshift w h size off stride i32 reversible scale b band in ret r.

(** ** What the standard says *)
(** E.1.1.2, in halves of a step (so that r = 1/2 is whole): nothing for
    zero, else the magnitude and half of the last decoded bit-plane; for the
    reversible transform no half once all M_b planes are decoded. The unit is
    2^(31 - M_b). *)
Definition half_steps {A} (reversible : bool) (Mb : Z) (s : coefs A) (y x : Z) : Z :=
  if mag s y x =? 0 then 0 else
  let v := 2 * mag s y x + (if reversible && (low s y x <=? 31 - Mb) then 0 else 2 ^ low s y x) in
  if neg s y x then - v else v.
(** H.1: a region-of-interest coefficient is kept, another one is scaled up. *)
Definition unscaled {A} (Mb ROIshift : Z) (s : coefs A) (y x : Z) : Z :=
  let v := if mag s y x <? 2 ^ (31 - Mb) then mag s y x * 2 ^ ROIshift else mag s y x in
  if neg s y x then - v else v.

(** [band'] is [band] with the block's rectangle set to [q]. *)
Definition rectangle (w h off stride : Z) (band band' : Z -> Z) (q : Z -> Z -> Z -> Prop) : Prop :=
  (forall y x, 0 <= y < h -> 0 <= x < w -> q y x (band' (off + (y * stride + x)))) /\
  (forall j, (forall y x, 0 <= y < h -> 0 <= x < w -> j <> off + (y * stride + x)) -> band' j = band j).

Lemma block_R buf w h orient causal bypass reset_cx restart segmark plen num_pass Mb ROIshift num_ZBP :
  bytes_ok buf -> zlen buf < 2 ^ 32 ->
  1 <= w -> 1 <= h -> 0 <= orient < 4 -> 0 <= num_ZBP -> Mb + ROIshift <= 31 -> 0 <= num_pass <= 3 * (Mb + ROIshift - num_ZBP) - 2 ->
  (forall v, In v plen -> 0 <= v) -> num_pass <= zlen plen -> bytes_before plen num_pass < 2 ^ 32 ->
  match decode_block buf w h orient causal bypass reset_cx restart segmark plen num_pass Mb ROIshift num_ZBP,
        annex_D buf w h orient causal bypass reset_cx restart segmark plen num_pass num_ZBP with
  | Ret (Some b), Ret (Some s) => R mq w h orient causal bits_ok b s /\ D mq (31 - Mb - ROIshift) s
  | Ret None, Ret None => True
  | _, _ => False
  end.
Proof.
  intros Hb Hl Hw Hh Ho Hz HM Hn Hp Hpn Hpb.
  pose proof (C77_coding_passes buf w h orient causal bypass reset_cx restart segmark plen num_pass Mb ROIshift num_ZBP Hb Hl Hw Hh Ho Hz HM Hn Hp Hpn Hpb) as K1.
  pose proof (decode_R mq (MqModel.decode buf) (get_raw_symbol buf) w h orient causal Hh Ho bits_ok (fun s l x s' => mq_dec_bit buf s l x s') (fun s x s' => mq_raw_bit buf s x s') (init buf) init_states_for_all_contexts
    (fun s pos n r s' => mq_seg_ok buf s pos n r s') mq_reset_ok bypass reset_cx restart segmark plen (zlen buf) num_pass Mb ROIshift num_ZBP Hz HM (proj2 Hn) Hp Hpn Hpb mq0 ltac:(unfold bits_ok; cbn; repeat constructor) (proj1 Hn)) as K2.
  fold (decode_block buf w h orient causal bypass reset_cx restart segmark plen num_pass Mb ROIshift num_ZBP) in K2. fold (annex_D buf w h orient causal bypass reset_cx restart segmark plen num_pass num_ZBP) in K2.
  destruct (decode_block _ _ _ _ _ _ _ _ _ _ _ _ _ _) as [[b|]| |], (annex_D buf w h orient causal bypass reset_cx restart segmark plen num_pass num_ZBP) as [[s|]| |] eqn:E; try exact K1. split; [exact K2|].
  eapply all_D; [|intros z Hzz|exact E]; [lia|]. unfold plane_of. assert ((z + 2) / 3 <= Mb + ROIshift - num_ZBP - 1); [|lia]. pose proof (Z.div_lt_upper_bound (z + 2) 3 (Mb + ROIshift - num_ZBP)). lia.
Qed.

(** What is known of a sample before dequantisation. *)
Lemma sample_facts (b : blk mq) s w h orient causal p y x : R mq w h orient causal bits_ok b s -> D mq p s -> 0 <= p -> 0 <= y < h -> 0 <= x < w ->
  0 <= mag s y x < 2 ^ 31 /\ rd_sm mq w h b (x + y * sstr w) = Ret (pat (neg s y x) (mag s y x)) /\
  exists t, rd_st mq w h b ((x + 1) + (y + 1) * tstr w) = Ret t /\ 0 <= t < 256 /\ (mag s y x = 0 -> neg s y x = false) /\
    (mag s y x <> 0 -> t / 8 = low s y x /\ p <= low s y x < 31 /\ (2 ^ low s y x | mag s y x)).
Proof.
  intros HR HD Hp Hy Hx. pose proof (R_holds _ _ _ _ _ _ _ HR y x Hy Hx) as (Hm & Hv & Hz & Hl). specialize (HD y x). split; [exact Hm|].
  assert (Q : forall k n, 0 <= k < n -> 0 <= k < up8 n) by (intros k n; unfold up8; lia). pose proof (Q x w Hx) as Qx. pose proof (Q y h Hy) as Qy. pose proof Qx as [_ Qx']. pose proof Qy as [_ Qy'].
  split.
  { unfold rd_sm, n_sm, sstr. replace ((0 <=? x + y * up8 w) && (x + y * up8 w <? up8 w * up8 h)) with true by nia. f_equal. replace (x + y * up8 w) with (y * up8 w + x) by lia. exact Hv. }
  exists (st b ((y + 1) * (up8 w + 2) + (x + 1))). split.
  { unfold rd_st, n_st, tstr. replace ((0 <=? x + 1 + (y + 1) * (up8 w + 2)) && (x + 1 + (y + 1) * (up8 w + 2) <? (up8 w + 2) * (up8 h + 2))) with true by nia. do 2 f_equal. lia. }
  destruct HR as (Ht & _). destruct (Ht y x ltac:(lia) ltac:(lia)) as [Kt _]. destruct (Kt (conj Hy Hx)) as (P & HP & E & _). change (adr w y x) with ((y + 1) * (up8 w + 2) + (x + 1)) in E.
  split. { rewrite E. unfold pack. destruct (sig s y x), (refd s y x), (cod s y x); cbn [b2z]; lia. }
  destruct (sig s y x); [|split; [intros _; apply Hz; reflexivity|intros N; contradiction]].
  split; [intros C; destruct HD as (_ & _ & HD); lia|]. intros _. split; [apply Hl; reflexivity|]. destruct HD as (D1 & D2 & D3). split; [|exact D2]. split; [exact D1|].
  apply (Z.pow_lt_mono_r_iff 2); [lia|lia|]. apply Z.divide_pos_le in D2; lia.
Qed.

Section Steps.
  Variables (buf : list Z) (w h orient : Z) (causal bypass reset_cx restart segmark : bool) (plen : list Z) (num_pass Mb ROIshift num_ZBP size off stride : Z) (band : Z -> Z).
  Hypotheses (Hb : bytes_ok buf) (Hl : zlen buf < 2 ^ 32).
  Hypotheses (Hw : 1 <= w <= stride) (Hh : 1 <= h) (Ho : 0 <= orient < 4) (Hz : 0 <= num_ZBP) (HMb : 0 < Mb <= 30) (HR : 0 <= ROIshift) (HM : Mb + ROIshift <= 31) (Hn : 0 <= num_pass <= 3 * (Mb + ROIshift - num_ZBP) - 2).
  Hypotheses (Hp : forall v, In v plen -> 0 <= v) (Hpn : num_pass <= zlen plen) (Hpb : bytes_before plen num_pass < 2 ^ 32).
  Hypotheses (Hoff : 0 <= off) (Hfit : h * stride < 2 ^ 32) (Hsize : off + h * stride <= size).
  Lemma run_into (i32 reversible : bool) (scale : Z) (q : coefs mq -> Z -> Z -> Z -> Prop) :
    (forall s, annex_D buf w h orient causal bypass reset_cx restart segmark plen num_pass num_ZBP = Ret (Some s) -> forall y x t, 0 <= y < h -> 0 <= x < w -> 0 <= mag s y x < 2 ^ 31 -> 0 <= t < 256 -> (mag s y x = 0 -> neg s y x = false) ->
      (mag s y x <> 0 -> t / 8 = low s y x /\ 31 - Mb - ROIshift <= low s y x < 31 /\ (2 ^ low s y x | mag s y x)) ->
      exists v v', (if reversible then rev_sample Mb ROIshift (4294967295 / 2 ^ (Mb + 1)) (pat (neg s y x) (mag s y x)) t else irrev_sample Mb ROIshift scale (4294967295 / 2 ^ (Mb + 1)) (pat (neg s y x) (mag s y x)) t) = Ret v /\
        v' = (if reversible && i32 then v else to_float v) /\ q s y x v') ->
    match into_band buf w h orient causal bypass reset_cx restart segmark plen num_pass Mb ROIshift num_ZBP size off stride i32 reversible scale band,
          annex_D buf w h orient causal bypass reset_cx restart segmark plen num_pass num_ZBP with
    | Ret (Some band'), Ret (Some s) => rectangle w h off stride band band' (q s)
    | Ret None, Ret None => True
    | _, _ => False
    end.
  Proof using Hb Hl Hw Hh Ho Hz HMb HR HM Hn Hp Hpn Hpb Hoff Hfit Hsize.
    intros Hq. pose proof (block_R buf w h orient causal bypass reset_cx restart segmark plen num_pass Mb ROIshift num_ZBP Hb Hl (proj1 Hw) Hh Ho Hz HM Hn Hp Hpn Hpb) as K. unfold into_band.
    destruct (decode_block _ _ _ _ _ _ _ _ _ _ _ _ _ _) as [[b|]| |], (annex_D buf w h orient causal bypass reset_cx restart segmark plen num_pass num_ZBP) as [[s|]| |] eqn:E; try contradiction; try exact K; cbn [bindx bind ret].
    destruct K as [KR KD]. specialize (Hq s eq_refl). unfold j2k_dequant, mask. replace ((Mb + 1 <? 0) || (31 <? Mb + 1)) with false by lia. cbn [bind].
    set (m := 4294967295 / 2 ^ (Mb + 1)) in *.
    set (sv := fun y x => match rd_sm mq w h b (x + y * sstr w), rd_st mq w h b ((x + 1) + (y + 1) * tstr w) with
                          | Ret u, Ret t => match (if reversible then rev_sample Mb ROIshift m u t else irrev_sample Mb ROIshift scale m u t) with Ret v => if reversible && i32 then v else to_float v | _ => 0 end
                          | _, _ => 0 end).
    assert (F : forall y x, 0 <= y < h -> 0 <= x < w -> q s y x (sv y x) /\ forall bd, dq_sample Mb ROIshift w h size off stride i32 reversible scale m b y bd x = put size bd (off + (y * stride + x)) (sv y x)).
    { intros y x Hy Hx. destruct (sample_facts b s w h orient causal _ y x KR KD ltac:(lia) Hy Hx) as (F1 & F2 & t & F3 & F4 & F5 & F6).
      destruct (Hq y x t Hy Hx F1 F4 F5 F6) as (v & v' & Ev & Ev' & Eq). unfold sv. rewrite F2, F3, Ev, <- Ev'. split; [exact Eq|]. intros bd. unfold dq_sample. rewrite F2, F3. cbn [bind].
      assert (0 <= y * stride) by (apply Z.mul_nonneg_nonneg; lia). assert ((y + 1) * stride <= h * stride) by (apply Z.mul_le_mono_nonneg_r; lia).
      rewrite (wrap32_small (y * stride)), wrap32_small by (unfold two32; change (2 ^ 32) with 4294967296 in *; lia). replace (x + y * stride) with (y * stride + x) by lia.
      destruct reversible; rewrite Ev; cbn [bind andb] in *; rewrite Ev'; [destruct i32|]; reflexivity. }
    destruct (all_fill w h size off stride ltac:(lia) ltac:(lia) Hoff) with (f := dq_sample Mb ROIshift w h size off stride i32 reversible scale m b) (q := sv) (band := band) as (band' & Eb & A & B).
    - intros y x Hy Hx. assert ((y + 1) * stride <= h * stride) by (apply Z.mul_le_mono_nonneg_r; lia). lia.
    - intros y x bd Hy Hx. apply F; assumption.
    - rewrite Eb. cbn [bind ret]. split; [|exact B]. intros y x Hy Hx. rewrite A by assumption. apply F; assumption.
  Qed.
End Steps.

(** Reversible transform, no region of interest: exactly the value of
    E.1.1.2, for every set of passes decoded. *)
Theorem C78_reversible : forall buf w h orient causal bypass reset_cx restart segmark plen num_pass Mb num_ZBP size off stride (i32 : bool) scale band,
  bytes_ok buf -> zlen buf < 2 ^ 32 ->
  1 <= w <= stride -> 1 <= h -> 0 <= orient < 4 -> 0 <= num_ZBP -> 0 < Mb <= 30 -> 0 <= num_pass <= 3 * (Mb - num_ZBP) - 2 ->
  (forall v, In v plen -> 0 <= v) -> num_pass <= zlen plen -> bytes_before plen num_pass < 2 ^ 32 ->
  0 <= off -> h * stride < 2 ^ 32 -> off + h * stride <= size -> i32 = true \/ Mb <= 24 ->
  match into_band buf w h orient causal bypass reset_cx restart segmark plen num_pass Mb 0 num_ZBP size off stride i32 true scale band,
        annex_D buf w h orient causal bypass reset_cx restart segmark plen num_pass num_ZBP with
  | Ret (Some band'), Ret (Some s) => rectangle w h off stride band band' (fun y x v => v * 2 ^ (31 - Mb) * 2 = half_steps true Mb s y x)
  | Ret None, Ret None => True
  | _, _ => False
  end.
Proof.
  intros buf w h orient causal bypass reset_cx restart segmark plen num_pass Mb num_ZBP size off stride i32 scale band Hb Hl Hw Hh Ho Hz HM Hn Hp Hpn Hpb Hoff Hfit Hsize Hi.
  apply (run_into buf w h orient causal bypass reset_cx restart segmark plen num_pass Mb 0 num_ZBP size off stride band) with (q := fun s y x v => v * 2 ^ (31 - Mb) * 2 = half_steps true Mb s y x); try assumption; try lia.
  intros s _ y x t Hy Hx Hm Ht Hs0 Hs. rewrite Z.sub_0_r in Hs.
  destruct (rev_plain Mb (4294967295 / 2 ^ (Mb + 1)) (neg s y x) (mag s y x) t (low s y x) ltac:(lia) Hm Hs) as (v & E & Ev). exists v, (if true && i32 then v else to_float v). split; [exact E|]. split; [reflexivity|].
  assert (X : (if true && i32 then v else to_float v) = v).
  { destruct i32; [reflexivity|]. destruct Hi as [Hi|Hi]; [discriminate Hi|]. cbn [andb]. apply to_float_small.
    assert (B : Z.abs (v * 2 ^ (31 - Mb) * 2) <= 2 ^ 32).
    { rewrite Ev. destruct (Z.eqb_spec (mag s y x) 0) as [e|N]; [destruct (neg s y x); change (2 ^ 32) with 4294967296; cbn; lia|]. destruct (Hs N) as (_ & L & Dv). pose proof (sum_lt (low s y x) (mag s y x) 31 ltac:(lia) Dv Hm) as S1. assert (0 < 2 ^ low s y x) by lia.
      change (2 ^ 31) with 2147483648 in *. change (2 ^ 32) with 4294967296. destruct (neg s y x), (31 - Mb <? low s y x); cbn [signed]; lia. }
    assert (P : 2 ^ 7 <= 2 ^ (31 - Mb)) by (apply Z.pow_le_mono_r; lia). change (2 ^ 7) with 128 in P. change (2 ^ 32) with 4294967296 in B. change (2 ^ 24) with 16777216. rewrite !Z.abs_mul in B. assert (128 <= Z.abs (2 ^ (31 - Mb))) by lia. change (Z.abs 2) with 2 in B. nia. }
  rewrite X, Ev. unfold half_steps. destruct (mag s y x =? 0) eqn:E0; [destruct (neg s y x); reflexivity|]. cbn [andb].
  destruct (Z.ltb_spec (31 - Mb) (low s y x)), (Z.leb_spec (low s y x) (31 - Mb)); try lia; destruct (neg s y x); reflexivity.
Qed.
Print Assumptions C78_reversible.

(** With a region of interest: its coefficients are kept and the others are
    scaled up, for magnitudes a Maxshift encoder produces. *)
Theorem C78_region_of_interest_partial : forall buf w h orient causal bypass reset_cx restart segmark plen num_pass Mb ROIshift num_ZBP size off stride (i32 : bool) scale band,
  bytes_ok buf -> zlen buf < 2 ^ 32 ->
  1 <= w <= stride -> 1 <= h -> 0 <= orient < 4 -> 0 <= num_ZBP -> 0 < Mb -> 0 < ROIshift -> Mb + ROIshift <= 31 -> 0 <= num_pass <= 3 * (Mb + ROIshift - num_ZBP) - 2 ->
  (forall v, In v plen -> 0 <= v) -> num_pass <= zlen plen -> bytes_before plen num_pass < 2 ^ 32 ->
  0 <= off -> h * stride < 2 ^ 32 -> off + h * stride <= size -> i32 = true \/ Mb <= 24 ->
  (forall s, annex_D buf w h orient causal bypass reset_cx restart segmark plen num_pass num_ZBP = Ret (Some s) -> forall y x, 0 <= y < h -> 0 <= x < w ->
     (2 ^ (31 - Mb) | mag s y x) \/ mag s y x < 2 ^ (31 - Mb) /\ mag s y x < 2 ^ (31 - ROIshift)) ->
  match into_band buf w h orient causal bypass reset_cx restart segmark plen num_pass Mb ROIshift num_ZBP size off stride i32 true scale band,
        annex_D buf w h orient causal bypass reset_cx restart segmark plen num_pass num_ZBP with
  | Ret (Some band'), Ret (Some s) => rectangle w h off stride band band' (fun y x v => v * 2 ^ (31 - Mb) = unscaled Mb ROIshift s y x)
  | Ret None, Ret None => True
  | _, _ => False
  end.
Proof.
  intros buf w h orient causal bypass reset_cx restart segmark plen num_pass Mb ROIshift num_ZBP size off stride i32 scale band Hb Hl Hw Hh Ho Hz HM HR HMR Hn Hp Hpn Hpb Hoff Hfit Hsize Hi Hc.
  apply (run_into buf w h orient causal bypass reset_cx restart segmark plen num_pass Mb ROIshift num_ZBP size off stride band) with (q := fun s y x v => v * 2 ^ (31 - Mb) = unscaled Mb ROIshift s y x); try assumption; try lia.
  intros s Es y x t Hy Hx Hm Ht Hs0 Hs. specialize (Hc s Es y x Hy Hx).
  assert (D0 : (2 ^ (31 - Mb - ROIshift) | mag s y x)).
  { destruct (Z.eq_dec (mag s y x) 0) as [->|N]; [apply Z.divide_0_r|]. destruct (Hs N) as (_ & L & Dv). eapply div_le; [|lia|exact Dv]. lia. }
  assert (P : 0 < 2 ^ (31 - Mb)) by lia. assert (P2 : 0 < 2 ^ (31 - ROIshift)) by lia.
  destruct (rev_region Mb ROIshift (neg s y x) (mag s y x) t HM HR HMR Hm D0) as (v & E & Ev).
  { intros L. destruct Hc as [Hc|Hc]; [exact Hc|lia]. }
  { intros L. destruct Hc as [Hc|Hc]; [|lia]. destruct (Z.eq_dec (mag s y x) 0) as [->|N]; [lia|]. apply Z.divide_pos_le in Hc; lia. }
  exists v, (if true && i32 then v else to_float v). split; [exact E|]. split; [reflexivity|].
  assert (X : (if true && i32 then v else to_float v) = v).
  { destruct i32; [reflexivity|]. destruct Hi as [Hi|Hi]; [discriminate Hi|]. cbn [andb]. apply to_float_small.
    assert (B : Z.abs (v * 2 ^ (31 - Mb)) <= 2 ^ 31).
    { rewrite Ev. assert (B1 : mag s y x < 2 ^ (31 - Mb) -> mag s y x * 2 ^ ROIshift <= 2 ^ 31).
      { intros L. assert (mag s y x < 2 ^ (31 - ROIshift)) by (destruct Hc as [Hc|Hc]; [|lia]; destruct (Z.eq_dec (mag s y x) 0) as [->|N]; [lia|]; apply Z.divide_pos_le in Hc; lia).
        replace (2 ^ 31) with (2 ^ (31 - ROIshift) * 2 ^ ROIshift) by (rewrite <- Z.pow_add_r by lia; f_equal; lia). apply Z.mul_le_mono_nonneg_r; lia. }
      assert (0 <= mag s y x * 2 ^ ROIshift) by (apply Z.mul_nonneg_nonneg; lia). change (2 ^ 31) with 2147483648 in *.
      destruct (Z.ltb_spec (mag s y x) (2 ^ (31 - Mb))) as [L|L]; [specialize (B1 L)|]; destruct (neg s y x); cbn [signed]; lia. }
    assert (P7 : 2 ^ 7 <= 2 ^ (31 - Mb)) by (apply Z.pow_le_mono_r; lia). change (2 ^ 7) with 128 in P7. change (2 ^ 31) with 2147483648 in B. change (2 ^ 24) with 16777216. rewrite !Z.abs_mul in B. assert (128 <= Z.abs (2 ^ (31 - Mb))) by lia. nia. }
  rewrite X, Ev. reflexivity.
Qed.
Print Assumptions C78_region_of_interest_partial.

(** Irreversible transform: within half a unit plus scale/2^16 of the value
    of E.1.1.2 times scale/2^31, when nothing overflows. *)
Theorem C78_irreversible_partial : forall buf w h orient causal bypass reset_cx restart segmark plen num_pass Mb num_ZBP size off stride (i32 : bool) scale band,
  bytes_ok buf -> zlen buf < 2 ^ 32 ->
  1 <= w <= stride -> 1 <= h -> 0 <= orient < 4 -> 0 <= num_ZBP -> 0 < Mb <= 30 -> 0 <= num_pass <= 3 * (Mb - num_ZBP) - 2 ->
  (forall v, In v plen -> 0 <= v) -> num_pass <= zlen plen -> bytes_before plen num_pass < 2 ^ 32 ->
  0 <= off -> h * stride < 2 ^ 32 -> off + h * stride <= size -> 0 <= scale ->
  (forall s, annex_D buf w h orient causal bypass reset_cx restart segmark plen num_pass num_ZBP = Ret (Some s) -> forall y x, 0 <= y < h -> 0 <= x < w ->
     Z.abs (half_steps false Mb s y x) + 2 ^ 16 < 2 ^ 32 /\ (Z.abs (half_steps false Mb s y x) + 2 ^ 16) / 2 ^ 17 * scale + 2 ^ 14 < 2 ^ 31) ->
  match into_band buf w h orient causal bypass reset_cx restart segmark plen num_pass Mb 0 num_ZBP size off stride i32 false scale band,
        annex_D buf w h orient causal bypass reset_cx restart segmark plen num_pass num_ZBP with
  | Ret (Some band'), Ret (Some s) => rectangle w h off stride band band' (fun y x v =>
      Z.abs (2 ^ 32 * v - scale * half_steps false Mb s y x) <= 2 ^ 31 + scale * 2 ^ 16 /\ (mag s y x = 0 -> v = 0))
  | Ret None, Ret None => True
  | _, _ => False
  end.
Proof.
  intros buf w h orient causal bypass reset_cx restart segmark plen num_pass Mb num_ZBP size off stride i32 scale band Hb Hl Hw Hh Ho Hz HM Hn Hp Hpn Hpb Hoff Hfit Hsize Hsc Hc.
  apply (run_into buf w h orient causal bypass reset_cx restart segmark plen num_pass Mb 0 num_ZBP size off stride band) with (q := fun s y x v => Z.abs (2 ^ 32 * v - scale * half_steps false Mb s y x) <= 2 ^ 31 + scale * 2 ^ 16 /\ (mag s y x = 0 -> v = 0)); try assumption; try lia.
  intros s Es y x t Hy Hx Hm Ht Hs0 Hs. rewrite Z.sub_0_r in Hs. specialize (Hc s Es y x Hy Hx).
  assert (Ea : mag s y x <> 0 -> half_steps false Mb s y x = signed (neg s y x) (2 * mag s y x + 2 ^ low s y x)).
  { intros N. unfold half_steps. replace (mag s y x =? 0) with false by lia. cbn [andb]. destruct (neg s y x); reflexivity. }
  destruct (irrev_plain Mb scale (4294967295 / 2 ^ (Mb + 1)) (neg s y x) (mag s y x) t (low s y x) HM Hsc Hm Hs (fun _ => Ht)) as (v & E & Hv & V0 & V1).
  { intros N. rewrite (Ea N) in Hc. destruct (Hs N) as (_ & L & _). assert (0 < 2 ^ low s y x) by lia. replace (Z.abs (signed (neg s y x) (2 * mag s y x + 2 ^ low s y x))) with (2 * mag s y x + 2 ^ low s y x) in Hc by (destruct (neg s y x); cbn [signed]; lia). exact Hc. }
  eexists; eexists. split; [exact E|]. split; [reflexivity|]. cbn [andb]. rewrite to_float_small by (change (2 ^ 24) with 16777216; change (2 ^ 16) with 65536 in Hv; destruct (neg s y x); cbn [signed]; lia).
  split; [|intros Z0; rewrite (V0 Z0), (Hs0 Z0); reflexivity].
  destruct (Z.eq_dec (mag s y x) 0) as [Z0|N].
  - rewrite (V0 Z0), (Hs0 Z0). unfold half_steps. rewrite Z0. cbn [Z.eqb signed]. rewrite !Z.mul_0_r. change (2 ^ 31) with 2147483648. change (2 ^ 16) with 65536. change (Z.abs (0 - 0)) with 0. lia.
  - rewrite (Ea N). specialize (V1 N). change (2 ^ 32) with 4294967296 in *. change (2 ^ 31) with 2147483648 in *. change (2 ^ 16) with 65536 in *. destruct (neg s y x); cbn [signed]; [|exact V1]. replace (4294967296 * - v - scale * - (2 * mag s y x + 2 ^ low s y x)) with (- (4294967296 * v - scale * (2 * mag s y x + 2 ^ low s y x))) by lia. rewrite Z.abs_opp. exact V1.
Qed.
Print Assumptions C78_irreversible_partial.

(** The block of [C77_case] in an 8-sample-wide band, M_b = 8: thirteen of
    sixteen passes, so the last bit-plane but one is the last decoded. *)
Definition C78_band (reversible : bool) (scale : Z) : list (list Z) :=
  match into_band C77_buf 5 6 1 true true false false false C77_plen 13 8 0 2 60 3 8 true reversible scale (fun _ => 77) with
  | Ret (Some band') => map (fun y => map (fun x => band' (y * 8 + x)) (zseq 9)) (zseq 6)
  | _ => [] end.
Example C78_case : C78_band true 0 =
  [[77; 77; 77; 7; -3; 3; 19; 25; 77]; [77; 77; 77; 15; 0; -3; 0; 25; 77]; [77; 77; 77; 0; 9; 0; -25; 49; 77];
   [77; 77; 77; 0; -9; 17; -5; 35; 77]; [77; 77; 77; -3; -3; 0; 51; -35; 77]; [77; 77; 77; 0; -27; 25; 51; 21; 77]].
Proof. vm_compute. reflexivity. Qed.

(** A single sample: its bytes in one segment after empty passes. *)
Definition one_sample (buf : list Z) (num_pass Mb ROIshift num_ZBP : Z) (i32 reversible : bool) (scale : Z) : ex Z :=
  let? b := into_band buf 1 1 0 false false false false false (repeat 0 (Z.to_nat (num_pass - 1)) ++ [zlen buf]) num_pass Mb ROIshift num_ZBP 1 0 1 i32 reversible scale (fun _ => 0) in ret (b 0).
Definition one_coef (buf : list Z) (num_pass num_ZBP : Z) : ex (Z * bool * Z) :=
  let? s := annex_D buf 1 1 0 false false false false false (repeat 0 (Z.to_nat (num_pass - 1)) ++ [zlen buf]) num_pass num_ZBP in ret (mag s 0 0, neg s 0 0, low s 0 0).

(** A background coefficient 2^26 = 1/2 of a unit, scaled up to 8; and a
    region-of-interest coefficient -2^27, kept. *)
Example C78_region_case :
  one_sample [10; 0x91; 0x5C] 4 4 4 3 true true 0 = ret 8 /\ one_coef [10; 0x91; 0x5C] 4 3 = ret (2 ^ 26, false, 26) /\
  one_sample [5; 0x91; 0x5C] 4 4 4 3 true true 0 = ret (-1) /\ one_coef [5; 0x91; 0x5C] 4 3 = ret (2 ^ 27, true, 26).
Proof. vm_compute. repeat split. Qed.
(** 2^30 and half of it, times 1000 / 2^31: 750 exactly. *)
Example C78_irreversible_case : one_sample [3; 0x91; 0x5C] 1 20 0 0 true false 1000 = ret 750 /\ one_coef [3; 0x91; 0x5C] 1 0 = ret (2 ^ 30, false, 30).
Proof. vm_compute. repeat split. Qed.

(** A region-of-interest coefficient with bits below the unit loses them by
    rounding down: 1.5 becomes 1 and -1.5 becomes -2 (H.1 discards them). *)
Theorem C78_region_low_bits_refuted : ~ (forall buf num_pass Mb ROIshift num_ZBP m n l, 0 < Mb -> 0 < ROIshift -> Mb + ROIshift <= 31 ->
  one_coef buf num_pass num_ZBP = ret (m, n, l) -> 2 ^ (31 - Mb) <= m -> one_sample buf num_pass Mb ROIshift num_ZBP true true 0 = ret (signed n (m / 2 ^ (31 - Mb)))).
Proof. intros H. specialize (H [8; 0x91; 0x5C] 4 4 4 3 201326592 true 26 ltac:(lia) ltac:(lia) ltac:(lia) ltac:(vm_compute; reflexivity) ltac:(vm_compute; discriminate)). vm_compute in H. discriminate H. Qed.
Print Assumptions C78_region_low_bits_refuted.
(** A coefficient between the region of interest and the background is
    shifted out of int32_t. *)
Theorem C78_region_gap_refuted : ~ (forall buf num_pass Mb ROIshift num_ZBP, 0 < Mb -> 0 < ROIshift -> Mb + ROIshift <= 31 -> 0 <= num_ZBP -> 0 <= num_pass <= 3 * (Mb + ROIshift - num_ZBP) - 2 ->
  bytes_ok buf -> one_sample buf num_pass Mb ROIshift num_ZBP true true 0 <> UB).
Proof. intros H. refine (H [3; 0x91; 0x5C] 1 2 20 2 _ _ _ _ _ _ _); try lia; [repeat constructor; lia|vm_compute; reflexivity]. Qed.
Print Assumptions C78_region_gap_refuted.
(** 31 magnitude bits: the mask is a shift by 32, whatever the block. *)
Theorem C78_31_bits_refuted : forall buf w h orient causal bypass reset_cx restart segmark plen num_pass ROIshift num_ZBP size off stride i32 reversible scale band b,
  decode_block buf w h orient causal bypass reset_cx restart segmark plen num_pass 31 ROIshift num_ZBP = Ret (Some b) ->
  into_band buf w h orient causal bypass reset_cx restart segmark plen num_pass 31 ROIshift num_ZBP size off stride i32 reversible scale band = UB.
Proof. intros. unfold into_band. rewrite H. reflexivity. Qed.
Print Assumptions C78_31_bits_refuted.
(** Stored as float, a reversible coefficient of more than 24 bits changes. *)
Theorem C78_float_refuted : ~ (forall buf num_pass Mb num_ZBP m n l, 0 < Mb <= 30 -> one_coef buf num_pass num_ZBP = ret (m, n, l) -> l = 31 - Mb ->
  one_sample buf num_pass Mb 0 num_ZBP false true 0 = ret (signed n (m / 2 ^ l))).
Proof. intros H. specialize (H [0x10; 0x91; 0x5C; 0x33; 0x17; 0x28; 0x92] 88 30 0 162261586 true 1 ltac:(lia) ltac:(vm_compute; reflexivity) eq_refl). vm_compute in H. discriminate H. Qed.
Print Assumptions C78_float_refuted.
(** A large step size overflows the multiplication. *)
Theorem C78_large_step_refuted : ~ (forall buf num_pass Mb num_ZBP scale, 0 < Mb <= 30 -> 0 <= scale < 2 ^ 31 -> 0 <= num_ZBP -> 0 <= num_pass <= 3 * (Mb - num_ZBP) - 2 ->
  bytes_ok buf -> one_sample buf num_pass Mb 0 num_ZBP true false scale <> UB).
Proof. intros H. refine (H [3; 0x91; 0x5C] 1 20 0 (2 ^ 20) _ _ _ _ _ _); try lia; [repeat constructor; lia|vm_compute; reflexivity]. Qed.
Print Assumptions C78_large_step_refuted.
