(** RTP and RFC 9828 headers (C41). *)
From Verif Require Import Base BaseLemmas Be RtpModel.

(** ** Specification: the bytes of a header, RFC 3550 section 5.1 and RFC 9828
    section 5.  A field of [n] bits holds a number below [2 ^ n]. *)

Definition bit (b : bool) : Z := if b then 1 else 0.
Definition bits (n v : Z) : Prop := 0 <= v < 2 ^ n.

(** Fixed part, contributing sources, extension. *)
Definition rtp_bytes (h : rtp_header) (csrcs extension : list Z) : list Z :=
  [2 * 64 + bit (h_padding h) * 32 + bit (h_extension h) * 16 + h_csrc_count h; bit (h_marker h) * 128 + h_payload_type h] ++
  be16 (h_sequence h) ++ be32 (h_timestamp h) ++ be32 (h_ssrc h) ++ csrcs ++ extension.
Definition rtp_extension (x : list Z) : Prop :=
  exists profile words, bits 16 profile /\ zlen words mod 4 = 0 /\ bits 16 (zlen words / 4) /\
    x = be16 profile ++ be16 (zlen words / 4) ++ words.
Definition rtp_ok (h : rtp_header) (csrcs extension : list Z) : Prop :=
  bits 4 (h_csrc_count h) /\ bits 7 (h_payload_type h) /\ bits 16 (h_sequence h) /\ bits 32 (h_timestamp h) /\ bits 32 (h_ssrc h) /\
  zlen csrcs = 4 * h_csrc_count h /\ (if h_extension h then rtp_extension extension else extension = []) /\
  h_payload_offset h = zlen (rtp_bytes h csrcs extension).

Definition main_bytes (m : main_header) : list Z :=
  [m_mh m * 64 + m_tp m * 8 + m_ordh m; bit (m_p m) * 128 + m_ptstamp m / 256; m_ptstamp m mod 256; m_eseq m;
   bit (m_r m) * 128 + bit (m_s m) * 64 + bit (m_c m) * 32 + bit (m_range m); m_prims m; m_trans m; m_mat m].
Definition main_ok (m : main_header) : Prop :=
  bits 2 (m_mh m) /\ m_mh m <> 0 /\ bits 3 (m_tp m) /\ bits 3 (m_ordh m) /\ bits 12 (m_ptstamp m) /\ bits 8 (m_eseq m) /\
  bits 8 (m_prims m) /\ bits 8 (m_trans m) /\ bits 8 (m_mat m) /\
  (m_s m = false -> m_prims m = 0 /\ m_trans m = 0 /\ m_mat m = 0 /\ m_range m = false) /\ (m_c m = true -> m_r m = true).

Definition body_bytes (b : body_header) : list Z :=
  [b_tp b * 8 + b_res b; bit (b_ordb b) * 128 + b_qual b * 16 + b_ptstamp b / 256; b_ptstamp b mod 256; b_eseq b;
   b_pos b / 16; b_pos b mod 16 * 16 + b_pid b / 65536; b_pid b / 256 mod 256; b_pid b mod 256].
Definition body_ok (b : body_header) : Prop :=
  bits 3 (b_tp b) /\ bits 3 (b_res b) /\ bits 3 (b_qual b) /\ bits 12 (b_ptstamp b) /\ bits 8 (b_eseq b) /\ bits 12 (b_pos b) /\ bits 20 (b_pid b) /\
  (b_ordb b = false -> b_pos b = 0 /\ b_pid b = 0).

(** ** Bytes *)

Lemma byte_sweep (P : Z -> bool) : forallb P (zseq 256) = true -> forall b, 0 <= b < 256 -> P b = true.
Proof. intros H b Hb. rewrite forallb_forall in H. apply H. now apply zseq_In. Qed.

Lemma b_rtp0 b : 0 <= b < 256 -> b = Z.shiftr b 6 * 64 + bit (flag b 32) * 32 + bit (flag b 16) * 16 + Z.land b 15 /\ 0 <= Z.land b 15 < 16.
Proof.
  intros H. pose proof (byte_sweep (fun b => (b =? Z.shiftr b 6 * 64 + bit (flag b 32) * 32 + bit (flag b 16) * 16 + Z.land b 15)
    && (0 <=? Z.land b 15) && (Z.land b 15 <? 16)) ltac:(vm_compute; reflexivity) b H) as K. cbv beta in K. lia.
Qed.
Lemma b_rtp1 b : 0 <= b < 256 -> b = bit (flag b 128) * 128 + Z.land b 127 /\ 0 <= Z.land b 127 < 128.
Proof.
  intros H. pose proof (byte_sweep (fun b => (b =? bit (flag b 128) * 128 + Z.land b 127)
    && (0 <=? Z.land b 127) && (Z.land b 127 <? 128)) ltac:(vm_compute; reflexivity) b H) as K. cbv beta in K. lia.
Qed.
Lemma b_233 b : 0 <= b < 256 -> b = Z.land (Z.shiftr b 6) 3 * 64 + Z.land (Z.shiftr b 3) 7 * 8 + Z.land b 7 /\
  0 <= Z.land (Z.shiftr b 6) 3 < 4 /\ 0 <= Z.land (Z.shiftr b 3) 7 < 8 /\ 0 <= Z.land b 7 < 8 /\ Z.land (Z.shiftr b 6) 3 = Z.shiftr b 6.
Proof.
  intros H. pose proof (byte_sweep (fun b => (b =? Z.land (Z.shiftr b 6) 3 * 64 + Z.land (Z.shiftr b 3) 7 * 8 + Z.land b 7)
    && (0 <=? Z.land (Z.shiftr b 6) 3) && (Z.land (Z.shiftr b 6) 3 <? 4) && (0 <=? Z.land (Z.shiftr b 3) 7) && (Z.land (Z.shiftr b 3) 7 <? 8)
    && (0 <=? Z.land b 7) && (Z.land b 7 <? 8) && (Z.land (Z.shiftr b 6) 3 =? Z.shiftr b 6)) ltac:(vm_compute; reflexivity) b H) as K. cbv beta in K. lia.
Qed.
Lemma b_134 b : 0 <= b < 256 -> b = bit (flag b 128) * 128 + Z.land (Z.shiftr b 4) 7 * 16 + Z.land b 15 /\
  0 <= Z.land (Z.shiftr b 4) 7 < 8 /\ 0 <= Z.land b 15 < 16.
Proof.
  intros H. pose proof (byte_sweep (fun b => (b =? bit (flag b 128) * 128 + Z.land (Z.shiftr b 4) 7 * 16 + Z.land b 15)
    && (0 <=? Z.land (Z.shiftr b 4) 7) && (Z.land (Z.shiftr b 4) 7 <? 8)
    && (0 <=? Z.land b 15) && (Z.land b 15 <? 16)) ltac:(vm_compute; reflexivity) b H) as K. cbv beta in K. lia.
Qed.
Lemma b_11141 b : 0 <= b < 256 -> b = bit (flag b 128) * 128 + bit (flag b 64) * 64 + bit (flag b 32) * 32 + Z.land (Z.shiftr b 1) 15 * 2 + bit (flag b 1) /\
  0 <= Z.land (Z.shiftr b 1) 15 < 16.
Proof.
  intros H. pose proof (byte_sweep (fun b => (b =? bit (flag b 128) * 128 + bit (flag b 64) * 64 + bit (flag b 32) * 32 + Z.land (Z.shiftr b 1) 15 * 2 + bit (flag b 1))
    && (0 <=? Z.land (Z.shiftr b 1) 15) && (Z.land (Z.shiftr b 1) 15 <? 16)) ltac:(vm_compute; reflexivity) b H) as K. cbv beta in K. lia.
Qed.
Lemma bit_01 b : 0 <= bit b < 2.
Proof. destruct b; cbn; lia. Qed.
Lemma bit_inj a b : bit a = bit b -> a = b.
Proof. destruct a, b; cbn; intros; congruence || lia. Qed.

Lemma lor8 a b : 0 <= b < 256 -> Z.lor (Z.shiftl a 8) b = a * 256 + b.
Proof. intros H. now rewrite (lor_shift_add a b 8) by lia. Qed.

Lemma rd16_split l i : bytes_ok l -> 0 <= i -> i + 2 <= zlen l ->
  exists v, rd16 l i = Ret v /\ bits 16 v /\ zskip i l = be16 v ++ zskip (i + 2) l.
Proof.
  intros H Hi Hl. unfold rd16. rewrite !rd_in by lia. cbn [bind]. pose proof (bytes_ok_nth l i H ltac:(lia)). pose proof (bytes_ok_nth l (i + 1) H ltac:(lia)).
  eexists. split; [reflexivity|]. rewrite lor8 by lia. split; [unfold bits; change (2 ^ 16) with 65536; lia|].
  rewrite (zskip_cons_nth 0 l i), (zskip_cons_nth 0 l (i + 1)) by lia. replace (i + 1 + 1) with (i + 2) by lia.
  unfold be16. cbn [app]. f_equal; [lia|]. f_equal. lia.
Qed.
Lemma rd32_split l i : bytes_ok l -> 0 <= i -> i + 4 <= zlen l ->
  exists v, rd32 l i = Ret v /\ bits 32 v /\ zskip i l = be32 v ++ zskip (i + 4) l.
Proof.
  intros H Hi Hl. destruct (rd16_split l i H Hi ltac:(lia)) as (a & Ea & Ha & Sa). destruct (rd16_split l (i + 2) H ltac:(lia) ltac:(lia)) as (b & Eb & Hb & Sb).
  unfold bits in *. change (2 ^ 16) with 65536 in *.
  exists (a * 65536 + b). assert (0 <= a * 65536 + b < 2 ^ 32) as R by (change (2 ^ 32) with 4294967296; lia).
  assert (zskip i l = be32 (a * 65536 + b) ++ zskip (i + 4) l) as E.
  { rewrite Sa, Sb. replace (i + 2 + 2) with (i + 4) by lia. unfold be16, be32. cbn [app].
    repeat (apply (f_equal2 cons); [lia|]). reflexivity. }
  split; [|split; [exact R|exact E]].
  rewrite <- (ztake_zskip i l), E. apply rd32_be; [apply zlen_ztake; lia|exact R].
Qed.

(** ** Parsers *)

Lemma list8 (l : list Z) : 8 <= zlen l -> exists a b c d e f g h t, l = a :: b :: c :: d :: e :: f :: g :: h :: t.
Proof.
  unfold zlen. intros H.
  destruct l as [|a [|b [|c [|d [|e [|f [|g [|h t]]]]]]]]; cbn [length] in H; try lia. now exists a, b, c, d, e, f, g, h, t.
Qed.
Ltac rdl :=
  repeat match goal with
  | |- context [rd (?x :: ?l) 0] => rewrite (rd_0 x l)
  | |- context [rd (?x :: ?l) (Zpos ?p)] => let k := eval compute in (Zpos p - 1) in
      replace (rd (x :: l) (Zpos p)) with (rd l k) by (symmetry; apply (rd_S x l k); lia)
  end.

Lemma parse_main_spec payload : bytes_ok payload -> forall r, parse_main_packet_header payload = r ->
  match r with
  | Ret (Some m) => main_ok m /\ exists rest, payload = main_bytes m ++ rest
  | Ret None => forall m rest, main_ok m -> payload <> main_bytes m ++ rest
  | _ => False
  end.
Proof.
  intros B r <-. unfold parse_main_packet_header. destruct (Z.ltb_spec (zlen payload) 8) as [L|L].
  { intros m rest _ ->. rewrite zlen_app in L. change (zlen (main_bytes m)) with 8 in L. pose proof (zlen_nonneg rest). lia. }
  destruct (list8 payload L) as (a & b & c & d & e & f & g & h & t & ->).
  unfold bytes_ok in B. repeat match goal with H : Forall _ (_ :: _) |- _ => apply Forall_cons_iff in H as [? H] end. unfold byte_ok in *.
  rdl. cbn [bind].
  pose proof (b_233 a ltac:(assumption)) as Fa. pose proof (b_134 b ltac:(assumption)) as Fb. pose proof (b_11141 e ltac:(assumption)) as Fe.
  rewrite lor8 by assumption.
  set (mh := Z.land (Z.shiftr a 6) 3) in *. set (tp := Z.land (Z.shiftr a 3) 7) in *. set (ordh := Z.land a 7) in *.
  set (p := flag b 128) in *. set (xt := Z.land (Z.shiftr b 4) 7) in *. set (hi := Z.land b 15) in *.
  set (R := flag e 128) in *. set (S := flag e 64) in *. set (C := flag e 32) in *. set (rs := Z.land (Z.shiftr e 1) 15) in *. set (ra := flag e 1) in *.
  clearbody mh tp ordh p xt hi R S C rs ra.
  assert (forall m rest, main_ok m -> a :: b :: c :: d :: e :: f :: g :: h :: t = main_bytes m ++ rest ->
     mh = m_mh m /\ xt = 0 /\ rs = 0 /\ R = m_r m /\ S = m_s m /\ C = m_c m /\ ra = m_range m /\ f = m_prims m /\ g = m_trans m /\ h = m_mat m) as K.
  { intros m rest (N1 & N2 & N3 & N4 & N5 & _) Em. unfold main_bytes, bits in *. cbn [app] in Em. change (2 ^ 2) with 4 in *. change (2 ^ 3) with 8 in *. change (2 ^ 12) with 4096 in *.
    injection Em as E0 E1 E2 E3 E4 E5 E6 E7 _.
    pose proof (bit_01 p). pose proof (bit_01 (m_p m)). pose proof (bit_01 R). pose proof (bit_01 S). pose proof (bit_01 C). pose proof (bit_01 ra).
    pose proof (bit_01 (m_r m)). pose proof (bit_01 (m_s m)). pose proof (bit_01 (m_c m)). pose proof (bit_01 (m_range m)).
    assert (bit R = bit (m_r m) /\ bit S = bit (m_s m) /\ bit C = bit (m_c m) /\ rs = 0 /\ bit ra = bit (m_range m)) as (I1 & I2 & I3 & I4 & I5) by lia.
    conj; try lia; now apply bit_inj. }
  destruct (Z.eqb_spec mh 0) as [E|E]; [intros m rest Hm Em; destruct (K m rest Hm Em) as (K1 & _); destruct Hm as (_ & N2 & _); congruence|].
  destruct (Z.eqb_spec xt 0) as [X|X]; cbn [negb]; [|intros m rest Hm Em; destruct (K m rest Hm Em) as (_ & K1 & _); congruence].
  destruct (Z.eqb_spec rs 0) as [Y|Y]; cbn [negb]; [|intros m rest Hm Em; destruct (K m rest Hm Em) as (_ & _ & K1 & _); congruence].
  destruct (negb S && _) eqn:Q.
  { intros m rest Hm Em. destruct (K m rest Hm Em) as (_ & _ & _ & _ & KS & _ & Kr & Kf & Kg & Kh). subst S ra f g h.
    destruct Hm as (_ & _ & _ & _ & _ & _ & _ & _ & _ & N & _). apply andb_true_iff in Q as [Q1 Q2]. apply negb_true_iff in Q1. destruct (N Q1) as (M1 & M2 & M3 & M4). rewrite M1, M2, M3, M4 in Q2. discriminate Q2. }
  destruct (C && negb R) eqn:Q2.
  { intros m rest Hm Em. destruct (K m rest Hm Em) as (_ & _ & _ & KR & _ & KC & _). subst R C.
    destruct Hm as (_ & _ & _ & _ & _ & _ & _ & _ & _ & _ & N). apply andb_true_iff in Q2 as [Q3 Q4]. rewrite (N Q3) in Q4. discriminate Q4. }
  split.
  - unfold main_ok, bits; cbn [m_mh m_tp m_ordh m_ptstamp m_eseq m_prims m_trans m_mat m_s m_range m_c m_r].
    change (2 ^ 2) with 4. change (2 ^ 3) with 8. change (2 ^ 12) with 4096. change (2 ^ 8) with 256. repeat (split; [lia|]). split.
    + intros ->. cbn [negb andb] in Q. destruct ra; [now rewrite orb_true_r in Q|]. conj; lia.
    + intros ->. now destruct R.
  - exists t. unfold main_bytes; cbn [m_mh m_tp m_ordh m_p m_ptstamp m_eseq m_prims m_trans m_mat m_s m_range m_c m_r app].
    repeat (apply (f_equal2 cons); [lia|]). reflexivity.
Qed.

Lemma parse_body_spec payload : bytes_ok payload -> forall r, parse_body_packet_header payload = r ->
  match r with
  | Ret (Some m) => body_ok m /\ exists rest, payload = body_bytes m ++ rest
  | Ret None => forall m rest, body_ok m -> payload <> body_bytes m ++ rest
  | _ => False
  end.
Proof.
  intros B r <-. unfold parse_body_packet_header. destruct (Z.ltb_spec (zlen payload) 8) as [L|L].
  { intros m rest _ ->. rewrite zlen_app in L. change (zlen (body_bytes m)) with 8 in L. pose proof (zlen_nonneg rest). lia. }
  destruct (list8 payload L) as (a & b & c & d & e & f & g & h & t & ->).
  unfold bytes_ok in B. repeat match goal with H : Forall _ (_ :: _) |- _ => apply Forall_cons_iff in H as [? H] end. unfold byte_ok in *.
  rdl. cbn [bind].
  pose proof (b_233 a ltac:(assumption)) as Fa. pose proof (b_134 b ltac:(assumption)) as Fb.
  assert (f = Z.shiftr f 4 * 16 + Z.land f 15 /\ 0 <= Z.shiftr f 4 < 16 /\ 0 <= Z.land f 15 < 16) as Ff by (rewrite land_15, Z.shiftr_div_pow2 by lia; change (2 ^ 4) with 16; lia).
  rewrite lor8 by assumption. rewrite (lor_shift_add e (Z.shiftr f 4) 4) by (change (2 ^ 4) with 16; lia). change (2 ^ 4) with 16.
  set (mh := Z.land (Z.shiftr a 6) 3) in *. set (tp := Z.land (Z.shiftr a 3) 7) in *. set (ordh := Z.land a 7) in *.
  set (p := flag b 128) in *. set (xt := Z.land (Z.shiftr b 4) 7) in *. set (hi := Z.land b 15) in *. set (fh := Z.shiftr f 4) in *. set (fl := Z.land f 15) in *.
  clearbody mh tp ordh p xt hi fh fl.
  assert (Z.lor (Z.lor (Z.shiftl fl 16) (Z.shiftl g 8)) h = fl * 65536 + g * 256 + h) as ->.
  { rewrite (lor_shift_add fl (Z.shiftl g 8) 16) by (rewrite ?Z.shiftl_mul_pow2; lia). rewrite (Z.shiftl_mul_pow2 g) by lia.
    replace (fl * 2 ^ 16 + g * 2 ^ 8) with ((fl * 256 + g) * 2 ^ 8) by lia. rewrite lor_mul_add by lia. change (2 ^ 8) with 256. lia. }
  assert (forall m rest, body_ok m -> a :: b :: c :: d :: e :: f :: g :: h :: t = body_bytes m ++ rest ->
     mh = 0 /\ p = b_ordb m /\ e * 16 + fh = b_pos m /\ fl * 65536 + g * 256 + h = b_pid m) as K.
  { intros m rest (N1 & N2 & N3 & N4 & N5 & N6 & N7 & _) Em. unfold body_bytes, bits in *. cbn [app] in Em. change (2 ^ 3) with 8 in *. change (2 ^ 12) with 4096 in *. change (2 ^ 20) with 1048576 in *.
    injection Em as E0 E1 E2 E3 E4 E5 E6 E7 _.
    pose proof (bit_01 p). pose proof (bit_01 (b_ordb m)).
    assert (bit p = bit (b_ordb m)) as I1 by lia. apply bit_inj in I1.
    split; [clear E1 E2 E3 E4 E5 E6 E7; lia|]. split; [exact I1|]. clear E0 E1. split; [clear E6 E7|]; lia. }
  destruct (Z.eqb_spec mh 0) as [E|E]; cbn [negb]; [|intros m rest Hm Em; destruct (K m rest Hm Em) as (K1 & _); congruence].
  destruct (negb p && _) eqn:Q.
  { intros m rest Hm Em. destruct (K m rest Hm Em) as (_ & Kp & Ke & Kg). rewrite Ke, Kg in Q. subst p.
    destruct Hm as (_ & _ & _ & _ & _ & _ & _ & N). apply andb_true_iff in Q as [Q1 Q2]. apply negb_true_iff in Q1. destruct (N Q1) as (N8 & N9). rewrite N8, N9 in Q2. discriminate Q2. }
  split.
  - unfold body_ok, bits; cbn [b_tp b_res b_qual b_ptstamp b_eseq b_pos b_pid b_ordb].
    change (2 ^ 20) with 1048576. change (2 ^ 3) with 8. change (2 ^ 12) with 4096. change (2 ^ 8) with 256. repeat (split; [lia|]).
    intros ->. cbn [negb andb] in Q. lia.
  - exists t. unfold body_bytes; cbn [b_tp b_res b_qual b_ptstamp b_eseq b_pos b_pid b_ordb app].
    repeat (apply (f_equal2 cons); [lia|]). reflexivity.
Qed.

Lemma rtp_bytes_len h csrcs x : zlen (rtp_bytes h csrcs x) = 12 + zlen csrcs + zlen x.
Proof. unfold rtp_bytes. rewrite !zlen_app, be16_len, !be32_len, !zlen_cons, zlen_nil. lia. Qed.

Lemma parse_rtp_spec data : bytes_ok data -> forall r, parse_rtp_header data = r ->
  match r with
  | Ret (Some h) => exists csrcs x payload, rtp_ok h csrcs x /\ data = rtp_bytes h csrcs x ++ payload
  | Ret None => forall h csrcs x payload, rtp_ok h csrcs x -> data <> rtp_bytes h csrcs x ++ payload
  | _ => False
  end.
Proof.
  intros B r <-. unfold parse_rtp_header, rd_u16_be, rd_u32_be. destruct (Z.ltb_spec (zlen data) 12) as [L|L].
  { intros h csrcs x payload _ ->. rewrite zlen_app, rtp_bytes_len in L. pose proof (zlen_nonneg csrcs). pose proof (zlen_nonneg x). pose proof (zlen_nonneg payload). lia. }
  rewrite !rd_in by lia. cbn [bind].
  destruct (rd16_split data 2 B ltac:(lia) ltac:(lia)) as (sq & -> & Hsq & S1). destruct (rd32_split data 4 B ltac:(lia) ltac:(lia)) as (ts & -> & Hts & S2).
  destruct (rd32_split data 8 B ltac:(lia) ltac:(lia)) as (ss & -> & Hss & S3). cbn [bind]. cbn [Z.add Pos.add Pos.succ] in S1, S2, S3.
  pose proof (bytes_ok_nth data 0 B ltac:(lia)) as Ha. pose proof (bytes_ok_nth data 1 B ltac:(lia)) as Hb.
  assert (data = [znth 0 data 0; znth 0 data 1] ++ be16 sq ++ be32 ts ++ be32 ss ++ zskip 12 data) as E.
  { rewrite <- (zskip_0 data) at 1. rewrite (zskip_cons_nth 0 data 0), (zskip_cons_nth 0 data (0 + 1)) by lia. cbn [app Z.add Pos.add].
    change (0 + 1) with 1. change (1 + 1) with 2. rewrite S1, S2, S3. reflexivity. }
  set (a := znth 0 data 0) in *. set (b := znth 0 data 1) in *. clearbody a b.
  pose proof (b_rtp0 a Ha) as Fa. pose proof (b_rtp1 b Hb) as Fb.
  assert (forall h csrcs x payload, rtp_ok h csrcs x -> data = rtp_bytes h csrcs x ++ payload ->
     Z.shiftr a 6 = 2 /\ flag a 16 = h_extension h /\ Z.land a 15 = h_csrc_count h /\ zskip 12 data = csrcs ++ x ++ payload) as K.
  { intros h csrcs x payload (H1 & H2 & H3 & H4 & H5 & H6 & H7 & H8) Ed.
    assert (zskip 12 data = csrcs ++ x ++ payload) as K4.
    { rewrite Ed. unfold rtp_bytes. rewrite <- !app_assoc. rewrite !app_assoc. rewrite <- 2 (app_assoc _ _ payload), <- (app_assoc _ _ (x ++ payload)). apply zskip_app. reflexivity. }
    rewrite Ed in E at 1. unfold rtp_bytes in E. apply (f_equal (hd 0)) in E. cbn [app hd] in E. rename E into E0. unfold bits in *. change (2 ^ 4) with 16 in *.
    pose proof (bit_01 (flag a 32)). pose proof (bit_01 (flag a 16)). pose proof (bit_01 (h_padding h)). pose proof (bit_01 (h_extension h)).
    assert (Z.shiftr a 6 = 2 /\ bit (flag a 16) = bit (h_extension h) /\ Z.land a 15 = h_csrc_count h) as (I1 & I2 & I3) by (destruct Fa; lia).
    conj. now apply bit_inj. }
  set (ver := Z.shiftr a 6) in *. set (pd := flag a 32) in *. set (xx := flag a 16) in *. set (cc := Z.land a 15) in *.
  set (mk := flag b 128) in *. set (pt := Z.land b 127) in *. clearbody ver pd xx cc mk pt.
  destruct (Z.eqb_spec ver 2) as [V|V]; cbn [negb]; [|intros h csrcs x payload Hh Ed; destruct (K h csrcs x payload Hh Ed) as (K1 & _); congruence].
  destruct (Z.ltb_spec (zlen data) (12 + cc * 4)) as [L1|L1].
  { intros h csrcs x payload Hh Ed. destruct (K _ _ _ _ Hh Ed) as (_ & _ & K3 & _). destruct Hh as (_ & _ & _ & _ & _ & H6 & _).
    rewrite Ed, zlen_app, rtp_bytes_len in L1. pose proof (zlen_nonneg x). pose proof (zlen_nonneg payload). lia. }
  set (off := 12 + cc * 4) in *.
  destruct xx.
  - destruct (Z.ltb_spec (zlen data) (off + 4)) as [L2|L2].
    { intros h csrcs x payload Hh Ed. destruct (K _ _ _ _ Hh Ed) as (_ & K2 & K3 & _). destruct Hh as (_ & _ & _ & _ & _ & H6 & H7 & _).
      rewrite <- K2 in H7. destruct H7 as (pr & w & _ & _ & _ & ->). rewrite Ed, zlen_app, rtp_bytes_len, !zlen_app, !be16_len in L2.
      pose proof (zlen_nonneg w). pose proof (zlen_nonneg payload). lia. }
    destruct (rd16_split data off B ltac:(lia) ltac:(lia)) as (pr & _ & Hpr & Sp). destruct (rd16_split data (off + 2) B ltac:(lia) ltac:(lia)) as (n & -> & Hn & Sn).
    cbn [bind]. replace (off + 2 + 2) with (off + 4) in Sn by lia. rewrite Sn in Sp.
    destruct (Z.ltb_spec (zlen data) (off + (4 + n * 4))) as [L3|L3].
    + intros h csrcs x payload Hh Ed. destruct (K _ _ _ _ Hh Ed) as (_ & K2 & K3 & K4). destruct Hh as (_ & _ & _ & _ & _ & H6 & H7 & _).
      rewrite <- K2 in H7. destruct H7 as (pr' & w & W1 & W2 & W3 & ->).
      assert (zskip off data = be16 pr' ++ be16 (zlen w / 4) ++ w ++ payload) as E2.
      { replace off with (cc * 4 + 12) by lia. rewrite <- zskip_zskip, K4 by lia. rewrite zskip_app by lia. now rewrite <- !app_assoc. }
      rewrite Sp in E2. unfold be16 in E2. cbn [app] in E2. injection E2 as _ _ E2a E2b _.
      rewrite Ed, zlen_app, rtp_bytes_len, !zlen_app, !be16_len in L3. pose proof (zlen_nonneg w). pose proof (zlen_nonneg payload).
      unfold bits in *. change (2 ^ 16) with 65536 in *. lia.
    + set (w := ztake (n * 4) (zskip (off + 4) data)). unfold bits in Hn. change (2 ^ 16) with 65536 in Hn.
      assert (zlen w = n * 4) as Lw by (unfold w; apply zlen_ztake; rewrite zlen_zskip; lia).
      exists (ztake (cc * 4) (zskip 12 data)), (be16 pr ++ be16 n ++ w), (zskip (n * 4) (zskip (off + 4) data)).
      assert (zlen (ztake (cc * 4) (zskip 12 data)) = cc * 4) as Lc by (apply zlen_ztake; rewrite zlen_zskip; lia).
      split.
      * unfold rtp_ok; cbn [h_csrc_count h_payload_type h_sequence h_timestamp h_ssrc h_extension h_payload_offset]. rewrite rtp_bytes_len, !zlen_app, !be16_len.
        unfold bits in *. change (2 ^ 4) with 16. change (2 ^ 7) with 128. repeat (split; [lia|]). split; [|lia].
        exists pr, w. unfold bits. change (2 ^ 16) with 65536. rewrite Lw. replace (n * 4 / 4) with n by lia. conj; lia.
      * unfold rtp_bytes; cbn [h_csrc_count h_payload_type h_sequence h_timestamp h_ssrc h_extension h_padding h_marker]. rewrite <- !app_assoc. cbn [bit app].
        unfold w. rewrite ztake_zskip. change (be16 pr ++ be16 n ++ zskip (off + 4) data) with (be16 pr ++ (be16 n ++ zskip (off + 4) data)).
        transitivity ([a; b] ++ be16 sq ++ be32 ts ++ be32 ss ++ ztake (cc * 4) (zskip 12 data) ++ zskip off data).
        { replace off with (cc * 4 + 12) by lia. rewrite <- (zskip_zskip (cc * 4) 12 data) by lia. rewrite ztake_zskip. exact E. }
        rewrite Sp. cbn [app]. f_equal; [cbn [bit] in Fa; lia|]. f_equal. lia.
  - exists (ztake (cc * 4) (zskip 12 data)), [], (zskip (cc * 4) (zskip 12 data)).
    assert (zlen (ztake (cc * 4) (zskip 12 data)) = cc * 4) as Lc by (apply zlen_ztake; rewrite zlen_zskip; lia).
    split.
    + unfold rtp_ok; cbn [h_csrc_count h_payload_type h_sequence h_timestamp h_ssrc h_extension h_payload_offset]. rewrite rtp_bytes_len, zlen_nil.
      unfold bits in *. change (2 ^ 4) with 16. change (2 ^ 7) with 128. repeat (split; [lia|]). split; [reflexivity|lia].
    + unfold rtp_bytes; cbn [h_csrc_count h_payload_type h_sequence h_timestamp h_ssrc h_extension h_padding h_marker]. rewrite <- !app_assoc. cbn [bit app].
      rewrite ztake_zskip. rewrite E at 1. cbn [app]. f_equal; [cbn [bit] in Fa; lia|]. f_equal. lia.
Qed.

(** Headers whose bytes agree are equal. *)
Lemma main_bytes_inj m m' t t' : main_ok m -> main_ok m' -> main_bytes m ++ t = main_bytes m' ++ t' -> m = m'.
Proof.
  destruct m as [mh tp ordh p pts es r s c ra pr tr ma], m' as [mh' tp' ordh' p' pts' es' r' s' c' ra' pr' tr' ma']. unfold main_ok, main_bytes, bits. cbn [m_mh m_tp m_ordh m_p m_ptstamp m_eseq m_prims m_trans m_mat m_s m_range m_c m_r app].
  change (2 ^ 2) with 4. change (2 ^ 3) with 8. change (2 ^ 12) with 4096. change (2 ^ 8) with 256.
  intros (A1 & _ & A2 & A3 & A4 & A5 & A6 & A7 & A8 & _) (B1 & _ & B2 & B3 & B4 & B5 & B6 & B7 & B8 & _) E. injection E as E0 E1 E2 E3 E4 E5 E6 E7 _.
  pose proof (bit_01 p). pose proof (bit_01 p'). pose proof (bit_01 r). pose proof (bit_01 s). pose proof (bit_01 c). pose proof (bit_01 ra).
  pose proof (bit_01 r'). pose proof (bit_01 s'). pose proof (bit_01 c'). pose proof (bit_01 ra').
  f_equal; try apply bit_inj; lia.
Qed.
Lemma body_bytes_inj m m' t t' : body_ok m -> body_ok m' -> body_bytes m ++ t = body_bytes m' ++ t' -> m = m'.
Proof.
  destruct m as [tp res o q pts es pos pid], m' as [tp' res' o' q' pts' es' pos' pid']. unfold body_ok, body_bytes, bits. cbn [b_tp b_res b_qual b_ptstamp b_eseq b_pos b_pid b_ordb app].
  change (2 ^ 3) with 8. change (2 ^ 12) with 4096. change (2 ^ 8) with 256. change (2 ^ 20) with 1048576.
  intros (A1 & A2 & A3 & A4 & A5 & A6 & A7 & _) (B1 & B2 & B3 & B4 & B5 & B6 & B7 & _) E. injection E as E0 E1 E2 E3 E4 E5 E6 E7 _.
  pose proof (bit_01 o). pose proof (bit_01 o').
  f_equal; try apply bit_inj; lia.
Qed.
Lemma rtp_bytes_inj h h' c c' x x' t t' : rtp_ok h c x -> rtp_ok h' c' x' -> rtp_bytes h c x ++ t = rtp_bytes h' c' x' ++ t' -> h = h'.
Proof.
  intros H H' E. pose proof H as (A1 & A2 & A3 & A4 & A5 & A6 & A7 & A8). pose proof H' as (B1 & B2 & B3 & B4 & B5 & B6 & B7 & B8).
  unfold rtp_bytes, be16, be32 in E. cbn [app] in E. pose proof (f_equal (hd 0) E) as E0. cbn [hd] in E0. injection E as _ E1 E2 E3 E4 E5 E6 E7 E8 E9 E10 E11 E12.
  unfold bits in *. change (2 ^ 4) with 16 in *. change (2 ^ 7) with 128 in *. change (2 ^ 16) with 65536 in *. change (2 ^ 32) with 4294967296 in *.
  pose proof (bit_01 (h_padding h)). pose proof (bit_01 (h_padding h')). pose proof (bit_01 (h_extension h)). pose proof (bit_01 (h_extension h')).
  pose proof (bit_01 (h_marker h)). pose proof (bit_01 (h_marker h')).
  assert (h_csrc_count h = h_csrc_count h') as Ecc by lia. assert (h_extension h = h_extension h') as Ex by (apply bit_inj; lia).
  assert (zlen x = zlen x') as Lx.
  { rewrite <- Ex in B7. destruct (h_extension h); [|now rewrite A7, B7].
    destruct A7 as (p & w & P1 & P2 & P3 & ->). destruct B7 as (p' & w' & Q1 & Q2 & Q3 & ->).
    assert (zlen c = zlen c') as Lc by lia. rewrite <- !app_assoc in E12.
    apply (f_equal (zskip (zlen c))) in E12. rewrite zskip_app in E12 by reflexivity. rewrite Lc, zskip_app in E12 by reflexivity.
    unfold be16 in E12. cbn [app] in E12. injection E12 as _ _ F1 F2 _. unfold bits in *. change (2 ^ 16) with 65536 in *.
    pose proof (zlen_nonneg w). pose proof (zlen_nonneg w'). rewrite !zlen_app, !be16_len. lia. }
  assert (h_payload_offset h = h_payload_offset h') as Eo by (rewrite A8, B8, !rtp_bytes_len; lia).
  destruct h as [a1 a2 a3 a4 a5 a6 a7 a8 a9], h' as [b1 b2 b3 b4 b5 b6 b7 b8 b9]; cbn [h_padding h_extension h_csrc_count h_marker h_payload_type h_sequence h_timestamp h_ssrc h_payload_offset] in *.
  f_equal; try assumption; try apply bit_inj; lia.
Qed.

(** ** C41 *)

(** On every datagram the parser answers, never reading outside it; it accepts
    exactly the datagrams that begin with an RTP header, and the fields it
    reports are the ones that header is made of.  The payload offset is the
    length of that header, so not beyond the datagram. *)
Theorem C41_rtp : forall data, bytes_ok data -> exists r, parse_rtp_header data = Ret r /\
  forall h, r = Some h <-> exists csrcs x payload, rtp_ok h csrcs x /\ data = rtp_bytes h csrcs x ++ payload.
Proof.
  intros data B. pose proof (parse_rtp_spec data B _ eq_refl) as K. destruct (parse_rtp_header data) as [[h|]| |]; [| |contradiction..].
  - destruct K as (c & x & p & Ho & E). exists (Some h). split; [reflexivity|]. intros h'. split.
    + intros Eh. apply Some_inj in Eh. subst h'. now exists c, x, p.
    + intros (c' & x' & p' & Ho' & E'). f_equal. rewrite E in E'. eapply rtp_bytes_inj; eassumption.
  - exists None. split; [reflexivity|]. intros h'. split; [discriminate|]. intros (c' & x' & p' & Ho' & E'). now destruct (K _ _ _ _ Ho' E').
Qed.
Print Assumptions C41_rtp.
Theorem C41_rtp_offset : forall data h, bytes_ok data -> parse_rtp_header data = Ret (Some h) -> 12 <= h_payload_offset h <= zlen data.
Proof.
  intros data h B E. destruct (C41_rtp data B) as (r & E' & K). rewrite E in E'. apply Ret_inj in E'. subst r.
  destruct (proj1 (K h) eq_refl) as (c & x & p & Ho & ->). destruct Ho as (_ & _ & _ & _ & _ & _ & _ & ->). rewrite zlen_app, rtp_bytes_len.
  pose proof (zlen_nonneg c). pose proof (zlen_nonneg x). pose proof (zlen_nonneg p). lia.
Qed.
Print Assumptions C41_rtp_offset.

Theorem C41_main : forall payload, bytes_ok payload -> exists r, parse_main_packet_header payload = Ret r /\
  forall m, r = Some m <-> main_ok m /\ exists rest, payload = main_bytes m ++ rest.
Proof.
  intros data B. pose proof (parse_main_spec data B _ eq_refl) as K. destruct (parse_main_packet_header data) as [[h|]| |]; [| |contradiction..].
  - destruct K as (Ho & p & E). exists (Some h). split; [reflexivity|]. intros h'. split.
    + intros Eh. apply Some_inj in Eh. subst h'. split; [exact Ho|now exists p].
    + intros (Ho' & p' & E'). f_equal. rewrite E in E'. eapply main_bytes_inj; eassumption.
  - exists None. split; [reflexivity|]. intros h'. split; [discriminate|]. intros (Ho' & p' & E'). now destruct (K _ _ Ho' E').
Qed.
Print Assumptions C41_main.
Theorem C41_body : forall payload, bytes_ok payload -> exists r, parse_body_packet_header payload = Ret r /\
  forall m, r = Some m <-> body_ok m /\ exists rest, payload = body_bytes m ++ rest.
Proof.
  intros data B. pose proof (parse_body_spec data B _ eq_refl) as K. destruct (parse_body_packet_header data) as [[h|]| |]; [| |contradiction..].
  - destruct K as (Ho & p & E). exists (Some h). split; [reflexivity|]. intros h'. split.
    + intros Eh. apply Some_inj in Eh. subst h'. split; [exact Ho|now exists p].
    + intros (Ho' & p' & E'). f_equal. rewrite E in E'. eapply body_bytes_inj; eassumption.
  - exists None. split; [reflexivity|]. intros h'. split; [discriminate|]. intros (Ho' & p' & E'). now destruct (K _ _ Ho' E').
Qed.
Print Assumptions C41_body.

Example C41_case :
  parse_rtp_header [0x92; 0xE0; 0x12; 0x34; 0; 1; 2; 3; 9; 8; 7; 6; 1; 1; 1; 1; 2; 2; 2; 2; 0xBE; 0xDE; 0; 1; 5; 5; 5; 5; 77]
  = Ret (Some (Rtp false true 2 true 96 0x1234 0x10203 0x9080706 28)) /\
  parse_rtp_header [0x92; 0xE0; 0x12; 0x34; 0; 1; 2; 3; 9; 8; 7; 6; 1; 1; 1; 1; 2; 2; 2; 2; 0xBE; 0xDE; 0; 2; 5; 5; 5; 5; 77] = Ret None /\
  parse_main_packet_header [0xCB; 0x81; 2; 3; 0xE1; 1; 2; 3] = Ret (Some (Main 3 1 3 true 258 3 true true true true 1 2 3)) /\
  parse_body_packet_header [0x0D; 0xA1; 2; 3; 0x12; 0x34; 0x56; 0x78] = Ret (Some (Body 1 5 true 2 258 3 0x123 0x45678)).
Proof. vm_compute. auto. Qed.
