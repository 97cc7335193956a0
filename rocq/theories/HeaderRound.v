(** Reading back a whole main header. *)
From Verif Require Import Base BaseLemmas SourceModel MarkerModel MarkerSafe MarkerRound.

(** A written segment that reads back as [x] when the component count is [C]. *)
Definition item (C : option Z) (bytes : list Z) (x : seg) : Prop :=
  exists code body f, bytes = w16 code ++ w16 (2 + zlen body) ++ body /\ zlen body < 65534 /\ u16 code /\ code <> M_SOT /\
    main_parser code C = Some f /\ (forall base tl, f (2 + zlen body) base (body ++ tl) = ret x) /\ is_ppm x = None.

Lemma word_w16_at d p v tl : 0 <= v < 65536 -> 0 <= p -> zskip p d = w16 v ++ tl -> word_at d p = v /\ zskip (p + 2) d = tl /\ p + 2 <= zlen d.
Proof.
  intros Hv Hp E. assert (Hin : p + 2 <= zlen d).
  { destruct (Z_lt_ge_dec (zlen d) (p + 2)) as [H|H]; [|lia]. exfalso. assert (zlen (zskip p d) = 2 + zlen tl) by (rewrite E, zlen_app, zlen_w16; reflexivity).
    pose proof (zlen_nonneg tl). destruct (Z_le_gt_dec p (zlen d)).
    - rewrite zlen_zskip in H0 by lia. lia.
    - rewrite zskip_all in H0 by lia. change (zlen (@nil Z)) with 0 in H0. lia. }
  rewrite (zskip_cons_nth 0) in E by lia. rewrite (zskip_cons_nth 0 d (p + 1)) in E by lia. rewrite w16_in in E by lia. cbn [app] in E.
  replace (p + 1 + 1) with (p + 2) in E by ring. assert (E0 : znth 0 d p = v / 256) by congruence. assert (E1 : znth 0 d (p + 1) = v mod 256) by congruence.
  split; [|split; [congruence|exact Hin]]. rewrite E0, E1. rewrite Z.shiftl_mul_pow2 by lia. change (2 ^ 8) with 256.
  replace (v / 256 * 256 + v mod 256) with v by (rewrite (Z.div_mod v 256) at 1 by lia; ring). apply Z.mod_small. lia.
Qed.

Lemma item_step d n p bytes x tl h fuel : item (option_map Csiz (h_siz h)) bytes x -> 0 <= p -> zskip p d = bytes ++ tl -> p + zlen bytes <= n -> n <= zlen d -> n < two32 ->
  read_segments (S fuel) (Src (Some d) p n) h = read_segments fuel (Src (Some d) (p + zlen bytes) n) (Hdr (before h) (now h ++ [x]) (ppm h))
  /\ zskip (p + zlen bytes) d = tl.
Proof.
  intros (code & body & f & -> & Hlen & Hcode & Hsot & Hf & Hx & _) Hp E Hn Hd H32. pose proof (zlen_nonneg body).
  rewrite !zlen_app, !zlen_w16 in *. rewrite <- !app_assoc in E. unfold u16 in Hcode.
  destruct (word_w16_at d p code _ Hcode Hp E) as (Ew & E2 & _).
  destruct (word_w16_at d (p + 2) (2 + zlen body) _ ltac:(lia) ltac:(lia) E2) as (EL & E4 & _). replace (p + 2 + 2) with (p + 4) in E4 by ring.
  split.
  - cbn [read_segments]. rewrite lift_word by lia. replace (n - 2 <? p) with false by lia. cbn [bindx ret]. rewrite Ew.
    replace (code =? M_SOT) with false by lia. rewrite Hf. rewrite open_eq by lia. rewrite EL. cbv zeta.
    replace ((2 + zlen body <? 2) || (n <? p + 2 + (2 + zlen body))) with false by lia. cbn [bindx ret].
    replace (p + 2 + 2) with (p + 4) by ring. rewrite E4.
    assert (Eg : ztake (2 + zlen body) (body ++ tl) = body ++ ztake 2 tl).
    { replace (2 + zlen body) with (zlen body + 2) by ring. rewrite <- ztake_plus by lia. rewrite ztake_app by reflexivity. rewrite zskip_app by reflexivity. reflexivity. }
    rewrite Eg, Hx. cbn [bindx ret]. replace (p + 2 + (2 + zlen body)) with (p + (2 + (2 + zlen body))) by ring. reflexivity.
  - replace (p + (2 + (2 + zlen body))) with (zlen body + (p + 4)) by ring. rewrite <- zskip_zskip by lia. rewrite E4. apply zskip_app. reflexivity.
Qed.

Lemma last_of_app {A} (f : seg -> option A) l l' : last_of f (l ++ l') = match last_of f l' with Some a => Some a | None => last_of f l end.
Proof. induction l as [|s l IH]; cbn [app last_of]; [destruct (last_of f l'); reflexivity|]. rewrite IH. destruct (last_of f l'); reflexivity. Qed.
Lemma all_of_app {A} (f : seg -> option A) l l' : all_of f (l ++ l') = all_of f l ++ all_of f l'.
Proof. induction l as [|s l IH]; cbn [app all_of]; [reflexivity|]. rewrite IH. destruct (f s); reflexivity. Qed.

Lemma items_step d n C : n <= zlen d -> n < two32 -> forall l p tl h fuel, Forall (fun bx => item (Some C) (fst bx) (snd bx) /\ is_siz (snd bx) = None) l ->
  option_map Csiz (h_siz h) = Some C -> 0 <= p -> zskip p d = flat_map fst l ++ tl -> p + zlen (flat_map fst l) <= n -> (length l <= fuel)%nat ->
  read_segments fuel (Src (Some d) p n) h = read_segments (fuel - length l) (Src (Some d) (p + zlen (flat_map fst l)) n) (Hdr (before h) (now h ++ map snd l) (ppm h))
  /\ zskip (p + zlen (flat_map fst l)) d = tl.
Proof.
  intros Hd H32. induction l as [|[b x] l IH]; intros p tl h fuel Hl HC Hp E Hn Hf.
  - cbn [flat_map map length app] in *. change (zlen (@nil Z)) with 0. rewrite Z.add_0_r, app_nil_r, Nat.sub_0_r. split; [destruct h; reflexivity|exact E].
  - inversion Hl as [|? ? [Hi Hs] Hl']; subst. cbn [flat_map fst snd length] in *. rewrite <- app_assoc in E. rewrite zlen_app in *.
    pose proof (zlen_nonneg b). pose proof (zlen_nonneg (flat_map fst l)). destruct fuel; [lia|].
    rewrite <- HC in Hi. destruct (item_step d n p b x _ h fuel Hi Hp E ltac:(lia) Hd H32) as [-> E2].
    destruct (IH (p + zlen b) tl (Hdr (before h) (now h ++ [x]) (ppm h)) fuel Hl') as [-> E3]; [|lia|exact E2|lia|lia|].
    + unfold h_siz, h_ptr in *. cbn [before now]. rewrite app_assoc, last_of_app. cbn [last_of]. rewrite Hs. exact HC.
    + cbn [before now ppm map Nat.sub]. rewrite <- app_assoc. cbn [app]. rewrite Z.add_assoc in *. split; [reflexivity|exact E3].
Qed.

(** A header that is SOC, SIZ, further segments, and then SOT. *)
Lemma header_round x l rest pad n : siz_good x -> Forall (fun bx => item (Some (Csiz x)) (fst bx) (snd bx) /\ is_siz (snd bx) = None) l ->
  let bytes := w16 M_SOC ++ write_siz x ++ flat_map fst l in
  n = zlen bytes + 2 + zlen rest -> n < two32 ->
  parse_main (Src (Some ((bytes ++ w16 M_SOT ++ rest) ++ pad)) 0 n) hdr0 = ret (Src (Some ((bytes ++ w16 M_SOT ++ rest) ++ pad)) (zlen bytes) n, Hdr [] (SSiz x :: map snd l) None).
Proof.
  intros Hx Hl. cbv zeta. set (bytes := w16 M_SOC ++ write_siz x ++ flat_map fst l). intros Hn H32. set (d := (bytes ++ w16 M_SOT ++ rest) ++ pad).
  pose proof (zlen_nonneg rest). pose proof (zlen_nonneg pad). pose proof (zlen_nonneg (flat_map fst l)).
  assert (Hwsiz : write_siz x = w16 M_SIZ ++ w16 (2 + zlen (siz_body x)) ++ siz_body x).
  { unfold write_siz. destruct Hx as (_ & _ & _ & _ & _ & _ & _ & _ & _ & _ & Hlen & _). rewrite siz_body_len by exact Hlen. replace (2 + (36 + 3 * Csiz x)) with (38 + 3 * Csiz x) by ring. reflexivity. }
  assert (Hlsiz : zlen (write_siz x) = 40 + 3 * Csiz x).
  { rewrite Hwsiz, !zlen_app, !zlen_w16. destruct Hx as (_ & _ & _ & _ & _ & _ & _ & _ & _ & _ & Hlen & _). rewrite siz_body_len by exact Hlen. ring. }
  assert (HC : 1 <= Csiz x <= 16384) by apply Hx.
  assert (Hlb : zlen bytes = 2 + zlen (write_siz x) + zlen (flat_map fst l)) by (unfold bytes; rewrite !zlen_app, zlen_w16; ring).
  assert (Hld : zlen d = zlen bytes + 2 + zlen rest + zlen pad) by (unfold d; rewrite !zlen_app, zlen_w16; ring).
  assert (E0 : zskip 0 d = w16 M_SOC ++ write_siz x ++ flat_map fst l ++ w16 M_SOT ++ rest ++ pad). { unfold d, bytes. rewrite zskip_0. rewrite <- !app_assoc. reflexivity. }
  destruct (word_w16_at d 0 M_SOC _ ltac:(unfold M_SOC; lia) ltac:(lia) E0) as (_ & E2 & _). cbn [Z.add] in E2.
  unfold parse_main, read_header. rewrite lift_word by lia. replace (n - 2 <? 0) with false by lia. cbn [bindx ret mem data Z.add before now hdr0 app].
  assert (Hsitem : item (option_map Csiz (h_siz (Hdr [] [] None))) (write_siz x) (SSiz x)).
  { exists M_SIZ, (siz_body x), (fun lmar _ g => smap SSiz (parse_siz lmar g)). split; [exact Hwsiz|].
    pose proof Hx as Hx0. destruct Hx as (A1 & A2 & A3 & A4 & A5 & A6 & A7 & A8 & A9 & A10 & Hlen & A12). rewrite siz_body_len by exact Hlen. split; [lia|]. split; [unfold u16, M_SIZ; lia|]. split; [unfold M_SIZ, M_SOT; lia|]. split; [reflexivity|]. split; [|reflexivity].
    intros base tl. replace (2 + (36 + 3 * Csiz x)) with (38 + 3 * Csiz x) by ring. unfold smap. rewrite (siz_round x _ tl) by (assumption || reflexivity). reflexivity. }
  assert (Hfuel : exists k, S (length d) = S (length l + S k)).
  { assert (Hll : forall l, Forall (fun bx => item (Some (Csiz x)) (fst bx) (snd bx) /\ is_siz (snd bx) = None) l -> zlen l <= zlen (flat_map fst l)).
    { clear. induction l as [|[b y] l IH]; intros H; [reflexivity|]. inversion H as [|? ? [Hi _] Hl]; subst. cbn [flat_map fst]. rewrite zlen_app, zlen_cons. specialize (IH Hl).
      destruct Hi as (code & body & f & Hi & _). cbn [fst] in Hi. rewrite Hi, !zlen_app, !zlen_w16. pose proof (zlen_nonneg body). lia. }
    specialize (Hll l Hl). unfold zlen in Hll, Hld at 1. exists (length d - length l - 1)%nat. unfold zlen in Hlb at 3. lia. }
  destruct Hfuel as [k ->].
  destruct (item_step d n 2 (write_siz x) (SSiz x) _ (Hdr [] [] None) (length l + S k)%nat Hsitem ltac:(lia) E2 ltac:(lia) ltac:(lia) H32) as [-> E3]. cbn [before now ppm app].
  destruct (items_step d n (Csiz x) ltac:(lia) H32 l (2 + zlen (write_siz x)) _ (Hdr [] [SSiz x] None) (length l + S k)%nat Hl eq_refl ltac:(lia) E3 ltac:(lia) ltac:(lia)) as [-> E4]. cbn [before now ppm app].
  replace (length l + S k - length l)%nat with (S k) by lia. rewrite <- Hlb in *.
  destruct (word_w16_at d (zlen bytes) M_SOT _ ltac:(unfold M_SOT; lia) ltac:(lia) E4) as (Ew & _ & _).
  cbn [read_segments]. rewrite lift_word by lia. replace (n - 2 <? zlen bytes) with false by lia. cbn [bindx ret]. rewrite Ew, Z.eqb_refl. cbn [bindx ret now].
  assert (Hp : all_of is_ppm (SSiz x :: map snd l) = []).
  { cbn [all_of is_ppm]. clear - Hl. induction Hl as [|[b y] l [Hi _] Hl IH]; [reflexivity|]. cbn [map all_of snd]. destruct Hi as (? & ? & ? & _ & _ & _ & _ & _ & _ & Hi). cbn [snd] in Hi. rewrite Hi. exact IH. }
  rewrite Hp. cbn [bindx ret]. unfold rewind_2bytes. cbn [pos data len]. replace (zlen bytes + 2 <? 2) with false by lia. unfold good, lift. cbn [bindx ret]. replace (zlen bytes + 2 - 2) with (zlen bytes) by ring. reflexivity.
Qed.
