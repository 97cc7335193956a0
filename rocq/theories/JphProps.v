(** Reading and writing JPH/JP2 files (C37). *)
From Verif Require Import Base BaseLemmas Be JphModel.

(** ** Specification *)

(** A file is a sequence of boxes; the only superbox that matters is jp2h.
    [ext] selects the 64-bit length field. *)
Inductive box := Leaf (ext : bool) (type : Z) (payload : list Z) | Jp2h (ext : bool) (children : list box).
Definition be64 (v : Z) : list Z := be32 (v / 2 ^ 32) ++ be32 (v mod 2 ^ 32).
Definition head (ext : bool) (type len : Z) : list Z :=
  if ext then be32 1 ++ be32 type ++ be64 (16 + len) else be32 (8 + len) ++ be32 type.
Fixpoint enc (b : box) : list Z :=
  match b with
  | Leaf ext t pl => head ext t (zlen pl) ++ pl
  | Jp2h ext kids => let body := flat_map enc kids in head ext 0x6A703268 (zlen body) ++ body
  end.
(** The boxes in the order of the file, superboxes opened. *)
Fixpoint leaves (b : box) : list (Z * list Z) :=
  match b with Leaf _ t pl => [(t, pl)] | Jp2h _ kids => flat_map leaves kids end.
Fixpoint height (b : box) : nat :=
  match b with Leaf _ _ _ => 0%nat | Jp2h _ kids => S (fold_right Nat.max 0%nat (map height kids)) end.
Definition fits_len (ext : bool) (n : Z) : Prop := if ext then 16 + n < 2 ^ 64 else 8 + n < 2 ^ 32.
Fixpoint good (b : box) : Prop :=
  match b with
  | Leaf ext t pl => 0 <= t < 2 ^ 32 /\ t <> 0x6A703268 /\ bytes_ok pl /\ fits_len ext (zlen pl)
  | Jp2h ext kids => fold_right (fun b P => good b /\ P) True kids /\ fits_len ext (zlen (flat_map enc kids))
  end.
(** The codestream and colour space a file designates: those of the last
    codestream box and of the last enumerated colour specification. *)
Definition step (w : option (list Z) * Z) (lf : Z * list Z) : option (list Z) * Z :=
  let '(t, pl) := lf in
  if t =? 0x6A703263 then (Some pl, snd w)
  else match (t =? 0x636F6C72), pl with
  | true, 1 :: _ :: _ :: b3 :: b4 :: b5 :: b6 :: _ => (fst w, ((b3 * 256 + b4) * 256 + b5) * 256 + b6)
  | _, _ => w
  end.
Definition designates (ls : list (Z * list Z)) : option (list Z) * Z := fold_left step ls (None, 0).
Definition signature : box := Leaf false 0x6A502020 [0x0D; 0x0A; 0x87; 0x0A].
(** The stretch of the buffer a result points to. *)
Definition stretch (buf : list Z) (o : jph_info) : option (list Z) :=
  match cs_data o with None => None | Some off => Some (ztake (cs_size o) (zskip off buf)) end.

(** ** Safety *)
Lemma rd64_in l i : bytes_ok l -> 0 <= i -> i + 8 <= zlen l -> exists v, rd64 l i = Ret v /\ 0 <= v.
Proof.
  intros H Hi Hl. unfold rd64. destruct (rd32_in l i H Hi ltac:(lia)) as (a & -> & Ha). destruct (rd32_in l (i + 4) H ltac:(lia) ltac:(lia)) as (b & -> & Hb).
  cbn [bind]. eexists. split; [reflexivity|]. apply Z.lor_nonneg. split; [apply Z.shiftl_nonneg; lia|lia].
Qed.
Lemma extent_ok buf p e lbox : bytes_ok buf -> 0 <= p -> p + 8 <= e -> e <= zlen buf -> 0 <= lbox ->
  exists x, box_extent buf p e lbox = Ret x /\ match x with None => True | Some (pl, be) => p + 8 <= pl <= be /\ be <= e end.
Proof.
  intros Hb Hp He Hz Hl. unfold box_extent. destruct (Z.eqb_spec lbox 1).
  - destruct (Z.ltb_spec e (p + 16)); [eexists; split; [reflexivity|exact I]|]. destruct (rd64_in buf (p + 8) Hb ltac:(lia) ltac:(lia)) as (x & -> & Hx). cbn [bind].
    destruct ((x <? 16) || (e - p <? x)) eqn:Q; eexists; (split; [reflexivity|]); [exact I|cbv beta iota; lia].
  - destruct (Z.eqb_spec lbox 0); [eexists; split; [reflexivity|cbv beta iota; lia]|]. destruct (Z.ltb_spec lbox 8); [eexists; split; [reflexivity|exact I]|].
    eexists. split; [reflexivity|]. cbv beta iota. destruct (Z.leb_spec lbox (e - p)); lia.
Qed.
Definition Inside (buf : list Z) (o : jph_info) : Prop :=
  match cs_data o with None => True | Some off => 0 <= off /\ 0 <= cs_size o /\ off + cs_size o <= zlen buf end /\ 0 <= enum_cs o < 2 ^ 32.
Lemma scan_ok buf d : bytes_ok buf -> forall p e o, 0 <= p <= e -> e <= zlen buf -> Inside buf o -> exists o', jph_scan_boxes d buf p e o = Ret o' /\ Inside buf o'.
Proof.
  intros Hb. induction d as [|d IHd]; intros p e o Hp He Ho; [exists o; auto|]. cbn [jph_scan_boxes].
  assert (forall fuel p o, 0 <= p <= e -> Inside buf o -> e - p < 8 * Z.of_nat fuel + 8 -> exists o', scan_loop (jph_scan_boxes d buf) fuel buf p e o = Ret o' /\ Inside buf o') as K.
  { induction fuel as [|fuel IH]; intros q o1 Hq Ho1 Hf; cbn [scan_loop].
    - replace (q + 8 <=? e) with false by lia. eauto.
    - destruct (Z.leb_spec (q + 8) e) as [H|H]; [|eauto]. destruct (rd32_in buf q Hb ltac:(lia) ltac:(lia)) as (lbox & -> & Hlb). destruct (rd32_in buf (q + 4) Hb ltac:(lia) ltac:(lia)) as (tbox & -> & Htb). cbn [bind].
      destruct (extent_ok buf q e lbox Hb ltac:(lia) H He ltac:(lia)) as (x & -> & Hx). cbn [bind]. destruct x as [[pl be]|]; [|eauto].
      assert (exists o2, (if tbox =? BOX_JP2H then jph_scan_boxes d buf pl be o1 else if tbox =? BOX_COLR then colr buf pl be o1 else if tbox =? BOX_JP2C then Ret (Info (Some pl) (be - pl) (enum_cs o1)) else Ret o1) = Ret o2 /\ Inside buf o2) as (o2 & -> & Ho2).
      { destruct (tbox =? BOX_JP2H); [apply IHd; auto; lia|]. destruct (tbox =? BOX_COLR).
        - unfold colr. destruct (Z.leb_spec (pl + 7) be); [|eauto]. rewrite rd_in by lia. cbn [bind]. destruct (_ =? 1); [|eauto]. destruct (rd32_in buf (pl + 3) Hb ltac:(lia) ltac:(lia)) as (v & -> & Hv). cbn [bind].
          eexists. split; [reflexivity|]. destruct Ho1. split; assumption.
        - destruct (tbox =? BOX_JP2C); [|eauto]. eexists. split; [reflexivity|]. destruct Ho1. split; [cbn; lia|assumption]. }
      cbn [bind]. apply IH; auto; lia. }
  apply K; auto. unfold zlen in He. lia.
Qed.

(** On every byte string the scan ends, reads only inside the buffer, and the
    range it reports lies inside the buffer and is not empty. *)
Theorem C37_safe : forall buf, bytes_ok buf -> exists ok o, jph_parse_buffer buf = Ret (ok, o) /\
  (ok = true -> exists off, cs_data o = Some off /\ 0 <= off /\ 0 < cs_size o /\ off + cs_size o <= zlen buf).
Proof.
  intros buf Hb. unfold jph_parse_buffer, jph_is_signature.
  assert (exists s, (if 12 <=? zlen buf then let* a := rd32 buf 0 in if a =? 12 then let* b := rd32 buf 4 in if b =? 1783636000 then let* c := rd32 buf 8 in Ret (c =? 218793738) else Ret false else Ret false else Ret false) = Ret s) as (s & ->).
  { destruct (Z.leb_spec 12 (zlen buf)); [|eauto]. destruct (rd32_in buf 0 Hb ltac:(lia) ltac:(lia)) as (a & -> & _). cbn [bind]. destruct (a =? 12); [|eauto].
    destruct (rd32_in buf 4 Hb ltac:(lia) ltac:(lia)) as (b & -> & _). cbn [bind]. destruct (b =? _); [|eauto]. destruct (rd32_in buf 8 Hb ltac:(lia) ltac:(lia)) as (c & -> & _). cbn [bind]. eauto. }
  cbn [bind]. destruct s; [|eexists _, _; split; [reflexivity|discriminate]].
  destruct (scan_ok buf (S JPH_MAX_BOX_DEPTH) Hb 0 (zlen buf) info0) as (o & -> & Ho1 & Ho2); [pose proof (zlen_nonneg buf); lia|lia|split; cbn; lia|].
  cbn [bind]. eexists _, _. split; [reflexivity|]. destruct (cs_data o) as [off|]; [|discriminate]. intros H. exists off. repeat split; lia.
Qed.
Print Assumptions C37_safe.

(** ** Well-formed files *)
Lemma be64_len v : zlen (be64 v) = 8. Proof. reflexivity. Qed.
Lemma rd64_be a v l i : zlen a = i -> 0 <= v < 2 ^ 64 -> rd64 (a ++ be64 v ++ l) i = Ret v.
Proof.
  intros Ha Hv. change (2 ^ 64) with (2 ^ 32 * 2 ^ 32) in Hv. assert (0 <= v mod 2 ^ 32 < 2 ^ 32) by (apply Z.mod_pos_bound; reflexivity). assert (0 <= v / 2 ^ 32 < 2 ^ 32) by (split; [apply Z.div_pos; lia|apply Z.div_lt_upper_bound; lia]).
  unfold rd64, be64. rewrite <- !app_assoc. rewrite rd32_be by lia. cbn [bind]. rewrite (app_assoc a). rewrite rd32_be by (try rewrite zlen_app, be32_len; lia). cbn [bind]. f_equal.
  rewrite lor_shift_add by lia. pose proof (Z.div_mod v (2 ^ 32)). lia.
Qed.

Lemma head_len ext t n : zlen (head ext t n) = if ext then 16 else 8.
Proof. destruct ext; reflexivity. Qed.
Lemma enc_len b : 8 <= zlen (enc b).
Proof. destruct b as [ext t pl|ext kids]; cbn [enc]; rewrite zlen_app, head_len; [pose proof (zlen_nonneg pl)|pose proof (zlen_nonneg (flat_map enc kids))]; destruct ext; lia. Qed.
Lemma boxes_len bs : 8 * Z.of_nat (length bs) <= zlen (flat_map enc bs).
Proof. induction bs as [|b bs IH]; cbn [flat_map length]; [reflexivity|]. rewrite zlen_app. pose proof (enc_len b). lia. Qed.
(* the scan sees the header it was given *)
Lemma read_head buf pre ext t pl post e : buf = pre ++ (head ext t (zlen pl) ++ pl) ++ post -> 0 <= t < 2 ^ 32 -> fits_len ext (zlen pl) ->
  zlen pre + zlen (head ext t (zlen pl) ++ pl) <= e -> e <= zlen buf ->
  exists lbox, rd32 buf (zlen pre) = Ret lbox /\ rd32 buf (zlen pre + 4) = Ret t /\
    box_extent buf (zlen pre) e lbox = Ret (Some (zlen pre + zlen (head ext t (zlen pl)), zlen pre + zlen (head ext t (zlen pl) ++ pl))).
Proof.
  intros -> Ht Hf He Hz. pose proof (zlen_nonneg pl). rewrite zlen_app, head_len in He |- *. unfold head, fits_len in *. destruct ext.
  - exists 1. rewrite <- !app_assoc. split; [apply rd32_be; [reflexivity|lia]|]. split; [rewrite (app_assoc pre); apply rd32_be; [rewrite zlen_app, be32_len; reflexivity|exact Ht]|].
    unfold box_extent. cbn [Z.eqb Pos.eqb]. replace (e <? zlen pre + 16) with false by lia.
    rewrite (app_assoc pre), (app_assoc (pre ++ be32 1)). rewrite rd64_be by (try rewrite !zlen_app, !be32_len; lia). cbn [bind].
    replace ((16 + zlen pl <? 16) || (e - zlen pre <? 16 + zlen pl)) with false by lia. do 3 f_equal; lia.
  - exists (8 + zlen pl). rewrite <- !app_assoc. split; [apply rd32_be; [reflexivity|lia]|]. split; [rewrite (app_assoc pre); apply rd32_be; [rewrite zlen_app, be32_len; reflexivity|exact Ht]|].
    unfold box_extent. replace (8 + zlen pl =? 1) with false by lia. replace (8 + zlen pl =? 0) with false by lia. replace (8 + zlen pl <? 8) with false by lia. replace (8 + zlen pl <=? e - zlen pre) with true by lia. do 3 f_equal; lia.
Qed.
Definition Views (buf : list Z) (o : jph_info) (w : option (list Z) * Z) : Prop :=
  stretch buf o = fst w /\ cs_size o = match fst w with Some pl => zlen pl | None => 0 end /\ enum_cs o = snd w.
Lemma stretch_app (buf pre pl post : list Z) : buf = pre ++ pl ++ post -> ztake (zlen pl) (zskip (zlen pre) buf) = pl.
Proof. intros ->. rewrite zskip_app by reflexivity. now apply ztake_app. Qed.
Lemma colr_view buf pre pl post o w : buf = pre ++ pl ++ post -> bytes_ok pl -> Views buf o w -> exists o', colr buf (zlen pre) (zlen pre + zlen pl) o = Ret o' /\ Views buf o' (step w (0x636F6C72, pl)).
Proof.
  intros E Hb (V1 & V2 & V3). unfold step. cbn [Z.eqb Pos.eqb]. unfold colr. destruct (Z.leb_spec (zlen pre + 7) (zlen pre + zlen pl)) as [H|H].
  - destruct pl as [|b0 [|b1 [|b2 [|b3 [|b4 [|b5 [|b6 pl]]]]]]]; try (exfalso; cbn in H; rewrite ?zlen_cons in H; change (zlen (@nil Z)) with 0 in H; lia).
    replace (rd buf (zlen pre)) with (Ret b0) by (rewrite E; symmetry; apply rd_be; reflexivity). cbn [bind]. destruct (Z.eqb_spec b0 1) as [->|N].
    + assert (rd32 buf (zlen pre + 3) = Ret (((b3 * 256 + b4) * 256 + b5) * 256 + b6)) as ->.
      { unfold bytes_ok in Hb. repeat match goal with H : Forall _ (_ :: _) |- _ => apply Forall_inv in H as ?; apply Forall_inv_tail in H end.
        unfold byte_ok in *. set (v := ((b3 * 256 + b4) * 256 + b5) * 256 + b6). replace buf with ((pre ++ [1; b1; b2]) ++ be32 v ++ pl ++ post).
        - apply rd32_be; [rewrite zlen_app; reflexivity|]. change (2 ^ 32) with 4294967296. lia.
        - rewrite E. rewrite <- app_assoc. cbn [app be32]. repeat f_equal; lia. }
      cbn [bind]. eexists. split; [reflexivity|]. split; [exact V1|]. split; [exact V2|reflexivity].
    + exists o. split; [reflexivity|]. assert (match b0 with 1 => (fst w, ((b3 * 256 + b4) * 256 + b5) * 256 + b6) | _ => w end = w) as Ew by (destruct b0 as [|[]|]; try reflexivity; contradiction).
      rewrite Ew. split; [exact V1|]. split; [exact V2|exact V3].
  - exists o. split; [reflexivity|]. assert (match pl with 1 :: _ :: _ :: b3 :: b4 :: b5 :: b6 :: _ => (fst w, ((b3 * 256 + b4) * 256 + b5) * 256 + b6) | _ => w end = w) as Ew.
    { clear -H. destruct pl as [|b0 [|b1 [|b2 [|b3 [|b4 [|b5 [|b6 pl]]]]]]]; try (destruct b0 as [|[]|]; reflexivity); try reflexivity.
      exfalso. rewrite !zlen_cons in H. pose proof (zlen_nonneg pl). lia. }
    rewrite Ew. split; [exact V1|]. split; [exact V2|exact V3].
Qed.
Lemma step_other w t pl : t <> 0x6A703263 -> t <> 0x636F6C72 -> step w (t, pl) = w.
Proof. intros H1 H2. unfold step. apply Z.eqb_neq in H1. apply Z.eqb_neq in H2. rewrite H1, H2. reflexivity. Qed.
Lemma view_cs buf pre pl post o w : buf = pre ++ pl ++ post -> Views buf o w -> Views buf (Info (Some (zlen pre)) (zlen pl) (enum_cs o)) (step w (0x6A703263, pl)).
Proof. intros E (V1 & V2 & V3). split; [|split; [reflexivity|exact V3]]. cbn. f_equal. now apply (stretch_app buf pre pl post). Qed.

Lemma scan_boxes buf d : forall bs pre post e o w, buf = pre ++ flat_map enc bs ++ post -> bytes_ok buf ->
  fold_right (fun b P => good b /\ P) True bs -> (fold_right Nat.max 0 (map height bs) <= d)%nat ->
  zlen pre + zlen (flat_map enc bs) <= e -> e <= zlen buf -> Views buf o w ->
  exists o', Views buf o' (fold_left step (flat_map leaves bs) w) /\
    forall f, scan_loop (jph_scan_boxes d buf) (length bs + f) buf (zlen pre) e o = scan_loop (jph_scan_boxes d buf) f buf (zlen pre + zlen (flat_map enc bs)) e o'.
Proof.
  induction d as [d IHd] using (well_founded_induction lt_wf).
  induction bs as [|b bs IH]; intros pre post e o w E Hb Hg Hh He Hz V; [exists o; split; [exact V|]; intros f; cbn [flat_map length Nat.add]; change (zlen (@nil Z)) with 0; rewrite Z.add_0_r; reflexivity|].
  cbn [fold_right map] in Hg, Hh. destruct Hg as [Gb Gs]. cbn [flat_map] in *. rewrite zlen_app in He.
  (* one box *)
  assert (exists o1, Views buf o1 (fold_left step (leaves b) w) /\ forall f, scan_loop (jph_scan_boxes d buf) (S f) buf (zlen pre) e o = scan_loop (jph_scan_boxes d buf) f buf (zlen pre + zlen (enc b)) e o1) as (o1 & V1 & S1).
  { pose proof (enc_len b) as Lb. pose proof (zlen_nonneg (flat_map enc bs)) as Ln. destruct b as [ext t pl|ext kids]; cbn [enc leaves good height] in *.
    - destruct Gb as (Gt & Gn & Gp & Gf). destruct (read_head buf pre ext t pl (flat_map enc bs ++ post) e) as (lbox & R1 & R2 & R3); [rewrite E, <- !app_assoc; reflexivity|exact Gt|exact Gf|lia|exact Hz|].
      assert (buf = (pre ++ head ext t (zlen pl)) ++ pl ++ flat_map enc bs ++ post) as E2 by (rewrite E, <- !app_assoc; reflexivity).
      assert (exists o1, (if t =? BOX_JP2H then jph_scan_boxes d buf (zlen (pre ++ head ext t (zlen pl))) (zlen (pre ++ head ext t (zlen pl)) + zlen pl) o else if t =? BOX_COLR then colr buf (zlen (pre ++ head ext t (zlen pl))) (zlen (pre ++ head ext t (zlen pl)) + zlen pl) o
        else if t =? BOX_JP2C then Ret (Info (Some (zlen (pre ++ head ext t (zlen pl)))) (zlen (pre ++ head ext t (zlen pl)) + zlen pl - zlen (pre ++ head ext t (zlen pl))) (enum_cs o)) else Ret o) = Ret o1 /\ Views buf o1 (step w (t, pl))) as (o1 & Eo & Vo).
      { replace (t =? BOX_JP2H) with false by (unfold BOX_JP2H; lia). destruct (Z.eqb_spec t BOX_COLR) as [->|N1]; [now apply (colr_view buf _ _ _ o w E2)|].
        destruct (Z.eqb_spec t BOX_JP2C) as [->|N2]; [|exists o; split; [reflexivity|]; rewrite step_other by assumption; exact V].
        eexists. split; [reflexivity|]. replace (zlen (pre ++ head ext BOX_JP2C (zlen pl)) + zlen pl - zlen (pre ++ head ext BOX_JP2C (zlen pl))) with (zlen pl) by lia. now apply (view_cs buf _ _ _ o w E2). }
      exists o1. split; [exact Vo|]. intros f. cbn [scan_loop]. replace (zlen pre + 8 <=? e) with true by lia. rewrite R1, R2. cbn [bind]. rewrite R3. cbn [bind].
      rewrite !zlen_app in Eo. rewrite !zlen_app, !Z.add_assoc. rewrite Eo. cbn [bind]. reflexivity.
    - destruct Gb as (Gk & Gf). set (body := flat_map enc kids) in *. destruct (read_head buf pre ext 0x6A703268 body (flat_map enc bs ++ post) e) as (lbox & R1 & R2 & R3); [rewrite E, <- !app_assoc; reflexivity|lia|exact Gf|lia|exact Hz|].
      assert (buf = (pre ++ head ext 0x6A703268 (zlen body)) ++ flat_map enc kids ++ flat_map enc bs ++ post) as E2 by (rewrite E, <- !app_assoc; reflexivity).
      destruct d as [|d]; [lia|]. destruct (IHd d ltac:(lia) kids _ _ (zlen (pre ++ head ext 0x6A703268 (zlen body)) + zlen body) o w E2 Hb Gk ltac:(lia)) as (o1 & V1 & S1); [reflexivity| |exact V|].
      { rewrite E2, !zlen_app. fold body. pose proof (zlen_nonneg (flat_map enc bs ++ post)). rewrite zlen_app in *. lia. }
      exists o1. split; [exact V1|]. intros f. cbn [scan_loop]. replace (zlen pre + 8 <=? e) with true by lia. rewrite R1, R2. cbn [bind]. rewrite R3. cbn [bind]. change (0x6A703268 =? BOX_JP2H) with true. cbv iota. cbn [jph_scan_boxes].
      assert (exists f', length buf = (length kids + f')%nat) as (f' & Ef).
      { exists (length buf - length kids)%nat. pose proof (boxes_len kids) as Bl. fold body in Bl. assert (zlen body <= zlen buf) by (rewrite E2, !zlen_app; fold body; pose proof (zlen_nonneg (flat_map enc bs)); pose proof (zlen_nonneg post); pose proof (zlen_nonneg pre); pose proof (zlen_nonneg (head ext 0x6A703268 (zlen body))); lia). unfold zlen in *. lia. }
      rewrite Ef. specialize (S1 f'). rewrite zlen_app in S1. rewrite (zlen_app (head ext 0x6A703268 (zlen body))). rewrite Z.add_assoc. rewrite S1. fold body.
      destruct f'; cbn [scan_loop]; (replace (_ + 8 <=? _) with false by lia); cbn [bind]; reflexivity. }
  assert (buf = (pre ++ enc b) ++ flat_map enc bs ++ post) as E1 by (rewrite E, <- !app_assoc; reflexivity).
  destruct (IH (pre ++ enc b) post e o1 _ E1 Hb Gs ltac:(lia) ltac:(rewrite zlen_app; lia) Hz V1) as (o2 & V2 & S2). exists o2. split; [rewrite fold_left_app; exact V2|].
  intros f. cbn [length Nat.add]. rewrite S1. specialize (S2 f). rewrite zlen_app in S2. rewrite S2. rewrite zlen_app. f_equal. lia.
Qed.

(** The result when the file designates [w]. *)
Definition finds (buf : list Z) (w : option (list Z) * Z) : Prop := exists o, jph_parse_buffer buf = Ret (match fst w with Some (_ :: _) => true | _ => false end, o) /\ stretch buf o = fst w /\ enum_cs o = snd w.
Lemma sig_ok rest : jph_is_signature (enc signature ++ rest) (zlen (enc signature ++ rest)) = Ret true.
Proof.
  unfold jph_is_signature. rewrite zlen_app. change (zlen (enc signature)) with 12. pose proof (zlen_nonneg rest). replace (12 <=? 12 + zlen rest) with true by lia.
  change (enc signature ++ rest) with ([] ++ be32 12 ++ (be32 0x6A502020 ++ be32 0x0D0A870A ++ rest)) at 1. rewrite rd32_be by (reflexivity || lia). cbn [bind Z.eqb Pos.eqb].
  change (enc signature ++ rest) with (be32 12 ++ be32 0x6A502020 ++ (be32 0x0D0A870A ++ rest)) at 1. rewrite rd32_be by (reflexivity || lia). cbn [bind Z.eqb Pos.eqb].
  change (enc signature ++ rest) with ((be32 12 ++ be32 0x6A502020) ++ be32 0x0D0A870A ++ rest) at 1. rewrite rd32_be by (reflexivity || lia). reflexivity.
Qed.
Lemma parse_of_scan rest o w : jph_scan_boxes (S JPH_MAX_BOX_DEPTH) (enc signature ++ rest) 0 (zlen (enc signature ++ rest)) info0 = Ret o -> Views (enc signature ++ rest) o w -> finds (enc signature ++ rest) w.
Proof.
  intros S (V1 & V2 & V3). exists o. split; [|auto]. unfold jph_parse_buffer. rewrite sig_ok. cbn [bind]. rewrite S. cbn [bind]. do 2 f_equal. rewrite V2. unfold stretch in V1. destruct (cs_data o), (fst w) as [pl|]; try discriminate V1; [|reflexivity].
  destruct pl as [|x pl]; [reflexivity|]. rewrite zlen_cons. pose proof (zlen_nonneg pl). replace (0 <? 1 + zlen pl) with true by lia. reflexivity.
Qed.

(** Every well-formed file, with superboxes nested at most 16 deep: the
    codestream and colour space found are the ones the file designates. *)
Theorem C37_well_formed : forall bs, fold_right (fun b P => good b /\ P) True bs -> (fold_right Nat.max 0 (map height bs) <= 16)%nat -> bytes_ok (flat_map enc bs) ->
  finds (flat_map enc (signature :: bs)) (designates (flat_map leaves bs)).
Proof.
  intros bs Hg Hh Hb. change (flat_map enc (signature :: bs)) with (enc signature ++ flat_map enc bs). set (buf := enc signature ++ flat_map enc bs).
  assert (bytes_ok buf) as Hbuf by (apply bytes_ok_app; split; [unfold bytes_ok; repeat constructor; lia|exact Hb]).
  destruct (scan_boxes buf 16 (signature :: bs) [] [] (zlen buf) info0 (None, 0)) as (o & V & S); auto.
  - cbn [flat_map app]. rewrite app_nil_r. reflexivity.
  - cbn [fold_right good signature]. split; [|exact Hg]. split; [lia|]. split; [lia|]. split; [unfold bytes_ok; repeat constructor; lia|reflexivity].
  - change (zlen (@nil Z)) with 0. cbn [flat_map]. fold buf. lia.
  - lia.
  - split; [reflexivity|]. split; reflexivity.
  - change (fold_left step (flat_map leaves (signature :: bs)) (None, 0)) with (designates (flat_map leaves bs)) in V. apply (parse_of_scan _ o); [|exact V]. fold buf. cbn [jph_scan_boxes].
    assert (exists f, length buf = (length (signature :: bs) + f)%nat) as (f & Ef).
    { exists (length buf - length (signature :: bs))%nat. pose proof (boxes_len (signature :: bs)) as Bl. cbn [flat_map] in Bl. fold buf in Bl. unfold zlen in Bl. lia. }
    change (scan_loop (jph_scan_boxes JPH_MAX_BOX_DEPTH buf) (length buf) buf 0 (zlen buf) info0 = Ret o). rewrite Ef. specialize (S f). change (zlen (@nil Z)) with 0 in S. change JPH_MAX_BOX_DEPTH with 16%nat. rewrite S. cbn [flat_map]. fold buf.
    destruct f; cbn [scan_loop]; (replace (_ + 8 <=? _) with false by lia); reflexivity.
Qed.
Print Assumptions C37_well_formed.

(** Writers that do not know the length: the codestream box comes last and
    declares length 0 or more than there is.  The codestream is then the rest of
    the file. *)
Lemma scan_prefix bs post : let buf := flat_map enc (signature :: bs) ++ post in
  fold_right (fun b P => good b /\ P) True bs -> (fold_right Nat.max 0 (map height bs) <= 16)%nat -> bytes_ok buf ->
  exists o, Views buf o (designates (flat_map leaves bs)) /\
    exists f, 8 * Z.of_nat f >= zlen post /\ jph_scan_boxes (S JPH_MAX_BOX_DEPTH) buf 0 (zlen buf) info0 = scan_loop (jph_scan_boxes JPH_MAX_BOX_DEPTH buf) f buf (zlen (flat_map enc (signature :: bs))) (zlen buf) o.
Proof.
  intros buf Hg Hh Hb. destruct (scan_boxes buf 16 (signature :: bs) [] post (zlen buf) info0 (None, 0)) as (o & V & S).
  - reflexivity.
  - exact Hb.
  - cbn [fold_right good signature]. split; [|exact Hg]. split; [lia|]. split; [lia|]. split; [unfold bytes_ok; repeat constructor; lia|reflexivity].
  - cbn [map fold_right]. change (height signature) with 0%nat. lia.
  - change (zlen (@nil Z)) with 0. unfold buf. rewrite zlen_app. pose proof (zlen_nonneg post). lia.
  - lia.
  - split; [reflexivity|]. split; reflexivity.
  - exists o. split; [exact V|]. exists (length buf - length (signature :: bs))%nat. split.
    + pose proof (boxes_len (signature :: bs)) as Bl. assert (zlen buf = zlen (flat_map enc (signature :: bs)) + zlen post) as El by apply zlen_app. unfold zlen in *. lia.
    + cbn [jph_scan_boxes]. specialize (S (length buf - length (signature :: bs))%nat). change (zlen (@nil Z)) with 0 in S. rewrite Z.add_0_l in S.
      replace (length buf) with (length (signature :: bs) + (length buf - length (signature :: bs)))%nat at 1; [exact S|].
      pose proof (boxes_len (signature :: bs)) as Bl. assert (zlen buf = zlen (flat_map enc (signature :: bs)) + zlen post) as El by apply zlen_app. unfold zlen in *. lia.
Qed.
Theorem C37_open_ended : forall bs lbox codestream, fold_right (fun b P => good b /\ P) True bs -> (fold_right Nat.max 0 (map height bs) <= 16)%nat ->
  (lbox = 0 \/ 8 + zlen codestream <= lbox < 2 ^ 32) ->
  let buf := flat_map enc (signature :: bs) ++ be32 lbox ++ be32 0x6A703263 ++ codestream in bytes_ok buf ->
  finds buf (Some codestream, snd (designates (flat_map leaves bs))).
Proof.
  intros bs lbox cs Hg Hh Hl buf Hb. destruct (scan_prefix bs (be32 lbox ++ be32 0x6A703263 ++ cs) Hg Hh Hb) as (o & V & f & Hf & S). fold buf in V, S.
  set (pre := flat_map enc (signature :: bs)) in *. pose proof (zlen_nonneg cs) as Hc. assert (zlen buf = zlen pre + 8 + zlen cs) as El by (unfold buf; rewrite !zlen_app, !be32_len; lia).
  assert (rd32 buf (zlen pre) = Ret lbox) as R1 by (apply rd32_be; [reflexivity|lia]).
  assert (rd32 buf (zlen pre + 4) = Ret 0x6A703263) as R2 by (unfold buf; rewrite app_assoc; apply rd32_be; [rewrite zlen_app, be32_len; reflexivity|lia]).
  assert (box_extent buf (zlen pre) (zlen buf) lbox = Ret (Some (zlen pre + 8, zlen buf))) as R3.
  { unfold box_extent. destruct Hl as [->|Hl]; [reflexivity|]. replace (lbox =? 1) with false by lia. replace (lbox =? 0) with false by lia. replace (lbox <? 8) with false by lia. do 3 f_equal. destruct (Z.leb_spec lbox (zlen buf - zlen pre)); lia. }
  destruct f as [|f]; [rewrite !zlen_app, !be32_len in Hf; lia|].
  apply (parse_of_scan (flat_map enc bs ++ be32 lbox ++ be32 0x6A703263 ++ cs) (Info (Some (zlen pre + 8)) (zlen cs) (enum_cs o))); replace (enc signature ++ flat_map enc bs ++ be32 lbox ++ be32 0x6A703263 ++ cs) with buf by (unfold buf, pre; cbn [flat_map]; rewrite <- app_assoc; reflexivity).
  - rewrite S. cbn [scan_loop]. replace (zlen pre + 8 <=? zlen buf) with true by lia. rewrite R1, R2. cbn [bind]. rewrite R3. cbn [bind]. change (0x6A703263 =? BOX_JP2H) with false. change (0x6A703263 =? BOX_COLR) with false. change (0x6A703263 =? BOX_JP2C) with true. cbv iota. cbn [bind].
    replace (zlen buf - (zlen pre + 8)) with (zlen cs) by lia. destruct f; cbn [scan_loop]; (replace (zlen buf + 8 <=? zlen buf) with false by lia); reflexivity.
  - split; [|split; [reflexivity|apply V]]. unfold stretch. cbn [cs_data cs_size fst]. f_equal. assert (buf = (pre ++ be32 lbox ++ be32 0x6A703263) ++ cs ++ []) as Eb by (rewrite app_nil_r; unfold buf; rewrite <- !app_assoc; reflexivity).
    replace (zlen pre + 8) with (zlen (pre ++ be32 lbox ++ be32 0x6A703263)) by (rewrite !zlen_app, !be32_len; lia). apply (stretch_app buf _ cs [] Eb).
Qed.
Print Assumptions C37_open_ended.

(** ** Files written by the library *)
Lemma put_word_be v : put_word v = be16 v.
Proof. unfold put_word, be16. rewrite Z.shiftr_div_pow2 by lia. change 255 with (Z.ones 8). rewrite Z.land_ones by lia. change (2 ^ 8) with 256. rewrite Z.mod_mod by lia. reflexivity. Qed.
Lemma put_dword_be v : put_dword v = be32 v.
Proof.
  unfold put_dword. rewrite !put_word_be. unfold be16, be32. rewrite Z.shiftr_div_pow2 by lia. change 65535 with (Z.ones 16). rewrite Z.land_ones by lia. change (2 ^ 16) with 65536. cbn [app]. f_equal; [lia|]. f_equal; [lia|]. f_equal; [lia|]. f_equal. lia.
Qed.
Definition good_siz (s : siz) : Prop := bytes_ok (Ssiz s) /\ (get_num_components s = 1 \/ get_num_components s = 3).
(* the boxes before the codestream box *)
Definition own_boxes (s : siz) (isSRGB : bool) : list box :=
  [Leaf false 0x66747970 (be32 0x6A706820 ++ be32 0 ++ be32 0x6A706820);
   Jp2h false ([Leaf false 0x69686472 (be32 (wrap32 (Ysiz s - YOsiz s)) ++ be32 (wrap32 (Xsiz s - XOsiz s)) ++ be16 (get_num_components s) ++ [ihdr_BPC s; 7; 0; 0])] ++
     (if needBPCC s then [Leaf false 0x62706363 (map (fun c => Z.lor ((get_bitdepth s c - 1) mod 256) (if is_signed s c then 0x80 else 0)) (zseq (get_num_components s)))] else []) ++
     [Leaf false 0x636F6C72 ([1; 0; 0] ++ be32 (if get_num_components s =? 3 then if isSRGB then 16 else 18 else 17))])].
Definition space (s : siz) (isSRGB : bool) : Z := if get_num_components s =? 3 then if isSRGB then 16 else 18 else 17.
Lemma byte_or v (b : bool) : 0 <= v < 256 -> 0 <= Z.lor v (if b then 0x80 else 0) < 256.
Proof.
  intros H. assert (0 <= Z.lor v (if b then 128 else 0)) by (apply Z.lor_nonneg; destruct b; lia). split; [assumption|]. assert (0 < 2 ^ 8) by lia.
  destruct (Z.eq_dec (Z.lor v (if b then 128 else 0)) 0) as [E|N]; [lia|]. apply (Z.log2_lt_pow2 _ 8); [lia|]. rewrite Z.log2_lor by (destruct b; lia).
  apply Z.max_lub_lt; [destruct (Z.eq_dec v 0) as [->|]; [cbn; lia|apply Z.log2_lt_pow2; lia]|destruct b; cbn; lia].
Qed.
Lemma bpc_ok s : 0 <= ihdr_BPC s < 256.
Proof. unfold ihdr_BPC. apply byte_or. destruct (existsb _ _); [lia|]. apply Z.mod_pos_bound. lia. Qed.
Lemma own_bytes s isSRGB : good_siz s -> forall n cs, write_file s isSRGB cs = Some n ->
  n = (flat_map enc (signature :: own_boxes s isSRGB) ++ be32 (wrap32 (wrap32 (zlen cs) + 8)) ++ be32 0x6A703263 ++ cs,
       zlen (flat_map enc (signature :: own_boxes s isSRGB)) + wrap32 (wrap32 (zlen cs) + 8)).
Proof.
  intros (_ & Hn) n cs H. unfold write_file, jph_boxes, header_box, colour_specification_box in H. change (file_type_box 1) with (Some (base_write 20 0x66747970 ++ put_dword 0x6A706820 ++ put_dword 0 ++ put_dword 0x6A706820, 20)) in H. cbv iota in H.
  assert (forall e, zlen ([1; 0; 0] ++ be32 e) = 7) as L1 by reflexivity.
  assert (zlen (be32 (wrap32 (Ysiz s - YOsiz s)) ++ be32 (wrap32 (Xsiz s - XOsiz s)) ++ be16 (get_num_components s) ++ [ihdr_BPC s; 7; 0; 0]) = 14) as L2 by reflexivity.
  assert (forall f : Z -> Z, zlen (map f (zseq (get_num_components s))) = get_num_components s) as L3 by (intros f; destruct Hn as [E|E]; rewrite E; reflexivity).
  assert ((if get_num_components s =? 3 then Some (base_write 15 0x636F6C72 ++ [1] ++ [0] ++ [0] ++ put_dword (if isSRGB then 16 else 18), 15) else if get_num_components s =? 1 then Some (base_write 15 0x636F6C72 ++ [1] ++ [0] ++ [0] ++ put_dword 17, 15) else None)
    = Some (enc (Leaf false 0x636F6C72 ([1; 0; 0] ++ be32 (space s isSRGB))), 15)) as Ec.
  { unfold base_write, space. rewrite !put_dword_be. cbn [enc]. rewrite L1. destruct Hn as [E|E]; rewrite E; cbn [Z.eqb Pos.eqb]; rewrite ?put_dword_be; reflexivity. }
  rewrite Ec in H. clear Ec.
  unfold image_header_box, bits_per_component_box, signature_box, contiguous_codestream_box, base_write in H. rewrite !put_dword_be, !put_word_be in H. apply Some_inj in H. subst n.
  assert (forall t pl, enc (Leaf false t pl) = be32 (8 + zlen pl) ++ be32 t ++ pl) as EL by (intros t pl; cbn [enc head]; rewrite <- app_assoc; reflexivity).
  assert (forall kids, enc (Jp2h false kids) = be32 (8 + zlen (flat_map enc kids)) ++ be32 0x6A703268 ++ flat_map enc kids) as EJ by (intros kids; cbn [enc head]; rewrite <- app_assoc; reflexivity).
  unfold own_boxes. fold (space s isSRGB). cbn [flat_map]. rewrite EJ. rewrite !flat_map_app. cbn [flat_map]. rewrite !EL, !app_nil_r.
  assert (enc signature = be32 12 ++ be32 0x6A502020 ++ be32 0x0D0A870A) as ES by reflexivity. rewrite ES.
  assert (zlen (be32 0x6A706820 ++ be32 0 ++ be32 0x6A706820) = 12) as L4 by reflexivity. rewrite L1, L2, L4.
  match goal with |- context [be32 (8 + zlen ?x)] => assert (zlen x = 37 + (if needBPCC s then 8 + get_num_components s else 0)) as L5 end.
  { rewrite !zlen_app, !be32_len. destruct (needBPCC s); cbn [flat_map]; rewrite ?EL, ?app_nil_r, ?zlen_app, ?L3, ?be32_len; rewrite ?be16_len; change (zlen [ihdr_BPC s; 7; 0; 0]) with 4; change (zlen [1; 0; 0]) with 3; change (zlen (@nil Z)) with 0; lia. }
  rewrite L5. change (8 + 12) with 20. change (8 + 14) with 22. change (8 + 7) with 15. replace (8 + (37 + (if needBPCC s then 8 + get_num_components s else 0))) with (8 + 22 + 15 + (if needBPCC s then 8 + get_num_components s else 0)) by lia. apply f_equal2.
  - rewrite <- !app_assoc. destruct (needBPCC s); cbn [flat_map]; rewrite ?EL, ?app_nil_r, ?L3; rewrite <- ?app_assoc; cbn [app]; reflexivity.
  - clear L5. rewrite !zlen_app, !be32_len. destruct (needBPCC s); cbn [flat_map]; rewrite ?EL, ?app_nil_r, ?zlen_app, ?L3, ?be32_len, ?be16_len; change (zlen [ihdr_BPC s; 7; 0; 0]) with 4; change (zlen [1; 0; 0]) with 3; change (zlen (@nil Z)) with 0; lia.
Qed.
Lemma own_good s isSRGB : good_siz s -> fold_right (fun b P => good b /\ P) True (own_boxes s isSRGB) /\ (fold_right Nat.max 0 (map height (own_boxes s isSRGB)) <= 16)%nat /\
  bytes_ok (flat_map enc (own_boxes s isSRGB)) /\ designates (flat_map leaves (own_boxes s isSRGB)) = (None, space s isSRGB).
Proof.
  intros (Hb & Hn). assert (forall v, bytes_ok (be32 v)) as B1 by apply be32_ok. assert (forall v, bytes_ok (be16 v)) as B2 by apply be16_ok.
  assert (bytes_ok (map (fun c => Z.lor ((get_bitdepth s c - 1) mod 256) (if is_signed s c then 0x80 else 0)) (zseq (get_num_components s)))) as B3.
  { apply Forall_forall. intros x Hx. apply in_map_iff in Hx. destruct Hx as (c & <- & _). apply byte_or. apply Z.mod_pos_bound. lia. }
  assert (forall f : Z -> Z, zlen (map f (zseq (get_num_components s))) = get_num_components s) as L3 by (intros f; destruct Hn as [E|E]; rewrite E; reflexivity).
  assert (bytes_ok [ihdr_BPC s; 7; 0; 0]) as B4 by (unfold bytes_ok, byte_ok; pose proof (bpc_ok s); repeat constructor; lia).
  assert (bytes_ok [1; 0; 0]) as B5 by (unfold bytes_ok, byte_ok; repeat constructor; lia).
  assert (forall t pl, 0 <= t < 2 ^ 32 -> t <> 0x6A703268 -> bytes_ok pl -> zlen pl < 100 -> good (Leaf false t pl) /\ bytes_ok (enc (Leaf false t pl))) as G.
  { intros t pl H1 H2 H3 H4. split; [cbn [good fits_len]; repeat split; auto; lia|]. cbn [enc head]. apply bytes_ok_app. split; [apply bytes_ok_app; split; apply be32_ok|exact H3]. }
  fold (space s isSRGB) in *. unfold own_boxes. fold (space s isSRGB).
  destruct (G 0x66747970 (be32 0x6A706820 ++ be32 0 ++ be32 0x6A706820)) as [G1 G1b]; [lia|lia|rewrite !bytes_ok_app; auto|cbn; lia|].
  destruct (G 0x69686472 (be32 (wrap32 (Ysiz s - YOsiz s)) ++ be32 (wrap32 (Xsiz s - XOsiz s)) ++ be16 (get_num_components s) ++ [ihdr_BPC s; 7; 0; 0])) as [G2 G2b]; [lia|lia|rewrite !bytes_ok_app; auto|rewrite !zlen_app, !be32_len, be16_len; change (zlen [ihdr_BPC s; 7; 0; 0]) with 4; lia|].
  destruct (G 0x62706363 (map (fun c => Z.lor ((get_bitdepth s c - 1) mod 256) (if is_signed s c then 0x80 else 0)) (zseq (get_num_components s)))) as [G3 G3b]; [lia|lia|exact B3|rewrite L3; lia|].
  destruct (G 0x636F6C72 ([1; 0; 0] ++ be32 (space s isSRGB))) as [G4 G4b]; [lia|lia|apply bytes_ok_app; auto|rewrite zlen_app, be32_len; change (zlen [1; 0; 0]) with 3; lia|].
  match goal with |- context [Jp2h false ?k] => set (kids := k) end.
  assert (fold_right (fun b P => good b /\ P) True kids /\ bytes_ok (flat_map enc kids) /\ zlen (flat_map enc kids) < 1000 /\ (fold_right Nat.max 0 (map height kids) <= 0)%nat /\
    flat_map leaves kids = [(0x69686472, be32 (wrap32 (Ysiz s - YOsiz s)) ++ be32 (wrap32 (Xsiz s - XOsiz s)) ++ be16 (get_num_components s) ++ [ihdr_BPC s; 7; 0; 0])] ++
      (if needBPCC s then [(0x62706363, map (fun c => Z.lor ((get_bitdepth s c - 1) mod 256) (if is_signed s c then 0x80 else 0)) (zseq (get_num_components s)))] else []) ++ [(0x636F6C72, [1; 0; 0] ++ be32 (space s isSRGB))]) as (K1 & K2 & K3 & K4 & K5).
  { unfold kids. clear kids.
    assert (zlen (be32 (wrap32 (Ysiz s - YOsiz s)) ++ be32 (wrap32 (Xsiz s - XOsiz s)) ++ be16 (get_num_components s) ++ [ihdr_BPC s; 7; 0; 0]) = 14) as M1 by reflexivity.
    assert (zlen ([1; 0; 0] ++ be32 (space s isSRGB)) = 7) as M2 by reflexivity. pose proof (L3 (fun c => Z.lor ((get_bitdepth s c - 1) mod 256) (if is_signed s c then 0x80 else 0))) as M3.
    revert G2 G2b G3 G3b G4 G4b M1 M2 M3.
    generalize (be32 (wrap32 (Ysiz s - YOsiz s)) ++ be32 (wrap32 (Xsiz s - XOsiz s)) ++ be16 (get_num_components s) ++ [ihdr_BPC s; 7; 0; 0]) as p1. generalize ([1; 0; 0] ++ be32 (space s isSRGB)) as p2.
    generalize (map (fun c => Z.lor ((get_bitdepth s c - 1) mod 256) (if is_signed s c then 0x80 else 0)) (zseq (get_num_components s))) as p3.
    intros p3 p2 p1 G2 G2b G3 G3b G4 G4b M1 M2 M3. destruct (needBPCC s); cbn [app fold_right flat_map map height leaves Nat.max].
    - split; [auto|]. split; [rewrite !bytes_ok_app; auto|]. split; [|split; [lia|reflexivity]]. rewrite !zlen_app. cbn [enc]. rewrite !zlen_app, !head_len. change (zlen (@nil Z)) with 0. lia.
    - split; [auto|]. split; [rewrite !bytes_ok_app; auto|]. split; [|split; [lia|reflexivity]]. rewrite !zlen_app. cbn [enc]. rewrite !zlen_app, !head_len. change (zlen (@nil Z)) with 0. lia. }
  split; [cbn [fold_right]; split; [exact G1|]; split; [|exact I]; cbn [good fits_len]; split; [exact K1|lia]|].
  split; [cbn [map fold_right]; change (height (Leaf false 0x66747970 (be32 0x6A706820 ++ be32 0 ++ be32 0x6A706820))) with 0%nat; cbn [height]; lia|].
  split.
  - cbn [flat_map]. rewrite !bytes_ok_app. split; [exact G1b|]. split; [|constructor]. cbn [enc head]. fold (flat_map enc kids). rewrite !bytes_ok_app. auto.
  - cbn [flat_map leaves]. rewrite app_nil_r. fold (flat_map leaves kids). rewrite K5. unfold designates. rewrite !fold_left_app. cbn [fold_left app].
    rewrite (step_other _ 0x66747970) by lia. rewrite (step_other _ 0x69686472) by lia.
    assert (fold_left step (if needBPCC s then [(0x62706363, map (fun c => Z.lor ((get_bitdepth s c - 1) mod 256) (if is_signed s c then 0x80 else 0)) (zseq (get_num_components s)))] else []) (None, 0) = (None, 0)) as -> by (destruct (needBPCC s); cbn [fold_left]; [apply step_other; lia|reflexivity]).
    unfold space. destruct Hn as [E|E]; rewrite E; [reflexivity|destruct isSRGB; reflexivity].
Qed.

(** A file written for a one- or three-component image gives back exactly its
    codestream and its colour space (16 sRGB, 17 greyscale, 18 YCbCr), and the
    size reported to the caller is that of the file. *)
Theorem C37_round_trip : forall s isSRGB codestream file size, good_siz s -> bytes_ok codestream -> zlen codestream + 8 < 2 ^ 32 ->
  write_file s isSRGB codestream = Some (file, size) ->
  finds file (Some codestream, if get_num_components s =? 3 then if isSRGB then 16 else 18 else 17) /\ size = zlen file.
Proof.
  intros s isSRGB cs file size Hs Hb Hl H. pose proof (zlen_nonneg cs). apply (own_bytes s isSRGB Hs) in H. apply pair_inj in H. destruct H as [-> ->]. rewrite !wrap32_small by (rewrite ?wrap32_small; unfold two32; lia).
  destruct (own_good s isSRGB Hs) as (G1 & G2 & G3 & G4). split.
  - fold (space s isSRGB). change (space s isSRGB) with (snd (None : option (list Z), space s isSRGB)). rewrite <- G4. apply C37_open_ended; auto; [lia|].
    cbn [flat_map]. rewrite !bytes_ok_app. repeat split; auto; try apply be32_ok. unfold bytes_ok, byte_ok. repeat constructor; lia.
  - rewrite !zlen_app, !be32_len. lia.
Qed.
Print Assumptions C37_round_trip.

Lemma zeros n : 8 <= n -> exists cs, zlen cs = n /\ bytes_ok cs /\ exists r, cs = be32 0 ++ be32 0 ++ r.
Proof.
  intros H. assert (exists k, n = Z.of_nat (8 + k)) as (k & ->) by (exists (Z.to_nat n - 8)%nat; lia). exists (repeat 0 (8 + k)).
  split; [unfold zlen; now rewrite repeat_length|]. split; [apply Forall_forall; intros x Hx; apply repeat_spec in Hx; subst; unfold byte_ok; lia|]. exists (repeat 0 k). reflexivity.
Qed.
(** Not so from 4 GiB on: the 32-bit box length wraps.  A codestream of 2^32
    zero bytes gives a file in which no codestream is found. *)
Theorem C37_4GiB_refuted : ~ (forall s isSRGB codestream file size, good_siz s -> bytes_ok codestream -> write_file s isSRGB codestream = Some (file, size) ->
  exists o, jph_parse_buffer file = Ret (true, o) /\ stretch file o = Some codestream).
Proof.
  intros H. set (s := Siz 8 8 0 0 [7]). assert (good_siz s) as Hs by (split; [unfold bytes_ok, byte_ok; cbn; repeat constructor; lia|left; reflexivity]).
  destruct (zeros (2 ^ 32) ltac:(lia)) as (cs & Lc & Hb & zs & Ec).
  assert (exists r, write_file s true cs = Some r) as ([file size] & Ew).
  { unfold write_file, jph_boxes. change (header_box s true) with (header_box (Siz 8 8 0 0 [7]) true). destruct (header_box (Siz 8 8 0 0 [7]) true) as [[]|] eqn:Eh; [|vm_compute in Eh; discriminate Eh]. destruct (contiguous_codestream_box (zlen cs)). eexists. reflexivity. }
  destruct (H s true cs file size Hs Hb Ew) as (o & P & _). apply (own_bytes s true Hs) in Ew. apply pair_inj in Ew. destruct Ew as [-> _]. rewrite Lc in P. change (wrap32 (wrap32 (2 ^ 32) + 8)) with (8 + zlen (@nil Z)) in P.
  destruct (own_good s true Hs) as (G1 & G2 & G3 & G4).
  set (bs := own_boxes s true ++ [Leaf false 0x6A703263 []]).
  assert (flat_map enc (signature :: own_boxes s true) ++ be32 (8 + zlen (@nil Z)) ++ be32 0x6A703263 ++ cs = flat_map enc (signature :: bs) ++ cs) as Ef.
  { unfold bs. change (signature :: own_boxes s true ++ [Leaf false 0x6A703263 []]) with ((signature :: own_boxes s true) ++ [Leaf false 0x6A703263 []]). rewrite (flat_map_app enc (signature :: own_boxes s true)). rewrite <- app_assoc. f_equal. }
  rewrite Ef in P.
  assert (bytes_ok (flat_map enc bs)) as Bb by (unfold bs; rewrite flat_map_app, bytes_ok_app; split; [exact G3|unfold bytes_ok, byte_ok; cbn; repeat constructor; lia]).
  destruct (scan_prefix bs cs) as (o1 & V & f & Hf & E).
  { unfold bs. clear -G1. induction (own_boxes s true) as [|b l IH]; cbn [app fold_right]; [split; [|exact I]; cbn; repeat split; try lia; constructor|]. destruct G1. split; [assumption|now apply IH]. }
  { unfold bs. rewrite map_app, fold_right_app. cbn [map fold_right height Nat.max]. exact G2. }
  { apply bytes_ok_app. split; [|exact Hb]. cbn [flat_map]. apply bytes_ok_app. split; [unfold bytes_ok, byte_ok; cbn; repeat constructor; lia|exact Bb]. }
  set (buf := flat_map enc (signature :: bs) ++ cs) in *. set (p := zlen (flat_map enc (signature :: bs))) in *.
  assert (rd32 buf p = Ret 0) as R1 by (unfold buf; rewrite Ec; apply rd32_be; [reflexivity|lia]).
  assert (rd32 buf (p + 4) = Ret 0) as R2 by (unfold buf; rewrite Ec, app_assoc; apply rd32_be; [rewrite zlen_app; reflexivity|lia]).
  assert (zlen buf = p + 2 ^ 32) as Lb by (unfold buf; rewrite zlen_app, Lc; reflexivity).
  destruct f as [|f]; [rewrite Lc in Hf; lia|].
  assert (jph_scan_boxes (S JPH_MAX_BOX_DEPTH) buf 0 (zlen buf) info0 = Ret o1) as Es.
  { rewrite E. cbn [scan_loop]. replace (p + 8 <=? zlen buf) with true by lia. rewrite R1, R2. cbn [bind]. unfold box_extent. change (0 =? 1) with false. change (0 =? 0) with true. cbv iota. cbn [bind]. change (0 =? BOX_JP2H) with false. change (0 =? BOX_COLR) with false. change (0 =? BOX_JP2C) with false. cbv iota. cbn [bind].
    destruct f; cbn [scan_loop]; (replace (zlen buf + 8 <=? zlen buf) with false by lia); reflexivity. }
  unfold jph_parse_buffer in P. assert (jph_is_signature buf (zlen buf) = Ret true) as Esg by (unfold buf; cbn [flat_map]; rewrite <- app_assoc; apply sig_ok). rewrite Esg in P. cbn [bind] in P. rewrite Es in P. cbn [bind] in P. apply Ret_inj, pair_inj in P. destruct P as [P _].
  destruct V as (_ & V2 & _). assert (fst (designates (flat_map leaves bs)) = Some []) as D by (unfold bs; rewrite flat_map_app; unfold designates; rewrite fold_left_app; reflexivity).
  rewrite D in V2. change (zlen (@nil Z)) with 0 in V2. rewrite V2 in P. destruct (cs_data o1); discriminate P.
Qed.
Print Assumptions C37_4GiB_refuted.

(** A colour specification with the extended length form nested two deep, a
    second one with METH 2 that does not count, and two codestreams. *)
Example C37_case :
  let bs := [Jp2h false [Leaf true 0x636F6C72 [1; 0; 0; 0; 0; 0; 17]; Jp2h true [Leaf false 0x636F6C72 [2; 0; 0; 9; 9; 9; 9]]]; Leaf false 0x6A703263 [1; 2]; Leaf true 0x6A703263 [0xFF; 0x4F; 0xFF]] in
  fold_right (fun b P => good b /\ P) True bs /\ designates (flat_map leaves bs) = (Some [0xFF; 0x4F; 0xFF], 17) /\
  jph_parse_buffer (flat_map enc (signature :: bs)) = Ret (true, Info (Some 100) 3 17).
Proof. split; [|split; vm_compute; reflexivity]. cbn -[Z.pow]. unfold bytes_ok, byte_ok. repeat split; try lia; repeat constructor; lia. Qed.
Example C37_written : exists file, write_file (Siz 640 480 0 0 [7; 7; 135]) true [0xFF; 0x4F; 0xFF; 0xD9] = Some (file, 89) /\ jph_parse_buffer file = Ret (true, Info (Some 85) 4 16).
Proof. eexists. split; vm_compute; reflexivity. Qed.
