(** Reading back what the writers write. *)
From Verif Require Import Base BaseLemmas SourceModel MarkerModel MarkerSafe.

Lemma w8_in v : 0 <= v < 256 -> w8 v = [v]. Proof. intros. unfold w8. rewrite Z.mod_small by lia. reflexivity. Qed.
Lemma w16_in v : 0 <= v < 65536 -> w16 v = [v / 256; v mod 256].
Proof. intros. unfold w16. rewrite Z.shiftr_div_pow2 by lia. change (2 ^ 8) with 256. rewrite (Z.mod_small (v / 256)); [reflexivity|]. split; [apply Z.div_pos; lia|]. apply Z.div_lt_upper_bound; lia. Qed.
Lemma w32_in v : 0 <= v < two32 -> w32 v = w16 (v / 65536) ++ w16 (v mod 65536).
Proof.
  intros H. rewrite two32_val in H. assert (0 <= v / 65536 < 65536) by (split; [apply Z.div_pos; lia|apply Z.div_lt_upper_bound; lia]).
  rewrite !w16_in by (first [assumption|apply Z.mod_pos_bound; lia]). unfold w32. rewrite !Z.shiftr_div_pow2 by lia.
  change (2 ^ 8) with 256. change (2 ^ 16) with 65536. change (2 ^ 24) with 16777216. cbn [app].
  replace (v / 16777216) with (v / 65536 / 256) by (rewrite Z.div_div by lia; reflexivity).
  rewrite (Z.mod_small (v / 65536 / 256)) by (split; [apply Z.div_pos; lia|apply Z.div_lt_upper_bound; lia]).
  replace (v mod 65536 / 256) with ((v / 256) mod 256). 2:{ change 65536 with (256 * 256). rewrite Z.rem_mul_r by lia. rewrite Z.add_comm, Z.mul_comm. rewrite Z.div_add_l by lia. rewrite (Z.div_small (v mod 256)) by (apply Z.mod_pos_bound; lia). lia. }
  replace (v mod 65536 mod 256) with (v mod 256). 2:{ change 65536 with (256 * 256). rewrite Z.rem_mul_r by lia. rewrite Z.add_mod by lia. rewrite (Z.mul_comm 256 _), Z.mod_mul by lia. rewrite Z.add_0_r, !Z.mod_mod by lia. reflexivity. }
  reflexivity.
Qed.
Lemma zlen_w8 v : zlen (w8 v) = 1. Proof. reflexivity. Qed.
Lemma zlen_w16 v : zlen (w16 v) = 2. Proof. reflexivity. Qed.
Lemma zlen_w32 v : zlen (w32 v) = 4. Proof. reflexivity. Qed.
Lemma w8_bytes v : bytes_ok (w8 v). Proof. repeat constructor; apply Z.mod_pos_bound; lia. Qed.
Lemma w16_bytes v : bytes_ok (w16 v). Proof. repeat constructor; apply Z.mod_pos_bound; lia. Qed.
Lemma w32_bytes v : bytes_ok (w32 v). Proof. repeat constructor; apply Z.mod_pos_bound; lia. Qed.

(** ** One segment *)
Section Seg.
Context (lmar : Z) (g : list Z).
(** From position [p] the segment goes on with [l]. *)
Definition At (p : Z) (l : list Z) : Prop := 0 <= p /\ p + zlen l <= lmar /\ exists tl, zskip p g = l ++ tl.
Lemma At_app p l k : At p (l ++ k) -> At (p + zlen l) k.
Proof.
  intros (Hp & Hl & tl & E). rewrite zlen_app in Hl. pose proof (zlen_nonneg l). split; [lia|]. split; [lia|]. exists tl.
  replace (p + zlen l) with (zlen l + p) by ring. rewrite <- zskip_zskip by lia. rewrite E. rewrite <- app_assoc. apply zskip_app. reflexivity.
Qed.
Lemma byte_at p b l : At p (b :: l) -> fbyte lmar g p = ret (p + 1, b) /\ At (p + 1) l.
Proof.
  intros H. split; [|apply (At_app p [b] l H)]. destruct H as (Hp & Hl & tl & E). rewrite zlen_cons in Hl. pose proof (zlen_nonneg l).
  unfold fbyte. replace (lmar <=? p) with false by lia. 
  assert (Hin : p < zlen g). { destruct (Z_lt_ge_dec p (zlen g)); [assumption|]. rewrite zskip_all in E by lia. discriminate. }
  rewrite rd_in by lia. rewrite (zskip_cons_nth 0) in E by lia. cbn [app] in E. assert (E' : znth 0 g p = b) by congruence. rewrite E'. reflexivity.
Qed.
Lemma byte_w8 p v l : 0 <= v < 256 -> At p (w8 v ++ l) -> fbyte lmar g p = ret (p + 1, v) /\ At (p + 1) l.
Proof. intros Hv H. rewrite w8_in in H by lia. apply byte_at. exact H. Qed.
Lemma word_w16 p v l : 0 <= v < 65536 -> At p (w16 v ++ l) -> fword lmar g p = ret (p + 2, v) /\ At (p + 2) l.
Proof.
  intros Hv H. rewrite w16_in in H by lia. cbn [app] in H. unfold fword. apply byte_at in H as [-> H]. cbn [bindx ret]. apply byte_at in H as [-> H]. cbn [bindx ret].
  replace (p + 1 + 1) with (p + 2) in * by ring. split; [|exact H]. rewrite Z.shiftl_mul_pow2 by lia. change (2 ^ 8) with 256.
  replace (v / 256 * 256 + v mod 256) with v by (rewrite (Z.div_mod v 256) at 1 by lia; ring). rewrite Z.mod_small by lia. reflexivity.
Qed.
Lemma dword_w32 p v l : 0 <= v < two32 -> At p (w32 v ++ l) -> fdword lmar g p = ret (p + 4, v) /\ At (p + 4) l.
Proof.
  intros Hv H. rewrite w32_in in H by lia. rewrite <- app_assoc in H. rewrite two32_val in Hv. unfold fdword.
  assert (0 <= v / 65536 < 65536) by (split; [apply Z.div_pos; lia|apply Z.div_lt_upper_bound; lia]).
  apply word_w16 in H as [-> H]; [|assumption]. cbn [bindx ret]. apply word_w16 in H as [-> H]; [|apply Z.mod_pos_bound; lia]. cbn [bindx ret].
  replace (p + 2 + 2) with (p + 4) in * by ring. split; [|exact H]. rewrite Z.shiftl_mul_pow2 by lia. change (2 ^ 16) with 65536.
  replace (v / 65536 * 65536 + v mod 65536) with v by (rewrite (Z.div_mod v 65536) at 1 by lia; ring). rewrite wrap32_id by (rewrite two32_val; lia). reflexivity.
Qed.
Lemma many_at {A} (item : Z -> ex (Z * A)) (enc : A -> list Z) (ok : A -> Prop) :
  (forall a p l, ok a -> At p (enc a ++ l) -> item p = ret (p + zlen (enc a), a) /\ 0 < zlen (enc a)) ->
  forall xs fuel p l, Forall ok xs -> At p (flat_map enc xs ++ l) -> (length xs <= fuel)%nat ->
  fmany fuel (zlen xs) item p = ret (p + zlen (flat_map enc xs), xs) /\ At (p + zlen (flat_map enc xs)) l.
Proof.
  intros Hitem. induction xs as [|a xs IH]; intros fuel p l Hok H Hf.
  - cbn [flat_map app] in *. change (zlen (@nil Z)) with 0. change (zlen (@nil A)) with 0. rewrite Z.add_0_r. split; [|exact H]. destruct fuel; reflexivity.
  - inversion Hok as [|? ? Ha Hxs]; subst. cbn [flat_map] in *. rewrite <- app_assoc in H. destruct (Hitem a p _ Ha H) as [E Hpos].
    pose proof (At_app _ _ _ H) as H'. cbn [length] in Hf. destruct fuel; [lia|]. cbn [fmany]. rewrite zlen_cons. pose proof (zlen_nonneg xs).
    replace (1 + zlen xs <=? 0) with false by lia. rewrite E. cbn [bindx ret]. replace (1 + zlen xs - 1) with (zlen xs) by ring.
    destruct (IH fuel (p + zlen (enc a)) l Hxs H' ltac:(lia)) as [E2 H2]. rewrite E2. cbn [bindx ret]. rewrite zlen_app, Z.add_assoc. split; [reflexivity|exact H2].
Qed.
(** every entry takes a byte at least, so there is fuel for all of them *)
Lemma loop_at {A} (item : Z -> ex (Z * A)) (enc : A -> list Z) (ok : A -> Prop) :
  (forall a p l, ok a -> At p (enc a ++ l) -> item p = ret (p + zlen (enc a), a) /\ 0 < zlen (enc a)) ->
  forall xs p l, Forall ok xs -> At p (flat_map enc xs ++ l) -> (forall a, ok a -> 0 < zlen (enc a)) ->
  loop lmar (zlen xs) item p = ret (p + zlen (flat_map enc xs), xs) /\ At (p + zlen (flat_map enc xs)) l.
Proof.
  intros Hitem xs p l Hok H Hpos. apply (many_at item enc ok Hitem); [exact Hok|exact H|].
  destruct H as (Hp & Hl & _). rewrite zlen_app in Hl. pose proof (zlen_nonneg l).
  assert (Hx : zlen xs <= zlen (flat_map enc xs)). { clear - Hok Hpos. induction xs as [|a xs IH]; [reflexivity|]. inversion Hok; subst. cbn [flat_map]. rewrite zlen_app, zlen_cons. specialize (Hpos a ltac:(assumption)). specialize (IH ltac:(assumption)). lia. }
  unfold zlen in Hx at 1. lia.
Qed.
Lemma loop_bytes xs p l : Forall (fun v => 0 <= v < 256) xs -> At p (flat_map w8 xs ++ l) ->
  loop lmar (zlen xs) (fbyte lmar g) p = ret (p + zlen xs, xs) /\ At (p + zlen xs) l.
Proof.
  intros Hok H. destruct (loop_at (fbyte lmar g) w8 (fun v => 0 <= v < 256)) with (xs := xs) (p := p) (l := l) as [E H2]; try assumption.
  - intros a q k Ha Hq. apply byte_w8 in Hq as [-> _]; [|exact Ha]. split; [reflexivity|reflexivity].
  - intros; reflexivity.
  - assert (EL : zlen (flat_map w8 xs) = zlen xs) by (clear; induction xs; [reflexivity|]; cbn [flat_map]; rewrite zlen_app, zlen_cons, IHxs, zlen_w8; ring).
    rewrite EL in *. split; assumption.
Qed.
Lemma loop_words xs p l : Forall (fun v => 0 <= v < 65536) xs -> At p (flat_map w16 xs ++ l) ->
  loop lmar (zlen xs) (fword lmar g) p = ret (p + 2 * zlen xs, xs) /\ At (p + 2 * zlen xs) l.
Proof.
  intros Hok H. destruct (loop_at (fword lmar g) w16 (fun v => 0 <= v < 65536)) with (xs := xs) (p := p) (l := l) as [E H2]; try assumption.
  - intros a q k Ha Hq. apply word_w16 in Hq as [-> _]; [|exact Ha]. split; [reflexivity|reflexivity].
  - intros; reflexivity.
  - assert (EL : zlen (flat_map w16 xs) = 2 * zlen xs) by (clear; induction xs; [reflexivity|]; cbn [flat_map]; rewrite zlen_app, zlen_cons, IHxs, zlen_w16; ring).
    rewrite EL in *. split; assumption.
Qed.
End Seg.

Lemma flat_w8_len xs : zlen (flat_map w8 xs) = zlen xs.
Proof. induction xs; [reflexivity|]. cbn [flat_map]. rewrite zlen_app, zlen_cons, IHxs, zlen_w8. ring. Qed.
Lemma flat_w16_len xs : zlen (flat_map w16 xs) = 2 * zlen xs.
Proof. induction xs; [reflexivity|]. cbn [flat_map]. rewrite zlen_app, zlen_cons, IHxs, zlen_w16. ring. Qed.

Definition u8 (v : Z) := 0 <= v < 256.
Definition u16 (v : Z) := 0 <= v < 65536.
Definition u32 (v : Z) := 0 <= v < two32.

(** The bytes after marker and length. *)
Definition siz_body (x : siz) : list Z :=
  w16 (Rsiz x) ++ w32 (Xsiz x) ++ w32 (Ysiz x) ++ w32 (XOsiz x) ++ w32 (YOsiz x)
  ++ w32 (XTsiz x) ++ w32 (YTsiz x) ++ w32 (XTOsiz x) ++ w32 (YTOsiz x) ++ w16 (Csiz x)
  ++ flat_map comp_bytes (Comps x).
Definition comp_good (c : Z * Z * Z) : Prop := let '(sg, xr, yr) := c in u8 sg /\ 1 <= xr < 256 /\ 1 <= yr < 256.
Definition siz_good (x : siz) : Prop :=
  u16 (Rsiz x) /\ u32 (Xsiz x) /\ u32 (Ysiz x) /\ u32 (XOsiz x) /\ u32 (YOsiz x) /\ u32 (XTsiz x) /\ u32 (YTsiz x) /\ u32 (XTOsiz x) /\ u32 (YTOsiz x)
  /\ 1 <= Csiz x <= 16384 /\ zlen (Comps x) = Csiz x /\ Forall comp_good (Comps x).

Ltac fld L := let E := fresh "E" in let H' := fresh "H" in
  match goal with H : At _ _ _ _ |- _ => apply L in H as [E H']; [rewrite E; clear E; cbn [bindx ret]|first [assumption|unfold u8, u16, u32 in *; lia|idtac]] end.

Lemma comps_len l : zlen (flat_map comp_bytes l) = 3 * zlen l.
Proof. induction l as [|[[a b] c] l IH]; [reflexivity|]. cbn [flat_map]. rewrite zlen_app, zlen_cons, IH. change (zlen (comp_bytes (a, b, c))) with 3. ring. Qed.
Lemma siz_body_len x : zlen (Comps x) = Csiz x -> zlen (siz_body x) = 36 + 3 * Csiz x.
Proof. intros H. unfold siz_body. rewrite !zlen_app, comps_len, !zlen_w16, !zlen_w32, H. ring. Qed.

Lemma siz_round x g tl : siz_good x -> g = siz_body x ++ tl -> parse_siz (38 + 3 * Csiz x) g = ret x.
Proof.
  intros (HR & HX & HY & HXO & HYO & HXT & HYT & HXTO & HYTO & HC & Hlen & Hcomps) ->.
  assert (H : At (38 + 3 * Csiz x) (siz_body x ++ tl) 0 (siz_body x ++ [])).
  { split; [lia|]. rewrite app_nil_r. split; [rewrite siz_body_len by assumption; lia|]. exists tl. apply zskip_0. }
  unfold siz_body in H at 2. rewrite <- !app_assoc in H. unfold parse_siz. set (g := siz_body x ++ tl) in *.
  fld word_w16. do 8 fld dword_w32. fld word_w16.
  replace ((Csiz x <? 1) || (16384 <? Csiz x)) with false by lia.
  rewrite (Z.mod_small (38 + 3 * Csiz x)) by lia. rewrite Z.ltb_irrefl. rewrite <- Hlen at 2.
  match goal with H : At ?lm _ ?p _ |- _ => set (lm0 := lm) in *; set (p0 := p) in * end.
  assert (Hitem : forall a p l, comp_good a -> At lm0 g p (comp_bytes a ++ l) -> siz_comp lm0 g p = ret (p + zlen (comp_bytes a), a) /\ 0 < zlen (comp_bytes a)).
  { clear. intros [[sg xr] yr] p l (Hs & Hxr & Hyr) Hp. unfold comp_bytes in Hp. rewrite <- !app_assoc in Hp. unfold siz_comp.
    fld byte_w8. fld byte_w8. fld byte_w8. replace ((xr =? 0) || (yr =? 0)) with false by lia. split; [|reflexivity].
    unfold comp_bytes. rewrite !zlen_app, !zlen_w8. replace (p + 1 + 1 + 1) with (p + (1 + (1 + 1))) by ring. reflexivity. }
  destruct (loop_at lm0 g (siz_comp lm0 g) comp_bytes comp_good Hitem (Comps x) p0 [] Hcomps) as [E _]; [assumption|intros [[? ?] ?] _; reflexivity|].
  rewrite E. cbn [bindx ret]. destruct x. reflexivity.
Qed.

(** *** CAP *)
Definition cap_on (P : Z) (is : list Z) : list Z := filter (fun i => Z.testbit P (31 - i)) is.
Lemma cap_loop_at lmar g C P : (forall i, u16 (znth 0 C i)) -> forall is n p l, zlen (cap_on P is) <= n < two64 ->
  At lmar g p (flat_map (fun i => w16 (znth 0 C i)) (cap_on P is) ++ l) ->
  cap_loop lmar g is P n p = ret (n - zlen (cap_on P is), map (fun i => if Z.testbit P (31 - i) then znth 0 C i else 0) is).
Proof.
  intros HC. induction is as [|i is IH]; intros n p l Hn H; cbn [cap_loop cap_on filter map].
  - change (zlen (@nil Z)) with 0. rewrite Z.sub_0_r. reflexivity.
  - cbn [cap_on filter] in Hn, H. destruct (Z.testbit P (31 - i)).
    + cbn [flat_map] in H. rewrite <- app_assoc in H. rewrite zlen_cons in Hn. pose proof (zlen_nonneg (filter (fun i => Z.testbit P (31 - i)) is)). fld word_w16; [|apply HC].
      assert (E64 : wrap64 (n - 1) = n - 1) by (apply Z.mod_small; lia). rewrite E64.
      rewrite (IH (n - 1) _ l); [|unfold cap_on; lia|assumption]. cbn [bindx ret]. rewrite zlen_cons. unfold cap_on.
      replace (n - 1 - zlen (filter (fun i => Z.testbit P (31 - i)) is)) with (n - (1 + zlen (filter (fun i => Z.testbit P (31 - i)) is))) by ring. reflexivity.
    + rewrite (IH n p l); [|exact Hn|exact H]. reflexivity.
Qed.
Lemma flat_w16_len' (f : Z -> Z) xs : zlen (flat_map (fun i => w16 (f i)) xs) = 2 * zlen xs.
Proof. induction xs; [reflexivity|]. cbn [flat_map]. rewrite zlen_app, zlen_cons, IHxs, zlen_w16. ring. Qed.
Lemma cap_on_le P is : zlen (cap_on P is) <= zlen is.
Proof. unfold cap_on. induction is as [|i is IH]; [reflexivity|]. cbn [filter]. destruct (Z.testbit P (31 - i)); rewrite ?zlen_cons; lia. Qed.
Section CapSeg.
Context (is : list Z).
(* [is] stays abstract: unfolding the 32 tests would be long *)
Lemma cap_parse lmar g P C k : u32 P -> (forall i, u16 (znth 0 C i)) -> zlen (cap_on P is) = k -> 0 <= k <= 32 -> lmar = 6 + 2 * k ->
  At lmar g 0 (w32 P ++ flat_map (fun i => w16 (znth 0 C i)) (cap_on P is) ++ []) ->
  (let n := wrap32 (lmar - 6) / 2 in
   let? (p, P) := fdword lmar g 0 in
   let? (n, l) := cap_loop lmar g is P n p in
   if n =? 0 then ret (Cap P l) else throw) = ret (Cap P (map (fun i => if Z.testbit P (31 - i) then znth 0 C i else 0) is)).
Proof.
  intros HP HC Hk Hk32 -> H0. rewrite wrap32_id by (rewrite two32_val; lia). cbv zeta.
  assert (Ek : (6 + 2 * k - 6) / 2 = k) by (replace (6 + 2 * k - 6) with (k * 2) by ring; apply Z.div_mul; lia). rewrite Ek.
  fld dword_w32. erewrite cap_loop_at; [|exact HC| |eassumption].
  2:{ rewrite Hk. assert (E64 : two64 = 18446744073709551616) by reflexivity. lia. }
  cbn [bindx ret]. rewrite Hk. rewrite Z.sub_diag. reflexivity.
Qed.
Lemma cap_at P C tl : At (6 + 2 * zlen (cap_on P is)) ((w32 P ++ flat_map (fun i => w16 (znth 0 C i)) (cap_on P is)) ++ tl) 0 (w32 P ++ flat_map (fun i => w16 (znth 0 C i)) (cap_on P is) ++ []).
Proof. split; [lia|]. rewrite app_nil_r. split; [rewrite zlen_app, zlen_w32, flat_w16_len'; lia|]. exists tl. apply zskip_0. Qed.
End CapSeg.
Lemma cap_round P C g tl : u32 P -> (forall i, u16 (znth 0 C i)) ->
  g = (w32 P ++ flat_map (fun i => w16 (znth 0 C i)) (cap_on P (zseq 32))) ++ tl ->
  parse_cap (6 + 2 * zlen (cap_on P (zseq 32))) g = ret (Cap P (map (fun i => if Z.testbit P (31 - i) then znth 0 C i else 0) (zseq 32))).
Proof.
  intros HP HC ->. unfold parse_cap.
  assert (E32 : zlen (zseq 32) = 32) by reflexivity. pose proof (cap_on_le P (zseq 32)) as Hle. pose proof (zlen_nonneg (cap_on P (zseq 32))).
  revert Hle H. rewrite E32. generalize (zseq 32). intros is Hle H.
  apply (cap_parse is _ _ P C _ HP HC eq_refl); [lia|reflexivity|apply cap_at].
Qed.

(** *** COD *)
Definition cod_body (x : cod) : list Z := w8 (Scod x) ++ w32 (SGcod x) ++ flat_map w8 (SPcod x).
Definition cod_good (x : cod) : Prop := u8 (Scod x) /\ u32 (SGcod x) /\ Forall u8 (SPcod x) /\ 5 <= zlen (SPcod x) /\ znth 0 (SPcod x) 0 <= 32.
Lemma cod_round x g tl L : cod_good x -> L = 7 + zlen (SPcod x) -> g = cod_body x ++ tl -> parse_cod L g = ret x.
Proof.
  intros (HS & HG & HP & H5 & H32) -> ->.
  assert (H : At (7 + zlen (SPcod x)) (cod_body x ++ tl) 0 (cod_body x ++ [])).
  { split; [lia|]. rewrite app_nil_r. split; [unfold cod_body; rewrite !zlen_app, zlen_w8, zlen_w32, flat_w8_len; lia|]. exists tl. apply zskip_0. }
  unfold cod_body in H at 2. rewrite <- !app_assoc in H. unfold parse_cod. set (g := cod_body x ++ tl) in *.
  fld byte_w8. fld dword_w32. replace (7 + zlen (SPcod x) - 7) with (zlen (SPcod x)) by ring.
  replace (zlen (SPcod x) <? 0) with false by lia.
  match goal with H : At _ _ _ _ |- _ => apply loop_bytes in H as [-> _]; [|exact HP] end. cbn [bindx ret].
  unfold at_least_5. replace (Z.to_nat (5 - zlen (SPcod x))) with 0%nat by lia. cbn [repeat]. rewrite app_nil_r.
  replace (32 <? znth 0 (SPcod x) 0) with false by lia. destruct x. reflexivity.
Qed.

(** *** QCD and QCC *)
Definition steps_bytes (reversible : bool) (l : list Z) : list Z := flat_map (if reversible then w8 else w16) l.
Definition qcd_body (reversible : bool) (x : qcd) : list Z := w8 (Sqcd x) ++ steps_bytes reversible (SPqcd x).
Definition steps_good (reversible : bool) (st : Z) (l : list Z) : Prop :=
  if reversible then Z.land st 31 = 0 /\ Forall u8 l else Z.land st 31 <> 0 /\ Forall u16 l.
Lemma steps_len rv l : zlen (steps_bytes rv l) = if rv then zlen l else 2 * zlen l.
Proof. destruct rv; [apply flat_w8_len|apply flat_w16_len]. Qed.
Lemma qcd_round rv x g tl L : u8 (Sqcd x) -> steps_good rv (Sqcd x) (SPqcd x) -> L = 3 + zlen (steps_bytes rv (SPqcd x)) ->
  g = qcd_body rv x ++ tl -> parse_qcd L g = ret x.
Proof.
  intros HS Hst -> ->. set (lm := 3 + zlen (steps_bytes rv (SPqcd x))).
  assert (H : At lm (qcd_body rv x ++ tl) 0 (qcd_body rv x ++ [])).
  { split; [lia|]. rewrite app_nil_r. split; [unfold qcd_body; rewrite !zlen_app, zlen_w8; lia|]. exists tl. apply zskip_0. }
  unfold qcd_body in H at 2. rewrite <- !app_assoc in H. unfold parse_qcd. set (g := qcd_body rv x ++ tl) in *.
  fld byte_w8. pose proof (zlen_nonneg (SPqcd x)). unfold steps_good, steps_bytes in *. destruct rv; destruct Hst as [H31 HP].
  - rewrite H31, Z.eqb_refl. unfold lm. rewrite flat_w8_len in *. replace (3 + zlen (SPqcd x) - 3) with (zlen (SPqcd x)) by ring. replace (zlen (SPqcd x) <? 0) with false by lia.
    match goal with H : At _ _ _ _ |- _ => apply loop_bytes in H as [E _]; [|exact HP] end. unfold lm in E. rewrite flat_w8_len in E. rewrite E. cbn [bindx ret]. destruct x; reflexivity.
  - replace (Z.land (Sqcd x) 31 =? 0) with false by lia. unfold lm. rewrite flat_w16_len in *. replace (3 + 2 * zlen (SPqcd x) - 3) with (zlen (SPqcd x) * 2) by ring. replace (zlen (SPqcd x) * 2 <? 0) with false by lia.
    rewrite Z.div_mul by lia. match goal with H : At _ _ _ _ |- _ => apply loop_words in H as [E _]; [|exact HP] end. unfold lm in E. rewrite flat_w16_len in E. rewrite E. cbn [bindx ret]. destruct x; reflexivity.
Qed.
Definition qcc_body (rv : bool) (x : qcc) : list Z := w8 (Cqcc x) ++ w8 (Sqcc x) ++ steps_bytes rv (SPqcc x).
Lemma qcc_round C rv x g tl L : C < 257 -> u8 (Cqcc x) -> u8 (Sqcc x) -> steps_good rv (Sqcc x) (SPqcc x) -> zlen (SPqcc x) < 30000 -> L = 4 + zlen (steps_bytes rv (SPqcc x)) ->
  g = qcc_body rv x ++ tl -> parse_qcc L g C = ret x.
Proof.
  intros HC HI HS Hst Hmax -> ->. set (lm := 4 + zlen (steps_bytes rv (SPqcc x))).
  assert (H : At lm (qcc_body rv x ++ tl) 0 (qcc_body rv x ++ [])).
  { split; [lia|]. rewrite app_nil_r. split; [unfold qcc_body; rewrite !zlen_app, !zlen_w8; lia|]. exists tl. apply zskip_0. }
  unfold qcc_body in H at 2. rewrite <- !app_assoc in H. unfold parse_qcc, comp_index, comp_len. replace (C <? 257) with true by lia. set (g := qcc_body rv x ++ tl) in *.
  fld byte_w8. fld byte_w8. cbv zeta. pose proof (zlen_nonneg (SPqcc x)). unfold steps_good, steps_bytes in *. assert (E64 : two64 = 18446744073709551616) by reflexivity. destruct rv; destruct Hst as [H31 HP].
  - rewrite H31, Z.eqb_refl. unfold lm. rewrite flat_w8_len in *. replace (4 + zlen (SPqcc x) - (3 + 1)) with (zlen (SPqcc x)) by ring. unfold wrap64. rewrite Z.mod_small by lia.
    match goal with H : At _ _ _ _ |- _ => apply loop_bytes in H as [E _]; [|exact HP] end. unfold lm in E. rewrite flat_w8_len in E. rewrite E. cbn [bindx ret]. destruct x; reflexivity.
  - replace (Z.land (Sqcc x) 31 =? 0) with false by lia. unfold lm. rewrite flat_w16_len in *. replace (4 + 2 * zlen (SPqcc x) - (3 + 1)) with (zlen (SPqcc x) * 2) by ring. rewrite Z.quot_mul by lia. unfold wrap64. rewrite Z.mod_small by lia.
    match goal with H : At _ _ _ _ |- _ => apply loop_words in H as [E _]; [|exact HP] end. unfold lm in E. rewrite flat_w16_len in E. rewrite E. cbn [bindx ret]. destruct x; reflexivity.
Qed.

(** *** TLM with 16-bit indices and 32-bit lengths *)
Definition tlm_pair (tp : list Z * Z) : list Z := flat_map w16 (fst tp) ++ w32 (snd tp).
Definition tlm_body (T P : list Z) : list Z := w8 0 ++ w8 96 ++ flat_map tlm_pair (combine (map (fun t => [t]) T) P).
Lemma combine_len {A B} (a : list A) (b : list B) : zlen a = zlen b -> zlen (combine a b) = zlen b.
Proof. unfold zlen. rewrite combine_length. lia. Qed.
Lemma tlm_pairs_len : forall T P : list Z, zlen T = zlen P -> zlen (flat_map tlm_pair (combine (map (fun t => [t]) T) P)) = 6 * zlen P.
Proof.
  induction T as [|t T IH]; intros [|v P] H; try (unfold zlen in H; cbn in H; lia); [reflexivity|]. rewrite !zlen_cons in H. cbn [map combine flat_map]. rewrite zlen_app, zlen_cons, IH by lia.
  change (zlen (tlm_pair ([t], v))) with 6. ring.
Qed.
Lemma tlm_split : forall T P : list Z, zlen T = zlen P -> flat_map fst (combine (map (fun t : Z => [t]) T) P) = T /\ map snd (combine (map (fun t : Z => [t]) T) P) = P.
Proof.
  induction T as [|t T IH]; intros [|v P] H; try (unfold zlen in H; cbn in H; lia); [split; reflexivity|]. rewrite !zlen_cons in H. destruct (IH P) as [E1 E2]; [lia|]. cbn [map combine flat_map fst snd app]. rewrite E1, E2. split; reflexivity.
Qed.
Lemma tlm_round T P g tl : zlen T = zlen P -> Forall u16 T -> Forall u32 P -> 4 + 6 * zlen P < 65536 -> g = tlm_body T P ++ tl ->
  parse_tlm (4 + 6 * zlen P) g = ret (Tlm 0 96 T P).
Proof.
  intros Hlen HT HP Hmax ->. set (lm := 4 + 6 * zlen P).
  assert (H : At lm (tlm_body T P ++ tl) 0 (tlm_body T P ++ [])).
  { split; [lia|]. rewrite app_nil_r. split; [unfold tlm_body; rewrite !zlen_app, !zlen_w8, tlm_pairs_len by assumption; lia|]. exists tl. apply zskip_0. }
  unfold tlm_body in H at 2. rewrite <- !app_assoc in H. unfold parse_tlm. set (g := tlm_body T P ++ tl) in *.
  fld byte_w8. fld byte_w8. change (tlm_ST 96) with 2. change (tlm_SP 96) with 1. cbn [Z.eqb Pos.eqb]. pose proof (zlen_nonneg P).
  unfold lm at 2. replace (4 + 6 * zlen P - 4) with (zlen P * 6) by ring. rewrite Z.quot_mul by lia. unfold wrap64. rewrite Z.mod_small by (change two64 with 18446744073709551616; lia).
  set (xs := combine (map (fun t : Z => [t]) T) P) in *.
  assert (Hxs : zlen xs = zlen P). { apply combine_len. rewrite <- Hlen. unfold zlen. rewrite map_length. reflexivity. }
  set (okp := fun tp : list Z * Z => exists t, fst tp = [t] /\ u16 t /\ u32 (snd tp)).
  assert (Hok : Forall okp xs).
  { unfold xs. clear - Hlen HT HP. revert P Hlen HP. induction HT as [|t T Ht HT IH]; intros [|v P] Hlen HP; try constructor.
    - exists t. inversion HP; subst. split; [reflexivity|]. split; assumption.
    - rewrite !zlen_cons in Hlen. inversion HP; subst. apply IH; [lia|assumption]. }
  rewrite <- Hxs.
  assert (Hitem : forall a p l, okp a -> At lm g p (tlm_pair a ++ l) -> tlm_entry lm g 2 1 p = ret (p + zlen (tlm_pair a), a) /\ 0 < zlen (tlm_pair a)).
  { intros [t0 v] p l (t & E & Ht & Hv) Hp. cbn [fst snd] in *. subst t0. unfold tlm_pair in Hp. cbn [fst snd flat_map] in Hp. rewrite app_nil_r in Hp. rewrite <- app_assoc in Hp.
    unfold tlm_entry. cbn [Z.eqb Pos.eqb]. fld word_w16. fld dword_w32. split; [|reflexivity]. change (zlen (tlm_pair ([t], v))) with 6. replace (p + 2 + 4) with (p + 6) by ring. reflexivity. }
  match goal with H : At lm g ?p _ |- _ => destruct (loop_at lm g (tlm_entry lm g 2 1) tlm_pair okp Hitem xs p [] Hok H) as [E _] end.
  { intros [t0 v] (t & E & _). cbn in E. subst. reflexivity. }
  rewrite E. cbn [bindx ret]. destruct (tlm_split T P Hlen) as [E1 E2]. fold xs in E1, E2. rewrite E1, E2. reflexivity.
Qed.

(** *** COM *)
Definition com_body (x : com) : list Z := w16 (Rcom x) ++ flat_map w8 (Ccom x).
Lemma com_round x g tl : u16 (Rcom x) -> Forall u8 (Ccom x) -> zlen (Ccom x) < 65000 -> g = com_body x ++ tl -> parse_com (4 + zlen (Ccom x)) g = ret x.
Proof.
  intros HR HC Hmax ->. set (lm := 4 + zlen (Ccom x)).
  assert (H : At lm (com_body x ++ tl) 0 (com_body x ++ [])).
  { split; [lia|]. rewrite app_nil_r. split; [unfold com_body; rewrite zlen_app, zlen_w16, flat_w8_len; lia|]. exists tl. apply zskip_0. }
  unfold com_body in H at 2. rewrite <- !app_assoc in H. unfold parse_com. set (g := com_body x ++ tl) in *.
  fld word_w16. pose proof (zlen_nonneg (Ccom x)). unfold lm at 2. replace (4 + zlen (Ccom x) - 4) with (zlen (Ccom x)) by ring. unfold wrap64. rewrite Z.mod_small by (change two64 with 18446744073709551616; lia).
  match goal with H : At _ _ _ _ |- _ => apply loop_bytes in H as [E _]; [|exact HC] end. rewrite E. cbn [bindx ret]. destruct x; reflexivity.
Qed.
