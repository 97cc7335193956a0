(** The pass loop of PassModel.v against the passes of PassSpec.v. *)
From Verif Require Import Base BaseLemmas OutModel OutProofs PassModel PassSpec PassProofs.

(** ** Bytes of the passes *)
Lemma bytes_S plen z : 0 <= z -> bytes_before plen (z + 1) = bytes_before plen z + znth 0 plen z.
Proof.
  intros Hz. unfold bytes_before. rewrite zseq_snoc, map_app, fold_right_app by exact Hz. cbn [map fold_right]. rewrite Z.add_0_r. generalize (znth 0 plen z) as v. intros v.
  induction (map (fun i => znth 0 plen i) (zseq z)) as [|a l IH]; cbn [fold_right]; lia.
Qed.
Lemma bytes_mono plen n z : (forall v, In v plen -> 0 <= v) -> 0 <= z -> 0 <= n -> z + n <= zlen plen -> bytes_before plen z <= bytes_before plen (z + n).
Proof.
  intros Hp Hz. revert n. apply (natlike_ind (fun n => z + n <= zlen plen -> bytes_before plen z <= bytes_before plen (z + n))); [intros _; rewrite Z.add_0_r; lia|].
  intros n Hn IH H. replace (z + Z.succ n) with (z + n + 1) by lia. rewrite bytes_S by lia. pose proof (Hp (znth 0 plen (z + n)) (znth_In 0 plen (z + n) ltac:(lia))). lia.
Qed.
Lemma bytes_0 plen : bytes_before plen 0 = 0.
Proof. reflexivity. Qed.
Lemma sum_bytes plen z n : (forall v, In v plen -> 0 <= v) -> 0 <= z -> 0 <= n -> z + n <= zlen plen -> bytes_before plen (z + n) < 2 ^ 32 ->
  foldo (fun a i => let* v := rd plen (z + i) in Ret (wrap32 (a + v))) 0 (zseq n) = Ret (bytes_before plen (z + n) - bytes_before plen z).
Proof.
  intros Hp Hz. revert n. apply (natlike_ind (fun n => z + n <= zlen plen -> bytes_before plen (z + n) < 2 ^ 32 -> foldo (fun a i => let* v := rd plen (z + i) in Ret (wrap32 (a + v))) 0 (zseq n) = Ret (bytes_before plen (z + n) - bytes_before plen z))).
  - intros _ _. rewrite Z.add_0_r, Z.sub_diag. reflexivity.
  - intros n Hn IH H1 H2. unfold Z.succ in *. replace (z + (n + 1)) with (z + n + 1) in * by lia. rewrite bytes_S in * by lia. pose proof (Hp (znth 0 plen (z + n)) (znth_In 0 plen (z + n) ltac:(lia))) as Hv.
    rewrite zseq_snoc, foldo_app, IH by lia. cbn [bind foldo]. rewrite rd_in by lia. cbn [bind]. f_equal.
    pose proof (bytes_mono plen z 0 Hp ltac:(lia) Hz ltac:(lia)) as M0. rewrite Z.add_0_l, bytes_0 in M0. pose proof (bytes_mono plen n z Hp Hz Hn ltac:(lia)) as M1.
    rewrite wrap32_small; [lia|]. change two32 with (2 ^ 32). lia.
Qed.

(** ** Codeword segments *)
Section Segments.
  Variables bypass restart : bool.
  Variable num_pass : Z.
  Lemma seg_end_at fuel : forall z e, z <= e <= num_pass -> (forall z', z <= z' < e -> starts bypass restart z' = false) -> e = num_pass \/ starts bypass restart e = true -> (Z.to_nat (e - z) <= fuel)%nat ->
    seg_end bypass restart num_pass fuel z = e.
  Proof.
    induction fuel as [|fuel IH]; intros z e He Hn Hs Hf; cbn [seg_end]; [lia|]. destruct (Z.eq_dec z e) as [->|N].
    - destruct Hs as [->|Hs]; [replace (num_pass <=? num_pass) with true by lia; reflexivity|]. rewrite Hs, orb_true_r. reflexivity.
    - replace (num_pass <=? z) with false by lia. rewrite (Hn z) by lia. cbn [orb]. apply IH; [lia|intros; apply Hn; lia|exact Hs|lia].
  Qed.
  (** Passes in the segment that starts with pass [z], and its kind, as the
      code finds them. *)
  Variables Mb ROIshift num_ZBP : Z.
  Definition seg_n (z k : Z) (is_raw : bool) : Z * bool :=
    let thr := if bypass then 10 else 0 in
    let '(n, is_raw) :=
      if 0 <? thr then
        if z <? thr then ((thr - z) mod 256, is_raw)
        else if k =? 2 then (1, false) else (2, true)
      else (max_passes Mb ROIshift num_ZBP mod 256, is_raw) in
    let n := if restart then 1 else n in
    (if num_pass <? z + n then (num_pass - z) mod 256 else n, is_raw).
  Hypothesis Hnp : num_pass <= max_passes Mb ROIshift num_ZBP <= 255.
  Lemma seg_n_ok z is_raw : 0 <= z < num_pass -> starts bypass restart z = true -> (is_raw = true -> bypass = true /\ 10 <= z) ->
    let '(n, r) := seg_n z (kind z) is_raw in
    1 <= n /\ z + n <= num_pass /\ (forall z', z < z' < z + n -> starts bypass restart z' = false) /\ (forall z', z <= z' < z + n -> is_raw_pass bypass z' = r) /\
    (z + n = num_pass \/ starts bypass restart (z + n) = true).
  Proof.
    intros Hz Hs Hr. unfold seg_n. remember (max_passes Mb ROIshift num_ZBP) as mp eqn:Emp. clear Emp. unfold starts, is_raw_pass, kind in *.
    assert (Hrw : is_raw = true -> bypass = true /\ 10 <= z) by exact Hr. clear Hr.
    assert (Hrf : bypass = false \/ z < 10 -> is_raw = false). { intros D. destruct is_raw; [|reflexivity]. destruct (Hrw eq_refl) as [-> ?]. destruct D; [discriminate|lia]. }
    destruct bypass; cbn [andb orb] in *.
    - change (0 <? 10) with true. cbv iota. destruct (Z.ltb_spec z 10) as [L|L].
      + rewrite Hrf by lia. replace (10 <=? z) with false in Hs by lia. cbn [andb] in Hs. rewrite orb_false_r in Hs.
        destruct restart; cbn [orb].
        * replace (num_pass <? z + 1) with false by lia. split; [lia|]. split; [lia|]. split; [intros; lia|]. split; [|right; rewrite !orb_true_r; reflexivity].
          intros z' Hz'. replace (10 <=? z') with false by lia. reflexivity.
        * rewrite orb_false_r in Hs. assert (z = 0) by lia. subst z. change ((10 - 0) mod 256) with 10. destruct (Z.ltb_spec num_pass (0 + 10)) as [N|N].
          -- rewrite Z.mod_small by lia. split; [lia|]. split; [lia|]. split; [|split; [|left; lia]]; intros z' Hz'; replace (10 <=? z') with false by lia; [replace (z' =? 0) with false by lia|]; reflexivity.
          -- split; [lia|]. split; [lia|]. split; [|split; [|right; reflexivity]]; intros z' Hz'; replace (10 <=? z') with false by lia; [replace (z' =? 0) with false by lia|]; reflexivity.
      + replace (10 <=? z) with true in Hs by lia. cbn [andb] in Hs. destruct (Z.eqb_spec ((z + 2) mod 3) 2) as [K|K].
        * replace (if restart then 1 else 1) with 1 by (destruct restart; reflexivity). replace (num_pass <? z + 1) with false by lia. split; [lia|]. split; [lia|]. split; [intros; lia|]. split.
          -- intros z' Hz'. assert (z' = z) by lia. subst z'. replace ((z + 2) mod 3 =? 2) with true by lia. apply andb_false_r.
          -- right. replace (10 <=? z + 1) with true by lia. replace ((z + 1 + 2) mod 3 =? 1) with false by lia. rewrite orb_true_r. reflexivity.
        * destruct restart; cbn [orb].
          -- replace (num_pass <? z + 1) with false by lia. split; [lia|]. split; [lia|]. split; [intros; lia|]. split; [|right; rewrite orb_true_r; reflexivity].
             intros z' Hz'. assert (z' = z) by lia. subst z'. replace (10 <=? z) with true by lia. replace ((z + 2) mod 3 =? 2) with false by lia. reflexivity.
          -- replace (z =? 0) with false in Hs by lia. cbn [orb] in Hs. assert (K0 : (z + 2) mod 3 = 0) by lia.
             destruct (Z.ltb_spec num_pass (z + 2)) as [N|N].
             ++ rewrite Z.mod_small by lia. split; [lia|]. split; [lia|]. split; [intros; lia|]. split; [|left; lia].
                intros z' Hz'. assert (z' = z) by lia. subst z'. replace (10 <=? z) with true by lia. replace ((z + 2) mod 3 =? 2) with false by lia. reflexivity.
             ++ split; [lia|]. split; [lia|]. split; [|split].
                ** intros z' Hz'. assert (z' = z + 1) by lia. subst z'. replace (z + 1 =? 0) with false by lia. replace ((z + 1 + 2) mod 3 =? 1) with true by lia. rewrite andb_false_r. reflexivity.
                ** intros z' Hz'. replace (10 <=? z') with true by lia. replace ((z' + 2) mod 3 =? 2) with false by lia. reflexivity.
                ** right. replace (10 <=? z + 2) with true by lia. replace ((z + 2 + 2) mod 3 =? 1) with false by lia. rewrite orb_true_r. reflexivity.
    - change (0 <? 0) with false. cbv iota. rewrite Hrf by (left; reflexivity). destruct restart; cbn [orb].
      + replace (num_pass <? z + 1) with false by lia. split; [lia|]. split; [lia|]. split; [intros; lia|]. split; [intros; reflexivity|right; rewrite !orb_true_r; reflexivity].
      + rewrite !orb_false_r in Hs. assert (z = 0) by lia. subst z. rewrite (Z.mod_small mp) by lia.
        assert (E : (if num_pass <? 0 + mp then (num_pass - 0) mod 256 else mp) = num_pass). { destruct (Z.ltb_spec num_pass (0 + mp)) as [N|N]; [rewrite Z.mod_small by lia; lia|lia]. }
        rewrite E. split; [lia|]. split; [lia|]. split; [|split; [intros; reflexivity|left; lia]]. intros z' Hz'. replace (z' =? 0) with false by lia. reflexivity.
  Qed.
End Segments.

Section Run.
  Variable src : Type.
  Variable dec : src -> Z -> out (Z * src).
  Variable raw : src -> out (Z * src).
  Variables w h orient : Z.
  Variable causal : bool.
  Hypothesis Hw : 1 <= w.
  Hypothesis Hh : 1 <= h.
  Hypothesis Ho : 0 <= orient < 4.
  Variable okS : src -> Prop.
  Hypothesis Hdec : forall s l x s', okS s -> dec s l = Ret (x, s') -> (x = 0 \/ x = 1) /\ okS s'.
  Hypothesis Hraw : forall s x s', okS s -> raw s = Ret (x, s') -> (x = 0 \/ x = 1) /\ okS s'.
  Variable seg : src -> Z -> Z -> bool -> out src.
  Variable reset : src -> src.
  Hypothesis Hseg : forall s pos n r s', okS s -> seg s pos n r = Ret s' -> okS s'.
  Hypothesis Hres : forall s, okS s -> okS (reset s).
  Variables bypass reset_cx restart segmark : bool.
  Variable plen : list Z.
  Variable length : Z.
  Variable num_pass : Z.
  Variables Mb ROIshift num_ZBP : Z.
  Hypothesis Hz0 : 0 <= num_ZBP.
  Hypothesis HM : Mb + ROIshift <= 31.
  Hypothesis Hnp : num_pass <= max_passes Mb ROIshift num_ZBP.
  Hypothesis Hpl : forall v, In v plen -> 0 <= v.
  Hypothesis Hpn : num_pass <= zlen plen.
  Hypothesis Hpb : bytes_before plen num_pass < 2 ^ 32.

  Notation R := (R src w h orient causal okS).
  Definition samex (o : ex (blk src)) (o' : ex (coefs src)) : Prop :=
    match o, o' with Ret (Some b), Ret (Some s) => R b s | Ret None, Ret None => True | UB, UB => True | NoFuel, NoFuel => True | _, _ => False end.
  Lemma samex_bind o o' f g : samex o o' -> (forall b s, R b s -> samex (f b) (g s)) -> samex (bindx o f) (bindx o' g).
  Proof using. clear. intros H K. destruct o as [[b|]| |], o' as [[s|]| |]; try contradiction; cbn; try exact I. apply K. exact H. Qed.
  Lemma same_samex o o' : same src w h orient causal okS o o' -> samex (let* b := o in ret b) (let* s := o' in ret s).
  Proof using. clear. destruct o, o'; try contradiction; cbn; auto. Qed.

  Notation start := (start src seg bypass restart plen length num_pass Mb ROIshift num_ZBP).
  Notation one_pass := (one_pass src dec raw w h orient causal reset reset_cx segmark).
  Notation passes := (passes src dec raw w h orient causal seg reset bypass reset_cx restart segmark plen length num_pass Mb ROIshift num_ZBP).
  Notation a_pass := (a_pass src dec raw w h orient causal seg reset bypass reset_cx restart segmark plen length num_pass (30 - num_ZBP)).
  Notation plane_of := (plane_of (30 - num_ZBP)).

  Lemma plane_range z : 0 <= z < num_pass -> 0 <= plane_of z < 31.
  Proof using Hz0 HM Hnp. clear - Hz0 HM Hnp. intros Hz. unfold PassSpec.plane_of, max_passes in *. lia. Qed.

  (** The pass itself. *)
  Definition body (s : coefs src) (z : Z) : ex (coefs src) :=
    let s := if (z =? 0) || reset_cx then with_cso src s (reset (cso s)) else s in
    let p := plane_of z in
    if kind z =? 0 then let* s := spp src dec raw w h orient causal (is_raw_pass bypass z) p s in ret s
    else if kind z =? 1 then let* s := mrp src dec raw w h orient causal (is_raw_pass bypass z) p s in ret s
    else
      let* s := cup src dec raw w h orient causal p s in
      if segmark then
        let* (a, s) := decide src dec s 18 in
        let* (b, s) := decide src dec s 18 in
        let* (c, s) := decide src dec s 18 in
        let* (d, s) := decide src dec s 18 in
        if (a =? 1) && (b =? 0) && (c =? 1) && (d =? 0) then ret s else throw
      else ret s.
  Lemma one_pass_R b s z r : R b s -> 0 <= z < num_pass -> r = is_raw_pass bypass z -> samex (one_pass z (kind z) (plane_of z) r b) (body s z).
  Proof using Hh Ho Hdec Hraw Hseg Hres Hz0 HM Hnp. clear - Hh Ho Hdec Hraw Hseg Hres Hz0 HM Hnp.
    intros Hr Hz ->. pose proof (plane_range z Hz) as Hp. unfold PassModel.one_pass, body. replace (31 <? plane_of z) with false by lia.
    set (b1 := if (z =? 0) || reset_cx then with_so src b (reset (so b)) else b). set (s1 := if (z =? 0) || reset_cx then with_cso src s (reset (cso s)) else s).
    assert (Hr1 : R b1 s1). { unfold b1, s1. destruct ((z =? 0) || reset_cx); [|exact Hr]. destruct Hr as (A & B & C & D & E). rewrite <- D. apply R_src; [|apply Hres; rewrite D; exact (proj2 E)]. split; [exact A|]. split; [exact B|]. split; [exact C|]. split; [exact D|exact E]. }
    clearbody b1 s1. cbv zeta. destruct (kind z =? 0); [apply same_samex, spp_R; assumption|]. destruct (kind z =? 1); [apply same_samex, mrp_R; assumption|].
    pose proof (cup_pass_R src dec raw w h orient causal Hh Ho okS Hdec Hraw (plane_of z) b1 s1 Hp Hr1) as K.
    destruct (cleanup src dec w h orient causal (plane_of z) b1) as [b2| |], (cup src dec raw w h orient causal (plane_of z) s1) as [s2| |]; try contradiction; cbn [bind]; try exact I.
    destruct segmark; [|exact K]. change (zseq 4) with [0; 1; 2; 3]. cbn [foldo fst snd]. unfold ask, decide. destruct K as (A & B & C & D & E). rewrite D.
    destruct (dec (cso s2) 18) as [[v1 o1]| |] eqn:E1; cbn [bind fst snd with_so with_cso so cso]; try exact I. destruct (Hdec _ _ _ _ (proj2 E) E1) as [V1 K1].
    destruct (dec o1 18) as [[v2 o2]| |] eqn:E2; cbn [bind fst snd with_so with_cso so cso]; try exact I. destruct (Hdec _ _ _ _ K1 E2) as [V2 K2].
    destruct (dec o2 18) as [[v3 o3]| |] eqn:E3; cbn [bind fst snd with_so with_cso so cso]; try exact I. destruct (Hdec _ _ _ _ K2 E3) as [V3 K3].
    destruct (dec o3 18) as [[v4 o4]| |] eqn:E4; cbn [bind fst snd with_so with_cso so cso]; try exact I. destruct (Hdec _ _ _ _ K3 E4) as [V4 K4].
    destruct V1 as [-> | ->], V2 as [-> | ->], V3 as [-> | ->], V4 as [-> | ->]; try exact I.
    split; [exact A|]. split; [exact B|]. split; [exact C|]. split; [reflexivity|]. split; [exact (proj1 E)|exact K4].
  Qed.

  (** The loop. *)
  Definition Iseg (z n : Z) (is_raw : bool) (pos : Z) : Prop :=
    (is_raw = true -> bypass = true /\ 10 <= z) /\ 0 <= n /\ z + n <= num_pass /\
    (forall z', z <= z' < z + n -> starts bypass restart z' = false /\ is_raw_pass bypass z' = is_raw) /\
    pos = bytes_before plen (z + n) /\ (z + n < num_pass -> starts bypass restart (z + n) = true).
  Lemma start_R b s z is_raw : R b s -> 0 <= z < num_pass -> starts bypass restart z = true -> Iseg z 0 is_raw (bytes_before plen z) ->
    exists n r, 1 <= n /\ (is_raw_pass bypass z = r) /\ Iseg (z + 1) (n - 1) r (bytes_before plen (z + n)) /\ n <= num_pass /\
      match start z (kind z) is_raw (bytes_before plen z) b,
            (if length <? bytes_before plen z + seg_bytes bypass restart plen num_pass z then throw else let* o := seg (cso s) (bytes_before plen z) (seg_bytes bypass restart plen num_pass z) (is_raw_pass bypass z) in ret (with_cso src s o)) with
      | Ret (Some (n', r', pos', b')), Ret (Some s') => n' = n /\ r' = r /\ pos' = bytes_before plen (z + n) /\ R b' s'
      | Ret None, Ret None => True
      | UB, UB => True
      | NoFuel, NoFuel => True
      | _, _ => False
      end.
  Proof using Hseg Hz0 HM Hnp Hpl Hpn Hpb. clear - Hseg Hz0 HM Hnp Hpl Hpn Hpb.
    intros Hr Hz Hs Hi. destruct Hi as (Hraw' & _). pose proof (seg_n_ok bypass restart num_pass Mb ROIshift num_ZBP ltac:(unfold max_passes in *; lia) z is_raw Hz Hs Hraw') as K.
    assert (Hst : start z (kind z) is_raw (bytes_before plen z) b = let '(n, r) := seg_n bypass restart num_pass Mb ROIshift num_ZBP z (kind z) is_raw in
      let* bytes := foldo (fun a i => let* v := rd plen (z + i) in Ret (wrap32 (a + v))) 0 (zseq n) in
      if length <? bytes_before plen z + bytes then throw else
      let* s := seg (so b) (bytes_before plen z) bytes r in ret (n, r, wrap32 (bytes_before plen z + bytes), with_so src b s)).
    { unfold PassModel.start, seg_n. repeat match goal with |- context [if ?c then (_, _) else _] => destruct c end; reflexivity. }
    rewrite Hst. clear Hst. destruct (seg_n bypass restart num_pass Mb ROIshift num_ZBP z (kind z) is_raw) as [n r]. destruct K as (K1 & K2 & K3 & K4 & K5).
    assert (Hbn : bytes_before plen (z + n) < 2 ^ 32). { pose proof (bytes_mono plen (num_pass - (z + n)) (z + n) Hpl ltac:(lia) ltac:(lia) ltac:(lia)) as M. replace (z + n + (num_pass - (z + n))) with num_pass in M by lia. lia. }
    assert (Hb0 : 0 <= bytes_before plen (z + n)). { pose proof (bytes_mono plen (z + n) 0 Hpl ltac:(lia) ltac:(lia) ltac:(lia)) as M. rewrite Z.add_0_l, bytes_0 in M. exact M. }
    exists n, r. split; [exact K1|]. split; [apply K4; lia|]. split; [|split; [lia|]].
    - split; [|split; [lia|split; [lia|split; [|split]]]].
      + intros Er. pose proof (K4 z ltac:(lia)) as E. rewrite Er in E. unfold is_raw_pass in E. destruct bypass; [|discriminate E]. destruct (Z.leb_spec 10 z); [split; [reflexivity|lia]|discriminate E].
      + intros z' Hz'. split; [apply K3; lia|apply K4; lia].
      + f_equal. lia.
      + intros L. destruct K5 as [K5|K5]; [lia|]. replace (z + 1 + (n - 1)) with (z + n) by lia. exact K5.
    - rewrite sum_bytes by (assumption || lia). cbn [bind].
      assert (Es : seg_bytes bypass restart plen num_pass z = bytes_before plen (z + n) - bytes_before plen z).
      { unfold seg_bytes. rewrite (seg_end_at bypass restart num_pass (Z.to_nat num_pass) (z + 1) (z + n)); [reflexivity|lia|intros z' Hz'; apply K3; lia|exact K5|lia]. }
      rewrite Es. rewrite (K4 z) by lia. replace (bytes_before plen z + (bytes_before plen (z + n) - bytes_before plen z)) with (bytes_before plen (z + n)) by lia.
      destruct (length <? bytes_before plen (z + n)); [exact I|]. destruct Hr as (A & B & C & D & E). rewrite D. destruct (seg (cso s) _ _ r) as [o| |] eqn:Eg; cbn [bind]; try exact I.
      split; [reflexivity|]. split; [reflexivity|]. split; [apply wrap32_small; change two32 with (2 ^ 32); lia|]. apply R_src; [|exact (Hseg _ _ _ _ _ (proj2 E) Eg)]. split; [exact A|]. split; [exact B|]. split; [exact C|]. split; [exact D|exact E].
  Qed.
  Lemma a_pass_eq s z : a_pass s z = bindx (if starts bypass restart z then
                if length <? bytes_before plen z + seg_bytes bypass restart plen num_pass z then throw else
                let* o := seg (cso s) (bytes_before plen z) (seg_bytes bypass restart plen num_pass z) (is_raw_pass bypass z) in ret (with_cso src s o)
              else ret s) (fun s => body s z).
  Proof using. reflexivity. Qed.

  Lemma passes_R m : forall z fuel k p n is_raw pos b s, 0 <= z -> z + Z.of_nat m = num_pass -> (m <= fuel)%nat -> R b s -> Iseg z n is_raw pos ->
    (if k =? 3 then (0, (p - 1) mod 256) else (k, p)) = (kind z, if 0 <? Z.of_nat m then plane_of z else snd (if k =? 3 then (0, (p - 1) mod 256) else (k, p))) ->
    samex (passes fuel z k p n is_raw pos b) (foldx a_pass s (map (Z.add z) (zseq (Z.of_nat m)))).
  Proof using Hh Ho Hdec Hraw Hseg Hres Hz0 HM Hnp Hpl Hpn Hpb. clear - Hh Ho Hdec Hraw Hseg Hres Hz0 HM Hnp Hpl Hpn Hpb.
    induction m as [|m IH]; intros z fuel k p n is_raw pos b s Hz Hm Hf Hr Hi Hk.
    { destruct fuel; cbn [PassModel.passes]; replace (num_pass <=? z) with true by lia; exact Hr. }
    assert (Hmp : max_passes Mb ROIshift num_ZBP <= 91) by (clear - Hz0 HM; unfold max_passes; lia).
    destruct fuel as [|fuel]; [lia|]. cbn [PassModel.passes]. replace (num_pass <=? z) with false by lia. rewrite Hk. replace (0 <? Z.of_nat (S m)) with true by lia.
    rewrite zseq_cons by lia. cbn [map foldx]. rewrite Z.add_0_r, map_map. replace (Z.of_nat (S m) - 1) with (Z.of_nat m) by lia.
    rewrite (map_ext _ (Z.add (z + 1))) by (intros i; lia). rewrite a_pass_eq.
    assert (Hnext : forall n' r' pos' b' s', R b' s' -> 1 <= n' <= num_pass -> r' = is_raw_pass bypass z -> Iseg (z + 1) (n' - 1) r' pos' ->
      samex (bindx (one_pass z (kind z) (plane_of z) r' b') (fun b0 => passes fuel ((z + 1) mod 256) ((kind z + 1) mod 256) (plane_of z) ((n' - 1) mod 256) r' pos' b0)) (bindx (body s' z) (fun a => foldx a_pass a (map (Z.add (z + 1)) (zseq (Z.of_nat m)))))).
    { intros n' r' pos' b' s' Hr' Hn' Er Hi'. apply samex_bind; [apply one_pass_R; [exact Hr'|lia|exact Er]|]. intros b2 s2 Hr2.
      assert (Hkd : kind (z + 1) = if kind z =? 2 then 0 else kind z + 1) by (unfold kind; destruct (Z.eqb_spec ((z + 2) mod 3) 2); lia).
      assert (Hpd : plane_of (z + 1) = if kind z =? 2 then plane_of z - 1 else plane_of z) by (unfold PassSpec.plane_of, kind; destruct (Z.eqb_spec ((z + 2) mod 3) 2); lia).
      assert (Hkr : 0 <= kind z < 3) by (unfold kind; lia).
      rewrite !(Z.mod_small (z + 1)), (Z.mod_small (kind z + 1)), (Z.mod_small (n' - 1)) by lia. apply IH; [lia|lia|lia|exact Hr2|exact Hi'|].
      replace (kind z + 1 =? 3) with (kind z =? 2) by lia. rewrite Hkd. destruct (Z.eqb_spec (kind z) 2) as [K|K].
      - cbn [snd]. f_equal. destruct (Z.ltb_spec 0 (Z.of_nat m)) as [L|L]; [|reflexivity]. rewrite Hpd. pose proof (plane_range (z + 1) ltac:(lia)) as Hp1. rewrite Hpd in Hp1. apply Z.mod_small. lia.
      - cbn [snd]. f_equal. destruct (0 <? Z.of_nat m); [rewrite Hpd; reflexivity|reflexivity]. }
    destruct (starts bypass restart z) eqn:Hs.
    - assert (n = 0). { destruct Hi as (_ & Hn & _ & Hno & _). destruct (Z.eq_dec n 0) as [E|N]; [exact E|]. destruct (Hno z ltac:(lia)) as [C _]. rewrite Hs in C. discriminate C. } subst n.
      assert (Hpos : pos = bytes_before plen z) by (destruct Hi as (_ & _ & _ & _ & Ep & _); rewrite Z.add_0_r in Ep; exact Ep). subst pos. change (0 =? 0) with true. cbv iota.
      destruct (start_R b s z is_raw Hr ltac:(lia) Hs Hi) as (n' & r' & Hn1 & Er & Hi' & Hn2 & K).
      destruct (start z (kind z) is_raw (bytes_before plen z) b) as [[[[[n0 r0] pos0] b0]|]| |];
        destruct (if length <? bytes_before plen z + seg_bytes bypass restart plen num_pass z then throw else let* o := seg (cso s) (bytes_before plen z) (seg_bytes bypass restart plen num_pass z) (is_raw_pass bypass z) in ret (with_cso src s o)) as [[s0|]| |];
        try contradiction; cbn [bindx bind]; try exact I.
      destruct K as (-> & -> & -> & K). apply Hnext; [exact K|lia|symmetry; exact Er|exact Hi'].
    - assert (Hn : 0 < n). { destruct Hi as (_ & Hn & _ & _ & _ & Hst). destruct (Z.eq_dec n 0) as [E|N]; [|lia]. subst n. rewrite Z.add_0_r, Hs in Hst. specialize (Hst ltac:(lia)). discriminate Hst. }
      replace (n =? 0) with false by lia. cbn [bindx bind ret]. destruct Hi as (H1 & H2 & H3 & H4 & H5 & H6). apply Hnext; [exact Hr|lia|symmetry; apply H4; lia|].
      split; [intros E; destruct (H1 E); split; [assumption|lia]|]. split; [lia|]. split; [lia|]. split; [intros z' Hz'; apply H4; lia|]. replace (z + 1 + (n - 1)) with (z + n) by lia. split; [exact H5|exact H6].
  Qed.
  Lemma nothing_R o : okS o -> R (Blk (fun _ => 0) (fun _ => 0) (fun _ => 0) o) (nothing src o).
  Proof using. clear.
    intros Ko. split; [|split; [|split; [|split]]].
    - intros y x Hy Hx. split; [|reflexivity]. intros _. exists 0. split; [lia|]. split; [reflexivity|discriminate].
    - intros y x Hi. split; [reflexivity|]. split; [|split; reflexivity]. cbn. lia.
    - intros n x k d _ _ _ _ _. cbn [cx]. rewrite Z.bits_0. unfold on. cbn [sig nothing]. rewrite andb_false_r. reflexivity.
    - reflexivity.
    - split; [|exact Ko]. intros y x _ C. discriminate C.
  Qed.
  Theorem decode_R o : okS o -> 0 <= num_pass -> samex (j2k_decode src dec raw w h orient causal seg reset bypass reset_cx restart segmark plen length num_pass Mb ROIshift num_ZBP o)
    (all_passes src dec raw w h orient causal seg reset bypass reset_cx restart segmark plen length num_pass (30 - num_ZBP) o).
  Proof using Hh Ho Hdec Hraw Hseg Hres Hz0 HM Hnp Hpl Hpn Hpb. clear - Hh Ho Hdec Hraw Hseg Hres Hz0 HM Hnp Hpl Hpn Hpb.
    intros Ko H0. assert (Hmp : max_passes Mb ROIshift num_ZBP <= 91) by (clear - Hz0 HM; unfold max_passes; lia). unfold j2k_decode, all_passes.
    replace (zseq num_pass) with (map (Z.add 0) (zseq (Z.of_nat (Z.to_nat num_pass)))) by (rewrite Z2Nat.id by lia; rewrite <- (map_id (zseq num_pass)) at 2; apply map_ext; intros; lia).
    apply passes_R; [lia|lia|lia|apply nothing_R; exact Ko| |].
    - split; [discriminate|]. split; [lia|]. split; [lia|]. split; [intros; lia|]. split; [reflexivity|]. intros _. reflexivity.
    - change (2 =? 3) with false. cbn [snd]. change (kind 0) with 2. f_equal. rewrite Z2Nat.id by lia. destruct (Z.ltb_spec 0 num_pass) as [L|L]; [|reflexivity].
      unfold PassSpec.plane_of. change ((0 + 2) / 3) with 0. rewrite Z.sub_0_r. apply Z.mod_small. unfold max_passes in *. lia.
  Qed.
End Run.
